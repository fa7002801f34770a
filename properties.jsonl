{"id": "C01", "title": "Equation numbering is a row-major bijection on the free degrees of freedom", "statement": "For a constraint array whose entries are 0 (free) or -1 (restrained), eqcounter returns neq = number of free entries and an array of the same shape in which restrained entries are still -1 and the free entries, read in row-major order, are exactly 0, 1, ..., neq-1.", "quantifier": "every number of nodes, every number of dofs per node, every 0/-1 pattern", "why_tests_cant": "the number of constraint patterns is exponential in the mesh size; tests fix a handful of meshes", "anchors": ["solidspy/assemutil.py:eqcounter"]}
{"id": "C02", "title": "The assembly operator maps every local dof to the equation of its (node, direction)", "statement": "For every element row with a known type and the right number of in-range nodes, DME writes in position k*ndof_node+d of that element's row the bc_array entry of node k, direction d, pads the rest with zeros, and raises otherwise (ValueError for unknown type or wrong node count, IndexError for a node out of range).", "quantifier": "every constraint array, every connectivity, every element type, any number of elements", "why_tests_cant": "connectivities are unbounded; a swapped row/column shows only on particular constraint patterns", "anchors": ["solidspy/assemutil.py:DME", "solidspy/femutil.py:eletype"]}
{"id": "C03", "title": "Direct stiffness summation (dense)", "statement": "Entry (p,q) of the dense global stiffness (mass) matrix is the sum, over all elements and all pairs of local dofs (r,c) that the assembly operator sends to (p,q), of the local stiffness (mass) entry (r,c); rows and columns of restrained dofs contribute nothing.", "quantifier": "every mesh, every assembly operator with entries in [-1, neq), every element routine (including user elements)", "why_tests_cant": "overlap patterns of elements are unbounded", "anchors": ["solidspy/assemutil.py:dense_assem", "solidspy/assemutil.py:retriever"]}
{"id": "C04", "title": "Sparse and dense assembly agree", "statement": "assembler(..., sparse=True) and assembler(..., sparse=False) return the same matrices for every assembly operator with entries in [-1, neq), and fail with the same exception when an element routine fails.", "quantifier": "every mesh, material table, assembly operator and element routine", "why_tests_cant": "agreement must hold for all duplicate-entry patterns of the COO triplets", "anchors": ["solidspy/assemutil.py:assembler", "solidspy/assemutil.py:dense_assem", "solidspy/assemutil.py:sparse_assem"]}
{"id": "C05", "title": "Assembly does not depend on the order in which elements are listed", "statement": "Permuting the rows of the element array (and of the assembly operator accordingly) leaves the assembled stiffness and mass matrices unchanged.", "quantifier": "every mesh, every permutation of its elements", "why_tests_cant": "the number of permutations is factorial", "anchors": ["solidspy/assemutil.py:dense_assem", "solidspy/assemutil.py:sparse_assem"]}
{"id": "C06", "title": "Global matrices inherit symmetry and positive semidefiniteness", "statement": "If every element matrix is symmetric (positive semidefinite), so is the assembled global matrix; for well-formed meshes of the built-in continuum elements with E>0 and -1<nu<1 this holds unconditionally.", "quantifier": "every mesh and every vector of displacements", "why_tests_cant": "definiteness quantifies over all vectors", "anchors": ["solidspy/assemutil.py:dense_assem", "solidspy/uelutil.py:elast_quad4"]}
{"id": "C07", "title": "The global matrix acts as the sum of the element actions", "statement": "For every displacement vector u, (K u)_p is the sum over elements and over local dofs r mapped to equation p of (K_e u_e)_r, where u_e gathers u through the assembly operator with zeros at restrained dofs; hence u'Kv is the sum of u_e' K_e v_e.", "quantifier": "every mesh, assembly operator, and pair of vectors", "why_tests_cant": "universal over vectors and meshes", "anchors": ["solidspy/assemutil.py:dense_assem"]}
{"id": "C08", "title": "Nodal loads reach exactly the equation of their dof", "statement": "When each node appears in at most one load row, entry p of the right-hand side is the load component of the (node, direction) whose equation is p, zero if that node has no load row; load components on restrained dofs are ignored. If a node appears in several rows the last row wins.", "quantifier": "every load table and constraint pattern", "why_tests_cant": "unbounded load tables; interaction with constraint patterns", "anchors": ["solidspy/assemutil.py:loadasem"]}
{"id": "C09", "title": "Repeated load rows accumulate", "statement": "Splitting a nodal load into two rows of the load table that add up to it gives the same right-hand side as the single row (loads superpose).", "quantifier": "every load table", "why_tests_cant": "holds or fails over all tables; unit tests use tables without repetition", "anchors": ["solidspy/assemutil.py:loadasem"]}
{"id": "C10", "title": "Displacement completion", "statement": "complete_disp returns, for each node and direction, 0 at a restrained dof and the solution value of the dof's equation at a free one; for an eqcounter array it never fails on a solution of length neq, and different free dofs read different solution entries.", "quantifier": "every constraint pattern and solution vector", "why_tests_cant": "universal over patterns", "anchors": ["solidspy/postprocesor.py:complete_disp"]}
{"id": "C11", "title": "Element tables are consistent and unknown types are rejected", "statement": "eletype and ele_fun accept exactly the types 1..8 and raise ValueError for every other integer; for every accepted type that assembles, the local matrices have as many rows as the number of dofs eletype declares, and for the plane types the declared number of Gauss points is that of the rule the routine uses.", "quantifier": "every integer element type, every coordinate array and parameter list", "why_tests_cant": "all integers", "anchors": ["solidspy/femutil.py:eletype", "solidspy/assemutil.py:ele_fun"]}
{"id": "C12", "title": "The computed solution is in equilibrium at every free dof", "statement": "The displacement table returned by solids_auto satisfies, at every free (node, direction), sum over elements of the element nodal force (K_e u_e) = applied load, and it is 0 at every restrained dof - provided the linear solver solved its system.", "quantifier": "every model (mesh, constraints, materials, loads) accepted by the pipeline", "why_tests_cant": "needs numbering, assembly, loads, completion to agree with each other on all inputs", "anchors": ["solidspy/solids_GUI.py:solids_auto", "solidspy/assemutil.py:DME", "solidspy/assemutil.py:assembler", "solidspy/assemutil.py:loadasem", "solidspy/solutil.py:static_sol", "solidspy/postprocesor.py:complete_disp"]}
{"id": "C13", "title": "Linear response: scaling and superposition of load cases", "statement": "If two load tables give solutions u1 and u2 of the same structure (with non-singular stiffness), the load table a*f1+b*f2 gives a*u1+b*u2.", "quantifier": "every structure, pair of load cases and pair of factors", "why_tests_cant": "universal over reals", "anchors": ["solidspy/solids_GUI.py:solids_auto", "solidspy/assemutil.py:loadasem"]}
{"id": "C14", "title": "Exact fields are reproduced (patch test through the pipeline)", "statement": "If a displacement field vanishing on the restrained dofs has element forces that balance the applied loads at all free dofs, then it is the field solids_auto returns (when the stiffness matrix is non-singular).", "quantifier": "every model and every such field", "why_tests_cant": "quantifies over fields and meshes", "anchors": ["solidspy/solids_GUI.py:solids_auto"]}
{"id": "C15", "title": "Reactions balance the applied loads", "statement": "For a mesh of continuum (or truss) elements the sum over all nodes of internal nodal forces vanishes in each direction; hence the reactions at restrained dofs and the applied loads at free dofs add up to zero in x and in y.", "quantifier": "every mesh and every displacement field", "why_tests_cant": "universal over fields", "anchors": ["solidspy/solids_GUI.py:solids_auto", "solidspy/uelutil.py:elast_quad4", "solidspy/uelutil.py:elast_tri3", "solidspy/uelutil.py:elast_tri6", "solidspy/uelutil.py:truss2D"]}
{"id": "C16", "title": "Energy identities", "statement": "energy(u,K) = -1/2 u'Ku; for the solution of K u = f it is -1/2 f.u, it equals minus half the sum of the element energies, it is never positive when K is positive semidefinite and scales with the square of the load factor.", "quantifier": "every matrix and vector", "why_tests_cant": "universal over reals", "anchors": ["solidspy/postprocesor.py:energy"]}
{"id": "C17", "title": "Solver dispatch", "statement": "static_sol uses the sparse solver for CSR matrices, the dense solver for ndarrays, raises TypeError for anything else, and both assembler outputs are accepted.", "quantifier": "every matrix kind", "why_tests_cant": "type dispatch is total", "anchors": ["solidspy/solutil.py:static_sol", "solidspy/assemutil.py:assembler"]}
{"id": "C18", "title": "The text-file workflow computes the same thing as the in-memory workflow", "statement": "solids_GUI on the files of a model returns what solids_auto returns on the arrays of that model, including strains and stresses when requested.", "quantifier": "every model", "why_tests_cant": "universal over models", "anchors": ["solidspy/solids_GUI.py:solids_GUI", "solidspy/solids_GUI.py:solids_auto", "solidspy/preprocesor.py:readin"]}
{"id": "C19", "title": "Three-dof beam models run through solids_auto", "statement": "A beam model (element types 7 and 8, three dofs per node) given to solids_auto keeps one equation per free dof.", "quantifier": "every beam model", "why_tests_cant": "interaction of default arguments across modules", "anchors": ["solidspy/solids_GUI.py:solids_auto", "solidspy/assemutil.py:DME", "solidspy/assemutil.py:eqcounter"]}
{"id": "C20", "title": "Node relabelling equivariance", "statement": "Renumbering the nodes of a model (and its constraint rows, connectivity and loads accordingly) renumbers the equilibrium equations: the permuted displacement table solves the permuted model.", "quantifier": "every model and every permutation of its nodes", "why_tests_cant": "factorially many permutations", "anchors": ["solidspy/solids_GUI.py:solids_auto", "solidspy/assemutil.py:DME"]}
{"id": "C21", "title": "Partition of unity", "statement": "For every evaluation point the shape functions of tri3, tri6, quad4, quad8, quad9, tet4 and hex8 add up to 1 and each row of their derivative table adds up to 0.", "quantifier": "every real point", "why_tests_cant": "all points of the plane/space", "anchors": ["solidspy/femutil.py:shape_tri3", "solidspy/femutil.py:shape_tri6", "solidspy/femutil.py:shape_quad4", "solidspy/femutil.py:shape_quad8", "solidspy/femutil.py:shape_quad9", "solidspy/femutil.py:shape_tet4", "solidspy/femutil.py:shape_hex8"]}
{"id": "C22", "title": "Interpolation (Kronecker) property", "statement": "Each shape function is 1 at its own node and 0 at the other nodes of the reference element, in the node order used by the element connectivity.", "quantifier": "every pair of nodes of every element family", "why_tests_cant": "finite per family; kept with C21/C23 because it fixes the node order", "anchors": ["solidspy/femutil.py:shape_tri6", "solidspy/femutil.py:shape_quad9"]}
{"id": "C23", "title": "dNdr is the gradient of N", "statement": "Row a of the returned derivative table is the partial derivative of the returned shape functions with respect to the a-th natural coordinate, at every point.", "quantifier": "every real point and every node", "why_tests_cant": "derivatives are limits; tests sample points", "anchors": ["solidspy/femutil.py:shape_tri6", "solidspy/femutil.py:shape_quad8", "solidspy/femutil.py:shape_hex8"]}
{"id": "C24", "title": "Polynomial completeness", "statement": "Interpolating a polynomial of the element's order (linear for tri3/tet4, (tri)linear products for quad4/hex8, full quadratic for tri6/quad8, biquadratic for quad9) at the nodes reproduces the polynomial everywhere.", "quantifier": "all polynomial coefficients and all points", "why_tests_cant": "universal over reals", "anchors": ["solidspy/femutil.py:shape_tri6", "solidspy/femutil.py:shape_quad9"]}
{"id": "C25", "title": "Jacobian check and inverse", "statement": "jacoper returns (det, inv) with det = determinant of dNdr@coord > 1e-8 and inv@J = J@inv = I, and raises ValueError in every other case (near-singular, or negatively oriented); all 2D and 3D inputs.", "quantifier": "every derivative table and coordinate array", "why_tests_cant": "all geometries", "anchors": ["solidspy/femutil.py:jacoper"]}
{"id": "C26", "title": "Acceptance of an element does not depend on the unit of length", "statement": "If jacoper accepts an element it accepts the same element expressed in another length unit (coordinates scaled by a positive factor).", "quantifier": "every element and every positive factor", "why_tests_cant": "universal over scale factors", "anchors": ["solidspy/femutil.py:jacoper"]}
{"id": "C27", "title": "Strain-displacement matrices differentiate linear fields exactly", "statement": "At every point of every accepted element, B applied to the nodal values of an affine displacement field gives the constant strain of that field (engineering shear), and H gives its value; plane, axisymmetric (including hoop strain u_r/r) and 3D versions.", "quantifier": "every element geometry, evaluation point and affine field", "why_tests_cant": "universal over reals", "anchors": ["solidspy/femutil.py:elast_diff_2d", "solidspy/femutil.py:elast_diff_axi", "solidspy/femutil.py:elast_diff_3d"]}
{"id": "C28", "title": "umat is the plane-stress reduction of the 3D Hooke law", "statement": "For E>0 and -1<nu<1/2: for every in-plane strain, umat gives the in-plane stress of the 3D law elast_mat at the (unique) out-of-plane strain that makes sigma_zz vanish; umat is symmetric and positive definite for -1<nu<1.", "quantifier": "all E, nu and strains", "why_tests_cant": "universal over reals", "anchors": ["solidspy/femutil.py:umat", "solidspy/femutil.py:elast_mat"]}
{"id": "C29", "title": "elast_mat is the inverse of Hooke's compliance", "statement": "For E<>0, nu not in {-1,1/2}: stress = elast_mat strain iff eps_ii = (sigma_ii - nu*(other two))/E and gamma_ij = 2(1+nu)/E tau_ij; symmetric, and positive definite for E>0, -1<nu<1/2.", "quantifier": "all E, nu, strains", "why_tests_cant": "universal over reals", "anchors": ["solidspy/femutil.py:elast_mat"]}
{"id": "C30", "title": "The axisymmetric law is the 3D law restricted to axisymmetric strains", "statement": "elast_mat_axi (and elast_mat_2d) applied to (eps_r, eps_z, gamma_rz, eps_theta) equals the stress of elast_mat for the corresponding 3D strain.", "quantifier": "all E, nu, strains", "why_tests_cant": "universal over reals; no test touches this function", "anchors": ["solidspy/femutil.py:elast_mat_axi", "solidspy/femutil.py:elast_mat_2d"]}
{"id": "C31", "title": "Element stiffness matrices are symmetric and positive semidefinite", "statement": "For every accepted geometry and E>0, -1<nu<1 (plane elements), -1<nu<1/2 (3D), positive section properties (bars, beams), the stiffness matrix is symmetric and u'Ku >= 0 for all u.", "quantifier": "every geometry, material and vector", "why_tests_cant": "universal over reals", "anchors": ["solidspy/uelutil.py:elast_tri3", "solidspy/uelutil.py:elast_tri6", "solidspy/uelutil.py:elast_quad4", "solidspy/uelutil.py:elast_quad8", "solidspy/uelutil.py:elast_quad9", "solidspy/uelutil.py:elast_tet4", "solidspy/uelutil.py:elast_hex8", "solidspy/uelutil.py:truss2D", "solidspy/uelutil.py:beam2D", "solidspy/uelutil.py:beam2DU"]}
{"id": "C32", "title": "Rigid motions produce no nodal forces (continuum and truss elements)", "statement": "K u = 0 for every rigid translation and infinitesimal rotation u, for every continuum element and for truss2D/spring, whatever the geometry.", "quantifier": "every geometry and every rigid motion", "why_tests_cant": "universal over reals", "anchors": ["solidspy/uelutil.py:elast_tri3", "solidspy/uelutil.py:elast_tri6", "solidspy/uelutil.py:elast_quad4", "solidspy/uelutil.py:elast_quad8", "solidspy/uelutil.py:elast_quad9", "solidspy/uelutil.py:elast_tet4", "solidspy/uelutil.py:elast_hex8", "solidspy/uelutil.py:truss2D", "solidspy/uelutil.py:spring"]}
{"id": "C33", "title": "Rigid motions produce no nodal forces (beam elements)", "statement": "K u = 0 for every rigid translation and infinitesimal rotation (u, v, theta) of beam2D, and every such rotation of beam2DU, whatever the orientation of the beam.", "quantifier": "every orientation and every rigid motion", "why_tests_cant": "tests use a horizontal beam only", "anchors": ["solidspy/uelutil.py:beam2D", "solidspy/uelutil.py:beam2DU"]}
{"id": "C34", "title": "Uniform strain states carry exactly the right energy", "statement": "For an affine displacement field, u'Kv of a continuum element is (sum of weighted Jacobians) * eps(u)' C eps(v); for quad4 the weighted sum is exactly the polygon's area.", "quantifier": "every geometry, material and pair of affine fields", "why_tests_cant": "universal over reals", "anchors": ["solidspy/uelutil.py:elast_quad4", "solidspy/uelutil.py:elast_tri3", "solidspy/uelutil.py:elast_tri6", "solidspy/uelutil.py:elast_quad8", "solidspy/uelutil.py:elast_quad9"]}
{"id": "C35", "title": "Mass matrices: symmetry, positivity, total mass", "statement": "Mass matrices of the continuum elements and truss are symmetric, positive semidefinite for non-negative density, do not couple x and y, and a unit translation in any direction has mass density * area (volume); exact for quad4 and truss, within the printed digits of the quadrature weights otherwise.", "quantifier": "every geometry and density", "why_tests_cant": "universal over reals", "anchors": ["solidspy/uelutil.py:elast_quad4", "solidspy/uelutil.py:elast_tri3", "solidspy/uelutil.py:truss2D"]}
{"id": "C36", "title": "Material scaling and defaults", "statement": "Stiffness is proportional to Young's modulus and independent of density, mass is proportional to density and independent of E and nu; omitting the density means density 1 (tri3, tri6, quad4, quad9, truss2D).", "quantifier": "every geometry and parameters", "why_tests_cant": "universal over reals", "anchors": ["solidspy/uelutil.py:elast_quad4", "solidspy/uelutil.py:truss2D"]}
{"id": "C37", "title": "Frame indifference", "statement": "Translating the nodes of a continuum/truss element does not change its matrices; rotating them conjugates the stiffness: (Ru)' K(Rx) (Rv) = u' K(x) v.", "quantifier": "every geometry, rotation and pair of vectors", "why_tests_cant": "universal over rotations", "anchors": ["solidspy/uelutil.py:elast_tri3", "solidspy/uelutil.py:elast_quad4", "solidspy/uelutil.py:truss2D"]}
{"id": "C38", "title": "No spurious zero-energy modes", "statement": "A displacement with u'Ku = 0 is a rigid motion (full integration has no hourglass modes): tri3, quad4 and tri6 of any accepted geometry, quad8 and quad9 with straight sides and midpoint nodes (E>0, -1<nu<1), tet4 of any accepted geometry and hex8 of any shape, warped faces included, whose Jacobian determinant vanishes nowhere in the element (E>0, -1<nu<1/2). For the axisymmetric nine-node element with straight sides it is a translation along the axis.", "quantifier": "every accepted geometry of the stated kind and every vector", "why_tests_cant": "universal over geometries and vectors", "anchors": ["solidspy/uelutil.py:elast_quad4", "solidspy/uelutil.py:elast_tri3", "solidspy/uelutil.py:elast_tri6", "solidspy/uelutil.py:elast_quad8", "solidspy/uelutil.py:elast_quad9", "solidspy/uelutil.py:elast_tet4", "solidspy/uelutil.py:elast_hex8", "solidspy/uelutil.py:elast_axi_quad9"]}
{"id": "C39", "title": "Bars: closed form", "statement": "truss2D and spring give the nodal forces +-(k * elongation) along the bar axis, where elongation is the relative displacement projected on the axis and k = EA/L or the spring constant; a bar of zero length is not accepted (non-finite).", "quantifier": "every geometry, stiffness and displacement", "why_tests_cant": "universal over reals", "anchors": ["solidspy/uelutil.py:truss2D", "solidspy/uelutil.py:spring"]}
{"id": "C40", "title": "Spring elements can be assembled", "statement": "A mesh that contains a spring element (type 5) with a free dof can be assembled.", "quantifier": "every mesh with springs", "why_tests_cant": "no test assembles a spring", "anchors": ["solidspy/uelutil.py:spring", "solidspy/assemutil.py:dense_assem"]}
{"id": "C41", "title": "Optional density and area of the beam without axial stiffness", "statement": "beam2DU accepts parameter lists with the area omitted (documented as optional).", "quantifier": "every parameter list", "why_tests_cant": "documentation says optional; tests use the full list", "anchors": ["solidspy/uelutil.py:beam2DU"]}
{"id": "C42", "title": "Axisymmetric elements integrate over the ring", "statement": "elast_axi_quad9's mass (stiffness) integrates with the circumferential measure: its total mass scales with the distance to the axis.", "quantifier": "every geometry", "why_tests_cant": "no test touches this element", "anchors": ["solidspy/uelutil.py:elast_axi_quad9"]}
{"id": "C43", "title": "1D Gauss rules have degree 2n-1", "statement": "For 2 <= n <= 10 the n-point rule integrates every polynomial of degree <= 2n-1 over [-1,1] up to 1e-17 times the sum of absolute coefficients; other n raise ValueError.", "quantifier": "every polynomial of that degree, every integer n", "why_tests_cant": "all coefficient vectors", "anchors": ["solidspy/gaussutil.py:gauss_1d"]}
{"id": "C44", "title": "Tensor rules in any dimension", "statement": "gauss_nd(n, ndim) returns n^ndim points and weights and integrates products of one-variable functions as the product of the 1D rules, for every dimension.", "quantifier": "every dimension and every family of functions", "why_tests_cant": "unbounded dimension", "anchors": ["solidspy/gaussutil.py:gauss_nd"]}
{"id": "C45", "title": "Triangle rules reach their stated order", "statement": "gauss_tri(order) integrates every polynomial in (x,y) of total degree <= order over the unit triangle up to 1e-12 times the sum of absolute coefficients (weights halved as the callers do), orders outside 1..7 raise ValueError.", "quantifier": "every polynomial, every integer order", "why_tests_cant": "all coefficient vectors", "anchors": ["solidspy/gaussutil.py:gauss_tri"]}
{"id": "C46", "title": "Tetrahedron rules reach their stated order", "statement": "gauss_tet(order) integrates every polynomial in (x,y,z) of total degree <= order over the unit tetrahedron up to 1e-15 times the sum of absolute coefficients (weights over 6 as the callers do), orders outside 1..10 raise ValueError.", "quantifier": "every polynomial, every integer order", "why_tests_cant": "all coefficient vectors", "anchors": ["solidspy/gaussutil.py:gauss_tet"]}
{"id": "C47", "title": "Uniform strain is recovered at the nodes (quad4, tri6)", "statement": "strain_nodes of a mesh of type 1 or 2 under an affine displacement field returns that field's strain and the corresponding plane-stress stress at every node that belongs to an element.", "quantifier": "every mesh and affine field", "why_tests_cant": "universal over meshes", "anchors": ["solidspy/postprocesor.py:strain_nodes", "solidspy/femutil.py:str_el4", "solidspy/femutil.py:str_el6"]}
{"id": "C48", "title": "Uniform strain is recovered at the nodes (tri3)", "statement": "strain_nodes of a mesh of type 3 under an affine displacement field returns that field's strain at every node that belongs to an element.", "quantifier": "every mesh and affine field", "why_tests_cant": "the shipped test only uses type 1", "anchors": ["solidspy/postprocesor.py:strain_nodes", "solidspy/femutil.py:str_el3"]}
{"id": "C49", "title": "Nodal stresses follow Hooke's law", "statement": "On a one-material mesh the stress row of every node is umat applied to its strain row.", "quantifier": "every mesh, displacement field and material", "why_tests_cant": "universal", "anchors": ["solidspy/postprocesor.py:strain_nodes", "solidspy/femutil.py:umat"]}
{"id": "C50", "title": "Each quad4 node receives the strain of its own corner Gauss point", "statement": "On a single quad4 element, the strain reported at each node is the strain at the Gauss point in the same quadrant.", "quantifier": "every displacement field", "why_tests_cant": "tests use uniform strain, which hides the order", "anchors": ["solidspy/postprocesor.py:strain_nodes", "solidspy/femutil.py:str_el4"]}
{"id": "C51", "title": "Strain recovery accepts models with density", "statement": "A material table with a density column, accepted by the assembler, is accepted by strain_nodes.", "quantifier": "every model", "why_tests_cant": "feature interaction", "anchors": ["solidspy/postprocesor.py:strain_nodes"]}
{"id": "C52", "title": "Gauss point positions returned with the strains", "statement": "str_el3/4/6 return the (x,y) position of each Gauss point.", "quantifier": "every geometry", "why_tests_cant": "tests ignore the second return value", "anchors": ["solidspy/femutil.py:str_el3", "solidspy/femutil.py:str_el4", "solidspy/femutil.py:str_el6"]}
{"id": "C53", "title": "Truss stresses obey Hooke's law", "statement": "stress_truss returns for each bar E * elongation / length: zero for rigid motions, unchanged when the end nodes are swapped, linear in the displacements.", "quantifier": "every truss and displacement field", "why_tests_cant": "universal", "anchors": ["solidspy/postprocesor.py:stress_truss"]}
{"id": "C54", "title": "Principal values and directions of symmetric 2x2 tensors", "statement": "eigvals returns orthonormal eigenvectors with their eigenvalues, the first of larger modulus, exactly when the off-diagonal ratio is at least tol, with residual below tol*max|M| otherwise; all-small matrices give 0 and NaN directions.", "quantifier": "every symmetric matrix and tolerance", "why_tests_cant": "universal over reals", "anchors": ["solidspy/postprocesor.py:eigvals", "solidspy/postprocesor.py:principal_dirs"]}
{"id": "C55", "title": "Principal values scale with the tensor", "statement": "eigvals(c*M) = c*eigvals(M) for c>0.", "quantifier": "every symmetric matrix and factor", "why_tests_cant": "strain fields are naturally tiny; tests use entries of order 1", "anchors": ["solidspy/postprocesor.py:eigvals"]}
{"id": "C56", "title": "Plot triangulation covers each element exactly", "statement": "The triangles mesh2tri makes from an element use only that element's nodes, have signed areas adding up to the signed area of the element's boundary polygon, and are all positively oriented for the reference node layout, for element types 1-4.", "quantifier": "every mesh and node coordinates", "why_tests_cant": "universal over coordinates", "anchors": ["solidspy/postprocesor.py:mesh2tri"]}
{"id": "C57", "title": "Structural meshes are not sent to the contour plotter", "statement": "fields_plot prints instead of contouring whenever the mesh contains a structural element (types 5-8).", "quantifier": "every mesh", "why_tests_cant": "type 8 never tested", "anchors": ["solidspy/postprocesor.py:fields_plot"]}
{"id": "C58", "title": "rect_grid is a conforming, counterclockwise mesh of the rectangle", "statement": "For all nx, ny >= 1 and positive sizes: (nx+1)(ny+1) nodes on the uniform lattice, nx*ny elements numbered from 0 of type 1 and material 0 whose nodes are in range, distinct and go counterclockwise around the (row,col) cell; every cell has area L*H/(nx*ny); neighbouring cells share exactly their common edge.", "quantifier": "every nx, ny, length, height", "why_tests_cant": "unbounded sizes", "anchors": ["solidspy/preprocesor.py:rect_grid"]}
{"id": "C59", "title": "rect_grid meshes are accepted by the element routine", "statement": "Every element of rect_grid(L,H,nx,ny) has a positive Jacobian equal to L*H/(4*nx*ny) at every point, so elast_quad4 accepts it as soon as that number exceeds 1e-8.", "quantifier": "every nx, ny, length, height, evaluation point", "why_tests_cant": "unbounded sizes", "anchors": ["solidspy/preprocesor.py:rect_grid", "solidspy/uelutil.py:elast_quad4", "solidspy/femutil.py:jacoper"]}
{"id": "C60", "title": "Element extraction from a mesh", "statement": "ele_writer returns, in mesh order, exactly the cells of the requested physical surface, numbered consecutively from nini, with the requested type and material, and nf = nini + their number, so chained calls give unique consecutive identifiers.", "quantifier": "every mesh and physical tag", "why_tests_cant": "unbounded meshes", "anchors": ["solidspy/preprocesor.py:ele_writer"]}
{"id": "C61", "title": "Node extraction and boundary conditions", "statement": "node_writer keeps every point's x and y and marks all dofs free; boundary_conditions sets the two flags of exactly the nodes of the given physical line and leaves every other entry alone, independently of set iteration order.", "quantifier": "every mesh, line tag, flags and set order", "why_tests_cant": "set iteration order is unspecified", "anchors": ["solidspy/preprocesor.py:node_writer", "solidspy/preprocesor.py:boundary_conditions"]}
{"id": "C62", "title": "Distributed loads keep their total", "statement": "loading returns one row per distinct node of the line, in any set order, whose x (y) components add up to P_x (P_y); an empty line raises ZeroDivisionError.", "quantifier": "every mesh, line and load", "why_tests_cant": "unbounded; set order", "anchors": ["solidspy/preprocesor.py:loading"]}
{"id": "C63", "title": "Restraints accumulate over successive boundary-condition calls", "statement": "A node restrained by one boundary_conditions call stays restrained after another call that restrains the other direction only.", "quantifier": "every pair of lines", "why_tests_cant": "overlapping lines (corners)", "anchors": ["solidspy/preprocesor.py:boundary_conditions"]}
{"id": "C64", "title": "Echoed integer tables read back exactly", "statement": "Reading the element table written by echomod gives back the same integers.", "quantifier": "every integer table", "why_tests_cant": "unbounded tables and values", "anchors": ["solidspy/preprocesor.py:echomod", "solidspy/preprocesor.py:readin"]}
{"id": "C65", "title": "Echoed real tables read back exactly", "statement": "Reading the node, material and load tables written by echomod gives back the same numbers (the code guarantees only an error of at most 0.005 per entry).", "quantifier": "every real table", "why_tests_cant": "all values", "anchors": ["solidspy/preprocesor.py:echomod", "solidspy/preprocesor.py:readin"]}
{"id": "C66", "title": "The folder entered by the user locates the input files", "statement": "Whether the folder comes from the dialog or from the prompt, the files read are those inside that folder.", "quantifier": "every folder name", "why_tests_cant": "interactive input", "anchors": ["solidspy/preprocesor.py:initial_params", "solidspy/preprocesor.py:readin"]}
{"id": "C67", "title": "Bloch renumbering of the independent dofs", "statement": "reassign_dof_bloch numbers the dofs that are not images consecutively 0,1,2,... in increasing order.", "quantifier": "every number of dofs and image list", "why_tests_cant": "unbounded", "anchors": ["solidspy/blochutil.py:reassign_dof_bloch"]}
{"id": "C68", "title": "Image dofs get the number of their reference", "statement": "reassign_dof_bloch gives every image dof the new number of its reference dof.", "quantifier": "every image/reference pairing", "why_tests_cant": "docstring example hides it", "anchors": ["solidspy/blochutil.py:reassign_dof_bloch"]}
{"id": "C69", "title": "Bloch transformation imposes the phase-shifted periodicity", "statement": "T built by bloch_transform_mat satisfies, for every reduced vector, u_image = exp(i k.(x_image - x_ref)) u_ref on every paired dof, u = reduced value on the independent dofs; |phase| = 1, and for k = 0 it is real periodicity.", "quantifier": "every wavevector, geometry and pairing", "why_tests_cant": "universal over wavevectors", "anchors": ["solidspy/blochutil.py:bloch_transform_mat"]}
{"id": "C70", "title": "Reciprocity of displacements and loads", "statement": "For two load tables on the same model, the work of the first loads on the displacements of the second run equals the work of the second loads on the displacements of the first.", "quantifier": "every admissible model, pair of load tables and pair of solvers that solve their system", "why_tests_cant": "relation between two runs, all loads", "anchors": ["solidspy/solids_GUI.py:solids_auto", "solidspy/assemutil.py:assembler"]}
{"id": "C71", "title": "Displacements minimise the potential energy", "statement": "The displacement table returned by a run minimises strain energy minus load work among all tables that vanish at the restrained dofs (the only minimiser if the model is stable), and the load work is twice the strain energy, hence not negative.", "quantifier": "every admissible model", "why_tests_cant": "quantifies over all displacement fields", "anchors": ["solidspy/solids_GUI.py:solids_auto", "solidspy/assemutil.py:assembler"]}
{"id": "C72", "title": "Connected, supported plane meshes are stable", "statement": "A mesh of accepted three- and six-node triangles, four-node quadrilaterals and straight-sided nine-node quadrilaterals with E > 0 and -1 < nu < 1, chained through pairs of shared nodes, whose supports block rigid motions, has no nonzero displacement field in equilibrium without loads (the stiffness matrix is regular).", "quantifier": "every mesh", "why_tests_cant": "unbounded meshes; singularity is invisible in floating point", "anchors": ["solidspy/uelutil.py:elast_tri3", "solidspy/uelutil.py:elast_quad4", "solidspy/uelutil.py:elast_tri6", "solidspy/uelutil.py:elast_quad9", "solidspy/assemutil.py:assembler", "solidspy/assemutil.py:DME"]}
{"id": "C73", "title": "The driver succeeds on stable models", "statement": "On a well-formed stable model with a free dof and accepted elements, with a solver that solves every regular system, solids_auto returns normally; also with strain recovery on (one plane type 1-3, two-column materials, every node in an element) and with plots on (a bar present, or plane elements only).", "quantifier": "every such model", "why_tests_cant": "absence of exceptions over all inputs", "anchors": ["solidspy/solids_GUI.py:solids_auto"]}
{"id": "C74", "title": "Meaning of the equilibrium warning", "statement": "The message 'The system is not in equilibrium!' is printed exactly when, at some free dof, element forces and load divided by the largest stiffness entry differ by more than 1e-8 + 1e-5|load| (or that entry is 0); it is never printed for a stable model solved exactly.", "quantifier": "every model and every solver, also a wrong one", "why_tests_cant": "needs wrong solver answers", "anchors": ["solidspy/solids_GUI.py:solids_auto"]}
{"id": "C75", "title": "Bars are drawn with the colour of their own stress", "statement": "plot_truss draws every bar as the segment between its two nodes, with colour argument 1/2 + stress/(2 max|stress|), a number in [0,1] that is 1/2 exactly for zero stress.", "quantifier": "every truss and stress vector", "why_tests_cant": "the picture is not looked at by tests", "anchors": ["solidspy/postprocesor.py:plot_truss"]}
{"id": "C76", "title": "Bar widths grow linearly with the areas", "statement": "plot_truss gives the smallest area the width min_val, the largest max_val, and in between widths with differences proportional to the differences of area.", "quantifier": "every material table", "why_tests_cant": "absolute tolerance inside", "anchors": ["solidspy/postprocesor.py:plot_truss"]}
{"id": "C77", "title": "Patch test: uniform stress states are reproduced on distorted meshes", "statement": "On a mesh of four-node quadrilaterals (or of three-node triangles) of one material, the internal forces of a field of uniform strain are at each node half the forces of its stress on the element sides there, so zero at a node the elements close up around; with boundary loads equal to these and supports compatible with the field, solids_auto returns the field, and for quadrilaterals its strain and stress at every node.", "quantifier": "every mesh, however distorted, every uniform strain and material", "why_tests_cant": "every mesh shape", "anchors": ["solidspy/solids_GUI.py:solids_auto", "solidspy/assemutil.py:assembler", "solidspy/uelutil.py:elast_quad4", "solidspy/uelutil.py:elast_tri3", "solidspy/postprocesor.py:strain_nodes"]}
{"id": "C78", "title": "The Jacobian test accepts exactly the convex quadrilaterals", "statement": "elast_quad4 accepts a quadrilateral exactly if the boundary turns left at every corner; elast_tri3 accepts a triangle exactly if twice its signed area exceeds 1e-8.", "quantifier": "every quadrilateral and triangle", "why_tests_cant": "quantifies over all shapes", "anchors": ["solidspy/femutil.py:jacoper", "solidspy/uelutil.py:elast_quad4", "solidspy/uelutil.py:elast_tri3"]}
{"id": "C79", "title": "Rectangular grids: from mesh generator to results", "statement": "Take the mesh of rect_grid for any size and number of cells, one material with E > 0 and -1 < nu < 1, cells above the Jacobian tolerance, and supports that block rigid motion. Then the stiffness is nonsingular; nodal forces of a uniform stress are the tributary edge loads; and if loads and supports fit a field of uniform strain, solids_auto succeeds for all flags, does not warn, and returns that field, its strain and its stress at each node. In the tension test u_x = s x/E, u_y = - nu s y/E.", "quantifier": "every size, number of cells, material, uniform strain, support layout", "why_tests_cant": "grids of every size", "anchors": ["solidspy/preprocesor.py:rect_grid", "solidspy/solids_GUI.py:solids_auto", "solidspy/assemutil.py:assembler", "solidspy/uelutil.py:elast_quad4", "solidspy/postprocesor.py:strain_nodes"]}
{"id": "C80", "title": "Truss stresses are in equilibrium with the loads", "statement": "After solids_auto on a plane truss (bars with E > 0, area > 0, ends apart), stress_truss succeeds, and at every free joint the bar forces (stress times area, along the bars) and the loads add up to zero. The energy of these forces is the strain energy, and is least among all bar forces in equilibrium with the loads; if equilibrium determines the bar forces, the stresses are those forces over the areas, whatever the moduli.", "quantifier": "every truss, supports, loads, materials", "why_tests_cant": "quantifies over all trusses and all balanced force systems", "anchors": ["solidspy/solids_GUI.py:solids_auto", "solidspy/postprocesor.py:stress_truss", "solidspy/uelutil.py:truss2D", "solidspy/assemutil.py:assembler"]}
{"id": "C81", "title": "Which trusses are stable", "statement": "A truss model has a unique answer exactly if no nonzero motion of its free joints keeps all bar lengths to first order. Trusses built by adding joints held in two independent directions (supports or bars to earlier joints) have one. A stable truss has at least as many bars as free dofs; with as many, equilibrium determines the bar forces.", "quantifier": "every truss and support layout", "why_tests_cant": "quantifies over all trusses", "anchors": ["solidspy/assemutil.py:assembler", "solidspy/uelutil.py:truss2D", "solidspy/solids_GUI.py:solids_auto"]}
{"id": "C82", "title": "The answer does not depend on the frame", "statement": "Turning the nodes and loads of a model by any angle and translating it, with supports that hold the turned displacements exactly when the old supports hold the old ones, turns the displacement table: both runs succeed if one does. Supports follow under translations, under any angle if every node is clamped or free, and under a quarter turn with the two columns of flags exchanged.", "quantifier": "every stable model of plane elements and trusses, angle, translation, solver", "why_tests_cant": "quantifies over all models and angles", "anchors": ["solidspy/solids_GUI.py:solids_auto", "solidspy/assemutil.py:assembler", "solidspy/assemutil.py:loadasem", "solidspy/postprocesor.py:complete_disp"]}
{"id": "C83", "title": "Units scale the answer", "statement": "With lengths times a, moduli times tE and loads times tF, the displacement table of a model of plane elements is multiplied by tF/tE, whatever a; for trusses with areas times tA it is multiplied by a tF/(tE tA). Both runs succeed if the first does (plane elements: if lengths do not shrink).", "quantifier": "every stable model of plane elements or bars, every scale factor", "why_tests_cant": "quantifies over all models and scale factors", "anchors": ["solidspy/solids_GUI.py:solids_auto", "solidspy/assemutil.py:assembler", "solidspy/uelutil.py:elast_quad4", "solidspy/uelutil.py:truss2D"]}
{"id": "C84", "title": "Recovered strains and stresses are tensors, and linear", "statement": "strain_nodes on the turned mesh with the turned displacements gives at every node the components of the same strain and stress tensors in the turned frame; strains and stresses of a combination of displacement fields are the same combination; stress_truss gives the same bar stresses in every frame.", "quantifier": "every mesh of quad4, tri6 or tri3 elements, displacement field, angle", "why_tests_cant": "quantifies over all meshes, fields and angles", "anchors": ["solidspy/postprocesor.py:strain_nodes", "solidspy/postprocesor.py:stress_truss", "solidspy/femutil.py:str_el4"]}
{"id": "C85", "title": "What a run reports, returns and draws", "statement": "solids_auto prints the numbers of nodes, elements and free dofs, returns a displacement row of two entries per node, returns strains and stresses (three entries per node) exactly if asked for, and plots exactly if asked for: the displacement table is printed if some element has type 5, 6 or 7, otherwise one contour per component with the documented titles, displacements first, then strains, then stresses. The two flags do not change the displacements or the warning.", "quantifier": "every model with flags 0 and -1, both flags", "why_tests_cant": "quantifies over all models", "anchors": ["solidspy/solids_GUI.py:solids_auto", "solidspy/postprocesor.py:fields_plot", "solidspy/postprocesor.py:plot_node_field", "solidspy/postprocesor.py:strain_nodes"]}
{"id": "C86", "title": "Input files are read as what they show", "statement": "readin returns four tables exactly if the four files exist and each shows its table: lines of decimal literals (optional sign, point and exponent; integers for the elements) between blanks, all rows of one length, with comments and empty lines allowed anywhere. Otherwise it raises FileNotFoundError with a file missing, or ValueError with a file that shows no table.", "quantifier": "every text of every file", "why_tests_cant": "quantifies over all texts", "anchors": ["solidspy/preprocesor.py:readin"]}
{"id": "C87", "title": "What echomod writes", "statement": "echomod writes one line per row, entries separated by one blank: integers as plain decimals, reals rounded to the nearest hundredth (ties to even) with two decimals, padded to five characters; it touches no other file.", "quantifier": "every table of every size", "why_tests_cant": "quantifies over all tables and numbers", "anchors": ["solidspy/preprocesor.py:echomod"]}
{"id": "C88", "title": "Every component is drawn in its own new window", "statement": "plot_node_field draws each component of a nodal field once, in a window that was not in use, with its title and levels, hands matplotlib one value per node, and saves it under its own file name exactly if asked to. fields_plot draws each component in the window of its label; a second run draws over the windows of the first.", "quantifier": "every set of open windows, every field, options, mesh", "why_tests_cant": "needs every history of opened and closed windows", "anchors": ["solidspy/postprocesor.py:plot_node_field", "solidspy/postprocesor.py:tri_plot", "solidspy/postprocesor.py:fields_plot"]}
{"id": "C89", "title": "Analyses with any number of dofs per node and user elements", "statement": "DME, assembler, loadasem, static_sol and complete_disp, called in this order as in the project's scripts, return for any number of dofs per node and any element routine (built in or given by the user) a nodal table in equilibrium: zero at supports, internal forces equal to the applied loads at free dofs. The calls succeed when the structure is stable, the answer then does not depend on solver or storage, and stable means that the assembled stiffness is regular.", "quantifier": "every number of dofs, mesh, element routine, support, load, storage, solver", "why_tests_cant": "quantifies over all user element routines and meshes", "anchors": ["solidspy/assemutil.py:DME", "solidspy/assemutil.py:assembler", "solidspy/assemutil.py:loadasem", "solidspy/solutil.py:static_sol", "solidspy/postprocesor.py:complete_disp"]}
{"id": "C90", "title": "Meshes of tetrahedra and bricks are stable when connected and supported", "statement": "With the package's tetrahedron or brick as user element and three dofs per node: if neighbouring elements share three nodes that are not collinear and the supports block every rigid motion (for instance three fixed nodes that are not collinear), the stiffness is regular and the static analysis succeeds with an equilibrium.", "quantifier": "every solid mesh, material, support, load", "why_tests_cant": "infinitely many meshes", "anchors": ["solidspy/uelutil.py:elast_tet4", "solidspy/uelutil.py:elast_hex8", "solidspy/assemutil.py:assembler"]}
{"id": "C91", "title": "Connected, supported plane frames are stable", "statement": "A frame of two-node beams with axial force, connected by its beams and supported against rigid motions (for instance by one clamped node), has a regular stiffness matrix, so its static analysis succeeds and returns an equilibrium.", "quantifier": "every frame: nodes, beams, sections, supports, loads", "why_tests_cant": "infinitely many frames", "anchors": ["solidspy/uelutil.py:beam2D", "solidspy/assemutil.py:assembler", "solidspy/assemutil.py:DME"]}
{"id": "C92", "title": "Eigenpairs of the assembled matrices are the free vibrations of the mesh", "statement": "A vector is an eigenvector of the assembled pair (stiffness, mass) exactly when the table complete_disp makes of it satisfies the weak form of free vibration over all admissible motions. Eigenvalues are Rayleigh quotients, not negative, positive for stable structures; modes of different frequencies are orthogonal in both energies.", "quantifier": "every mesh, element routine, eigenpair; every frame", "why_tests_cant": "the solver returns a few pairs of one mesh", "anchors": ["solidspy/assemutil.py:assembler", "solidspy/assemutil.py:DME", "solidspy/postprocesor.py:complete_disp", "solidspy/uelutil.py:beam2D"]}
{"id": "C93", "title": "Natural frequencies of the bar fixed at both ends", "statement": "For n equal truss elements the eigenpairs are exactly the half waves m = 1..n-1 with a closed-form frequency; it increases with m, is never below the frequency of the continuous bar, and exceeds it by at most the factor 1 + 2 (m/n)^2 once there are eight elements per half wave.", "quantifier": "every n, m, length, modulus, area, density", "why_tests_cant": "the test computes six numbers for n = 512", "anchors": ["solidspy/uelutil.py:truss2D", "solidspy/assemutil.py:assembler", "solidspy/assemutil.py:DME"]}
{"id": "C94", "title": "Tip of a loaded cantilever", "statement": "A single beam element clamped at one end, in any direction, loaded by forces and a moment at the tip, returns the displacements and rotation of Euler-Bernoulli theory.", "quantifier": "every direction, section, load", "why_tests_cant": "false: the beam is mirrored; the project's frame test has a tolerance of 10 percent", "anchors": ["solidspy/uelutil.py:beam2D", "solidspy/solutil.py:static_sol"]}
{"id": "C95", "title": "Patch test for tetrahedra", "statement": "On any mesh of tetrahedra of one material a linear displacement field has nodal forces equal to a third of the force of its stress on each triangle at the node; they vanish at nodes the elements close up around; with the corresponding boundary loads the analysis returns the field exactly.", "quantifier": "every mesh of tetrahedra, linear field, material", "why_tests_cant": "infinitely many meshes and fields", "anchors": ["solidspy/uelutil.py:elast_tet4", "solidspy/assemutil.py:assembler", "solidspy/solutil.py:static_sol"]}
{"id": "C96", "title": "From text files to equilibrium", "statement": "When the four files in the folder show, in the grammar of the input files, the tables of a model, solids_GUI does what solids_auto does with those tables, whether the folder is an argument or chosen in the dialog; the displacements returned are in equilibrium and are returned whenever the model is accepted and stable. Without four readable files there is no run.", "quantifier": "every file content, folder, model, option, solver", "why_tests_cant": "infinitely many files", "anchors": ["solidspy/solids_GUI.py:solids_GUI", "solidspy/preprocesor.py:readin", "solidspy/preprocesor.py:initial_params"]}
{"id": "C97", "title": "Figure of a truss", "statement": "plot_truss opens at most one window, a new one when no window title is given and the window with that title otherwise, and saves the figure once, on request, under the name given or output.pdf. Without stresses every bar is drawn between its nodes with one and the same colour, entry 1 of the colour table, for all identifiers in range.", "quantifier": "every list of open windows, truss and option", "why_tests_cant": "infinitely many figures", "anchors": ["solidspy/postprocesor.py:plot_truss"]}
{"id": "C98", "title": "Mass matrices are positive definite", "statement": "With a positive density (and area, for bars) every element mass matrix M returned by a plane, axisymmetric, solid or bar routine satisfies u' M u > 0 for every u other than zero, whatever the shape of the accepted element: the quadrature of the mass is never too coarse. The assembled mass matrix of a mesh whose nodes all belong to elements has the same property, in both storages.", "quantifier": "every accepted element and mesh, every density > 0", "why_tests_cant": "infinitely many shapes and vectors", "anchors": ["solidspy/uelutil.py:elast_quad4", "solidspy/uelutil.py:elast_quad8", "solidspy/uelutil.py:elast_quad9", "solidspy/uelutil.py:elast_tri3", "solidspy/uelutil.py:elast_tri6", "solidspy/uelutil.py:elast_tet4", "solidspy/uelutil.py:elast_hex8", "solidspy/uelutil.py:elast_axi_quad9", "solidspy/uelutil.py:truss2D", "solidspy/assemutil.py:assembler"]}
{"id": "C99", "title": "Natural frequencies of meshes", "statement": "A mesh of plane elements and bars, of solids or of beams with positive densities has as many natural motions as free dofs, orthogonal in mass and stiffness, and every admissible displacement table is a sum of them; their squared frequencies are the energy quotients, never negative, and positive when the mesh is stable; no other value solves K x = lam M x for the assembled matrices.", "quantifier": "every mesh, supports, material", "why_tests_cant": "infinitely many meshes", "anchors": ["solidspy/assemutil.py:assembler", "solidspy/assemutil.py:DME", "solidspy/postprocesor.py:complete_disp"]}
{"id": "C100", "title": "Order of the nodes of an element", "statement": "Listing the nodes of an element from its next corner (quad4, quad8, quad9, axisymmetric quad9, tri3, tet4), a brick from another side, a bar or a beam from its other end only reorders the rows and columns of the element matrices; nodal forces, energy, stability, assembled matrices, natural motions and every run of the program on the mesh are unchanged (masses of tri3 and tet4 excepted: their rules are rounded). The strains at the nodes of a quad4 do change.", "quantifier": "every element, mesh, solver; any number of elements relisted any number of times", "why_tests_cant": "infinitely many meshes", "anchors": ["solidspy/uelutil.py:elast_quad4", "solidspy/uelutil.py:elast_quad8", "solidspy/uelutil.py:elast_quad9", "solidspy/uelutil.py:elast_axi_quad9", "solidspy/uelutil.py:elast_hex8", "solidspy/uelutil.py:elast_tri3", "solidspy/uelutil.py:elast_tet4", "solidspy/uelutil.py:truss2D", "solidspy/uelutil.py:beam2DU", "solidspy/uelutil.py:beam2D", "solidspy/assemutil.py:assembler", "solidspy/postprocesor.py:strain_nodes"]}
{"id": "C101", "title": "Stiffer structures move less and vibrate faster", "statement": "Adding supports, raising the Young moduli (or spring constants) and adding elements to a mesh keeps it stable, never raises the work of the same loads (for a single load: its own displacement), and, when no mass is added, never lowers the k-th natural frequency nor raises the number of frequencies below a level. The first parameter of every element routine multiplies its stiffness and leaves its mass alone.", "quantifier": "every mesh, reinforcement, load and solver", "why_tests_cant": "infinitely many meshes and reinforcements", "anchors": ["solidspy/assemutil.py:assembler", "solidspy/assemutil.py:loadasem", "solidspy/solutil.py:static_sol", "solidspy/uelutil.py:elast_quad4", "solidspy/uelutil.py:elast_hex8", "solidspy/uelutil.py:truss2D", "solidspy/uelutil.py:beam2D"]}
{"id": "C102", "title": "Waves of a wave vector", "statement": "For complete tables (every image dof in exactly one pair, references that are not images) the displacements T q are exactly those that satisfy the Bloch conditions, each from a single q; T^H T is diagonal with one plus the number of images of each reduced dof; the opposite wave vector gives the conjugate displacements; adding a vector of the reciprocal lattice or moving the cell leaves T as it was.", "quantifier": "every lattice, wave vector and displacement", "why_tests_cant": "infinitely many wave vectors and lattices", "anchors": ["solidspy/blochutil.py:bloch_transform_mat", "solidspy/blochutil.py:reassign_dof_bloch"]}
{"id": "C103", "title": "Assembly in any arithmetic", "statement": "For every type of numbers, with no law of arithmetic assumed, each entry of the assembled matrices is the running sum, in the order of the loops, of the element entries with those two equations; dense and sparse storage give the same matrices; element matrices that are exactly symmetric give exactly symmetric global matrices. With every addition rounded to a relative error u an entry of m terms differs from the exact sum by at most ((1+u)^m - 1) times the sum of the absolute values, and not at all where the partial sums are representable. Numbering, loads and displacement tables are copied without rounding.", "quantifier": "every number type, rounding, mesh and element routine", "why_tests_cant": "infinitely many meshes; rounding errors hide below test tolerances", "anchors": ["solidspy/assemutil.py:assembler", "solidspy/assemutil.py:dense_assem", "solidspy/assemutil.py:sparse_assem", "solidspy/assemutil.py:loadasem", "solidspy/assemutil.py:DME", "solidspy/postprocesor.py:complete_disp"]}
{"id": "C104", "title": "Accuracy of trusses in rounded arithmetic", "statement": "With every operation rounded to a relative error u, each entry of the stiffness of a bar has relative error at most gamma(25) = 25u/(1-25u), each entry of its mass at most gamma(10), whatever its position, length and material; the assembled stiffness of a truss of n bars differs from the exact one in entry (p, q) by at most ((1+u)^n (1+gamma(25)) - 1) times the mean of the diagonal entries p and q. Exact symmetry of the stiffness of a bar is lost in general.", "quantifier": "every rounding, truss and material", "why_tests_cant": "cancellation for long or slender bars is a matter of particular inputs", "anchors": ["solidspy/uelutil.py:truss2D", "solidspy/assemutil.py:assembler"]}
{"id": "C105", "title": "The script of the tutorial writes the mesh it is given", "statement": "docs/tutorials/template_input.py writes four files: nodes.txt with one row for each point (number, coordinates to four decimals, -1 in the x column for the nodes of lines 300 and in the y column for those of lines 400, 0 elsewhere), eles.txt with one row of type 3 for each triangle (material 0 for tag 100, 1 otherwise), loads.txt with -2/n to six decimals on each of the n nodes of lines 500, each once, and mater.txt; no other file changes. readin accepts the four files and returns these tables. A mesh with no node on lines 500 stops with ZeroDivisionError. The loads that reach the equations are those of the nodes of lines 500.", "quantifier": "every mesh, tags, order of list(set(.)) and file system", "why_tests_cant": "meshes and tags are unbounded; order of sets is not specified", "anchors": ["docs/tutorials/template_input.py:22-77", "solidspy/preprocesor.py:readin"]}
{"id": "C106", "title": "The loads of the tutorial add up to the total", "statement": "The loads in loads.txt add up to -2. (False: each is rounded to six decimals, three loaded nodes give -2.000001; the difference is at most n/2000000, and none when n divides 2000000.)", "quantifier": "every mesh", "why_tests_cant": "the difference is below the tolerance of tests and depends on the number of nodes", "anchors": ["docs/tutorials/template_input.py:62-75"]}
{"id": "C107", "title": "The files of the tutorial run", "statement": "A mesh of triangles that elast_tri3 accepts, connected, held sideways at two heights and vertically at one node, gives files that solids_GUI runs: displacements in equilibrium, no warning, horizontal reactions that add up to 0 and vertical reactions that add up to 2 within n/2000000. (False: coordinates are rounded to four decimals, which flattens thin triangles, and the run stops; it holds for triangles of area large enough for their size.)", "quantifier": "every mesh, solver and file system", "why_tests_cant": "infinitely many meshes; thin triangles are rare in tests", "anchors": ["docs/tutorials/template_input.py:22-77", "solidspy/solids_GUI.py:solids_GUI", "solidspy/uelutil.py:elast_tri3", "solidspy/preprocesor.py:readin"]}
{"id": "C108", "title": "Cutting the elements of a mesh never makes it stiffer", "statement": "Cut the triangles (or the tetrahedra) of a mesh into smaller ones with the same material; restrain a new node only where all the nodes that carry it are restrained, and move the loads to the nodes accordingly. Then the fine mesh makes every motion of the coarse one at the same energy; the work of the loads grows by exactly the energy of the difference of the two answers; of all the motions of the coarse mesh its own answer is the nearest one to the fine answer; a single loaded dof moves at least as far; and the coarse mesh takes its loads if the fine one does.", "quantifier": "every mesh of three-node triangles or four-node tetrahedra, every way of cutting it, all moduli, loads and supports, every solver", "why_tests_cant": "refinement studies compare a few meshes and one load; monotone convergence is for every mesh", "anchors": ["solidspy/uelutil.py:elast_tri3", "solidspy/uelutil.py:elast_tet4", "solidspy/assemutil.py:assembler", "solidspy/assemutil.py:loadasem", "solidspy/solids_GUI.py:solids_auto"]}
{"id": "C109", "title": "Constraint flags are 0 or -1, anything else is reported", "statement": "A constraint flag other than 0 (free) and -1 (held) stops the run. (False: a positive flag k below the number of free dofs gives the dof the equation k. The dof then moves with the k-th free dof, the forces of both are balanced together with the last load written on either, a stable structure still runs, and where the loads of tied dofs add up the work of the loads can only fall. A flag not below the number of free dofs does stop every run; a flag below -1 stops sparse runs, among them solids_auto, when the node has an element, and dense runs read it from the end of the numbering.)", "quantifier": "every problem, all whole flags, every solver, sparse and dense storage", "why_tests_cant": "tests use 0 and -1 only", "anchors": ["solidspy/assemutil.py:eqcounter", "solidspy/assemutil.py:DME", "solidspy/assemutil.py:sparse_assem", "solidspy/assemutil.py:dense_assem", "solidspy/assemutil.py:loadasem", "solidspy/postprocesor.py:complete_disp", "solidspy/solids_GUI.py:solids_auto"]}
{"id": "C110", "title": "The cantilever of examples/beam_convergence is the one described", "statement": "The closed form beam_sln returns displacements and their strains, and every iteration loads the end x = -L/2 with P in total, holds the end x = L/2 and runs. (False: the shear strain of the displacements differs from the one returned except on the lines 8 y^2 = h^2, although the stresses of the strains returned are in equilibrium and carry P; the loads add up to P (ny + 1)/ny; the node held in y is ny/2 + 1 columns away from the held side, so the couple on the side is that of a shorter beam; and DME refuses the five-column table. With the table split in two the model runs at every size.)", "quantifier": "all points, all material and beam numbers; every nx, ny and every iteration of the refinement", "why_tests_cant": "tests do not run the notebooks", "anchors": ["examples/beam_convergence/beam_convergence.ipynb:beam_sln", "examples/beam_convergence/beam_convergence.ipynb:nodes, loads (loop over cont)", "solidspy/assemutil.py:DME", "solidspy/preprocesor.py:rect_grid"]}
{"id": "C111", "title": "The script of the Brazilian test writes the model of the mesh", "statement": "The script turns every mesh of triangles with marked vertices into the four files of the model described: left side held in x, bottom held in y, -10e8 N in y at each marked vertex, material 0 for the group 4 and 1 for the others; the files run and the supports carry the load. (False: the triangles of the group 4 get 1, the others nothing; the script stops unless all triangles or exactly one are in the group 4, and stops for two or more vertices. Otherwise the files are those of the mesh with material 1 everywhere, they run, and the vertical reactions add up to 10e8.)", "quantifier": "all meshes, tags, marked vertices; all contents of the directory; any direct solver", "why_tests_cant": "the script is in the documentation and no test runs it", "anchors": ["docs/tutorials/brazilian_test.rst:Python script to generate input files", "docs/tutorials/brazilian_test.rst:Materials", "docs/tutorials/template_input.py:els_array, nodes_array", "solidspy/solids_GUI.py:solids_GUI"]}
{"id": "C112", "title": "The first tutorial shows what its files give", "statement": "The plate of the first tutorial, of any width, height, material and pull, stretches uniformly: exact displacements, strains and stresses at the nine nodes, 14 equations, no warning; its text files, in a folder given, chosen or typed, give the counts and the fourteen displacements printed in the tutorial, whatever direct solver is used, and the lengths of displacement printed there are those of nodes. (Last part false: no node moves by 0.849; the tutorial pairs entries of two nodes.)", "quantifier": "all sizes with area of an element above 4e-8, all admissible materials, all loads; all folders; any direct solver", "why_tests_cant": "no test runs the example; the tutorial prints one set of numbers", "anchors": ["docs/tutorials/square_example.rst:Input files", "docs/tutorials/square_example.rst:Interactive execution", "solidspy/solids_GUI.py:solids_GUI", "solidspy/assemutil.py:assembler", "solidspy/postprocesor.py:strain_nodes"]}
{"id": "C113", "title": "Worked examples of stress_truss", "statement": "The documented calls (whole node table, with its flags, to the assembler) give the stresses printed for the three exercises; for any truss the bar forces balance the loads. (False: the norm of all columns enters the length of a bar, so a bar between nodes with different flags is taken as longer: stresses 2 sqrt 2 times, 3 sqrt 3 times the documented ones. With three columns the documented values come out exactly.)", "quantifier": "all trusses, all node tables with further columns, any direct solver", "why_tests_cant": "the docstring examples are not run by the tests", "anchors": ["solidspy/postprocesor.py:stress_truss", "solidspy/uelutil.py:truss2D", "solidspy/assemutil.py:retriever", "solidspy/assemutil.py:assembler"]}
{"id": "C114", "title": "Element matrices are the integrals that define them", "statement": "On triangles with straight sides and on parallelograms, the stiffness matrix gives for any two nodal vectors the integral over the element of stress of one times strain of the other, and on every quadrilateral with straight sides the mass matrix gives the integral of density times the product of the fields, up to the digits of the tables. The same for tetrahedra and for bricks that are parallelepipeds. Bars give the integrals of EA times the stretches and of density times the product of linear fields, horizontal beams also those of EI times the curvatures and of density times the product of cubics, exactly; other beams do so in the frame of the mirrored beam (C33).", "quantifier": "all plane and solid elements, all affine (mass of plane elements: all bilinear) maps, all nodal vectors, all moduli", "why_tests_cant": "tests compare single elements with stored matrices", "anchors": ["solidspy/uelutil.py:elast_tri3", "solidspy/uelutil.py:elast_tri6", "solidspy/uelutil.py:elast_quad4", "solidspy/uelutil.py:elast_quad8", "solidspy/uelutil.py:elast_quad9", "solidspy/femutil.py:shape_quad8", "solidspy/femutil.py:elast_diff_2d", "solidspy/gaussutil.py:gauss_nd", "solidspy/gaussutil.py:gauss_tri", "solidspy/gaussutil.py:gauss_tet", "solidspy/uelutil.py:elast_tet4", "solidspy/uelutil.py:elast_hex8", "solidspy/uelutil.py:truss2D", "solidspy/uelutil.py:beam2DU", "solidspy/uelutil.py:beam2D"]}
{"id": "C115", "title": "Symmetric structures answer symmetrically", "statement": "If a mirror line along an axis or a half turn about a point carries the nodes, supports and elements of a stable model onto themselves, and its loads onto themselves or onto their opposites, then it does the same to the displacements and to the support reactions of the run. Nodes on the line do not move across it under symmetric loads, nor along it under reversed ones; a node in the centre of the half turn does not move under symmetric loads.", "quantifier": "all models of quadrilaterals (4 and 9 nodes), triangles and bars, in any element order and with any admissible listing of the image elements, all loads, all solvers that solve", "why_tests_cant": "the examples are solved once and looked at; nothing compares the two halves of a solution", "anchors": ["solidspy/solids_GUI.py:solids_auto", "solidspy/assemutil.py:assembler", "solidspy/assemutil.py:loadasem", "solidspy/uelutil.py:elast_quad4", "solidspy/uelutil.py:elast_tri3", "solidspy/uelutil.py:elast_tri6", "solidspy/uelutil.py:elast_quad9", "solidspy/uelutil.py:truss2D", "solidspy/gaussutil.py:gauss_nd", "solidspy/gaussutil.py:gauss_tri"]}
{"id": "C116", "title": "Recovered strains of a symmetric structure are symmetric", "statement": "In a run of a symmetric structure under symmetric or reversed loads (C115) the recovered strains and stresses at a node and at its image agree up to the signs of their components.", "quantifier": "all stable meshes of 4-node quadrilaterals, 3-node or 6-node triangles with a mirror line or a half turn, all loads that follow it", "why_tests_cant": "the contour plots are looked at by eye; no test compares the strains at two nodes", "anchors": ["solidspy/postprocesor.py:strain_nodes", "solidspy/femutil.py:str_el3", "solidspy/femutil.py:str_el6", "solidspy/femutil.py:str_el4", "solidspy/solids_GUI.py:solids_auto"]}
{"id": "C117", "title": "Derivatives of the strain energy by the loads", "statement": "When one force on a structure is varied and the others kept, the derivative of the strain energy of the computed displacements by that force is the computed displacement of its node in its direction (Castigliano). For loads that grow along any fixed load system the derivative is the work of that system on the computed displacements. The same holds for analyses with other degrees of freedom and elements: the derivative by a moment on a frame is the rotation.", "quantifier": "all plane models that the driver solves with materials in their ranges, all problems solved step by step whose element stiffness is symmetric, any load system, any value of the parameter, any solver that solves (also another one for each value)", "why_tests_cant": "a derivative compares infinitely many runs; no test computes the energy", "anchors": ["solidspy/solids_GUI.py:solids_auto", "solidspy/assemutil.py:assembler", "solidspy/assemutil.py:loadasem", "solidspy/postprocesor.py:energy", "solidspy/postprocesor.py:complete_disp"]}
