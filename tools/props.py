#!/usr/bin/env python3
"""Source of properties.jsonl: edit here, run to regenerate."""
import json, os
P = []
def p(id, title, statement, quantifier, why, anchors):
    P.append(dict(id=id, title=title, statement=statement, quantifier=quantifier,
                  why_tests_cant=why, anchors=anchors))
A="solidspy/assemutil.py:"; F="solidspy/femutil.py:"; U="solidspy/uelutil.py:"; G="solidspy/gaussutil.py:"
PO="solidspy/postprocesor.py:"; PR="solidspy/preprocesor.py:"; B="solidspy/blochutil.py:"; S="solidspy/solutil.py:"; GU="solidspy/solids_GUI.py:"

# ---------------------------------------------------------------- assembly
p("C01","Equation numbering is a row-major bijection on the free degrees of freedom",
  "For a constraint array whose entries are 0 (free) or -1 (restrained), eqcounter returns neq = number of free entries and an array of the same shape in which restrained entries are still -1 and the free entries, read in row-major order, are exactly 0, 1, ..., neq-1.",
  "every number of nodes, every number of dofs per node, every 0/-1 pattern",
  "the number of constraint patterns is exponential in the mesh size; tests fix a handful of meshes",[A+"eqcounter"])
p("C02","The assembly operator maps every local dof to the equation of its (node, direction)",
  "For every element row with a known type and the right number of in-range nodes, DME writes in position k*ndof_node+d of that element's row the bc_array entry of node k, direction d, pads the rest with zeros, and raises otherwise (ValueError for unknown type or wrong node count, IndexError for a node out of range).",
  "every constraint array, every connectivity, every element type, any number of elements",
  "connectivities are unbounded; a swapped row/column shows only on particular constraint patterns",[A+"DME",F+"eletype"])
p("C03","Direct stiffness summation (dense)",
  "Entry (p,q) of the dense global stiffness (mass) matrix is the sum, over all elements and all pairs of local dofs (r,c) that the assembly operator sends to (p,q), of the local stiffness (mass) entry (r,c); rows and columns of restrained dofs contribute nothing.",
  "every mesh, every assembly operator with entries in [-1, neq), every element routine (including user elements)",
  "overlap patterns of elements are unbounded",[A+"dense_assem",A+"retriever"])
p("C04","Sparse and dense assembly agree",
  "assembler(..., sparse=True) and assembler(..., sparse=False) return the same matrices for every assembly operator with entries in [-1, neq), and fail with the same exception when an element routine fails.",
  "every mesh, material table, assembly operator and element routine",
  "agreement must hold for all duplicate-entry patterns of the COO triplets",[A+"assembler",A+"dense_assem",A+"sparse_assem"])
p("C05","Assembly does not depend on the order in which elements are listed",
  "Permuting the rows of the element array (and of the assembly operator accordingly) leaves the assembled stiffness and mass matrices unchanged.",
  "every mesh, every permutation of its elements","the number of permutations is factorial",[A+"dense_assem",A+"sparse_assem"])
p("C06","Global matrices inherit symmetry and positive semidefiniteness",
  "If every element matrix is symmetric (positive semidefinite), so is the assembled global matrix; for well-formed meshes of the built-in continuum elements with E>0 and -1<nu<1 this holds unconditionally.",
  "every mesh and every vector of displacements","definiteness quantifies over all vectors",[A+"dense_assem",U+"elast_quad4"])
p("C07","The global matrix acts as the sum of the element actions",
  "For every displacement vector u, (K u)_p is the sum over elements and over local dofs r mapped to equation p of (K_e u_e)_r, where u_e gathers u through the assembly operator with zeros at restrained dofs; hence u'Kv is the sum of u_e' K_e v_e.",
  "every mesh, assembly operator, and pair of vectors","universal over vectors and meshes",[A+"dense_assem"])
p("C08","Nodal loads reach exactly the equation of their dof",
  "When each node appears in at most one load row, entry p of the right-hand side is the load component of the (node, direction) whose equation is p, zero if that node has no load row; load components on restrained dofs are ignored. If a node appears in several rows the last row wins.",
  "every load table and constraint pattern","unbounded load tables; interaction with constraint patterns",[A+"loadasem"])
p("C09","Repeated load rows accumulate",
  "Splitting a nodal load into two rows of the load table that add up to it gives the same right-hand side as the single row (loads superpose).",
  "every load table","holds or fails over all tables; unit tests use tables without repetition",[A+"loadasem"])
p("C10","Displacement completion",
  "complete_disp returns, for each node and direction, 0 at a restrained dof and the solution value of the dof's equation at a free one; for an eqcounter array it never fails on a solution of length neq, and different free dofs read different solution entries.",
  "every constraint pattern and solution vector","universal over patterns",[PO+"complete_disp"])
p("C11","Element tables are consistent and unknown types are rejected",
  "eletype and ele_fun accept exactly the types 1..8 and raise ValueError for every other integer; for every accepted type that assembles, the local matrices have as many rows as the number of dofs eletype declares, and for the plane types the declared number of Gauss points is that of the rule the routine uses.",
  "every integer element type, every coordinate array and parameter list","all integers",[F+"eletype",A+"ele_fun"])
# ---------------------------------------------------------------- pipeline
p("C12","The computed solution is in equilibrium at every free dof",
  "The displacement table returned by solids_auto satisfies, at every free (node, direction), sum over elements of the element nodal force (K_e u_e) = applied load, and it is 0 at every restrained dof - provided the linear solver solved its system.",
  "every model (mesh, constraints, materials, loads) accepted by the pipeline",
  "needs numbering, assembly, loads, completion to agree with each other on all inputs",[GU+"solids_auto",A+"DME",A+"assembler",A+"loadasem",S+"static_sol",PO+"complete_disp"])
p("C13","Linear response: scaling and superposition of load cases",
  "If two load tables give solutions u1 and u2 of the same structure (with non-singular stiffness), the load table a*f1+b*f2 gives a*u1+b*u2.",
  "every structure, pair of load cases and pair of factors","universal over reals",[GU+"solids_auto",A+"loadasem"])
p("C14","Exact fields are reproduced (patch test through the pipeline)",
  "If a displacement field vanishing on the restrained dofs has element forces that balance the applied loads at all free dofs, then it is the field solids_auto returns (when the stiffness matrix is non-singular).",
  "every model and every such field","quantifies over fields and meshes",[GU+"solids_auto"])
p("C15","Reactions balance the applied loads",
  "For a mesh of continuum (or truss) elements the sum over all nodes of internal nodal forces vanishes in each direction; hence the reactions at restrained dofs and the applied loads at free dofs add up to zero in x and in y.",
  "every mesh and every displacement field","universal over fields",[GU+"solids_auto",U+"elast_quad4",U+"elast_tri3",U+"elast_tri6",U+"truss2D"])
p("C16","Energy identities",
  "energy(u,K) = -1/2 u'Ku; for the solution of K u = f it is -1/2 f.u, it equals minus half the sum of the element energies, it is never positive when K is positive semidefinite and scales with the square of the load factor.",
  "every matrix and vector","universal over reals",[PO+"energy"])
p("C17","Solver dispatch",
  "static_sol uses the sparse solver for CSR matrices, the dense solver for ndarrays, raises TypeError for anything else, and both assembler outputs are accepted.",
  "every matrix kind","type dispatch is total",[S+"static_sol",A+"assembler"])
p("C18","The text-file workflow computes the same thing as the in-memory workflow",
  "solids_GUI on the files of a model returns what solids_auto returns on the arrays of that model, including strains and stresses when requested.",
  "every model","universal over models",[GU+"solids_GUI",GU+"solids_auto",PR+"readin"])
p("C19","Three-dof beam models run through solids_auto",
  "A beam model (element types 7 and 8, three dofs per node) given to solids_auto keeps one equation per free dof.",
  "every beam model","interaction of default arguments across modules",[GU+"solids_auto",A+"DME",A+"eqcounter"])
p("C20","Node relabelling equivariance",
  "Renumbering the nodes of a model (and its constraint rows, connectivity and loads accordingly) renumbers the equilibrium equations: the permuted displacement table solves the permuted model.",
  "every model and every permutation of its nodes","factorially many permutations",[GU+"solids_auto",A+"DME"])
# ---------------------------------------------------------------- shape functions
p("C21","Partition of unity",
  "For every evaluation point the shape functions of tri3, tri6, quad4, quad8, quad9, tet4 and hex8 add up to 1 and each row of their derivative table adds up to 0.",
  "every real point","all points of the plane/space",[F+"shape_tri3",F+"shape_tri6",F+"shape_quad4",F+"shape_quad8",F+"shape_quad9",F+"shape_tet4",F+"shape_hex8"])
p("C22","Interpolation (Kronecker) property",
  "Each shape function is 1 at its own node and 0 at the other nodes of the reference element, in the node order used by the element connectivity.",
  "every pair of nodes of every element family","finite per family; kept with C21/C23 because it fixes the node order",[F+"shape_tri6",F+"shape_quad9"])
p("C23","dNdr is the gradient of N",
  "Row a of the returned derivative table is the partial derivative of the returned shape functions with respect to the a-th natural coordinate, at every point.",
  "every real point and every node","derivatives are limits; tests sample points",[F+"shape_tri6",F+"shape_quad8",F+"shape_hex8"])
p("C24","Polynomial completeness",
  "Interpolating a polynomial of the element's order (linear for tri3/tet4, (tri)linear products for quad4/hex8, full quadratic for tri6/quad8, biquadratic for quad9) at the nodes reproduces the polynomial everywhere.",
  "all polynomial coefficients and all points","universal over reals",[F+"shape_tri6",F+"shape_quad9"])
p("C25","Jacobian check and inverse",
  "jacoper returns (det, inv) with det = determinant of dNdr@coord > 1e-8 and inv@J = J@inv = I, and raises ValueError in every other case (near-singular, or negatively oriented); all 2D and 3D inputs.",
  "every derivative table and coordinate array","all geometries",[F+"jacoper"])
p("C26","Acceptance of an element does not depend on the unit of length",
  "If jacoper accepts an element it accepts the same element expressed in another length unit (coordinates scaled by a positive factor).",
  "every element and every positive factor","universal over scale factors",[F+"jacoper"])
p("C27","Strain-displacement matrices differentiate linear fields exactly",
  "At every point of every accepted element, B applied to the nodal values of an affine displacement field gives the constant strain of that field (engineering shear), and H gives its value; plane, axisymmetric (including hoop strain u_r/r) and 3D versions.",
  "every element geometry, evaluation point and affine field","universal over reals",[F+"elast_diff_2d",F+"elast_diff_axi",F+"elast_diff_3d"])
# ---------------------------------------------------------------- materials
p("C28","umat is the plane-stress reduction of the 3D Hooke law",
  "For E>0 and -1<nu<1/2: for every in-plane strain, umat gives the in-plane stress of the 3D law elast_mat at the (unique) out-of-plane strain that makes sigma_zz vanish; umat is symmetric and positive definite for -1<nu<1.",
  "all E, nu and strains","universal over reals",[F+"umat",F+"elast_mat"])
p("C29","elast_mat is the inverse of Hooke's compliance",
  "For E<>0, nu not in {-1,1/2}: stress = elast_mat strain iff eps_ii = (sigma_ii - nu*(other two))/E and gamma_ij = 2(1+nu)/E tau_ij; symmetric, and positive definite for E>0, -1<nu<1/2.",
  "all E, nu, strains","universal over reals",[F+"elast_mat"])
p("C30","The axisymmetric law is the 3D law restricted to axisymmetric strains",
  "elast_mat_axi (and elast_mat_2d) applied to (eps_r, eps_z, gamma_rz, eps_theta) equals the stress of elast_mat for the corresponding 3D strain.",
  "all E, nu, strains","universal over reals; no test touches this function",[F+"elast_mat_axi",F+"elast_mat_2d"])
# ---------------------------------------------------------------- elements
p("C31","Element stiffness matrices are symmetric and positive semidefinite",
  "For every accepted geometry and E>0, -1<nu<1 (plane elements), -1<nu<1/2 (3D), positive section properties (bars, beams), the stiffness matrix is symmetric and u'Ku >= 0 for all u.",
  "every geometry, material and vector","universal over reals",[U+"elast_tri3",U+"elast_tri6",U+"elast_quad4",U+"elast_quad8",U+"elast_quad9",U+"elast_tet4",U+"elast_hex8",U+"truss2D",U+"beam2D",U+"beam2DU"])
p("C32","Rigid motions produce no nodal forces (continuum and truss elements)",
  "K u = 0 for every rigid translation and infinitesimal rotation u, for every continuum element and for truss2D/spring, whatever the geometry.",
  "every geometry and every rigid motion","universal over reals",[U+"elast_tri3",U+"elast_tri6",U+"elast_quad4",U+"elast_quad8",U+"elast_quad9",U+"elast_tet4",U+"elast_hex8",U+"truss2D",U+"spring"])
p("C33","Rigid motions produce no nodal forces (beam elements)",
  "K u = 0 for every rigid translation and infinitesimal rotation (u, v, theta) of beam2D, and every such rotation of beam2DU, whatever the orientation of the beam.",
  "every orientation and every rigid motion","tests use a horizontal beam only",[U+"beam2D",U+"beam2DU"])
p("C34","Uniform strain states carry exactly the right energy",
  "For an affine displacement field, u'Kv of a continuum element is (sum of weighted Jacobians) * eps(u)' C eps(v); for quad4 the weighted sum is exactly the polygon's area.",
  "every geometry, material and pair of affine fields","universal over reals",[U+"elast_quad4",U+"elast_tri3",U+"elast_tri6",U+"elast_quad8",U+"elast_quad9"])
p("C35","Mass matrices: symmetry, positivity, total mass",
  "Mass matrices of the continuum elements and truss are symmetric, positive semidefinite for non-negative density, do not couple x and y, and a unit translation in any direction has mass density * area (volume); exact for quad4 and truss, within the printed digits of the quadrature weights otherwise.",
  "every geometry and density","universal over reals",[U+"elast_quad4",U+"elast_tri3",U+"truss2D"])
p("C36","Material scaling and defaults",
  "Stiffness is proportional to Young's modulus and independent of density, mass is proportional to density and independent of E and nu; omitting the density means density 1 (tri3, tri6, quad4, quad9, truss2D).",
  "every geometry and parameters","universal over reals",[U+"elast_quad4",U+"truss2D"])
p("C37","Frame indifference",
  "Translating the nodes of a continuum/truss element does not change its matrices; rotating them conjugates the stiffness: (Ru)' K(Rx) (Rv) = u' K(x) v.",
  "every geometry, rotation and pair of vectors","universal over rotations",[U+"elast_tri3",U+"elast_quad4",U+"truss2D"])
p("C38","No spurious zero-energy modes",
  "A displacement with u'Ku = 0 is a rigid motion (full integration has no hourglass modes): tri3, quad4 and tri6 of any accepted geometry, quad8 and quad9 with straight sides and midpoint nodes (E>0, -1<nu<1), tet4 of any accepted geometry and hex8 of any shape, warped faces included, whose Jacobian determinant vanishes nowhere in the element (E>0, -1<nu<1/2). For the axisymmetric nine-node element with straight sides it is a translation along the axis.",
  "every accepted geometry of the stated kind and every vector","universal over geometries and vectors",[U+"elast_quad4",U+"elast_tri3",U+"elast_tri6",U+"elast_quad8",U+"elast_quad9",U+"elast_tet4",U+"elast_hex8",U+"elast_axi_quad9"])
p("C39","Bars: closed form",
  "truss2D and spring give the nodal forces +-(k * elongation) along the bar axis, where elongation is the relative displacement projected on the axis and k = EA/L or the spring constant; a bar of zero length is not accepted (non-finite).",
  "every geometry, stiffness and displacement","universal over reals",[U+"truss2D",U+"spring"])
p("C40","Spring elements can be assembled",
  "A mesh that contains a spring element (type 5) with a free dof can be assembled.",
  "every mesh with springs","no test assembles a spring",[U+"spring",A+"dense_assem"])
p("C41","Optional density and area of the beam without axial stiffness",
  "beam2DU accepts parameter lists with the area omitted (documented as optional).",
  "every parameter list","documentation says optional; tests use the full list",[U+"beam2DU"])
p("C42","Axisymmetric elements integrate over the ring",
  "elast_axi_quad9's mass (stiffness) integrates with the circumferential measure: its total mass scales with the distance to the axis.",
  "every geometry","no test touches this element",[U+"elast_axi_quad9"])
# ---------------------------------------------------------------- quadrature
p("C43","1D Gauss rules have degree 2n-1",
  "For 2 <= n <= 10 the n-point rule integrates every polynomial of degree <= 2n-1 over [-1,1] up to 1e-17 times the sum of absolute coefficients; other n raise ValueError.",
  "every polynomial of that degree, every integer n","all coefficient vectors",[G+"gauss_1d"])
p("C44","Tensor rules in any dimension",
  "gauss_nd(n, ndim) returns n^ndim points and weights and integrates products of one-variable functions as the product of the 1D rules, for every dimension.",
  "every dimension and every family of functions","unbounded dimension",[G+"gauss_nd"])
p("C45","Triangle rules reach their stated order",
  "gauss_tri(order) integrates every polynomial in (x,y) of total degree <= order over the unit triangle up to 1e-12 times the sum of absolute coefficients (weights halved as the callers do), orders outside 1..7 raise ValueError.",
  "every polynomial, every integer order","all coefficient vectors",[G+"gauss_tri"])
p("C46","Tetrahedron rules reach their stated order",
  "gauss_tet(order) integrates every polynomial in (x,y,z) of total degree <= order over the unit tetrahedron up to 1e-15 times the sum of absolute coefficients (weights over 6 as the callers do), orders outside 1..10 raise ValueError.",
  "every polynomial, every integer order","all coefficient vectors",[G+"gauss_tet"])
# ---------------------------------------------------------------- post
p("C47","Uniform strain is recovered at the nodes (quad4, tri6)",
  "strain_nodes of a mesh of type 1 or 2 under an affine displacement field returns that field's strain and the corresponding plane-stress stress at every node that belongs to an element.",
  "every mesh and affine field","universal over meshes",[PO+"strain_nodes",F+"str_el4",F+"str_el6"])
p("C48","Uniform strain is recovered at the nodes (tri3)",
  "strain_nodes of a mesh of type 3 under an affine displacement field returns that field's strain at every node that belongs to an element.",
  "every mesh and affine field","the shipped test only uses type 1",[PO+"strain_nodes",F+"str_el3"])
p("C49","Nodal stresses follow Hooke's law",
  "On a one-material mesh the stress row of every node is umat applied to its strain row.",
  "every mesh, displacement field and material","universal",[PO+"strain_nodes",F+"umat"])
p("C50","Each quad4 node receives the strain of its own corner Gauss point",
  "On a single quad4 element, the strain reported at each node is the strain at the Gauss point in the same quadrant.",
  "every displacement field","tests use uniform strain, which hides the order",[PO+"strain_nodes",F+"str_el4"])
p("C51","Strain recovery accepts models with density",
  "A material table with a density column, accepted by the assembler, is accepted by strain_nodes.",
  "every model","feature interaction",[PO+"strain_nodes"])
p("C52","Gauss point positions returned with the strains",
  "str_el3/4/6 return the (x,y) position of each Gauss point.",
  "every geometry","tests ignore the second return value",[F+"str_el3",F+"str_el4",F+"str_el6"])
p("C53","Truss stresses obey Hooke's law",
  "stress_truss returns for each bar E * elongation / length: zero for rigid motions, unchanged when the end nodes are swapped, linear in the displacements.",
  "every truss and displacement field","universal",[PO+"stress_truss"])
p("C54","Principal values and directions of symmetric 2x2 tensors",
  "eigvals returns orthonormal eigenvectors with their eigenvalues, the first of larger modulus, exactly when the off-diagonal ratio is at least tol, with residual below tol*max|M| otherwise; all-small matrices give 0 and NaN directions.",
  "every symmetric matrix and tolerance","universal over reals",[PO+"eigvals",PO+"principal_dirs"])
p("C55","Principal values scale with the tensor",
  "eigvals(c*M) = c*eigvals(M) for c>0.",
  "every symmetric matrix and factor","strain fields are naturally tiny; tests use entries of order 1",[PO+"eigvals"])
p("C56","Plot triangulation covers each element exactly",
  "The triangles mesh2tri makes from an element use only that element's nodes, have signed areas adding up to the signed area of the element's boundary polygon, and are all positively oriented for the reference node layout, for element types 1-4.",
  "every mesh and node coordinates","universal over coordinates",[PO+"mesh2tri"])
p("C57","Structural meshes are not sent to the contour plotter",
  "fields_plot prints instead of contouring whenever the mesh contains a structural element (types 5-8).",
  "every mesh","type 8 never tested",[PO+"fields_plot"])
# ---------------------------------------------------------------- pre
p("C58","rect_grid is a conforming, counterclockwise mesh of the rectangle",
  "For all nx, ny >= 1 and positive sizes: (nx+1)(ny+1) nodes on the uniform lattice, nx*ny elements numbered from 0 of type 1 and material 0 whose nodes are in range, distinct and go counterclockwise around the (row,col) cell; every cell has area L*H/(nx*ny); neighbouring cells share exactly their common edge.",
  "every nx, ny, length, height","unbounded sizes",[PR+"rect_grid"])
p("C59","rect_grid meshes are accepted by the element routine",
  "Every element of rect_grid(L,H,nx,ny) has a positive Jacobian equal to L*H/(4*nx*ny) at every point, so elast_quad4 accepts it as soon as that number exceeds 1e-8.",
  "every nx, ny, length, height, evaluation point","unbounded sizes",[PR+"rect_grid",U+"elast_quad4",F+"jacoper"])
p("C60","Element extraction from a mesh",
  "ele_writer returns, in mesh order, exactly the cells of the requested physical surface, numbered consecutively from nini, with the requested type and material, and nf = nini + their number, so chained calls give unique consecutive identifiers.",
  "every mesh and physical tag","unbounded meshes",[PR+"ele_writer"])
p("C61","Node extraction and boundary conditions",
  "node_writer keeps every point's x and y and marks all dofs free; boundary_conditions sets the two flags of exactly the nodes of the given physical line and leaves every other entry alone, independently of set iteration order.",
  "every mesh, line tag, flags and set order","set iteration order is unspecified",[PR+"node_writer",PR+"boundary_conditions"])
p("C62","Distributed loads keep their total",
  "loading returns one row per distinct node of the line, in any set order, whose x (y) components add up to P_x (P_y); an empty line raises ZeroDivisionError.",
  "every mesh, line and load","unbounded; set order",[PR+"loading"])
p("C63","Restraints accumulate over successive boundary-condition calls",
  "A node restrained by one boundary_conditions call stays restrained after another call that restrains the other direction only.",
  "every pair of lines","overlapping lines (corners)",[PR+"boundary_conditions"])
p("C64","Echoed integer tables read back exactly",
  "Reading the element table written by echomod gives back the same integers.",
  "every integer table","unbounded tables and values",[PR+"echomod",PR+"readin"])
p("C65","Echoed real tables read back exactly",
  "Reading the node, material and load tables written by echomod gives back the same numbers (the code guarantees only an error of at most 0.005 per entry).",
  "every real table","all values",[PR+"echomod",PR+"readin"])
p("C66","The folder entered by the user locates the input files",
  "Whether the folder comes from the dialog or from the prompt, the files read are those inside that folder.",
  "every folder name","interactive input",[PR+"initial_params",PR+"readin"])
# ---------------------------------------------------------------- bloch
p("C67","Bloch renumbering of the independent dofs",
  "reassign_dof_bloch numbers the dofs that are not images consecutively 0,1,2,... in increasing order.",
  "every number of dofs and image list","unbounded",[B+"reassign_dof_bloch"])
p("C68","Image dofs get the number of their reference",
  "reassign_dof_bloch gives every image dof the new number of its reference dof.",
  "every image/reference pairing","docstring example hides it",[B+"reassign_dof_bloch"])
p("C69","Bloch transformation imposes the phase-shifted periodicity",
  "T built by bloch_transform_mat satisfies, for every reduced vector, u_image = exp(i k.(x_image - x_ref)) u_ref on every paired dof, u = reduced value on the independent dofs; |phase| = 1, and for k = 0 it is real periodicity.",
  "every wavevector, geometry and pairing","universal over wavevectors",[B+"bloch_transform_mat"])
# ---------------------------------------------------------------- energy, stability, success
p("C70","Reciprocity of displacements and loads",
  "For two load tables on the same model, the work of the first loads on the displacements of the second run equals the work of the second loads on the displacements of the first.",
  "every admissible model, pair of load tables and pair of solvers that solve their system","relation between two runs, all loads",[GU+"solids_auto",A+"assembler"])
p("C71","Displacements minimise the potential energy",
  "The displacement table returned by a run minimises strain energy minus load work among all tables that vanish at the restrained dofs (the only minimiser if the model is stable), and the load work is twice the strain energy, hence not negative.",
  "every admissible model","quantifies over all displacement fields",[GU+"solids_auto",A+"assembler"])
p("C72","Connected, supported plane meshes are stable",
  "A mesh of accepted three- and six-node triangles, four-node quadrilaterals and straight-sided nine-node quadrilaterals with E > 0 and -1 < nu < 1, chained through pairs of shared nodes, whose supports block rigid motions, has no nonzero displacement field in equilibrium without loads (the stiffness matrix is regular).",
  "every mesh","unbounded meshes; singularity is invisible in floating point",[U+"elast_tri3",U+"elast_quad4",U+"elast_tri6",U+"elast_quad9",A+"assembler",A+"DME"])
p("C73","The driver succeeds on stable models",
  "On a well-formed stable model with a free dof and accepted elements, with a solver that solves every regular system, solids_auto returns normally; also with strain recovery on (one plane type 1-3, two-column materials, every node in an element) and with plots on (a bar present, or plane elements only).",
  "every such model","absence of exceptions over all inputs",[GU+"solids_auto"])
p("C74","Meaning of the equilibrium warning",
  "The message 'The system is not in equilibrium!' is printed exactly when, at some free dof, element forces and load divided by the largest stiffness entry differ by more than 1e-8 + 1e-5|load| (or that entry is 0); it is never printed for a stable model solved exactly.",
  "every model and every solver, also a wrong one","needs wrong solver answers",[GU+"solids_auto"])
p("C75","Bars are drawn with the colour of their own stress",
  "plot_truss draws every bar as the segment between its two nodes, with colour argument 1/2 + stress/(2 max|stress|), a number in [0,1] that is 1/2 exactly for zero stress.",
  "every truss and stress vector","the picture is not looked at by tests",[PO+"plot_truss"])
p("C76","Bar widths grow linearly with the areas",
  "plot_truss gives the smallest area the width min_val, the largest max_val, and in between widths with differences proportional to the differences of area.",
  "every material table","absolute tolerance inside",[PO+"plot_truss"])
p("C77","Patch test: uniform stress states are reproduced on distorted meshes",
  "On a mesh of four-node quadrilaterals (or of three-node triangles) of one material, the internal forces of a field of uniform strain are at each node half the forces of its stress on the element sides there, so zero at a node the elements close up around; with boundary loads equal to these and supports compatible with the field, solids_auto returns the field, and for quadrilaterals its strain and stress at every node.",
  "every mesh, however distorted, every uniform strain and material","every mesh shape",[GU+"solids_auto",A+"assembler",U+"elast_quad4",U+"elast_tri3",PO+"strain_nodes"])
p("C78","The Jacobian test accepts exactly the convex quadrilaterals",
  "elast_quad4 accepts a quadrilateral exactly if the boundary turns left at every corner; elast_tri3 accepts a triangle exactly if twice its signed area exceeds 1e-8.",
  "every quadrilateral and triangle","quantifies over all shapes",[F+"jacoper",U+"elast_quad4",U+"elast_tri3"])
p("C79","Rectangular grids: from mesh generator to results",
  "Take the mesh of rect_grid for any size and number of cells, one material with E > 0 and -1 < nu < 1, cells above the Jacobian tolerance, and supports that block rigid motion. Then the stiffness is nonsingular; nodal forces of a uniform stress are the tributary edge loads; and if loads and supports fit a field of uniform strain, solids_auto succeeds for all flags, does not warn, and returns that field, its strain and its stress at each node. In the tension test u_x = s x/E, u_y = - nu s y/E.",
  "every size, number of cells, material, uniform strain, support layout","grids of every size",[PR+"rect_grid",GU+"solids_auto",A+"assembler",U+"elast_quad4",PO+"strain_nodes"])
p("C80","Truss stresses are in equilibrium with the loads",
  "After solids_auto on a plane truss (bars with E > 0, area > 0, ends apart), stress_truss succeeds, and at every free joint the bar forces (stress times area, along the bars) and the loads add up to zero. The energy of these forces is the strain energy, and is least among all bar forces in equilibrium with the loads; if equilibrium determines the bar forces, the stresses are those forces over the areas, whatever the moduli.",
  "every truss, supports, loads, materials","quantifies over all trusses and all balanced force systems",[GU+"solids_auto",PO+"stress_truss",U+"truss2D",A+"assembler"])
p("C81","Which trusses are stable",
  "A truss model has a unique answer exactly if no nonzero motion of its free joints keeps all bar lengths to first order. Trusses built by adding joints held in two independent directions (supports or bars to earlier joints) have one. A stable truss has at least as many bars as free dofs; with as many, equilibrium determines the bar forces.",
  "every truss and support layout","quantifies over all trusses",[A+"assembler",U+"truss2D",GU+"solids_auto"])
p("C82","The answer does not depend on the frame",
  "Turning the nodes and loads of a model by any angle and translating it, with supports that hold the turned displacements exactly when the old supports hold the old ones, turns the displacement table: both runs succeed if one does. Supports follow under translations, under any angle if every node is clamped or free, and under a quarter turn with the two columns of flags exchanged.",
  "every stable model of plane elements and trusses, angle, translation, solver","quantifies over all models and angles",[GU+"solids_auto",A+"assembler",A+"loadasem",PO+"complete_disp"])
p("C83","Units scale the answer",
  "With lengths times a, moduli times tE and loads times tF, the displacement table of a model of plane elements is multiplied by tF/tE, whatever a; for trusses with areas times tA it is multiplied by a tF/(tE tA). Both runs succeed if the first does (plane elements: if lengths do not shrink).",
  "every stable model of plane elements or bars, every scale factor","quantifies over all models and scale factors",[GU+"solids_auto",A+"assembler",U+"elast_quad4",U+"truss2D"])
p("C84","Recovered strains and stresses are tensors, and linear",
  "strain_nodes on the turned mesh with the turned displacements gives at every node the components of the same strain and stress tensors in the turned frame; strains and stresses of a combination of displacement fields are the same combination; stress_truss gives the same bar stresses in every frame.",
  "every mesh of quad4, tri6 or tri3 elements, displacement field, angle","quantifies over all meshes, fields and angles",[PO+"strain_nodes",PO+"stress_truss",F+"str_el4"])
p("C85","What a run reports, returns and draws",
  "solids_auto prints the numbers of nodes, elements and free dofs, returns a displacement row of two entries per node, returns strains and stresses (three entries per node) exactly if asked for, and plots exactly if asked for: the displacement table is printed if some element has type 5, 6 or 7, otherwise one contour per component with the documented titles, displacements first, then strains, then stresses. The two flags do not change the displacements or the warning.",
  "every model with flags 0 and -1, both flags","quantifies over all models",[GU+"solids_auto",PO+"fields_plot",PO+"plot_node_field",PO+"strain_nodes"])
p("C86","Input files are read as what they show",
  "readin returns four tables exactly if the four files exist and each shows its table: lines of decimal literals (optional sign, point and exponent; integers for the elements) between blanks, all rows of one length, with comments and empty lines allowed anywhere. Otherwise it raises FileNotFoundError with a file missing, or ValueError with a file that shows no table.",
  "every text of every file","quantifies over all texts",[PR+"readin"])
p("C87","What echomod writes",
  "echomod writes one line per row, entries separated by one blank: integers as plain decimals, reals rounded to the nearest hundredth (ties to even) with two decimals, padded to five characters; it touches no other file.",
  "every table of every size","quantifies over all tables and numbers",[PR+"echomod"])
p("C88","Every component is drawn in its own new window",
  "plot_node_field draws each component of a nodal field once, in a window that was not in use, with its title and levels, hands matplotlib one value per node, and saves it under its own file name exactly if asked to. fields_plot draws each component in the window of its label; a second run draws over the windows of the first.",
  "every set of open windows, every field, options, mesh","needs every history of opened and closed windows",[PO+"plot_node_field",PO+"tri_plot",PO+"fields_plot"])
p("C89","Analyses with any number of dofs per node and user elements",
  "DME, assembler, loadasem, static_sol and complete_disp, called in this order as in the project's scripts, return for any number of dofs per node and any element routine (built in or given by the user) a nodal table in equilibrium: zero at supports, internal forces equal to the applied loads at free dofs. The calls succeed when the structure is stable, the answer then does not depend on solver or storage, and stable means that the assembled stiffness is regular.",
  "every number of dofs, mesh, element routine, support, load, storage, solver","quantifies over all user element routines and meshes",[A+"DME",A+"assembler",A+"loadasem",S+"static_sol",PO+"complete_disp"])
p("C90","Meshes of tetrahedra and bricks are stable when connected and supported",
  "With the package's tetrahedron or brick as user element and three dofs per node: if neighbouring elements share three nodes that are not collinear and the supports block every rigid motion (for instance three fixed nodes that are not collinear), the stiffness is regular and the static analysis succeeds with an equilibrium.",
  "every solid mesh, material, support, load","infinitely many meshes",[U+"elast_tet4",U+"elast_hex8",A+"assembler"])
p("C91","Connected, supported plane frames are stable",
  "A frame of two-node beams with axial force, connected by its beams and supported against rigid motions (for instance by one clamped node), has a regular stiffness matrix, so its static analysis succeeds and returns an equilibrium.",
  "every frame: nodes, beams, sections, supports, loads","infinitely many frames",[U+"beam2D",A+"assembler",A+"DME"])
p("C92","Eigenpairs of the assembled matrices are the free vibrations of the mesh",
  "A vector is an eigenvector of the assembled pair (stiffness, mass) exactly when the table complete_disp makes of it satisfies the weak form of free vibration over all admissible motions. Eigenvalues are Rayleigh quotients, not negative, positive for stable structures; modes of different frequencies are orthogonal in both energies.",
  "every mesh, element routine, eigenpair; every frame","the solver returns a few pairs of one mesh",[A+"assembler",A+"DME",PO+"complete_disp",U+"beam2D"])
p("C93","Natural frequencies of the bar fixed at both ends",
  "For n equal truss elements the eigenpairs are exactly the half waves m = 1..n-1 with a closed-form frequency; it increases with m, is never below the frequency of the continuous bar, and exceeds it by at most the factor 1 + 2 (m/n)^2 once there are eight elements per half wave.",
  "every n, m, length, modulus, area, density","the test computes six numbers for n = 512",[U+"truss2D",A+"assembler",A+"DME"])
p("C94","Tip of a loaded cantilever",
  "A single beam element clamped at one end, in any direction, loaded by forces and a moment at the tip, returns the displacements and rotation of Euler-Bernoulli theory.",
  "every direction, section, load","false: the beam is mirrored; the project's frame test has a tolerance of 10 percent",[U+"beam2D",S+"static_sol"])
p("C95","Patch test for tetrahedra",
  "On any mesh of tetrahedra of one material a linear displacement field has nodal forces equal to a third of the force of its stress on each triangle at the node; they vanish at nodes the elements close up around; with the corresponding boundary loads the analysis returns the field exactly.",
  "every mesh of tetrahedra, linear field, material","infinitely many meshes and fields",[U+"elast_tet4",A+"assembler",S+"static_sol"])
p("C96","From text files to equilibrium",
  "When the four files in the folder show, in the grammar of the input files, the tables of a model, solids_GUI does what solids_auto does with those tables, whether the folder is an argument or chosen in the dialog; the displacements returned are in equilibrium and are returned whenever the model is accepted and stable. Without four readable files there is no run.",
  "every file content, folder, model, option, solver","infinitely many files",[GU+"solids_GUI",PR+"readin",PR+"initial_params"])
p("C97","Figure of a truss",
  "plot_truss opens at most one window, a new one when no window title is given and the window with that title otherwise, and saves the figure once, on request, under the name given or output.pdf. Without stresses every bar is drawn between its nodes with one and the same colour, entry 1 of the colour table, for all identifiers in range.",
  "every list of open windows, truss and option","infinitely many figures",[PO+"plot_truss"])
p("C98","Mass matrices are positive definite",
  "With a positive density (and area, for bars) every element mass matrix M returned by a plane, axisymmetric, solid or bar routine satisfies u' M u > 0 for every u other than zero, whatever the shape of the accepted element: the quadrature of the mass is never too coarse. The assembled mass matrix of a mesh whose nodes all belong to elements has the same property, in both storages.",
  "every accepted element and mesh, every density > 0","infinitely many shapes and vectors",[U+"elast_quad4",U+"elast_quad8",U+"elast_quad9",U+"elast_tri3",U+"elast_tri6",U+"elast_tet4",U+"elast_hex8",U+"elast_axi_quad9",U+"truss2D",A+"assembler"])
p("C99","Natural frequencies of meshes",
  "A mesh of plane elements and bars, of solids or of beams with positive densities has as many natural motions as free dofs, orthogonal in mass and stiffness, and every admissible displacement table is a sum of them; their squared frequencies are the energy quotients, never negative, and positive when the mesh is stable; no other value solves K x = lam M x for the assembled matrices.",
  "every mesh, supports, material","infinitely many meshes",[A+"assembler",A+"DME",PO+"complete_disp"])
p("C100","Order of the nodes of an element",
  "Listing the nodes of an element from its next corner (quad4, quad8, quad9, axisymmetric quad9, tri3, tet4), a brick from another side, a bar or a beam from its other end only reorders the rows and columns of the element matrices; nodal forces, energy, stability, assembled matrices, natural motions and every run of the program on the mesh are unchanged (masses of tri3 and tet4 excepted: their rules are rounded). The strains at the nodes of a quad4 do change.",
  "every element, mesh, solver; any number of elements relisted any number of times","infinitely many meshes",[U+"elast_quad4",U+"elast_quad8",U+"elast_quad9",U+"elast_axi_quad9",U+"elast_hex8",U+"elast_tri3",U+"elast_tet4",U+"truss2D",U+"beam2DU",U+"beam2D",A+"assembler",PO+"strain_nodes"])
p("C101","Stiffer structures move less and vibrate faster",
  "Adding supports, raising the Young moduli (or spring constants) and adding elements to a mesh keeps it stable, never raises the work of the same loads (for a single load: its own displacement), and, when no mass is added, never lowers the k-th natural frequency nor raises the number of frequencies below a level. The first parameter of every element routine multiplies its stiffness and leaves its mass alone.",
  "every mesh, reinforcement, load and solver","infinitely many meshes and reinforcements",[A+"assembler",A+"loadasem",S+"static_sol",U+"elast_quad4",U+"elast_hex8",U+"truss2D",U+"beam2D"])
p("C102","Waves of a wave vector",
  "For complete tables (every image dof in exactly one pair, references that are not images) the displacements T q are exactly those that satisfy the Bloch conditions, each from a single q; T^H T is diagonal with one plus the number of images of each reduced dof; the opposite wave vector gives the conjugate displacements; adding a vector of the reciprocal lattice or moving the cell leaves T as it was.",
  "every lattice, wave vector and displacement","infinitely many wave vectors and lattices",[B+"bloch_transform_mat",B+"reassign_dof_bloch"])
p("C103","Assembly in any arithmetic",
  "For every type of numbers, with no law of arithmetic assumed, each entry of the assembled matrices is the running sum, in the order of the loops, of the element entries with those two equations; dense and sparse storage give the same matrices; element matrices that are exactly symmetric give exactly symmetric global matrices. With every addition rounded to a relative error u an entry of m terms differs from the exact sum by at most ((1+u)^m - 1) times the sum of the absolute values, and not at all where the partial sums are representable. Numbering, loads and displacement tables are copied without rounding.",
  "every number type, rounding, mesh and element routine","infinitely many meshes; rounding errors hide below test tolerances",[A+"assembler",A+"dense_assem",A+"sparse_assem",A+"loadasem",A+"DME",PO+"complete_disp"])
p("C104","Accuracy of trusses in rounded arithmetic",
  "With every operation rounded to a relative error u, each entry of the stiffness of a bar has relative error at most gamma(25) = 25u/(1-25u), each entry of its mass at most gamma(10), whatever its position, length and material; the assembled stiffness of a truss of n bars differs from the exact one in entry (p, q) by at most ((1+u)^n (1+gamma(25)) - 1) times the mean of the diagonal entries p and q. Exact symmetry of the stiffness of a bar is lost in general.",
  "every rounding, truss and material","cancellation for long or slender bars is a matter of particular inputs",[U+"truss2D",A+"assembler"])
T="docs/tutorials/template_input.py:"
p("C105","The script of the tutorial writes the mesh it is given",
  "docs/tutorials/template_input.py writes four files: nodes.txt with one row for each point (number, coordinates to four decimals, -1 in the x column for the nodes of lines 300 and in the y column for those of lines 400, 0 elsewhere), eles.txt with one row of type 3 for each triangle (material 0 for tag 100, 1 otherwise), loads.txt with -2/n to six decimals on each of the n nodes of lines 500, each once, and mater.txt; no other file changes. readin accepts the four files and returns these tables. A mesh with no node on lines 500 stops with ZeroDivisionError. The loads that reach the equations are those of the nodes of lines 500.",
  "every mesh, tags, order of list(set(.)) and file system","meshes and tags are unbounded; order of sets is not specified",[T+"22-77",PR+"readin"])
p("C106","The loads of the tutorial add up to the total",
  "The loads in loads.txt add up to -2. (False: each is rounded to six decimals, three loaded nodes give -2.000001; the difference is at most n/2000000, and none when n divides 2000000.)",
  "every mesh","the difference is below the tolerance of tests and depends on the number of nodes",[T+"62-75"])
p("C107","The files of the tutorial run",
  "A mesh of triangles that elast_tri3 accepts, connected, held sideways at two heights and vertically at one node, gives files that solids_GUI runs: displacements in equilibrium, no warning, horizontal reactions that add up to 0 and vertical reactions that add up to 2 within n/2000000. (False: coordinates are rounded to four decimals, which flattens thin triangles, and the run stops; it holds for triangles of area large enough for their size.)",
  "every mesh, solver and file system","infinitely many meshes; thin triangles are rare in tests",[T+"22-77",GU+"solids_GUI",U+"elast_tri3",PR+"readin"])
p("C108","Cutting the elements of a mesh never makes it stiffer",
  "Cut the triangles (or the tetrahedra) of a mesh into smaller ones with the same material; restrain a new node only where all the nodes that carry it are restrained, and move the loads to the nodes accordingly. Then the fine mesh makes every motion of the coarse one at the same energy; the work of the loads grows by exactly the energy of the difference of the two answers; of all the motions of the coarse mesh its own answer is the nearest one to the fine answer; a single loaded dof moves at least as far; and the coarse mesh takes its loads if the fine one does.",
  "every mesh of three-node triangles or four-node tetrahedra, every way of cutting it, all moduli, loads and supports, every solver","refinement studies compare a few meshes and one load; monotone convergence is for every mesh",[U+"elast_tri3",U+"elast_tet4",A+"assembler",A+"loadasem",GU+"solids_auto"])
p("C109","Constraint flags are 0 or -1, anything else is reported",
  "A constraint flag other than 0 (free) and -1 (held) stops the run. (False: a positive flag k below the number of free dofs gives the dof the equation k. The dof then moves with the k-th free dof, the forces of both are balanced together with the last load written on either, a stable structure still runs, and where the loads of tied dofs add up the work of the loads can only fall. A flag not below the number of free dofs does stop every run; a flag below -1 stops sparse runs, among them solids_auto, when the node has an element, and dense runs read it from the end of the numbering.)",
  "every problem, all whole flags, every solver, sparse and dense storage","tests use 0 and -1 only",[A+"eqcounter",A+"DME",A+"sparse_assem",A+"dense_assem",A+"loadasem",PO+"complete_disp",GU+"solids_auto"])
EX="examples/beam_convergence/beam_convergence.ipynb:"
p("C110","The cantilever of examples/beam_convergence is the one described",
  "The closed form beam_sln returns displacements and their strains, and every iteration loads the end x = -L/2 with P in total, holds the end x = L/2 and runs. (False: the shear strain of the displacements differs from the one returned except on the lines 8 y^2 = h^2, although the stresses of the strains returned are in equilibrium and carry P; the loads add up to P (ny + 1)/ny; the node held in y is ny/2 + 1 columns away from the held side, so the couple on the side is that of a shorter beam; and DME refuses the five-column table. With the table split in two the model runs at every size.)",
  "all points, all material and beam numbers; every nx, ny and every iteration of the refinement","tests do not run the notebooks",[EX+"beam_sln",EX+"nodes, loads (loop over cont)",A+"DME",PR+"rect_grid"])
BR="docs/tutorials/brazilian_test.rst:"
SQ = "docs/tutorials/square_example.rst:"
p("C111","The script of the Brazilian test writes the model of the mesh",
  "The script turns every mesh of triangles with marked vertices into the four files of the model described: left side held in x, bottom held in y, -10e8 N in y at each marked vertex, material 0 for the group 4 and 1 for the others; the files run and the supports carry the load. (False: the triangles of the group 4 get 1, the others nothing; the script stops unless all triangles or exactly one are in the group 4, and stops for two or more vertices. Otherwise the files are those of the mesh with material 1 everywhere, they run, and the vertical reactions add up to 10e8.)",
  "all meshes, tags, marked vertices; all contents of the directory; any direct solver","the script is in the documentation and no test runs it",[BR+"Python script to generate input files",BR+"Materials",T+"els_array, nodes_array",GU+"solids_GUI"])
p("C112","The first tutorial shows what its files give",
  "The plate of the first tutorial, of any width, height, material and pull, stretches uniformly: exact displacements, strains and stresses at the nine nodes, 14 equations, no warning; its text files, in a folder given, chosen or typed, give the counts and the fourteen displacements printed in the tutorial, whatever direct solver is used, and the lengths of displacement printed there are those of nodes. (Last part false: no node moves by 0.849; the tutorial pairs entries of two nodes.)",
  "all sizes with area of an element above 4e-8, all admissible materials, all loads; all folders; any direct solver","no test runs the example; the tutorial prints one set of numbers",[SQ+"Input files",SQ+"Interactive execution",GU+"solids_GUI",A+"assembler",PO+"strain_nodes"])
p("C113","Worked examples of stress_truss",
  "The documented calls (whole node table, with its flags, to the assembler) give the stresses printed for the three exercises; for any truss the bar forces balance the loads. (False: the norm of all columns enters the length of a bar, so a bar between nodes with different flags is taken as longer: stresses 2 sqrt 2 times, 3 sqrt 3 times the documented ones. With three columns the documented values come out exactly.)",
  "all trusses, all node tables with further columns, any direct solver","the docstring examples are not run by the tests",[PO+"stress_truss",U+"truss2D",A+"retriever",A+"assembler"])
p("C114","Element matrices are the integrals that define them",
  "On triangles with straight sides and on parallelograms, the stiffness matrix gives for any two nodal vectors the integral over the element of stress of one times strain of the other, and on every quadrilateral with straight sides the mass matrix gives the integral of density times the product of the fields, up to the digits of the tables. The same for tetrahedra and for bricks that are parallelepipeds. Bars give the integrals of EA times the stretches and of density times the product of linear fields, horizontal beams also those of EI times the curvatures and of density times the product of cubics, exactly; other beams do so in the frame of the mirrored beam (C33).",
  "all plane and solid elements, all affine (mass of plane elements: all bilinear) maps, all nodal vectors, all moduli","tests compare single elements with stored matrices",[U+"elast_tri3",U+"elast_tri6",U+"elast_quad4",U+"elast_quad8",U+"elast_quad9",F+"shape_quad8",F+"elast_diff_2d",G+"gauss_nd",G+"gauss_tri",G+"gauss_tet",U+"elast_tet4",U+"elast_hex8",U+"truss2D",U+"beam2DU",U+"beam2D"])
p("C115","Symmetric structures answer symmetrically",
  "If a mirror line along an axis or a half turn about a point carries the nodes, supports and elements of a stable model onto themselves, and its loads onto themselves or onto their opposites, then it does the same to the displacements and to the support reactions of the run. Nodes on the line do not move across it under symmetric loads, nor along it under reversed ones; a node in the centre of the half turn does not move under symmetric loads.",
  "all models of quadrilaterals (4 and 9 nodes), triangles and bars, in any element order and with any admissible listing of the image elements, all loads, all solvers that solve","the examples are solved once and looked at; nothing compares the two halves of a solution",[GU+"solids_auto",A+"assembler",A+"loadasem",U+"elast_quad4",U+"elast_tri3",U+"elast_tri6",U+"elast_quad9",U+"truss2D",G+"gauss_nd",G+"gauss_tri"])
p("C116","Recovered strains of a symmetric structure are symmetric",
  "In a run of a symmetric structure under symmetric or reversed loads (C115) the recovered strains and stresses at a node and at its image agree up to the signs of their components.",
  "all stable meshes of 4-node quadrilaterals, 3-node or 6-node triangles with a mirror line or a half turn, all loads that follow it","the contour plots are looked at by eye; no test compares the strains at two nodes",[PO+"strain_nodes",F+"str_el3",F+"str_el6",F+"str_el4",GU+"solids_auto"])
p("C117","Derivatives of the strain energy by the loads",
  "When one force on a structure is varied and the others kept, the derivative of the strain energy of the computed displacements by that force is the computed displacement of its node in its direction (Castigliano). For loads that grow along any fixed load system the derivative is the work of that system on the computed displacements. The same holds for analyses with other degrees of freedom and elements: the derivative by a moment on a frame is the rotation.",
  "all plane models that the driver solves with materials in their ranges, all problems solved step by step whose element stiffness is symmetric, any load system, any value of the parameter, any solver that solves (also another one for each value)","a derivative compares infinitely many runs; no test computes the energy",[GU+"solids_auto",A+"assembler",A+"loadasem",PO+"energy",PO+"complete_disp"])
if __name__ == "__main__":
    out = os.path.join(os.path.dirname(os.path.abspath(__file__)), "..", "properties.jsonl")
    with open(out, "w") as f:
        for x in P: f.write(json.dumps(x) + "\n")
    print(len(P))
