# Formal model of SolidsPy in Rocq (Coq 8.16.1)

## 1. Shape of the model

The code is modelled function by function as total Gallina functions over lists: a
numpy 2-D array is a list of rows, and a call returns `res A := Ok a | Err e`, so
that every Python exception is a value a theorem can talk about.  Each definition
cites the file and lines it stands for and says where it simplifies.

Numeric code is written once for any type `T` of the class `Num T` (0, 1, +, -, *,
/, opposite, <=, sqrt, decimal literals, truncation).  Three instances:

* `Num_Q`: the model runs.  `Tests.v` replays the unit tests of the repository with
  `vm_compute`.  This checks the transcription, it is not counted as proof.
* `Num_R`: the theorems.
* `Num_F rnd` (`SpecAny.v`): reals with every operation rounded, used by C103 and C104.

| file | stands for |
|---|---|
| `Num.v`, `LinAlg.v` | numbers, exceptions, numpy indexing (negative wrap, `IndexError`), arrays |
| `GaussTab.v` (generated by `tools/gen_gauss.py`), `Gauss.v` | `gaussutil.py` |
| `Fem.v` | `femutil.py` |
| `Uel.v` | `uelutil.py` |
| `Assem.v` | `assemutil.py`, `solutil.py` |
| `Post.v`, `PlotTruss.v`, `Draw.v`, `DrawTruss.v` | `postprocesor.py` |
| `Pre.v`, `TextIO.v` | `preprocesor.py` |
| `Bloch.v` | `blochutil.py` |
| `Main.v` | `solids_GUI.py` |
| `Script.v` | the sequence of calls of the project's own scripts, `tests/test_integration.py` |
| `Template.v` | `docs/tutorials/template_input.py` |
| `Brazil.v` | `docs/tutorials/brazilian_test.rst`, the script |
| `Square.v` | `examples/square-4_elements/*.txt` and the numbers printed in `docs/tutorials/square_example.rst` |
| `DocTruss.v` | `fem_sol` and the three data sets in the docstring of `stress_truss` (`postprocesor.py:430-535`) |
| `Example.v` | `examples/beam_convergence/beam_convergence.ipynb`: `beam_sln`, the tables of an iteration, the call of `DME` |
| `Spec*.v` | small specifications, written without the model's helpers, used by the statements |
| `*Proofs*.v`, `Elem*.v`, `Post*.v` other than `Post.v`, `Quad*.v`, `Areas.v`, ... | lemmas |
| `Ex*.v` | concrete models used as examples of hypotheses |
| `Prop*.v` | the property theorems, each closed by `exact`, with `Print Assumptions` and an `Example` meeting the hypotheses |

## 2. What is modelled and what is not

Modelled, with the exceptions they can raise:

* `femutil.py`: all functions.
* `uelutil.py`: all functions.  The eight copies of the integration loop are one
  definition, `integrate`, that each element calls with its own factors.
* `gaussutil.py`: all functions; the tables are the literals of the source read as decimals.
* `assemutil.py`, `solutil.py`: all functions.
* `postprocesor.py`: `fields_plot`, `tri_plot`, `plot_node_field` (as the windows opened and the arrays
  handed to matplotlib, `Draw.v`; `Post.v` has a shorter version for the driver), `mesh2tri`,
  `complete_disp`, `strain_nodes`, `stress_truss`, `eigvals`, `principal_dirs`, `energy`,
  `plot_truss` (as the list of lines drawn).
* `preprocesor.py`: all functions.
* `blochutil.py`: all functions.
* `solids_GUI.py`: both drivers.
* `docs/tutorials/template_input.py` and the script of `docs/tutorials/brazilian_test.rst`: everything after `meshio.read`, whose result is an argument.
* `examples/beam_convergence/beam_convergence.ipynb`: `beam_sln` at one point, and the loop body up to the call of `DME`; the rest of
  the loop (interpolation with `griddata`, error, plots) is not modelled. The comparison `x==L/2` is exact.

Parameters of the model, quantified over in the theorems (never axioms):

* `scipy.sparse.linalg.spsolve` and `numpy.linalg.solve`: any functions.  A theorem
  that needs them to solve the system says so in a hypothesis about that one call.
* the order of `list(set(...))`: any function returning the members once.
* `exp(1j*x)` in the Bloch code: a parameter of the function; the theorems use
  `(cos x, sin x)`.
* the file system: a function from paths to contents; the dialogs: their answers.
* user element routines and user dof tables: any functions.

Not modelled:

* floating point: arithmetic is exact, except in C103 and C104, where the same definitions are run with every
  operation rounded to a relative error `u` (`Num_F` in `SpecAny.v`; no overflow, no underflow, no fused operations,
  the order of operations of the model).  Where numpy would go on with inf or nan the
  model stops with `Err NonFinite` (one exception: the rows of nodes in no element
  in `strain_nodes`, kept as `None` in `strain_rows`);
* what matplotlib does with the arrays it is handed;
* printed durations, the test of the Python version, the shebang script blocks;
* `nan`, `inf`, hexadecimal literals and underscores in text files; overflow of literals; integers written
  with a decimal point in `eles.txt` (refused in the model; numpy from 1.23 on reads them with a warning);
* arrays that share memory: every function returns fresh values.  `boundary_conditions`
  and `eqcounter` are the only functions writing into an argument or its cast copy,
  and their callers use the returned value.

## 3. Properties and how they are proved

Statements are in `properties.jsonl`, theorem names in `MANIFEST.json`.

* C01-C11 (`PropAssem.v`): induction over the constraint table, the element list and
  the double loop over local dofs.  Assembly is shown equal to the sum over elements and
  local pairs of `kloc i j` at the equations of `i` and `j` (`SpecAssem.v`).
* C12-C20 (`PropModel.v`): linear algebra over the previous results.  The solution is any
  vector with `K u = f`.  Reactions and energies are sums of element actions on the
  completed displacements.  C20 transports a run along a renumbering of nodes.
* C21-C24 (`PropShape.v`): polynomial identities; derivatives by `derivable_pt_lim`.
* C25-C30 (`PropJac.v`): cofactor inverse, chain rule, matrix algebra.
* C31-C38 (`PropElem.v`): one lemma reads the loop as a list of samples (weight, B, H);
  symmetry, semidefiniteness, rigid motions, energies, masses, scaling and frame changes are
  statements on samples, instantiated for each element.
* C33, C39-C42 (`PropBar.v`): bars and beams by direct algebra with the length.
* C43-C46 (`PropQuad.v`): moments of the tables computed once in `Q` and lifted to all
  polynomials by linearity.  The integral of a polynomial is defined by antiderivatives
  (`SpecQuad.v`) and shown to exist and be unique (`C4x_integral_defined`).
* C47-C57 (`PropPost.v`): invariant of the accumulation loop over elements and nodes;
  quadratic formula for eigenvalues; areas for the triangulation.
* C58-C63 (`PropPre.v`): index arithmetic on the grid; filters and scatter on lists.
* C64-C66, C86-C87 (`PropText.v`): printing and parsing of decimals and lines of text; `SpecText.v` is a grammar of
  the files, and the reader is shown to accept exactly what the grammar derives.
* C67-C69 (`PropBloch.v`): counting of dofs; complex numbers as pairs.
* C70-C74 (`PropStatic.v`): the work of the internal forces of one field on another is a sum
  of element forms; symmetry and semidefiniteness of the elements do the rest.  Stability
  uses C38 element by element and the chain of shared nodes.
* C38 for higher-order, solid and axisymmetric elements (`PropModes.v`): on a straight-sided element
  the strain is a polynomial in the natural coordinates times a nonzero affine factor; it vanishes at
  the nine sampled points, so all coefficients do. Curved quad8/quad9 are outside the statement.
  For hex8 (`Hex8Modes.v`) the edges at each of the eight points turn together; a face gives one vector
  equation between the twists of two of its edges, which makes them opposite or zero unless the volume
  vanishes on a diagonal of the face; three edges at a point cannot be pairwise opposite.
* C75-C76 (`PropPlot.v`): minima and maxima of lists, one line per bar.
* C73 with strains and plots, C77-C78 (`PropPatch.v`): totality of `strain_nodes` and
  `mesh2tri`; the nodal forces of a uniform stress are sums over element sides and cancel in
  pairs; the determinant of a quadrilateral interpolates its corner values.
* C79 (`PropGrid.v`): the grid of C58 meets the hypotheses of C72, C73 and C77; sums over
  cells are products of sums over columns and rows.
* C80-C81 (`PropTruss.v`): internal forces of a truss are the pulls of its bars; virtual work of
  balanced forces on compatible stretches; counting by elimination.
* C82-C84 (`PropFrame.v`): the form of a turned element on the turned field is the old form (C37 on
  each element), so the unique solution is carried over; `SpecFrame.v` says what moving, turning and
  rescaling a model means. Scaling lengths leaves the plane forms unchanged and divides those of bars.
  Recovered gradients turn with the frame, and the plane stress law is isotropic.
* C85 (`PropReport.v`): the columns and titles of the plots, sizes of the tables.
* C88 (`PropDraw.v`): invariant of the loop over the columns; new window numbers exceed all numbers in use.

* C89, C91-C94 (`PropScript.v`): the assembled matrices act on a vector as the elements act on the table it fills,
  for any dofs and element routine (`ScriptProofs.v`), so everything is said of tables (`SpecScript.v`).
  Frames: the energy of a beam vanishes only on rigid motions of the mirrored plane, which the two ends carry
  along the chain of beams.  The bar: free vibration is a linear recurrence between neighbours whose bounded
  solutions are sines; the frequency bounds are Taylor bounds of the sine.  The cantilever: the closed form is in
  equilibrium, and equilibrium is unique.

* C90, C95 (`PropSolid.v`): C38 for the solid elements and the chain of shared faces; a rigid motion is known by three
  points that are not collinear.  Patch test: the shape functions of a tetrahedron are affine fields whose gradients
  are face areas over the volume, so C34 gives the nodal forces.

* C96 (`PropRun.v`): C86 reads the tables, C18 compares the drivers, C12 and C73 do the rest.

* C97 (`PropTrussDraw.v`): windows as in C88.  Entry 1 of the colour table is next to the deepest blue: the
  array of ones has the integer type of `elements` (postprocesor.py:215), and matplotlib reads integers as positions.

* C98, C99 (`PropMass.v`): a field interpolated from the nodes that vanishes at all Gauss points vanishes at the nodes
  (product of Lagrange polynomials for the quadrilaterals and bricks, a small linear system for the triangles), so the
  sum of squares that the quadrature returns is positive (`MassPos.v`).  Natural motions: the least upper bound of the
  t with K - t M without negative values gives the first one, and the rest follow after moving the ones found out of the
  way (`Spectral.v`, no matrix library); C92 carries vectors to displacement tables.

* C100 (`PropOrder.v`): the shape functions of the relisted element are those of the old one at a turned point, the turn
  keeps the Gauss rule, and the Jacobian, the gradients and the weights follow (`OrderProofs.v`, `OrderProofs2.v`).  An
  element's term in the energy is then the same, and energies determine nodal forces and the assembled matrices.

* C101 (`PropStiff.v`): with U and V the motions before and after, V is admissible before, so the energy of U - V bounds
  the fall of the work (`StiffProofs.v`).  Frequencies: were more motions below a level than before, some combination of
  the new ones would be orthogonal to all the old low ones, and its energy quotient would be both below the level and not
  below it (`under_determined` of `Spectral.v`).

* C102 (`PropWave.v`): the independent dofs and their new numbers are in bijection (C67), so the q of a wave is read off
  its independent dofs; the sum of squares splits into independent dofs and pairs (`WaveProofs.v`).
* C103 (`PropAny.v`): the loops of the assembler are followed for an arbitrary instance of the class of numbers: an entry is
  a left fold of `nadd` over the terms in loop order. The rounded instance gives the usual bound by induction on the terms.
  `C103_binary` shows that binary numbers of p digits are an instance of `rounding`.
* C104 (`PropAny.v`): `close k` (a factor between (1-u)^k and its inverse) is closed under rounding, products, quotients,
  roots and sums of non-negative numbers; the bar routine is such a chain of 25 steps. For trusses the terms of an entry are
  bounded by the diagonal because element matrices are positive semidefinite.

* C105 - C107 (`PropTemplate.v`): the digits written by `%.kf` are those of the nearest multiple of 10^-k, and reading them
  back gives that multiple (`TemplateProofs.v`). A triangle is `sturdy` when moving every coordinate by half a unit of the
  fourth decimal leaves its area above the tolerance of the Jacobian; the model read from the files is then supported and
  stable, and the theorems on runs and reactions apply.
* C108 (`PropRefine.v`): `finer` says that the fine mesh can make every motion of the coarse one at the same energy, and that
  its loads do the same work on it. For triangles and tetrahedra this follows from C34 (the energy of an affine motion is the
  area times that of its gradient, with the same rounded weight for every element) and from the areas of the pieces adding up
  to that of their parent (`nested`). The energy of the difference of the two answers is then the growth of the work of the
  loads. Quadrilaterals are left outside: the pieces of a bilinear motion are not affine and the Gauss points are rounded.
* C109 (`PropTied.v`): `shareb` says which dofs have equation q (the q-th free dof and those with the flag q), from the flags
  alone; `tied_equilibrium` is equilibrium of the sums over the dofs of an equation for tables that move them together;
  `untied` cuts the ties, `wrapped` counts the flags below -1 from the end.
* C110 (`PropExample.v`): strains are partial derivatives (`derivable_pt_lim`) of the displacements returned; equilibrium, free sides and the
  resultant of the shear stress are stated on functions of the plane. The tables are stated entry by entry; reactions and couple are those
  of `solids_auto` run on the same numbers split in two tables (`split_model`).
* C111 (`PropBrazil.v`): `brazil_model` says what the files must show, with the material number of a tag as a parameter: `described` is the
  text of the tutorial, the constant 1 what the script does. `files_show` is the same as for C105. `TriModel.v` has the common part of the runs.
* C112 (`PropSquare.v`): `plate` is the model of the first tutorial with free size, material and load; `square_files` is the text of the
  example files; `tutorial_run` the counts, the table and its entries at the free dofs, which must be the array printed.

* C113 (`PropDocTruss.v`): `extends md N c` says that the table `N` of `c` columns starts with the node table of the truss `md`; `reach` is
  the distance of the ends of a bar in all columns after the number, `soft` the cube of true length over that distance. `truss_script`
  is the five calls with `N` for the nodes; `balanced`, `determinate` are those of C80. `fem_sol` is `truss_script` with the flags
  taken from columns 3 and 4.

* C114 (`PropEnergy.v`): fields and maps are polynomials in r, s given as lists of terms (`SpecEnergy.v`), with sums, products and
  derivatives of lists; C114_arithmetic and C114_derivatives show that the lists mean what they say. `energy` is the plane stress energy
  density of two fields on an element with an affine map (`frame`), `kinetic` the density times the product of the fields. Integrals are
  the iterated antiderivatives of `SpecQuad.v`; `integral_sq` is the same over the square. C114_every_vector: no nodal vector is left out.
  `PropEnergy3.v` is the same for tetrahedra and for bricks that are parallelepipeds (`SpecEnergy3.v`: isotropic energy λ tr e tr e' + 2μ e:e').
  `PropEnergy1.v`: bars and beams, with fields given as functions of the distance to the first end and their derivatives (`SpecEnergy1.v`).
* C115 (`PropSymm.v`): `symmetry` (`SpecSymm.v`) states what a mirror line or a half turn must carry over: coordinates, flags, element
  rows up to order of the rows and listing of the nodes; `follows` is the same for a nodal table, up to a sign. `flips` and `spins` list
  the admissible orders by element type; for the 6-node triangle only those that also carry its tabulated rule onto itself digit for digit.
* C116 (`PropSymmPost.v`): the strains and stresses recovered in the runs of C115. `listed_alike` (`SpecSymm.v`) asks that the
  elements be listed so that the recovery points go along with the nodes; every mesh of 6-node triangles is. The witness of the
  refutation (`SymmRef.v`) is the tutorial plate with its upper corners pulled apart, for every solver that solves.
* C117 (`PropCast.v`, `PropCast2.v` for frames, solids and user elements): a family of runs, one for each value of a load parameter; `derivable_pt_lim` of the standard library.
  `PropPrinciples.v` has C13, C70 and C71 for the same problems (`SpecScript.v`).

A claim that is false of the code has a `_refuted` theorem giving the witness, and a
`_partial` theorem with the part that holds; its status in the manifest is `partial`.

## 4. Findings

Claims a user would expect and that the code does not meet:

| property | what the code does |
|---|---|
| C09 | a second load row on a node overwrites the first |
| C19 | `solids_auto` numbers two dofs per node, so beam models with rotations assemble a wrong system |
| C26 | the Jacobian tolerance is absolute: the same element is accepted in one unit of length, rejected in another |
| C30 | the axisymmetric law has no coupling of hoop and in-plane strains |
| C33 | the beam transformation has a wrong sign: an inclined beam resists rigid rotation |
| C40 | a mesh with an active spring cannot be assembled |
| C40 | a spring whose material row has two numbers gets a matrix that is not symmetric; with three or more it is refused |
| C41 | `beam2DU` with density but no area raises |
| C42 | axisymmetric elements integrate over the section, not over the ring |
| C48 | strains of three-node triangles reach only their first node |
| C50 | Gauss points are given to nodes in product order, not counterclockwise |
| C116 | for that reason a symmetric plate of quadrilaterals shows unsymmetric strains: its two pulled corners differ by a factor above three |
| C51 | strain recovery rejects material rows with a density |
| C52 | Gauss point positions hold the x coordinate twice |
| C55 | principal values have an absolute tolerance |
| C57 | meshes of element 8 are sent to the contour plotter, which raises |
| C63 | a second boundary-condition call erases the restraints of the first |
| C65 | echoed reals are rounded to two decimals |
| C66 | a typed folder without a final slash is not found |
| C68 | image dofs get the old number of their reference |
| C75 | an unloaded truss is not drawn (0/0); stresses are looked up by element identifier, not by position |
| C76 | the tolerance on areas is absolute: areas below 1e-6 are all drawn with width 3 |
| C78 | the Jacobian is tested at Gauss points only: a quadrilateral with a reflex corner, folded there, is accepted |
| C88 | default window numbers count the open windows: after closing one, an open window is drawn over; a one-column table is not flattened |
| C94 | the tip of a cantilever that is not horizontal moves as if the beam were mirrored: a column pushed sideways rotates the wrong way |
| C104 | in rounded arithmetic the stiffness of a bar need not be symmetric: entries (i, j) and (j, i) are rounded differently |
| C106 | the tutorial writes loads with six decimals: the total of 2 is missed by up to half a millionth for each loaded node |
| C107 | the tutorial writes coordinates with four decimals: a triangle thinner than that is flattened and the run stops |
| C109 | a constraint flag k > 0 is taken for an equation number: the dof is tied to the k-th free dof without a message |
| C110 | `beam_sln` counts C5 twice and has P/(2 I G) for P/(6 I G) in u: its shear strain is not that of its displacements. The loads of the notebook add up to P (ny + 1)/ny, the node held in y is not on the held side, and the call `ass.DME(nodes, els)` raises ValueError in this version |
| C111 | the list assigned to the material column has only the triangles of the group 4, all with 1 (the text: 0 for the group 4, 1 for the others); with several marked vertices the load table cannot be filled |
| C112 | the tutorial takes `UC[0::2]`, `UC[1::2]` of the array of free dofs for the components of nodes; no node moves by the 0.849 printed (the table returned now has one row per node, so the statement itself stops) |
| C113 | `fem_sol` of the docstring gives the assembler the node table with the flags; `truss2D` takes the norm over all columns, so bars between nodes with different flags are too long: Exercise 3.3-18 returns 2√2 times, 3.3-22 returns 3√3 times the documented stresses, 3.3-19 another ratio |
| C100 | nodal strains of a quad4 depend on the corner listed first (displacements do not) |

## 5. Trusted base

* Coq's kernel (8.16.1), also run through `coqchk`.
* The reading of the Python source into the definitions of the model, and of numpy, scipy
  and matplotlib primitives into the definitions that stand for them.
* The axioms of the standard library behind the reals: `ClassicalDedekindReals.sig_forall_dec`
  (F), `ClassicalDedekindReals.sig_not_dec` (N),
  `FunctionalExtensionality.functional_extensionality_dep` (E), and `Classical_Prop.classic` (C).

No axiom, admitted proof, functor or plugin is added; only the standard library is used.
What `Print Assumptions` lists for each theorem (`tools/assumptions.py`):

<!-- axioms begin -->
| axioms listed | theorems |
|---|---|
| none | C17_other_storage, C56_other, C57_beams_refuted, C57_printed_partial, C57_contoured_partial, C58_conforming, C60_rows, C60_chain, C60_other, C67_rank, C67_consecutive, C67_runs, C68_refuted, C68_exact_partial, C88_windows_partial, C103_entries, C103_storage, C103_symmetric |
| CEFN | C38_tri6, C38_quad8, C38_quad9, C38_axisymmetric, C43_integral_defined, C43_degree, C44_monomials, C45_integral_defined, C45_degree, C46_integral_defined, C46_degree, C72_stable, C79_stable, C79_run, C79_tension, C93_modes, C93_bounds, C93_rate, C99_model_basis, C99_solids_basis, C99_frames_basis, C101_frequencies, C101_sorted, C107_runs_partial, C109_refuted, C110_runs, C111_runs, C112_plate, C112_argument, C112_dialog, C112_typed, C112_magnitude_refuted, C112_magnitudes, C114_stiffness, C114_mass, C114_solid, C114_bar, C114_beam, C114_beam_mirrored, C114_beamU_mirrored, C116_refuted |
| EF | C08_no_row, C08_last_row, C13_combination, C26_enlarged_partial, C56_element, C56_orientation, C56_mesh, C82_supports, C91_clamped, C101_point, C105_loads, C106_refuted, C106_near_partial, C106_exact_partial, C114_arithmetic, C114_derivatives, C114_gradient, C114_quadratics, C114_every_vector, C114_solid_arithmetic, C114_solid_derivatives, C114_solid_gradient, C114_solid_every_vector |
| EFN | C01_numbering, C02_assembly_operator, C02_rejections, C02_single, C03_direct_stiffness, C04_sparse_dense, C05_element_order, C06_inherited, C06_builtin, C07_global_action, C08_loads, C09_loads_accumulate_refuted, C09_loads_accumulate_partial, C10_complete_disp, C11_types, C11_shapes, C11_points, C12_equilibrium, C13_superposition, C13_script, C14_patch, C15_internal_forces, C15_reactions, C15_moments, C16_energy, C16_work, C16_elements, C16_sign, C16_scale, C17_dispatch, C17_same_answer, C18_two_drivers, C19_beam_equations_refuted, C19_beam_equations_partial, C20_relabelling, C20_relabelled_runs, C21_unity_plane, C21_unity_solid, C22_kronecker, C23_gradient_plane, C23_gradient_solid, C24_completeness, C25_accepted, C25_decision, C25_shapes, C26_units_refuted, C26_units_partial, C27_plane, C27_axisymmetric, C27_solid, C28_plane_stress, C28_positive, C29_compliance, C30_axisymmetric_law_refuted, C30_axisymmetric_law_partial, C30_defect_partial, C31_plane, C31_solid, C31_axisymmetric, C31_truss, C31_spring, C31_beam, C31_beamU, C32_plane, C32_solid, C32_axisymmetric, C32_bars, C33_beam_refuted, C33_beamU_refuted, C33_beam_partial, C33_beamU_partial, C34_plane, C34_solid, C35_plane, C35_solid, C35_truss, C35_beam, C35_beamU, C36_plane, C36_solid, C36_truss, C36_plane_independent, C36_solid_independent, C36_truss_independent, C36_default, C37_plane, C37_solid, C37_truss, C37_plane_translated, C37_solid_translated, C37_bars_translated, C38_tri3, C38_quad4, C38_tet4, C38_hex8, C38_parallelepiped, C39_closed_form, C39_zero_length, C40_spring_refuted, C40_spring_never_refuted, C40_spring_row, C41_beamU_three_refuted, C41_beamU_partial, C42_ring_refuted, C42_section_partial, C43_range, C44_sizes, C44_range, C44_tensor, C45_range, C46_range, C47_average, C47_uniform_strain, C47_runs, C48_refuted, C48_strain_partial, C49_hooke, C50_refuted, C50_order_partial, C51_refuted, C51_rejected_partial, C52_refuted, C52_positions_partial, C52_rows, C53_hooke, C53_rigid, C53_swap, C53_linear, C54_exact, C54_diagonal, C54_small, C54_invariants, C54_rows, C54_any, C55_refuted, C55_scale_partial, C58_nodes, C58_elements, C59_jacobian, C59_accepted, C61_nodes, C62_total, C62_empty, C64_elements, C65_refuted, C65_near_partial, C66_refuted, C66_dialog_partial, C66_prompt_partial, C69_periodicity, C69_modulus, C69_zero, C69_runs, C70_reciprocity, C70_script, C71_minimum, C71_clapeyron, C71_script, C71_script_unique, C73_runs, C73_full, C74_meaning, C74_no_warning, C75_drawn_partial, C75_unloaded_refuted, C75_numbering_refuted, C76_widths_partial, C76_small_refuted, C77_forces, C77_interior, C77_run, C77_recovered, C78_reflex_refuted, C78_convex_partial, C78_area_partial, C78_triangle_partial, C79_forces, C80_joints, C80_least, C80_determinate, C81_mechanisms, C81_simple, C81_maxwell, C81_determinate, C81_accepted, C82_turned, C82_runs, C83_plane, C83_plane_runs, C83_truss, C83_truss_runs, C84_turned, C84_linear, C84_truss, C85_report, C85_flags, C86_read, C86_refused, C87_written, C89_equilibrium, C89_runs, C89_unique, C89_storage, C89_regular, C89_energy, C89_virtual_work, C90_wf, C90_stable, C90_pinned, C90_runs, C91_wf, C91_stable, C91_runs, C92_modes, C92_nonneg, C92_orthogonal, C92_frame, C92_frame_orthogonal, C93_order, C94_refuted, C94_tip_partial, C95_forces, C95_interior, C95_run, C96_argument, C96_dialog, C96_equilibrium, C96_runs, C96_refused, C97_window, C97_plain, C98_plane, C98_solid, C98_axi, C98_truss, C98_model, C98_solids, C98_frames, C99_model, C99_solids, C99_orthogonal, C99_solids_orthogonal, C100_element, C100_mesh, C100_runs, C100_masses, C100_auto, C100_strains_refuted, C101_stable, C101_work, C101_runs, C101_order, C101_proportional, C101_proportional_user, C101_reinforced, C102_solutions, C102_unique, C102_norm, C102_opposite, C102_reciprocal, C102_moved, C102_runs, C103_rounding, C103_exact, C103_copied, C104_bar, C104_truss, C104_symmetric_refuted, C105_written, C105_read, C105_refused, C107_refuted, C108_triangles, C108_tetrahedra, C108_work, C108_best, C108_point, C108_stable, C108_runs, C108_auto, C109_solved, C109_auto, C109_runs, C109_auto_runs, C109_stable, C109_less, C109_too_large, C109_too_small, C109_wraps, C110_strains_partial, C110_strains_where, C110_strains_refuted, C110_stress, C110_tables, C110_support, C110_support_refuted, C110_load, C110_load_refuted, C110_stops, C110_wide, C110_reaction, C110_couple, C111_described, C111_refuted, C111_read_partial, C111_groups, C111_vertices, C113_joints, C113_factor, C113_determinate, C113_answers, C113_18, C113_19, C113_22, C113_18_refuted, C113_19_refuted, C113_22_refuted, C113_three_columns, C114_accepted, C114_solid_accepted, C114_bar_every, C114_beam_every, C115_symmetric, C115_axis, C116_run_partial, C116_rows_partial, C116_tri6_partial, C117_direction, C117_point, C117_script |
| F | C57_refuted, C61_conditions, C61_order, C63_refuted, C63_kept_partial, C85_shown, C88_reuse_refuted, C88_column_refuted, C88_contents_partial, C88_draws, C88_run, C88_again |
<!-- axioms end -->

## 6. Testing the theorems

`seeded/LOG.jsonl` records the experiments with wrong programs: the definition edited, the
edit, the claim it breaks, the proofs that stopped, and the theorems tightened as a result.
