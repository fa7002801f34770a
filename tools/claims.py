c("C01", P, "C01_numbering")
c("C02", P, "C02_assembly_operator C02_rejections C02_single", "node numbers in [-n,0) wrap as numpy does and are outside the 'in range' hypothesis")
c("C03", P, "C03_direct_stiffness")
c("C04", P, "C04_sparse_dense")
c("C05", P, "C05_element_order")
c("C06", P, "C06_inherited C06_builtin")
c("C07", P, "C07_global_action")
c("C08", P, "C08_loads C08_no_row C08_last_row")
c("C09", Q, "C09_loads_accumulate_refuted C09_loads_accumulate_partial", "REFUTED: loadasem overwrites instead of accumulating; proved for tables on disjoint sets of nodes")
c("C10", P, "C10_complete_disp")
c("C11", P, "C11_types C11_shapes C11_points")
c("C12", P, "C12_equilibrium")
c("C13", P, "C13_superposition C13_combination C13_script")
c("C14", P, "C14_patch")
c("C15", P, "C15_internal_forces C15_reactions C15_moments", "element types 1-4 and 6 (the spring cannot be assembled, C40; beams carry moments and are not free of rigid-motion forces, C33)")
c("C16", P, "C16_energy C16_work C16_elements C16_sign C16_scale")
c("C17", P, "C17_dispatch C17_other_storage C17_same_answer", "library solvers are parameters; same_answer assumes each returns a solution of its system and the matrix is regular")
c("C18", P, "C18_two_drivers")
c("C19", Q, "C19_beam_equations_refuted C19_beam_equations_partial", "REFUTED: solids_auto calls DME with two dofs per node; the rotation column keeps the value 0, an equation number; partial: DME with three dofs per node")
c("C20", P, "C20_relabelling C20_relabelled_runs")
c("C21", P, "C21_unity_plane C21_unity_solid")
c("C22", P, "C22_kronecker")
c("C23", P, "C23_gradient_plane C23_gradient_solid")
c("C24", P, "C24_completeness")
c("C25", P, "C25_accepted C25_decision C25_shapes")
c("C26", Q, "C26_units_refuted C26_units_partial C26_enlarged_partial", "REFUTED: the tolerance 1e-8 on the determinant is absolute; proved under a lower bound on the determinant, and for enlargements")
c("C27", P, "C27_plane C27_axisymmetric C27_solid")
c("C28", P, "C28_plane_stress C28_positive")
c("C29", P, "C29_compliance")
c("C30", Q, "C30_axisymmetric_law_refuted C30_axisymmetric_law_partial C30_defect_partial", "REFUTED: the coupling between hoop and in-plane strains is missing; partial: strains without coupling, and the exact defect")
c("C31", P, "C31_plane C31_solid C31_axisymmetric C31_truss C31_spring C31_beam C31_beamU")
c("C32", P, "C32_plane C32_solid C32_axisymmetric C32_bars")
c("C33", Q, "C33_beam_refuted C33_beamU_refuted C33_beam_partial C33_beamU_partial", "REFUTED: the rotation matrix has the sign of one off-diagonal entry wrong; rotations are force free only for horizontal beams")
c("C34", P, "C34_plane C34_solid", "the area/volume factor is exact for quad4 and tet4, 1e-12 off for tri3, within the printed digits of the Gauss tables for the curved elements and hex8")
c("C35", P, "C35_plane C35_solid C35_truss C35_beam C35_beamU", "total mass of the beams: C31_beam")
c("C36", P, "C36_plane C36_solid C36_truss C36_plane_independent C36_solid_independent C36_truss_independent C36_default")
c("C37", P, "C37_plane C37_solid C37_truss C37_plane_translated C37_solid_translated C37_bars_translated")
c("C38", P, "C38_tri3 C38_quad4 C38_tri6 C38_quad8 C38_quad9 C38_tet4 C38_hex8 C38_parallelepiped C38_axisymmetric")
c("C39", P, "C39_closed_form C39_zero_length")
c("C40", Q, "C40_spring_refuted C40_spring_never_refuted C40_spring_row", "REFUTED: the spring returns a one-dimensional mass, which the assembler cannot index; no mesh with an active spring assembles")
c("C41", Q, "C41_beamU_three_refuted C41_beamU_partial", "REFUTED: three parameters raise ValueError; two and four work")
c("C42", Q, "C42_ring_refuted C42_section_partial", "REFUTED: the factor 2 pi r is missing; the mass is that of the plane section")
c("C43", P, "C43_integral_defined C43_degree C43_range", "table literals are read as decimals")
c("C44", P, "C44_sizes C44_range C44_tensor C44_monomials")
c("C45", P, "C45_integral_defined C45_degree C45_range")
c("C46", P, "C46_integral_defined C46_degree C46_range")
c("C47", P, "C47_average C47_uniform_strain C47_runs", "types 1 and 2; C47_average covers type 3 as well; nodes of no element have no row")
c("C48", Q, "C48_refuted C48_strain_partial", "REFUTED: only the first node of a three-node triangle gets its strain; partial gives the exact factor")
c("C49", P, "C49_hooke", "")
c("C50", Q, "C50_refuted C50_order_partial", "REFUTED: Gauss points are taken in product order; partial gives the order used")
c("C51", Q, "C51_refuted C51_rejected_partial", "REFUTED: a density column makes strain_nodes fail; C47_runs covers two-column rows")
c("C52", Q, "C52_refuted C52_positions_partial C52_rows", "REFUTED: the positions hold the x coordinate twice; strains are those of the Gauss points")
c("C53", P, "C53_hooke C53_rigid C53_swap C53_linear", "")
c("C54", P, "C54_exact C54_diagonal C54_small C54_invariants C54_rows C54_any", "")
c("C55", Q, "C55_refuted C55_scale_partial", "REFUTED: the tolerance is absolute; partial: holds when both tensors have an entry of size tol")
c("C56", P, "C56_element C56_orientation C56_other C56_mesh", "")
c("C57", Q, "C57_refuted C57_beams_refuted C57_printed_partial C57_contoured_partial", "REFUTED for type 8; partial: types 5, 6 and 7")
c("C58", P, "C58_nodes C58_elements C58_conforming", "")
c("C59", P, "C59_jacobian C59_accepted", "")
c("C60", P, "C60_rows C60_chain C60_other", "")
c("C61", P, "C61_nodes C61_conditions C61_order", "list(set(.)) is any function giving the members once")
c("C62", P, "C62_total C62_empty", "")
c("C63", Q, "C63_refuted C63_kept_partial", "REFUTED: a second call overwrites both flags; partial: nodes off the second line, or flags repeated")
c("C64", P, "C64_elements", "")
c("C65", Q, "C65_refuted C65_near_partial", "REFUTED: %5.2f rounds; partial: error at most 0.005, exact for multiples of 0.01")
c("C66", Q, "C66_refuted C66_dialog_partial C66_prompt_partial", "REFUTED: the prompt adds no slash; partial: dialog, and prompts ending in a slash")
c("C67", P, "C67_rank C67_consecutive C67_runs", "")
c("C68", Q, "C68_refuted C68_exact_partial", "REFUTED: the old number of the reference is used; partial: exact condition")
c("C69", P, "C69_periodicity C69_modulus C69_zero C69_runs", "")
c("C70", P, "C70_reciprocity C70_script", "")
c("C71", P, "C71_minimum C71_clapeyron C71_script C71_script_unique", "")
c("C72", P, "C72_stable", "")
c("C73", P, "C73_runs C73_full", "")
c("C74", P, "C74_meaning C74_no_warning", "exact arithmetic")
c("C75", Q, "C75_drawn_partial C75_unloaded_refuted C75_numbering_refuted", "REFUTED: an unloaded truss divides by zero, and stresses are looked up by element identifier; partial: some stress not zero and identifiers equal to positions")
c("C76", Q, "C76_widths_partial C76_small_refuted", "REFUTED: areas within 1e-6 of each other get width 3; partial: larger spread")
c("C77", P, "C77_forces C77_interior C77_run C77_recovered", "triangles carry the factor 1 - 1e-12 of the Gauss weights in the code")
c("C78", Q, "C78_reflex_refuted C78_convex_partial C78_area_partial C78_triangle_partial", "REFUTED: a reflex quadrilateral is accepted; partial: convex ones are accepted, accepted ones have positive area, triangles exactly")
c("C79", P, "C79_stable C79_forces C79_run C79_tension", "meshes of rect_grid; E > 0, -1 < nu < 1, cell area above 4e-8")
c("C80", P, "C80_joints C80_least C80_determinate", "bars of type 6, E > 0, area > 0, node rows (number, x, y)")
c("C81", P, "C81_mechanisms C81_simple C81_maxwell C81_determinate C81_accepted", "bars of type 6, E > 0, area > 0, node rows (number, x, y)")
c("C82", P, "C82_turned C82_runs C82_supports", "element types with two dofs per node (plane elements and bars); node rows (number, x, y)")
c("C83", P, "C83_plane C83_plane_runs C83_truss C83_truss_runs", "success of the rescaled run for plane elements is stated for lengths that do not shrink: the Jacobian test is absolute (C26)")
c("C84", P, "C84_turned C84_linear C84_truss", "meshes of one element type; both calls of strain_nodes succeed")
c("C85", P, "C85_report C85_flags C85_shown", "durations printed are not modelled; C85_shown was added after the wrong program with stress plots before strain plots passed C57")
c("C86", P, "C86_read C86_refused", "values are exact; no nan, inf, hexadecimal literals or underscores; integers written with a point are refused (numpy before 1.23)")
c("C87", P, "C87_written", "exact arithmetic: ties are ties of the real number")
c("C88", Q, "C88_reuse_refuted C88_column_refuted C88_windows_partial C88_contents_partial C88_draws C88_run C88_again", "REFUTED: without window titles the count of open windows is taken as the last number, so after closing window 1 an open window is drawn over; a table of one column is handed over as a table, not as nodal values; partial: windows numbered 1..n or new labels, and fields that are not tables of one column")
c("C89", P, "C89_equilibrium C89_runs C89_unique C89_storage C89_regular C89_energy C89_virtual_work", "the five calls of tests/test_integration.py as one function with the optional arguments as parameters; the solvers are any sound functions")
c("C90", P, "C90_wf C90_stable C90_pinned C90_runs", "bricks of any shape whose volume vanishes nowhere; the user routine may choose the element by its number of nodes")
c("C91", P, "C91_wf C91_stable C91_clamped C91_runs", "support is stated with true rigid motions although the code mirrors the axis of the beams (C33): the two conditions are equivalent for a whole frame")
c("C92", P, "C92_modes C92_nonneg C92_orthogonal C92_frame C92_frame_orthogonal", "which eigenpairs scipy's eigsh returns is not modelled")
c("C93", P, "C93_modes C93_order C93_bounds C93_rate", "")
c("C94", Q, "C94_refuted C94_tip_partial", "REFUTED: beam2D uses the axis (nx, -ny), so the tip of the mirrored beam is returned; partial: exact closed form of what is returned, right for horizontal beams")
c("C95", P, "C95_forces C95_interior C95_run", "bricks are outside: their Gauss abscissas are rounded decimals, so uniform stress is met to 1e-15 only (C34)")
c("C96", P, "C96_argument C96_dialog C96_equilibrium C96_runs C96_refused", "composition of C86, C18, C12, C73")
c("C97", P, "C97_window C97_plain", "complements C75, found with a mutant that survived")
c("C98", P, "C98_plane C98_solid C98_axi C98_truss C98_model C98_solids C98_frames", "beams: C92 (frames)")
c("C99", P, "C99_model C99_solids C99_orthogonal C99_solids_orthogonal C99_model_basis C99_solids_basis C99_frames_basis", "frames: bounds in C92; the step from tables to K x = lam M x is C92_modes; the eigenvalue solver itself is scipy's and is outside")
c("C100", P, "C100_element C100_mesh C100_runs C100_masses C100_auto C100_strains_refuted", "tri6 left out: its rule is rounded to 13 decimals, so its matrices are reordered only to that precision; springs have a one-dimensional mass (C40)")
c("C101", P, "C101_stable C101_work C101_runs C101_point C101_frequencies C101_sorted C101_order C101_proportional C101_proportional_user C101_reinforced", "springs of type 5 have a one-dimensional mass and never assemble (C40)")
c("C102", P, "C102_solutions C102_unique C102_norm C102_opposite C102_reciprocal C102_moved C102_runs", "np.exp(1j x) is (cos x, sin x); the wrong numbers that reassign_dof_bloch gives to images (C68) are not read by bloch_transform_mat")
c("C103", P, "C103_entries C103_storage C103_symmetric C103_rounding C103_exact C103_copied", "rounding without overflow and underflow; scipy may add the duplicates of a sparse entry in another order, the bound is the same for every order")
c("C104", P, "C104_bar C104_truss C104_symmetric_refuted", "operations in the order of the model; C104_symmetric_refuted is the part of the statement on lost symmetry; rounding without overflow and underflow")
c("C105", P, "C105_written C105_read C105_refused C105_loads", "the script after meshio.read, whose result is an argument; meshes without triangles or lines stop with KeyError (not stated)")
c("C106", Q, "C106_refuted C106_near_partial C106_exact_partial", "refuted: each load is rounded to six decimals")
c("C107", Q, "C107_refuted C107_runs_partial", "refuted for thin triangles: coordinates are rounded to four decimals; the partial theorem is for triangles whose area survives it")
c("C108", P, "C108_triangles C108_tetrahedra C108_work C108_best C108_point C108_stable C108_runs C108_auto", "displacements only: the mass matrices are integrated with rounded points, so frequencies are left outside")
c("C109", Q, "C109_refuted C109_solved C109_auto C109_runs C109_auto_runs C109_stable C109_less C109_too_large C109_too_small C109_wraps", "refuted: positive flags tie dofs; the other theorems say what every whole flag does, except -n of n free dofs in the dense mode (equation 0) and flags below -1 of nodes without elements in the sparse mode")
c("C110", Q, "C110_strains_partial C110_strains_where C110_strains_refuted C110_stress C110_tables C110_support C110_support_refuted C110_load C110_load_refuted C110_stops C110_wide C110_runs C110_reaction C110_couple", "refuted: shear strain, place of the support, total load, call of DME; the other theorems give the exact values")
c("C111", Q, "C111_described C111_refuted C111_read_partial C111_groups C111_vertices C111_runs", "refuted: material numbers, other groups, several vertices; the rest of the files is as described")
c("C112", Q, "C112_plate C112_argument C112_dialog C112_typed C112_magnitude_refuted C112_magnitudes", "refuted: the lengths of displacement printed in the tutorial; everything else it prints is proved")
c("C113", Q, "C113_joints C113_factor C113_determinate C113_answers C113_18 C113_19 C113_22 C113_18_refuted C113_19_refuted C113_22_refuted C113_three_columns", "refuted: the documented calls do not give the documented stresses; exact values returned, the rule for any truss and any further columns, and the calls that do give them are proved")
c("C114", P, "C114_arithmetic C114_derivatives C114_gradient C114_quadratics C114_every_vector C114_accepted C114_stiffness C114_mass C114_solid_arithmetic C114_solid_derivatives C114_solid_gradient C114_solid_every_vector C114_solid_accepted C114_solid C114_bar C114_bar_every C114_beam C114_beam_mirrored C114_beamU_mirrored C114_beam_every", "exact integrals over the reference element, by antiderivatives; error bounded by 1e-12 times the sum of the moduli of the coefficients of the integrand (rounding of the tabulated points)")
c("C115", P, "C115_symmetric C115_axis", "supports follow because the flags do; the image rows must be mesh elements of the same type and material, listed by one of the orders of `flips` / `spins` in SpecSymm.v")
c("C116", Q, "C116_refuted C116_run_partial C116_rows_partial C116_tri6_partial", "refuted: a symmetric plate of 4-node quadrilaterals gets different strains at its two upper corners; true of 6-node triangles, and of other meshes when the points where strains are taken go along with the nodes (`listed_alike`)")
c("C117", P, "C117_direction C117_point C117_script", "strain_energy is the sum over the elements in SpecStatic.v; stability is not assumed, only that the driver answers for every value of the parameter")
