{
 "claims": [
  {
   "property": "C01",
   "status": "proved",
   "theorems": [
    "C01_numbering"
   ],
   "note": ""
  },
  {
   "property": "C02",
   "status": "proved",
   "theorems": [
    "C02_assembly_operator",
    "C02_rejections",
    "C02_single"
   ],
   "note": "node numbers in [-n,0) wrap as numpy does and are outside the 'in range' hypothesis"
  },
  {
   "property": "C03",
   "status": "proved",
   "theorems": [
    "C03_direct_stiffness"
   ],
   "note": ""
  },
  {
   "property": "C04",
   "status": "proved",
   "theorems": [
    "C04_sparse_dense"
   ],
   "note": ""
  },
  {
   "property": "C05",
   "status": "proved",
   "theorems": [
    "C05_element_order"
   ],
   "note": ""
  },
  {
   "property": "C06",
   "status": "proved",
   "theorems": [
    "C06_inherited",
    "C06_builtin"
   ],
   "note": ""
  },
  {
   "property": "C07",
   "status": "proved",
   "theorems": [
    "C07_global_action"
   ],
   "note": ""
  },
  {
   "property": "C08",
   "status": "proved",
   "theorems": [
    "C08_loads",
    "C08_no_row",
    "C08_last_row"
   ],
   "note": ""
  },
  {
   "property": "C09",
   "status": "partial",
   "theorems": [
    "C09_loads_accumulate_refuted",
    "C09_loads_accumulate_partial"
   ],
   "note": "REFUTED: loadasem overwrites instead of accumulating; proved for tables on disjoint sets of nodes"
  },
  {
   "property": "C10",
   "status": "proved",
   "theorems": [
    "C10_complete_disp"
   ],
   "note": ""
  },
  {
   "property": "C11",
   "status": "proved",
   "theorems": [
    "C11_types",
    "C11_shapes",
    "C11_points"
   ],
   "note": ""
  },
  {
   "property": "C12",
   "status": "proved",
   "theorems": [
    "C12_equilibrium"
   ],
   "note": ""
  },
  {
   "property": "C13",
   "status": "proved",
   "theorems": [
    "C13_superposition",
    "C13_combination",
    "C13_script"
   ],
   "note": ""
  },
  {
   "property": "C14",
   "status": "proved",
   "theorems": [
    "C14_patch"
   ],
   "note": ""
  },
  {
   "property": "C15",
   "status": "proved",
   "theorems": [
    "C15_internal_forces",
    "C15_reactions",
    "C15_moments"
   ],
   "note": "element types 1-4 and 6 (the spring cannot be assembled, C40; beams carry moments and are not free of rigid-motion forces, C33)"
  },
  {
   "property": "C16",
   "status": "proved",
   "theorems": [
    "C16_energy",
    "C16_work",
    "C16_elements",
    "C16_sign",
    "C16_scale"
   ],
   "note": ""
  },
  {
   "property": "C17",
   "status": "proved",
   "theorems": [
    "C17_dispatch",
    "C17_other_storage",
    "C17_same_answer"
   ],
   "note": "library solvers are parameters; same_answer assumes each returns a solution of its system and the matrix is regular"
  },
  {
   "property": "C18",
   "status": "proved",
   "theorems": [
    "C18_two_drivers"
   ],
   "note": ""
  },
  {
   "property": "C19",
   "status": "partial",
   "theorems": [
    "C19_beam_equations_refuted",
    "C19_beam_equations_partial"
   ],
   "note": "REFUTED: solids_auto calls DME with two dofs per node; the rotation column keeps the value 0, an equation number; partial: DME with three dofs per node"
  },
  {
   "property": "C20",
   "status": "proved",
   "theorems": [
    "C20_relabelling",
    "C20_relabelled_runs"
   ],
   "note": ""
  },
  {
   "property": "C21",
   "status": "proved",
   "theorems": [
    "C21_unity_plane",
    "C21_unity_solid"
   ],
   "note": ""
  },
  {
   "property": "C22",
   "status": "proved",
   "theorems": [
    "C22_kronecker"
   ],
   "note": ""
  },
  {
   "property": "C23",
   "status": "proved",
   "theorems": [
    "C23_gradient_plane",
    "C23_gradient_solid"
   ],
   "note": ""
  },
  {
   "property": "C24",
   "status": "proved",
   "theorems": [
    "C24_completeness"
   ],
   "note": ""
  },
  {
   "property": "C25",
   "status": "proved",
   "theorems": [
    "C25_accepted",
    "C25_decision",
    "C25_shapes"
   ],
   "note": ""
  },
  {
   "property": "C26",
   "status": "partial",
   "theorems": [
    "C26_units_refuted",
    "C26_units_partial",
    "C26_enlarged_partial"
   ],
   "note": "REFUTED: the tolerance 1e-8 on the determinant is absolute; proved under a lower bound on the determinant, and for enlargements"
  },
  {
   "property": "C27",
   "status": "proved",
   "theorems": [
    "C27_plane",
    "C27_axisymmetric",
    "C27_solid"
   ],
   "note": ""
  },
  {
   "property": "C28",
   "status": "proved",
   "theorems": [
    "C28_plane_stress",
    "C28_positive"
   ],
   "note": ""
  },
  {
   "property": "C29",
   "status": "proved",
   "theorems": [
    "C29_compliance"
   ],
   "note": ""
  },
  {
   "property": "C30",
   "status": "partial",
   "theorems": [
    "C30_axisymmetric_law_refuted",
    "C30_axisymmetric_law_partial",
    "C30_defect_partial"
   ],
   "note": "REFUTED: the coupling between hoop and in-plane strains is missing; partial: strains without coupling, and the exact defect"
  },
  {
   "property": "C31",
   "status": "proved",
   "theorems": [
    "C31_plane",
    "C31_solid",
    "C31_axisymmetric",
    "C31_truss",
    "C31_spring",
    "C31_beam",
    "C31_beamU"
   ],
   "note": ""
  },
  {
   "property": "C32",
   "status": "proved",
   "theorems": [
    "C32_plane",
    "C32_solid",
    "C32_axisymmetric",
    "C32_bars"
   ],
   "note": ""
  },
  {
   "property": "C33",
   "status": "partial",
   "theorems": [
    "C33_beam_refuted",
    "C33_beamU_refuted",
    "C33_beam_partial",
    "C33_beamU_partial"
   ],
   "note": "REFUTED: the rotation matrix has the sign of one off-diagonal entry wrong; rotations are force free only for horizontal beams"
  },
  {
   "property": "C34",
   "status": "proved",
   "theorems": [
    "C34_plane",
    "C34_solid"
   ],
   "note": "the area/volume factor is exact for quad4 and tet4, 1e-12 off for tri3, within the printed digits of the Gauss tables for the curved elements and hex8"
  },
  {
   "property": "C35",
   "status": "proved",
   "theorems": [
    "C35_plane",
    "C35_solid",
    "C35_truss",
    "C35_beam",
    "C35_beamU"
   ],
   "note": "total mass of the beams: C31_beam"
  },
  {
   "property": "C36",
   "status": "proved",
   "theorems": [
    "C36_plane",
    "C36_solid",
    "C36_truss",
    "C36_plane_independent",
    "C36_solid_independent",
    "C36_truss_independent",
    "C36_default"
   ],
   "note": ""
  },
  {
   "property": "C37",
   "status": "proved",
   "theorems": [
    "C37_plane",
    "C37_solid",
    "C37_truss",
    "C37_plane_translated",
    "C37_solid_translated",
    "C37_bars_translated"
   ],
   "note": ""
  },
  {
   "property": "C38",
   "status": "proved",
   "theorems": [
    "C38_tri3",
    "C38_quad4",
    "C38_tri6",
    "C38_quad8",
    "C38_quad9",
    "C38_tet4",
    "C38_hex8",
    "C38_parallelepiped",
    "C38_axisymmetric"
   ],
   "note": ""
  },
  {
   "property": "C39",
   "status": "proved",
   "theorems": [
    "C39_closed_form",
    "C39_zero_length"
   ],
   "note": ""
  },
  {
   "property": "C40",
   "status": "partial",
   "theorems": [
    "C40_spring_refuted",
    "C40_spring_never_refuted",
    "C40_spring_row"
   ],
   "note": "REFUTED: the spring returns a one-dimensional mass, which the assembler cannot index; no mesh with an active spring assembles"
  },
  {
   "property": "C41",
   "status": "partial",
   "theorems": [
    "C41_beamU_three_refuted",
    "C41_beamU_partial"
   ],
   "note": "REFUTED: three parameters raise ValueError; two and four work"
  },
  {
   "property": "C42",
   "status": "partial",
   "theorems": [
    "C42_ring_refuted",
    "C42_section_partial"
   ],
   "note": "REFUTED: the factor 2 pi r is missing; the mass is that of the plane section"
  },
  {
   "property": "C43",
   "status": "proved",
   "theorems": [
    "C43_integral_defined",
    "C43_degree",
    "C43_range"
   ],
   "note": "table literals are read as decimals"
  },
  {
   "property": "C44",
   "status": "proved",
   "theorems": [
    "C44_sizes",
    "C44_range",
    "C44_tensor",
    "C44_monomials"
   ],
   "note": ""
  },
  {
   "property": "C45",
   "status": "proved",
   "theorems": [
    "C45_integral_defined",
    "C45_degree",
    "C45_range"
   ],
   "note": ""
  },
  {
   "property": "C46",
   "status": "proved",
   "theorems": [
    "C46_integral_defined",
    "C46_degree",
    "C46_range"
   ],
   "note": ""
  },
  {
   "property": "C47",
   "status": "proved",
   "theorems": [
    "C47_average",
    "C47_uniform_strain",
    "C47_runs"
   ],
   "note": "types 1 and 2; C47_average covers type 3 as well; nodes of no element have no row"
  },
  {
   "property": "C48",
   "status": "partial",
   "theorems": [
    "C48_refuted",
    "C48_strain_partial"
   ],
   "note": "REFUTED: only the first node of a three-node triangle gets its strain; partial gives the exact factor"
  },
  {
   "property": "C49",
   "status": "proved",
   "theorems": [
    "C49_hooke"
   ],
   "note": ""
  },
  {
   "property": "C50",
   "status": "partial",
   "theorems": [
    "C50_refuted",
    "C50_order_partial"
   ],
   "note": "REFUTED: Gauss points are taken in product order; partial gives the order used"
  },
  {
   "property": "C51",
   "status": "partial",
   "theorems": [
    "C51_refuted",
    "C51_rejected_partial"
   ],
   "note": "REFUTED: a density column makes strain_nodes fail; C47_runs covers two-column rows"
  },
  {
   "property": "C52",
   "status": "partial",
   "theorems": [
    "C52_refuted",
    "C52_positions_partial",
    "C52_rows"
   ],
   "note": "REFUTED: the positions hold the x coordinate twice; strains are those of the Gauss points"
  },
  {
   "property": "C53",
   "status": "proved",
   "theorems": [
    "C53_hooke",
    "C53_rigid",
    "C53_swap",
    "C53_linear"
   ],
   "note": ""
  },
  {
   "property": "C54",
   "status": "proved",
   "theorems": [
    "C54_exact",
    "C54_diagonal",
    "C54_small",
    "C54_invariants",
    "C54_rows",
    "C54_any"
   ],
   "note": ""
  },
  {
   "property": "C55",
   "status": "partial",
   "theorems": [
    "C55_refuted",
    "C55_scale_partial"
   ],
   "note": "REFUTED: the tolerance is absolute; partial: holds when both tensors have an entry of size tol"
  },
  {
   "property": "C56",
   "status": "proved",
   "theorems": [
    "C56_element",
    "C56_orientation",
    "C56_other",
    "C56_mesh"
   ],
   "note": ""
  },
  {
   "property": "C57",
   "status": "partial",
   "theorems": [
    "C57_refuted",
    "C57_beams_refuted",
    "C57_printed_partial",
    "C57_contoured_partial"
   ],
   "note": "REFUTED for type 8; partial: types 5, 6 and 7"
  },
  {
   "property": "C58",
   "status": "proved",
   "theorems": [
    "C58_nodes",
    "C58_elements",
    "C58_conforming"
   ],
   "note": ""
  },
  {
   "property": "C59",
   "status": "proved",
   "theorems": [
    "C59_jacobian",
    "C59_accepted"
   ],
   "note": ""
  },
  {
   "property": "C60",
   "status": "proved",
   "theorems": [
    "C60_rows",
    "C60_chain",
    "C60_other"
   ],
   "note": ""
  },
  {
   "property": "C61",
   "status": "proved",
   "theorems": [
    "C61_nodes",
    "C61_conditions",
    "C61_order"
   ],
   "note": "list(set(.)) is any function giving the members once"
  },
  {
   "property": "C62",
   "status": "proved",
   "theorems": [
    "C62_total",
    "C62_empty"
   ],
   "note": ""
  },
  {
   "property": "C63",
   "status": "partial",
   "theorems": [
    "C63_refuted",
    "C63_kept_partial"
   ],
   "note": "REFUTED: a second call overwrites both flags; partial: nodes off the second line, or flags repeated"
  },
  {
   "property": "C64",
   "status": "proved",
   "theorems": [
    "C64_elements"
   ],
   "note": ""
  },
  {
   "property": "C65",
   "status": "partial",
   "theorems": [
    "C65_refuted",
    "C65_near_partial"
   ],
   "note": "REFUTED: %5.2f rounds; partial: error at most 0.005, exact for multiples of 0.01"
  },
  {
   "property": "C66",
   "status": "partial",
   "theorems": [
    "C66_refuted",
    "C66_dialog_partial",
    "C66_prompt_partial"
   ],
   "note": "REFUTED: the prompt adds no slash; partial: dialog, and prompts ending in a slash"
  },
  {
   "property": "C67",
   "status": "proved",
   "theorems": [
    "C67_rank",
    "C67_consecutive",
    "C67_runs"
   ],
   "note": ""
  },
  {
   "property": "C68",
   "status": "partial",
   "theorems": [
    "C68_refuted",
    "C68_exact_partial"
   ],
   "note": "REFUTED: the old number of the reference is used; partial: exact condition"
  },
  {
   "property": "C69",
   "status": "proved",
   "theorems": [
    "C69_periodicity",
    "C69_modulus",
    "C69_zero",
    "C69_runs"
   ],
   "note": ""
  },
  {
   "property": "C70",
   "status": "proved",
   "theorems": [
    "C70_reciprocity",
    "C70_script"
   ],
   "note": ""
  },
  {
   "property": "C71",
   "status": "proved",
   "theorems": [
    "C71_minimum",
    "C71_clapeyron",
    "C71_script",
    "C71_script_unique"
   ],
   "note": ""
  },
  {
   "property": "C72",
   "status": "proved",
   "theorems": [
    "C72_stable"
   ],
   "note": ""
  },
  {
   "property": "C73",
   "status": "proved",
   "theorems": [
    "C73_runs",
    "C73_full"
   ],
   "note": ""
  },
  {
   "property": "C74",
   "status": "proved",
   "theorems": [
    "C74_meaning",
    "C74_no_warning"
   ],
   "note": "exact arithmetic"
  },
  {
   "property": "C75",
   "status": "partial",
   "theorems": [
    "C75_drawn_partial",
    "C75_unloaded_refuted",
    "C75_numbering_refuted"
   ],
   "note": "REFUTED: an unloaded truss divides by zero, and stresses are looked up by element identifier; partial: some stress not zero and identifiers equal to positions"
  },
  {
   "property": "C76",
   "status": "partial",
   "theorems": [
    "C76_widths_partial",
    "C76_small_refuted"
   ],
   "note": "REFUTED: areas within 1e-6 of each other get width 3; partial: larger spread"
  },
  {
   "property": "C77",
   "status": "proved",
   "theorems": [
    "C77_forces",
    "C77_interior",
    "C77_run",
    "C77_recovered"
   ],
   "note": "triangles carry the factor 1 - 1e-12 of the Gauss weights in the code"
  },
  {
   "property": "C78",
   "status": "partial",
   "theorems": [
    "C78_reflex_refuted",
    "C78_convex_partial",
    "C78_area_partial",
    "C78_triangle_partial"
   ],
   "note": "REFUTED: a reflex quadrilateral is accepted; partial: convex ones are accepted, accepted ones have positive area, triangles exactly"
  },
  {
   "property": "C79",
   "status": "proved",
   "theorems": [
    "C79_stable",
    "C79_forces",
    "C79_run",
    "C79_tension"
   ],
   "note": "meshes of rect_grid; E > 0, -1 < nu < 1, cell area above 4e-8"
  },
  {
   "property": "C80",
   "status": "proved",
   "theorems": [
    "C80_joints",
    "C80_least",
    "C80_determinate"
   ],
   "note": "bars of type 6, E > 0, area > 0, node rows (number, x, y)"
  },
  {
   "property": "C81",
   "status": "proved",
   "theorems": [
    "C81_mechanisms",
    "C81_simple",
    "C81_maxwell",
    "C81_determinate",
    "C81_accepted"
   ],
   "note": "bars of type 6, E > 0, area > 0, node rows (number, x, y)"
  },
  {
   "property": "C82",
   "status": "proved",
   "theorems": [
    "C82_turned",
    "C82_runs",
    "C82_supports"
   ],
   "note": "element types with two dofs per node (plane elements and bars); node rows (number, x, y)"
  },
  {
   "property": "C83",
   "status": "proved",
   "theorems": [
    "C83_plane",
    "C83_plane_runs",
    "C83_truss",
    "C83_truss_runs"
   ],
   "note": "success of the rescaled run for plane elements is stated for lengths that do not shrink: the Jacobian test is absolute (C26)"
  },
  {
   "property": "C84",
   "status": "proved",
   "theorems": [
    "C84_turned",
    "C84_linear",
    "C84_truss"
   ],
   "note": "meshes of one element type; both calls of strain_nodes succeed"
  },
  {
   "property": "C85",
   "status": "proved",
   "theorems": [
    "C85_report",
    "C85_flags",
    "C85_shown"
   ],
   "note": "durations printed are not modelled; C85_shown was added after the wrong program with stress plots before strain plots passed C57"
  },
  {
   "property": "C86",
   "status": "proved",
   "theorems": [
    "C86_read",
    "C86_refused"
   ],
   "note": "values are exact; no nan, inf, hexadecimal literals or underscores; integers written with a point are refused (numpy before 1.23)"
  },
  {
   "property": "C87",
   "status": "proved",
   "theorems": [
    "C87_written"
   ],
   "note": "exact arithmetic: ties are ties of the real number"
  },
  {
   "property": "C88",
   "status": "partial",
   "theorems": [
    "C88_reuse_refuted",
    "C88_column_refuted",
    "C88_windows_partial",
    "C88_contents_partial",
    "C88_draws",
    "C88_run",
    "C88_again"
   ],
   "note": "REFUTED: without window titles the count of open windows is taken as the last number, so after closing window 1 an open window is drawn over; a table of one column is handed over as a table, not as nodal values; partial: windows numbered 1..n or new labels, and fields that are not tables of one column"
  },
  {
   "property": "C89",
   "status": "proved",
   "theorems": [
    "C89_equilibrium",
    "C89_runs",
    "C89_unique",
    "C89_storage",
    "C89_regular",
    "C89_energy",
    "C89_virtual_work"
   ],
   "note": "the five calls of tests/test_integration.py as one function with the optional arguments as parameters; the solvers are any sound functions"
  },
  {
   "property": "C90",
   "status": "proved",
   "theorems": [
    "C90_wf",
    "C90_stable",
    "C90_pinned",
    "C90_runs"
   ],
   "note": "bricks of any shape whose volume vanishes nowhere; the user routine may choose the element by its number of nodes"
  },
  {
   "property": "C91",
   "status": "proved",
   "theorems": [
    "C91_wf",
    "C91_stable",
    "C91_clamped",
    "C91_runs"
   ],
   "note": "support is stated with true rigid motions although the code mirrors the axis of the beams (C33): the two conditions are equivalent for a whole frame"
  },
  {
   "property": "C92",
   "status": "proved",
   "theorems": [
    "C92_modes",
    "C92_nonneg",
    "C92_orthogonal",
    "C92_frame",
    "C92_frame_orthogonal"
   ],
   "note": "which eigenpairs scipy's eigsh returns is not modelled"
  },
  {
   "property": "C93",
   "status": "proved",
   "theorems": [
    "C93_modes",
    "C93_order",
    "C93_bounds",
    "C93_rate"
   ],
   "note": ""
  },
  {
   "property": "C94",
   "status": "partial",
   "theorems": [
    "C94_refuted",
    "C94_tip_partial"
   ],
   "note": "REFUTED: beam2D uses the axis (nx, -ny), so the tip of the mirrored beam is returned; partial: exact closed form of what is returned, right for horizontal beams"
  },
  {
   "property": "C95",
   "status": "proved",
   "theorems": [
    "C95_forces",
    "C95_interior",
    "C95_run"
   ],
   "note": "bricks are outside: their Gauss abscissas are rounded decimals, so uniform stress is met to 1e-15 only (C34)"
  },
  {
   "property": "C96",
   "status": "proved",
   "theorems": [
    "C96_argument",
    "C96_dialog",
    "C96_equilibrium",
    "C96_runs",
    "C96_refused"
   ],
   "note": "composition of C86, C18, C12, C73"
  },
  {
   "property": "C97",
   "status": "proved",
   "theorems": [
    "C97_window",
    "C97_plain"
   ],
   "note": "complements C75, found with a mutant that survived"
  },
  {
   "property": "C98",
   "status": "proved",
   "theorems": [
    "C98_plane",
    "C98_solid",
    "C98_axi",
    "C98_truss",
    "C98_model",
    "C98_solids",
    "C98_frames"
   ],
   "note": "beams: C92 (frames)"
  },
  {
   "property": "C99",
   "status": "proved",
   "theorems": [
    "C99_model",
    "C99_solids",
    "C99_orthogonal",
    "C99_solids_orthogonal",
    "C99_model_basis",
    "C99_solids_basis",
    "C99_frames_basis"
   ],
   "note": "frames: bounds in C92; the step from tables to K x = lam M x is C92_modes; the eigenvalue solver itself is scipy's and is outside"
  },
  {
   "property": "C100",
   "status": "proved",
   "theorems": [
    "C100_element",
    "C100_mesh",
    "C100_runs",
    "C100_masses",
    "C100_auto",
    "C100_strains_refuted"
   ],
   "note": "tri6 left out: its rule is rounded to 13 decimals, so its matrices are reordered only to that precision; springs have a one-dimensional mass (C40)"
  },
  {
   "property": "C101",
   "status": "proved",
   "theorems": [
    "C101_stable",
    "C101_work",
    "C101_runs",
    "C101_point",
    "C101_frequencies",
    "C101_sorted",
    "C101_order",
    "C101_proportional",
    "C101_proportional_user",
    "C101_reinforced"
   ],
   "note": "springs of type 5 have a one-dimensional mass and never assemble (C40)"
  },
  {
   "property": "C102",
   "status": "proved",
   "theorems": [
    "C102_solutions",
    "C102_unique",
    "C102_norm",
    "C102_opposite",
    "C102_reciprocal",
    "C102_moved",
    "C102_runs"
   ],
   "note": "np.exp(1j x) is (cos x, sin x); the wrong numbers that reassign_dof_bloch gives to images (C68) are not read by bloch_transform_mat"
  },
  {
   "property": "C103",
   "status": "proved",
   "theorems": [
    "C103_entries",
    "C103_storage",
    "C103_symmetric",
    "C103_rounding",
    "C103_exact",
    "C103_copied"
   ],
   "note": "rounding without overflow and underflow; scipy may add the duplicates of a sparse entry in another order, the bound is the same for every order"
  },
  {
   "property": "C104",
   "status": "proved",
   "theorems": [
    "C104_bar",
    "C104_truss",
    "C104_symmetric_refuted"
   ],
   "note": "operations in the order of the model; C104_symmetric_refuted is the part of the statement on lost symmetry; rounding without overflow and underflow"
  },
  {
   "property": "C105",
   "status": "proved",
   "theorems": [
    "C105_written",
    "C105_read",
    "C105_refused",
    "C105_loads"
   ],
   "note": "the script after meshio.read, whose result is an argument; meshes without triangles or lines stop with KeyError (not stated)"
  },
  {
   "property": "C106",
   "status": "partial",
   "theorems": [
    "C106_refuted",
    "C106_near_partial",
    "C106_exact_partial"
   ],
   "note": "refuted: each load is rounded to six decimals"
  },
  {
   "property": "C107",
   "status": "partial",
   "theorems": [
    "C107_refuted",
    "C107_runs_partial"
   ],
   "note": "refuted for thin triangles: coordinates are rounded to four decimals; the partial theorem is for triangles whose area survives it"
  },
  {
   "property": "C108",
   "status": "proved",
   "theorems": [
    "C108_triangles",
    "C108_tetrahedra",
    "C108_work",
    "C108_best",
    "C108_point",
    "C108_stable",
    "C108_runs",
    "C108_auto"
   ],
   "note": "displacements only: the mass matrices are integrated with rounded points, so frequencies are left outside"
  },
  {
   "property": "C109",
   "status": "partial",
   "theorems": [
    "C109_refuted",
    "C109_solved",
    "C109_auto",
    "C109_runs",
    "C109_auto_runs",
    "C109_stable",
    "C109_less",
    "C109_too_large",
    "C109_too_small",
    "C109_wraps"
   ],
   "note": "refuted: positive flags tie dofs; the other theorems say what every whole flag does, except -n of n free dofs in the dense mode (equation 0) and flags below -1 of nodes without elements in the sparse mode"
  },
  {
   "property": "C110",
   "status": "partial",
   "theorems": [
    "C110_strains_partial",
    "C110_strains_where",
    "C110_strains_refuted",
    "C110_stress",
    "C110_tables",
    "C110_support",
    "C110_support_refuted",
    "C110_load",
    "C110_load_refuted",
    "C110_stops",
    "C110_wide",
    "C110_runs",
    "C110_reaction",
    "C110_couple"
   ],
   "note": "refuted: shear strain, place of the support, total load, call of DME; the other theorems give the exact values"
  },
  {
   "property": "C111",
   "status": "partial",
   "theorems": [
    "C111_described",
    "C111_refuted",
    "C111_read_partial",
    "C111_groups",
    "C111_vertices",
    "C111_runs"
   ],
   "note": "refuted: material numbers, other groups, several vertices; the rest of the files is as described"
  },
  {
   "property": "C112",
   "status": "partial",
   "theorems": [
    "C112_plate",
    "C112_argument",
    "C112_dialog",
    "C112_typed",
    "C112_magnitude_refuted",
    "C112_magnitudes"
   ],
   "note": "refuted: the lengths of displacement printed in the tutorial; everything else it prints is proved"
  },
  {
   "property": "C113",
   "status": "partial",
   "theorems": [
    "C113_joints",
    "C113_factor",
    "C113_determinate",
    "C113_answers",
    "C113_18",
    "C113_19",
    "C113_22",
    "C113_18_refuted",
    "C113_19_refuted",
    "C113_22_refuted",
    "C113_three_columns"
   ],
   "note": "refuted: the documented calls do not give the documented stresses; exact values returned, the rule for any truss and any further columns, and the calls that do give them are proved"
  },
  {
   "property": "C114",
   "status": "proved",
   "theorems": [
    "C114_arithmetic",
    "C114_derivatives",
    "C114_gradient",
    "C114_quadratics",
    "C114_every_vector",
    "C114_accepted",
    "C114_stiffness",
    "C114_mass",
    "C114_solid_arithmetic",
    "C114_solid_derivatives",
    "C114_solid_gradient",
    "C114_solid_every_vector",
    "C114_solid_accepted",
    "C114_solid",
    "C114_bar",
    "C114_bar_every",
    "C114_beam",
    "C114_beam_mirrored",
    "C114_beamU_mirrored",
    "C114_beam_every"
   ],
   "note": "exact integrals over the reference element, by antiderivatives; error bounded by 1e-12 times the sum of the moduli of the coefficients of the integrand (rounding of the tabulated points)"
  },
  {
   "property": "C115",
   "status": "proved",
   "theorems": [
    "C115_symmetric",
    "C115_axis"
   ],
   "note": "supports follow because the flags do; the image rows must be mesh elements of the same type and material, listed by one of the orders of `flips` / `spins` in SpecSymm.v"
  },
  {
   "property": "C116",
   "status": "partial",
   "theorems": [
    "C116_refuted",
    "C116_run_partial",
    "C116_rows_partial",
    "C116_tri6_partial"
   ],
   "note": "refuted: a symmetric plate of 4-node quadrilaterals gets different strains at its two upper corners; true of 6-node triangles, and of other meshes when the points where strains are taken go along with the nodes (`listed_alike`)"
  },
  {
   "property": "C117",
   "status": "proved",
   "theorems": [
    "C117_direction",
    "C117_point",
    "C117_script"
   ],
   "note": "strain_energy is the sum over the elements in SpecStatic.v; stability is not assumed, only that the driver answers for every value of the parameter"
  }
 ]
}