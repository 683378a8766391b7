{
 "claims": [
  {
   "property": "C01",
   "status": "proved",
   "theorems": [
    "C01_normalize_range_binary64"
   ],
   "note": "binary64, all rounding included"
  },
  {
   "property": "C02",
   "status": "proved",
   "theorems": [
    "C02_normalize_whole_periods"
   ],
   "note": "exact arithmetic"
  },
  {
   "property": "C03",
   "status": "proved",
   "theorems": [
    "C03_normalize_idempotent_binary64"
   ],
   "note": "binary64; tolerance 0 is handled by C64"
  },
  {
   "property": "C04",
   "status": "proved",
   "theorems": [
    "C04_normalize_canonical"
   ],
   "note": "exact arithmetic; the boundary exception is shown to occur"
  },
  {
   "property": "C05",
   "status": "proved",
   "theorems": [
    "C05_comparisons_decide"
   ],
   "note": "exact arithmetic"
  },
  {
   "property": "C06",
   "status": "proved",
   "theorems": [
    "C06_num_negative_zero_counts"
   ],
   "note": "exact arithmetic, i8 counters"
  },
  {
   "property": "C07",
   "status": "proved",
   "theorems": [
    "C07_decode_positional"
   ],
   "note": "machine integers"
  },
  {
   "property": "C08",
   "status": "proved",
   "theorems": [
    "C08_decode_spg_op"
   ],
   "note": "machine integers"
  },
  {
   "property": "C64",
   "status": "partial",
   "theorems": [
    "C64_normalize_idempotent_all_tolerances_refuted"
   ],
   "note": "REFUTED: the statement is false of the code, witness in binary64; what holds is C03"
  },
  {
   "property": "C09",
   "status": "proved",
   "theorems": [
    "C09_is_approx_eq_spec"
   ],
   "note": "exact arithmetic"
  },
  {
   "property": "C10",
   "status": "proved",
   "theorems": [
    "C10_apply_and_normalize"
   ],
   "note": "exact arithmetic"
  },
  {
   "property": "C11",
   "status": "partial",
   "theorems": [
    "C11_product_is_composition_refuted"
   ],
   "note": "REFUTED: a pair for which the product is neither composition and a triple for which it is not associative; what holds is C12"
  },
  {
   "property": "C12",
   "status": "proved",
   "theorems": [
    "C12_product_composes_iff_commuting"
   ],
   "note": "exact arithmetic"
  },
  {
   "property": "C13",
   "status": "proved",
   "theorems": [
    "C13_generation_is_the_generated_set"
   ],
   "note": "every hash order; products in the i8 range"
  },
  {
   "property": "C14",
   "status": "proved",
   "theorems": [
    "C14_from_number_is_a_point_group"
   ],
   "note": "every hash order"
  },
  {
   "property": "C15",
   "status": "proved",
   "theorems": [
    "C15_apply_transformation_conjugates"
   ],
   "note": "exact arithmetic"
  },
  {
   "property": "C16",
   "status": "proved",
   "theorems": [
    "C16_holohedries_integral_in_primitive_basis"
   ],
   "note": "exact arithmetic, every hash order"
  },
  {
   "property": "C17",
   "status": "proved",
   "theorems": [
    "C17_from_generators_adds_new_products"
   ],
   "note": "exact arithmetic; every number of rounds"
  },
  {
   "property": "C18",
   "status": "proved",
   "theorems": [
    "C18_from_generators_closed"
   ],
   "note": "exact arithmetic; every number of rounds"
  },
  {
   "property": "C19",
   "status": "partial",
   "theorems": [
    "C19_complete_list_unchanged_partial",
    "C19_complete_list_unchanged_refuted"
   ],
   "note": "holds for 209 groups; REFUTED for the 21 groups listed in not_closed (the product of symmop.rs is not composition)"
  },
  {
   "property": "C20",
   "status": "proved",
   "theorems": [
    "C20_unimodular_transformation"
   ],
   "note": "exact arithmetic"
  },
  {
   "property": "C21",
   "status": "partial",
   "theorems": [
    "C21_non_integral_operations_dropped_refuted"
   ],
   "note": "REFUTED: the filter keeps a rotation as soon as one entry is 0 or +-1; witness in binary64"
  },
  {
   "property": "C65",
   "status": "proved",
   "theorems": [
    "C65_from_generators_terminates"
   ],
   "note": "exact arithmetic"
  },
  {
   "property": "C66",
   "status": "partial",
   "theorems": [
    "C66_unimodular_keeps_operations_refuted"
   ],
   "note": "REFUTED: witness in binary64; which operations survive is C20"
  },
  {
   "property": "C22",
   "status": "proved",
   "theorems": [
    "C22_new_consistent"
   ],
   "note": "exact arithmetic; the pseudo inverse is assumed to invert lattices whose singular values exceed 1e-6 (hypothesis of the theorem)"
  },
  {
   "property": "C23",
   "status": "partial",
   "theorems": [
    "C23_singular_lattice_rejected_refuted"
   ],
   "note": "REFUTED: no lattice is ever rejected, in exact arithmetic and in binary64, whatever the pseudo inverse returns"
  },
  {
   "property": "C24",
   "status": "proved",
   "theorems": [
    "C24_normalize_coords_keeps_crystal"
   ],
   "note": "exact arithmetic"
  },
  {
   "property": "C25",
   "status": "proved",
   "theorems": [
    "C25_apply_transformation_genuine_sites"
   ],
   "note": "exact arithmetic"
  },
  {
   "property": "C26",
   "status": "proved",
   "theorems": [
    "C26_basis_change_keeps_sites"
   ],
   "note": "exact arithmetic; sites more than twice the tolerance apart in the function's own distance"
  },
  {
   "property": "C27",
   "status": "partial",
   "theorems": [
    "C27_supercell_terminates_refuted",
    "C27_row_supercells_diverge"
   ],
   "note": "REFUTED: infinite family of supercells on which the loop never ends; what does hold is C68"
  },
  {
   "property": "C28",
   "status": "proved",
   "theorems": [
    "C28_transformation_matrix_recovered"
   ],
   "note": "exact arithmetic; same hypothesis on the pseudo inverse as C22"
  },
  {
   "property": "C29",
   "status": "proved",
   "theorems": [
    "C29_reciprocal_lattice_dual"
   ],
   "note": "exact arithmetic"
  },
  {
   "property": "C30",
   "status": "proved",
   "theorems": [
    "C30_cell_scalars"
   ],
   "note": "exact arithmetic"
  },
  {
   "property": "C31",
   "status": "proved",
   "theorems": [
    "C31_min_element"
   ],
   "note": "every hash order"
  },
  {
   "property": "C32",
   "status": "proved",
   "theorems": [
    "C32_formulas"
   ],
   "note": "every hash order; at most 126 sites of each element"
  },
  {
   "property": "C33",
   "status": "partial",
   "theorems": [
    "C33_formulas_any_size_refuted"
   ],
   "note": "REFUTED: i8 counts wrap at 128 sites and the divisor search stops short at 127"
  },
  {
   "property": "C34",
   "status": "proved",
   "theorems": [
    "C34_delaunay_matrix"
   ],
   "note": "exact arithmetic"
  },
  {
   "property": "C67",
   "status": "partial",
   "theorems": [
    "C67_min_element_any_size_refuted"
   ],
   "note": "REFUTED: u16 counts wrap at 65536 sites, for every hash order"
  },
  {
   "property": "C68",
   "status": "proved",
   "theorems": [
    "C68_supercell_complete"
   ],
   "note": "exact arithmetic"
  },
  {
   "property": "C35",
   "status": "proved",
   "theorems": [
    "C35_niggli_same_lattice"
   ],
   "note": "exact arithmetic"
  },
  {
   "property": "C36",
   "status": "proved",
   "theorems": [
    "C36_niggli_keeps_sites"
   ],
   "note": "exact arithmetic; pseudo-inverse by contract"
  },
  {
   "property": "C37",
   "status": "proved",
   "theorems": [
    "C37_niggli_reduced"
   ],
   "note": "exact arithmetic"
  },
  {
   "property": "C38",
   "status": "proved",
   "theorems": [
    "C38_niggli_idempotent"
   ],
   "note": "exact arithmetic; ties with epsilon excluded, see C70"
  },
  {
   "property": "C39",
   "status": "partial",
   "theorems": [
    "C39_niggli_succeeds_refuted"
   ],
   "note": "REFUTED: the cubic cell sheared by 100 exhausts the 100 iterations, over the reals and in binary64 (for every cbrt with cbrt 1 = 1)"
  },
  {
   "property": "C40",
   "status": "partial",
   "theorems": [
    "C40_left_handed_reduced_refuted",
    "C40_left_handed_untouched"
   ],
   "note": "REFUTED in binary64: with a NaN cube root the lattice is returned unreduced, for every input"
  },
  {
   "property": "C69",
   "status": "partial",
   "theorems": [
    "C69_exact_niggli_refuted"
   ],
   "note": "REFUTED: a vanishing scalar product is counted as positive; see C37 for what holds"
  },
  {
   "property": "C70",
   "status": "partial",
   "theorems": [
    "C70_exact_idempotent_refuted"
   ],
   "note": "REFUTED: two successive reductions differ; see C38 for what holds"
  },
  {
   "property": "C41",
   "status": "proved",
   "theorems": [
    "C41_delaunay_same_lattice"
   ],
   "note": "exact arithmetic"
  },
  {
   "property": "C42",
   "status": "partial",
   "theorems": [
    "C42_delaunay_reduced_refuted",
    "C42_delaunay_reduced_or_exhausted"
   ],
   "note": "REFUTED: the cubic cell sheared by 51 comes back unreduced (reals and binary64), the one sheared by 50 panics after being reduced; C42_delaunay_reduced_or_exhausted says what holds for every input"
  },
  {
   "property": "C43",
   "status": "partial",
   "theorems": [
    "C43_delaunay_handedness_refuted"
   ],
   "note": "REFUTED over the reals and in binary64: one step flips the orientation"
  },
  {
   "property": "C71",
   "status": "partial",
   "theorems": [
    "C71_full_reduction_shortest_refuted"
   ],
   "note": "REFUTED: the cubic cell gets a face diagonal"
  },
  {
   "property": "C72",
   "status": "proved",
   "theorems": [
    "C72_delaunay_keeps_sites"
   ],
   "note": "exact arithmetic; pseudo-inverse by contract"
  },
  {
   "property": "C73",
   "status": "proved",
   "theorems": [
    "C73_delaunay_terminates"
   ],
   "note": "exact arithmetic"
  },
  {
   "property": "C44",
   "status": "proved",
   "theorems": [
    "C44_shortest_vectors"
   ],
   "note": "exact arithmetic"
  },
  {
   "property": "C45",
   "status": "proved",
   "theorems": [
    "C45_primitive_lattice_from_translations"
   ],
   "note": "exact arithmetic; pseudo-inverse by contract"
  },
  {
   "property": "C46",
   "status": "proved",
   "theorems": [
    "C46_primitive_sites"
   ],
   "note": "exact arithmetic; pseudo-inverse by contract"
  },
  {
   "property": "C47",
   "status": "partial",
   "theorems": [
    "C47_primitive_cell_nonsingular_refuted"
   ],
   "note": "REFUTED in binary64: four atoms in a 4 x 4 x 8 cell give a lattice with two zero vectors, for every hash order"
  },
  {
   "property": "C74",
   "status": "proved",
   "theorems": [
    "C74_primitive_cell_kept"
   ],
   "note": "exact arithmetic; pseudo-inverse by contract"
  },
  {
   "property": "C75",
   "status": "partial",
   "theorems": [
    "C75_close_sites_only_refuted",
    "C75_sites_represented"
   ],
   "note": "REFUTED in binary64: a hydrogen molecule in a 32 x 4 x 4 box loses an atom; C75_sites_represented says what holds for every input"
  },
  {
   "property": "C48",
   "status": "proved",
   "theorems": [
    "C48_lattice_character_in_tables"
   ],
   "note": "Any arithmetic."
  },
  {
   "property": "C49",
   "status": "proved",
   "theorems": [
    "C49_character_conditions"
   ],
   "note": "The 44 rows of the International Tables are transcribed in Spec2.v."
  },
  {
   "property": "C50",
   "status": "proved",
   "theorems": [
    "C50_conventional_metric"
   ],
   "note": "The same-sign hypothesis is what Niggli reduction provides up to the factor 2 between its sign test and the one of get_lattice_character (see DESIGN.md)."
  },
  {
   "property": "C51",
   "status": "proved",
   "theorems": [
    "C51_conventional_volume",
    "C51_primitive_same_lattice",
    "C51_transformations"
   ],
   "note": "The API-level theorems need a right-handed primitive cell and 1e-5 * cbrt(volume) < 1, as C35 does."
  },
  {
   "property": "C52",
   "status": "partial",
   "theorems": [
    "C52_right_handed_partial",
    "C52_right_handed_refuted"
   ],
   "note": "REFUTED: character 17 has a transformation of determinant -2; the 43 others are right-handed."
  },
  {
   "property": "C53",
   "status": "partial",
   "theorems": [
    "C53_generic_lengths_partial",
    "C53_every_reduced_cell_refuted"
   ],
   "note": "REFUTED: reduced cells with equal edges but no special angles have no row in the section searched; proved for edges that differ."
  },
  {
   "property": "C55",
   "status": "proved",
   "theorems": [
    "C55_identify_sound"
   ],
   "note": "Codes are decoded by the independent definition code_op of Spec2.v."
  },
  {
   "property": "C57",
   "status": "partial",
   "theorems": [
    "C57_rhombohedral_never_returned",
    "C57_every_number_refuted"
   ],
   "note": "REFUTED: the seven rhombohedral numbers are never returned, in any arithmetic."
  },
  {
   "property": "C62",
   "status": "proved",
   "theorems": [
    "C62_boundary_lossless",
    "C62_cartesian_input",
    "C62_short_input_panics",
    "C62_operations_row_by_row"
   ],
   "note": "Cartesian input in exact arithmetic with an inverting pseudo-inverse."
  },
  {
   "property": "C63",
   "status": "proved",
   "theorems": [
    "C63_centering_strings",
    "C63_lattice_system_strings",
    "C63_bravais_letters"
   ],
   "note": "LatticeSystem also parses one-letter abbreviations; hR is reported as Hexagonal."
  },
  {
   "property": "C54",
   "status": "proved",
   "theorems": [
    "C54_tabulated_groups",
    "C54_every_number_tabulated"
   ],
   "note": "Finite table, checked by computation and lifted to the group axioms."
  },
  {
   "property": "C56",
   "status": "proved",
   "theorems": [
    "C56_identify_order_independent"
   ],
   "note": "Tolerances up to 1/24; exact arithmetic."
  },
  {
   "property": "C76",
   "status": "proved",
   "theorems": [
    "C76_identify_complete"
   ],
   "note": "Tolerances up to 1/24; exact arithmetic."
  },
  {
   "property": "C77",
   "status": "proved",
   "theorems": [
    "C77_tables_identified"
   ],
   "note": "Tolerances up to 1/24; exact arithmetic."
  },
  {
   "property": "C58",
   "status": "proved",
   "theorems": [
    "C58_operations_are_symmetries"
   ],
   "note": "exact reals; sites of one species more than 4*dtol apart (mod lattice), species grouped, at most 65535 sites, 2e-9 of each edge at most dtol; every hash order"
  },
  {
   "property": "C59",
   "status": "proved",
   "theorems": [
    "C59_exact_symmetries_found"
   ],
   "note": "exact reals; same hypotheses as C58 and dtol at most half of each edge"
  },
  {
   "property": "C78",
   "status": "proved",
   "theorems": [
    "C78_search_exact"
   ],
   "note": "over the real arithmetic; rigidity is the hypothesis that excludes near-symmetries"
  },
  {
   "property": "C79",
   "status": "proved",
   "theorems": [
    "C79_tabulated_group_identified"
   ],
   "note": "over the real arithmetic; the 21 groups of C19 are excluded by hypothesis"
  },
  {
   "property": "C80",
   "status": "proved",
   "theorems": [
    "C80_one_atom"
   ],
   "note": "over the real arithmetic"
  },
  {
   "property": "C60",
   "status": "partial",
   "theorems": [
    "C60_origin_refuted",
    "C60_origin_partial"
   ],
   "note": "REFUTED: one atom at the origin of a 2x3x4 box gives 47 Pmmm; at (1/16,1/16,1/16) no answer is ever returned. Shifts by whole periods change nothing (coordinates not exactly at -dtol/edge modulo 1); other shifts are missing."
  },
  {
   "property": "C61",
   "status": "proved",
   "theorems": [
    "C61_reported_basis"
   ],
   "note": "For runs that answer, when the primitive and reduced cells are well-conditioned; pinv assumed to invert well-conditioned matrices."
  },
  {
   "property": "C81",
   "status": "proved",
   "theorems": [
    "C81_primitive_axes_shortest"
   ],
   "note": "Real arithmetic; pinv assumed to invert well-conditioned matrices."
  },
  {
   "property": "C82",
   "status": "proved",
   "theorems": [
    "C82_one_atom_answer"
   ],
   "note": "Real arithmetic; conditions on the cells in the statement."
  },
  {
   "property": "C83",
   "status": "proved",
   "theorems": [
    "C83_orthogonal_box"
   ],
   "note": "Real arithmetic; total correctness."
  },
  {
   "property": "C84",
   "status": "proved",
   "theorems": [
    "C84_off_origin_unidentified"
   ],
   "note": "Real arithmetic; conditions on the cells in the statement."
  },
  {
   "property": "C85",
   "status": "proved",
   "theorems": [
    "C85_niggli_answers"
   ],
   "note": "Real arithmetic."
  },
  {
   "property": "C86",
   "status": "proved",
   "theorems": [
    "C86_body_centring_found",
    "C86_body_centring_missed"
   ],
   "note": "Real arithmetic; pinv assumed to invert well-conditioned matrices."
  },
  {
   "property": "C87",
   "status": "proved",
   "theorems": [
    "C87_face_centring_found",
    "C87_face_centring_singular"
   ],
   "note": "Real arithmetic; pinv assumed to invert well-conditioned matrices; strict orders of the lengths, right-handed cells."
  },
  {
   "property": "C88",
   "status": "proved",
   "theorems": [
    "C88_doubled_cell_found",
    "C88_doubled_cell_singular"
   ],
   "note": "Real arithmetic; pinv assumed to invert well-conditioned matrices; strict orders of the lengths, right-handed cells."
  },
  {
   "property": "C89",
   "status": "partial",
   "theorems": [
    "C89_primitive_refuted"
   ],
   "note": "REFUTED: two polonium atoms in the body-centred cell with columns (4,2,2), (2,4,2), (2,2,4) keep both atoms; C86 and C87 say when centring is found."
  },
  {
   "property": "C90",
   "status": "proved",
   "theorems": [
    "C90_answer_ignores_frame",
    "C90_cells_turn_along"
   ],
   "note": "Real arithmetic; the pseudo-inverse is assumed to satisfy (q m)^+ = m^+ q^T for rotations q, as the Moore-Penrose inverse does."
  },
  {
   "property": "C91",
   "status": "partial",
   "theorems": [
    "C91_mirror_images_refuted"
   ],
   "note": "REFUTED: a C-centred box 4 x 5 x 6 gives determinant 0, its mirror image 60."
  },
  {
   "property": "C92",
   "status": "partial",
   "theorems": [
    "C92_unit_of_length_refuted"
   ],
   "note": "REFUTED: a one-atom box 2 x 2 x 2.000002 is reported as Pm-3m, the same crystal in a unit 100 times smaller as P4/mmm."
  },
  {
   "property": "C93",
   "status": "proved",
   "theorems": [
    "C93_operations_of_a_supercell"
   ],
   "note": "Real arithmetic; all operations must be kept by the entry filter (see C94)."
  },
  {
   "property": "C94",
   "status": "partial",
   "theorems": [
    "C94_kept_operations_complete_refuted"
   ],
   "note": "REFUTED: for the group {1, 2} and a T of determinant 4 that makes the filter drop the twofold axis the identity is listed with 3 translations."
  },
  {
   "property": "C95",
   "status": "proved",
   "theorems": [
    "C95_body_centred_cubic"
   ],
   "note": "Real arithmetic, pseudo-inverse assumed to invert well-conditioned matrices."
  },
  {
   "property": "C96",
   "status": "proved",
   "theorems": [
    "C96_face_centred_cubic"
   ],
   "note": "Real arithmetic, pseudo-inverse assumed to invert well-conditioned matrices."
  },
  {
   "property": "C97",
   "status": "proved",
   "theorems": [
    "C97_doubled_cube"
   ],
   "note": "Real arithmetic, pseudo-inverse assumed to invert well-conditioned matrices."
  },
  {
   "property": "C98",
   "status": "proved",
   "theorems": [
    "C98_box_crystals_identified",
    "C98_fractional_positions"
   ],
   "note": "Real arithmetic, pseudo-inverse assumed to invert well-conditioned matrices. Examples: CsCl and rutile."
  },
  {
   "property": "C99",
   "status": "proved",
   "theorems": [
    "C99_answer_is_the_group"
   ],
   "note": "Real arithmetic, pseudo-inverse assumed to invert well-conditioned matrices."
  },
  {
   "property": "C100",
   "status": "partial",
   "theorems": [
    "C100_every_box_crystal_identified_refuted",
    "C100_perovskite_refuted",
    "C100_open_groups_never_answered",
    "C100_other_settings_never_answered"
   ],
   "note": "REFUTED: pyrite (Pa-3, not closed under the code's product of operations) and CaTiO3 (Pnma, whose longest axis is b while the code calls the longest axis c) get no answer. Proved: for which crystals this happens; C98 has those that are answered."
  },
  {
   "property": "C101",
   "status": "proved",
   "theorems": [
    "C101_answer_near_group",
    "C101_inversion_centre_off_the_grid"
   ],
   "note": "Real arithmetic, pseudo-inverse assumed to invert well-conditioned matrices."
  },
  {
   "property": "C102",
   "status": "proved",
   "theorems": [
    "C102_answer_is_exact"
   ],
   "note": "Real arithmetic, pseudo-inverse assumed to invert well-conditioned matrices."
  },
  {
   "property": "C103",
   "status": "proved",
   "theorems": [
    "C103_shifted_origin_identified",
    "C103_moved_crystals_identified",
    "C103_exactly_these_are_answered"
   ],
   "note": "Real arithmetic, pseudo-inverse assumed to invert well-conditioned matrices."
  },
  {
   "property": "C104",
   "status": "proved",
   "theorems": [
    "C104_normalize_near_periods_binary64"
   ],
   "note": "IEEE binary64."
  },
  {
   "property": "C105",
   "status": "proved",
   "theorems": [
    "C105_apply_accurate_binary64",
    "C105_product_accurate_binary64",
    "C105_cartesian_accurate_binary64"
   ],
   "note": "IEEE binary64; the order of the additions inside nalgebra's product is that of the model."
  },
  {
   "property": "C106",
   "status": "proved",
   "theorems": [
    "C106_is_approx_eq_binary64"
   ],
   "note": "IEEE binary64."
  },
  {
   "property": "C107",
   "status": "proved",
   "theorems": [
    "C107_cust_eq_binary64",
    "C107_approx_equal_binary64"
   ],
   "note": "IEEE binary64."
  },
  {
   "property": "C108",
   "status": "proved",
   "theorems": [
    "C108_identify_sound_binary64",
    "C108_identify_complete_binary64",
    "C108_identify_order_independent_binary64"
   ],
   "note": "IEEE binary64."
  },
  {
   "property": "C109",
   "status": "proved",
   "theorems": [
    "C109_closure_unchanged_binary64",
    "C109_tables_run_binary64"
   ],
   "note": "IEEE binary64."
  },
  {
   "property": "C110",
   "status": "partial",
   "theorems": [
    "C110_approx_equal_exact_refuted",
    "C107_approx_equal_binary64"
   ],
   "note": "REFUTED: 1 and 2^-60 differ by less than 1, but the difference rounds to 1. What holds is C107."
  },
  {
   "property": "C111",
   "status": "proved",
   "theorems": [
    "C111_hexagonal_crystals_identified",
    "C111_fractional_positions",
    "C111_all_operations"
   ],
   "note": "Real arithmetic, pseudo-inverse assumed to invert well-conditioned matrices. Example: magnesium."
  },
  {
   "property": "C112",
   "status": "partial",
   "theorems": [
    "C112_every_operation_returned_refuted"
   ],
   "note": "REFUTED: magnesium along skewed axes is answered P6_3/mmc, but a rotation whose matrix has no entry among -1, 0, 1 is missing from the list. C111 says exactly which operations are returned in hexagonal cells, C98 for rectangular cells."
  },
  {
   "property": "C113",
   "status": "proved",
   "theorems": [
    "C113_character_symmetry",
    "C113_elements_identified",
    "C113_all_characters"
   ],
   "note": "Real arithmetic, pseudo-inverse assumed to invert well-conditioned matrices (second theorem). One metric per character, at all scales and orientations."
  },
  {
   "property": "C114",
   "status": "proved",
   "theorems": [
    "C114_answer_is_the_group",
    "C114_open_hexagonal_groups_never_answered"
   ],
   "note": "Real arithmetic, pseudo-inverse assumed to invert well-conditioned matrices. Example: magnesium."
  },
  {
   "property": "C115",
   "status": "partial",
   "theorems": [
    "C115_every_hexagonal_crystal_identified_refuted"
   ],
   "note": "REFUTED: low quartz (SiO2, P3_121) gets no answer. C111 gives the positive statement for the groups whose tables are closed under the code's product."
  },
  {
   "property": "C116",
   "status": "proved",
   "theorems": [
    "C116_no_inversion_P1",
    "C116_inversion_Pm1"
   ],
   "note": "Real arithmetic, pseudo-inverse assumed to invert well-conditioned matrices. Examples: a cell with three obtuse angles, with and without inversion."
  },
  {
   "property": "C117",
   "status": "proved",
   "theorems": [
    "C117_monoclinic_crystals_identified",
    "C117_other_glides_never_answered"
   ],
   "note": "Real arithmetic, pseudo-inverse assumed to invert well-conditioned matrices. Example: four atoms of P2_1/c."
  },
  {
   "property": "C118",
   "status": "partial",
   "theorems": [
    "C118_every_monoclinic_crystal_identified_refuted"
   ],
   "note": "REFUTED: four atoms of P2_1/c with the glide along the shorter axis (the setting P2_1/a of the reduced cell) get no answer. C117 says exactly which crystals are identified."
  },
  {
   "property": "C119",
   "status": "proved",
   "theorems": [
    "C119_centred_cubic_crystals_identified"
   ],
   "note": "Real arithmetic, pseudo-inverse assumed to invert well-conditioned matrices. Examples: rock salt, zinc blende, Pt3O4."
  },
  {
   "property": "C120",
   "status": "proved",
   "theorems": [
    "C120_answer_is_the_group",
    "C120_open_groups_never_answered"
   ],
   "note": "Real arithmetic, pseudo-inverse assumed to invert well-conditioned matrices. Example: diamond, for which whatever is answered is 227."
  },
  {
   "property": "C121",
   "status": "partial",
   "theorems": [
    "C121_every_centred_cubic_crystal_identified_refuted"
   ],
   "note": "REFUTED: Th3P4 (I-43d) gets no answer, with any pseudo-inverse, hash order and search path. C119, C120 and C122 cover all 21 groups."
  },
  {
   "property": "C122",
   "status": "proved",
   "theorems": [
    "C122_right_handed_diamonds_identified",
    "C122_left_handed_diamonds_never_answered"
   ],
   "note": "Real arithmetic, pseudo-inverse assumed to invert well-conditioned matrices. Example: diamond in a right-handed cell."
  },
  {
   "property": "C123",
   "status": "partial",
   "theorems": [
    "C123_order_of_axes_irrelevant_refuted"
   ],
   "note": "REFUTED: diamond (edge 3.57, tolerance 1/250) is given 227 in the usual cell and no answer with the first two axes exchanged, with any pseudo-inverse, hash order and search path."
  },
  {
   "property": "C124",
   "status": "proved",
   "theorems": [
    "C124_centred_cubic_crystals_in_the_cube"
   ],
   "note": "Real arithmetic, pseudo-inverse assumed to invert well-conditioned matrices. Examples: rock salt with eight atoms (192 operations), Pt3O4 with fourteen (96)."
  },
  {
   "property": "C125",
   "status": "proved",
   "theorems": [
    "C125_answer_in_the_cube_is_the_group",
    "C125_open_groups_never_answered"
   ],
   "note": "Real arithmetic, pseudo-inverse assumed to invert well-conditioned matrices. The four groups of diamond type are in the first theorem, which does not say that they get an answer. Examples: diamond with eight atoms, Th3P4 with 28."
  }
 ]
}