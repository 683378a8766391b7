C01 | proved | C01_normalize_range_binary64 | binary64, all rounding included
C02 | proved | C02_normalize_whole_periods | exact arithmetic
C03 | proved | C03_normalize_idempotent_binary64 | binary64; tolerance 0 is handled by C64
C04 | proved | C04_normalize_canonical | exact arithmetic; the boundary exception is shown to occur
C05 | proved | C05_comparisons_decide | exact arithmetic
C06 | proved | C06_num_negative_zero_counts | exact arithmetic, i8 counters
C07 | proved | C07_decode_positional | machine integers
C08 | proved | C08_decode_spg_op | machine integers
C64 | partial | C64_normalize_idempotent_all_tolerances_refuted | REFUTED: the statement is false of the code, witness in binary64; what holds is C03
C09 | proved | C09_is_approx_eq_spec | exact arithmetic
C10 | proved | C10_apply_and_normalize | exact arithmetic
C11 | partial | C11_product_is_composition_refuted | REFUTED: a pair for which the product is neither composition and a triple for which it is not associative; what holds is C12
C12 | proved | C12_product_composes_iff_commuting | exact arithmetic
C13 | proved | C13_generation_is_the_generated_set | every hash order; products in the i8 range
C14 | proved | C14_from_number_is_a_point_group | every hash order
C15 | proved | C15_apply_transformation_conjugates | exact arithmetic
C16 | proved | C16_holohedries_integral_in_primitive_basis | exact arithmetic, every hash order
C17 | proved | C17_from_generators_adds_new_products | exact arithmetic; every number of rounds
C18 | proved | C18_from_generators_closed | exact arithmetic; every number of rounds
C19 | partial | C19_complete_list_unchanged_partial, C19_complete_list_unchanged_refuted | holds for 209 groups; REFUTED for the 21 groups listed in not_closed (the product of symmop.rs is not composition)
C20 | proved | C20_unimodular_transformation | exact arithmetic
C21 | partial | C21_non_integral_operations_dropped_refuted | REFUTED: the filter keeps a rotation as soon as one entry is 0 or +-1; witness in binary64
C65 | proved | C65_from_generators_terminates | exact arithmetic
C66 | partial | C66_unimodular_keeps_operations_refuted | REFUTED: witness in binary64; which operations survive is C20
C22 | proved | C22_new_consistent | exact arithmetic; the pseudo inverse is assumed to invert lattices whose singular values exceed 1e-6 (hypothesis of the theorem)
C23 | partial | C23_singular_lattice_rejected_refuted | REFUTED: no lattice is ever rejected, in exact arithmetic and in binary64, whatever the pseudo inverse returns
C24 | proved | C24_normalize_coords_keeps_crystal | exact arithmetic
C25 | proved | C25_apply_transformation_genuine_sites | exact arithmetic
C26 | proved | C26_basis_change_keeps_sites | exact arithmetic; sites more than twice the tolerance apart in the function's own distance
C27 | partial | C27_supercell_terminates_refuted, C27_row_supercells_diverge | REFUTED: infinite family of supercells on which the loop never ends; what does hold is C68
C28 | proved | C28_transformation_matrix_recovered | exact arithmetic; same hypothesis on the pseudo inverse as C22
C29 | proved | C29_reciprocal_lattice_dual | exact arithmetic
C30 | proved | C30_cell_scalars | exact arithmetic
C31 | proved | C31_min_element | every hash order
C32 | proved | C32_formulas | every hash order; at most 126 sites of each element
C33 | partial | C33_formulas_any_size_refuted | REFUTED: i8 counts wrap at 128 sites and the divisor search stops short at 127
C34 | proved | C34_delaunay_matrix | exact arithmetic
C67 | partial | C67_min_element_any_size_refuted | REFUTED: u16 counts wrap at 65536 sites, for every hash order
C68 | proved | C68_supercell_complete | exact arithmetic
C35 | proved | C35_niggli_same_lattice | exact arithmetic
C36 | proved | C36_niggli_keeps_sites | exact arithmetic; pseudo-inverse by contract
C37 | proved | C37_niggli_reduced | exact arithmetic
C38 | proved | C38_niggli_idempotent | exact arithmetic; ties with epsilon excluded, see C70
C39 | partial | C39_niggli_succeeds_refuted | REFUTED: the cubic cell sheared by 100 exhausts the 100 iterations, over the reals and in binary64 (for every cbrt with cbrt 1 = 1)
C40 | partial | C40_left_handed_reduced_refuted, C40_left_handed_untouched | REFUTED in binary64: with a NaN cube root the lattice is returned unreduced, for every input
C69 | partial | C69_exact_niggli_refuted | REFUTED: a vanishing scalar product is counted as positive; see C37 for what holds
C70 | partial | C70_exact_idempotent_refuted | REFUTED: two successive reductions differ; see C38 for what holds
C41 | proved | C41_delaunay_same_lattice | exact arithmetic
C42 | partial | C42_delaunay_reduced_refuted, C42_delaunay_reduced_or_exhausted | REFUTED: the cubic cell sheared by 51 comes back unreduced (reals and binary64), the one sheared by 50 panics after being reduced; C42_delaunay_reduced_or_exhausted says what holds for every input
C43 | partial | C43_delaunay_handedness_refuted | REFUTED over the reals and in binary64: one step flips the orientation
C71 | partial | C71_full_reduction_shortest_refuted | REFUTED: the cubic cell gets a face diagonal
C72 | proved | C72_delaunay_keeps_sites | exact arithmetic; pseudo-inverse by contract
C73 | proved | C73_delaunay_terminates | exact arithmetic
C44 | proved | C44_shortest_vectors | exact arithmetic
C45 | proved | C45_primitive_lattice_from_translations | exact arithmetic; pseudo-inverse by contract
C46 | proved | C46_primitive_sites | exact arithmetic; pseudo-inverse by contract
C47 | partial | C47_primitive_cell_nonsingular_refuted | REFUTED in binary64: four atoms in a 4 x 4 x 8 cell give a lattice with two zero vectors, for every hash order
C74 | proved | C74_primitive_cell_kept | exact arithmetic; pseudo-inverse by contract
C75 | partial | C75_close_sites_only_refuted, C75_sites_represented | REFUTED in binary64: a hydrogen molecule in a 32 x 4 x 4 box loses an atom; C75_sites_represented says what holds for every input
C48 | proved | C48_lattice_character_in_tables | Any arithmetic.
C49 | proved | C49_character_conditions | The 44 rows of the International Tables are transcribed in Spec2.v.
C50 | proved | C50_conventional_metric | The same-sign hypothesis is what Niggli reduction provides up to the factor 2 between its sign test and the one of get_lattice_character (see DESIGN.md).
C51 | proved | C51_conventional_volume, C51_primitive_same_lattice, C51_transformations | The API-level theorems need a right-handed primitive cell and 1e-5 * cbrt(volume) < 1, as C35 does.
C52 | partial | C52_right_handed_partial, C52_right_handed_refuted | REFUTED: character 17 has a transformation of determinant -2; the 43 others are right-handed.
C53 | partial | C53_generic_lengths_partial, C53_every_reduced_cell_refuted | REFUTED: reduced cells with equal edges but no special angles have no row in the section searched; proved for edges that differ.
C55 | proved | C55_identify_sound | Codes are decoded by the independent definition code_op of Spec2.v.
C57 | partial | C57_rhombohedral_never_returned, C57_every_number_refuted | REFUTED: the seven rhombohedral numbers are never returned, in any arithmetic.
C62 | proved | C62_boundary_lossless, C62_cartesian_input, C62_short_input_panics, C62_operations_row_by_row | Cartesian input in exact arithmetic with an inverting pseudo-inverse.
C63 | proved | C63_centering_strings, C63_lattice_system_strings, C63_bravais_letters | LatticeSystem also parses one-letter abbreviations; hR is reported as Hexagonal.
C54 | proved | C54_tabulated_groups, C54_every_number_tabulated | Finite table, checked by computation and lifted to the group axioms.
C56 | proved | C56_identify_order_independent | Tolerances up to 1/24; exact arithmetic.
C76 | proved | C76_identify_complete | Tolerances up to 1/24; exact arithmetic.
C77 | proved | C77_tables_identified | Tolerances up to 1/24; exact arithmetic.
C58 | proved | C58_operations_are_symmetries | exact reals; sites of one species more than 4*dtol apart (mod lattice), species grouped, at most 65535 sites, 2e-9 of each edge at most dtol; every hash order
C59 | proved | C59_exact_symmetries_found | exact reals; same hypotheses as C58 and dtol at most half of each edge
C78 | proved | C78_search_exact | over the real arithmetic; rigidity is the hypothesis that excludes near-symmetries
C79 | proved | C79_tabulated_group_identified | over the real arithmetic; the 21 groups of C19 are excluded by hypothesis
C80 | proved | C80_one_atom | over the real arithmetic
C60 | partial | C60_origin_refuted, C60_origin_partial | REFUTED: one atom at the origin of a 2x3x4 box gives 47 Pmmm; at (1/16,1/16,1/16) no answer is ever returned. Shifts by whole periods change nothing (coordinates not exactly at -dtol/edge modulo 1); other shifts are missing.
C61 | proved | C61_reported_basis | For runs that answer, when the primitive and reduced cells are well-conditioned; pinv assumed to invert well-conditioned matrices.
C81 | proved | C81_primitive_axes_shortest | Real arithmetic; pinv assumed to invert well-conditioned matrices.
C82 | proved | C82_one_atom_answer | Real arithmetic; conditions on the cells in the statement.
C83 | proved | C83_orthogonal_box | Real arithmetic; total correctness.
C84 | proved | C84_off_origin_unidentified | Real arithmetic; conditions on the cells in the statement.
C85 | proved | C85_niggli_answers | Real arithmetic.
C86 | proved | C86_body_centring_found, C86_body_centring_missed | Real arithmetic; pinv assumed to invert well-conditioned matrices.
C87 | proved | C87_face_centring_found, C87_face_centring_singular | Real arithmetic; pinv assumed to invert well-conditioned matrices; strict orders of the lengths, right-handed cells.
C88 | proved | C88_doubled_cell_found, C88_doubled_cell_singular | Real arithmetic; pinv assumed to invert well-conditioned matrices; strict orders of the lengths, right-handed cells.
C89 | partial | C89_primitive_refuted | REFUTED: two polonium atoms in the body-centred cell with columns (4,2,2), (2,4,2), (2,2,4) keep both atoms; C86 and C87 say when centring is found.
C90 | proved | C90_answer_ignores_frame, C90_cells_turn_along | Real arithmetic; the pseudo-inverse is assumed to satisfy (q m)^+ = m^+ q^T for rotations q, as the Moore-Penrose inverse does.
C91 | partial | C91_mirror_images_refuted | REFUTED: a C-centred box 4 x 5 x 6 gives determinant 0, its mirror image 60.
C92 | partial | C92_unit_of_length_refuted | REFUTED: a one-atom box 2 x 2 x 2.000002 is reported as Pm-3m, the same crystal in a unit 100 times smaller as P4/mmm.
C93 | proved | C93_operations_of_a_supercell | Real arithmetic; all operations must be kept by the entry filter (see C94).
C94 | partial | C94_kept_operations_complete_refuted | REFUTED: for the group {1, 2} and a T of determinant 4 that makes the filter drop the twofold axis the identity is listed with 3 translations.
C95 | proved | C95_body_centred_cubic | Real arithmetic, pseudo-inverse assumed to invert well-conditioned matrices.
C96 | proved | C96_face_centred_cubic | Real arithmetic, pseudo-inverse assumed to invert well-conditioned matrices.
C97 | proved | C97_doubled_cube | Real arithmetic, pseudo-inverse assumed to invert well-conditioned matrices.
C98 | proved | C98_box_crystals_identified, C98_fractional_positions | Real arithmetic, pseudo-inverse assumed to invert well-conditioned matrices. Examples: CsCl and rutile.
C99 | proved | C99_answer_is_the_group | Real arithmetic, pseudo-inverse assumed to invert well-conditioned matrices.
C100 | partial | C100_every_box_crystal_identified_refuted, C100_perovskite_refuted, C100_open_groups_never_answered, C100_other_settings_never_answered | REFUTED: pyrite (Pa-3, not closed under the code's product of operations) and CaTiO3 (Pnma, whose longest axis is b while the code calls the longest axis c) get no answer. Proved: for which crystals this happens; C98 has those that are answered.
C101 | proved | C101_answer_near_group, C101_inversion_centre_off_the_grid | Real arithmetic, pseudo-inverse assumed to invert well-conditioned matrices.
C102 | proved | C102_answer_is_exact | Real arithmetic, pseudo-inverse assumed to invert well-conditioned matrices.
C103 | proved | C103_shifted_origin_identified, C103_moved_crystals_identified, C103_exactly_these_are_answered | Real arithmetic, pseudo-inverse assumed to invert well-conditioned matrices.
C104 | proved | C104_normalize_near_periods_binary64 | IEEE binary64.
C105 | proved | C105_apply_accurate_binary64, C105_product_accurate_binary64, C105_cartesian_accurate_binary64 | IEEE binary64; the order of the additions inside nalgebra's product is that of the model.
C106 | proved | C106_is_approx_eq_binary64 | IEEE binary64.
C107 | proved | C107_cust_eq_binary64, C107_approx_equal_binary64 | IEEE binary64.
C108 | proved | C108_identify_sound_binary64, C108_identify_complete_binary64, C108_identify_order_independent_binary64 | IEEE binary64.
C109 | proved | C109_closure_unchanged_binary64, C109_tables_run_binary64 | IEEE binary64.
C110 | partial | C110_approx_equal_exact_refuted, C107_approx_equal_binary64 | REFUTED: 1 and 2^-60 differ by less than 1, but the difference rounds to 1. What holds is C107.
C111 | proved | C111_hexagonal_crystals_identified, C111_fractional_positions, C111_all_operations | Real arithmetic, pseudo-inverse assumed to invert well-conditioned matrices. Example: magnesium.
C112 | partial | C112_every_operation_returned_refuted | REFUTED: magnesium along skewed axes is answered P6_3/mmc, but a rotation whose matrix has no entry among -1, 0, 1 is missing from the list. C111 says exactly which operations are returned in hexagonal cells, C98 for rectangular cells.
C113 | proved | C113_character_symmetry, C113_elements_identified, C113_all_characters | Real arithmetic, pseudo-inverse assumed to invert well-conditioned matrices (second theorem). One metric per character, at all scales and orientations.
C114 | proved | C114_answer_is_the_group, C114_open_hexagonal_groups_never_answered | Real arithmetic, pseudo-inverse assumed to invert well-conditioned matrices. Example: magnesium.
C115 | partial | C115_every_hexagonal_crystal_identified_refuted | REFUTED: low quartz (SiO2, P3_121) gets no answer. C111 gives the positive statement for the groups whose tables are closed under the code's product.
C116 | proved | C116_no_inversion_P1, C116_inversion_Pm1 | Real arithmetic, pseudo-inverse assumed to invert well-conditioned matrices. Examples: a cell with three obtuse angles, with and without inversion.
C117 | proved | C117_monoclinic_crystals_identified, C117_other_glides_never_answered | Real arithmetic, pseudo-inverse assumed to invert well-conditioned matrices. Example: four atoms of P2_1/c.
C118 | partial | C118_every_monoclinic_crystal_identified_refuted | REFUTED: four atoms of P2_1/c with the glide along the shorter axis (the setting P2_1/a of the reduced cell) get no answer. C117 says exactly which crystals are identified.
C119 | proved | C119_centred_cubic_crystals_identified | Real arithmetic, pseudo-inverse assumed to invert well-conditioned matrices. Examples: rock salt, zinc blende, Pt3O4.
C120 | proved | C120_answer_is_the_group, C120_open_groups_never_answered | Real arithmetic, pseudo-inverse assumed to invert well-conditioned matrices. Example: diamond, for which whatever is answered is 227.
C121 | partial | C121_every_centred_cubic_crystal_identified_refuted | REFUTED: Th3P4 (I-43d) gets no answer, with any pseudo-inverse, hash order and search path. C119, C120 and C122 cover all 21 groups.
C122 | proved | C122_right_handed_diamonds_identified, C122_left_handed_diamonds_never_answered | Real arithmetic, pseudo-inverse assumed to invert well-conditioned matrices. Example: diamond in a right-handed cell.
C123 | partial | C123_order_of_axes_irrelevant_refuted | REFUTED: diamond (edge 3.57, tolerance 1/250) is given 227 in the usual cell and no answer with the first two axes exchanged, with any pseudo-inverse, hash order and search path.
C124 | proved | C124_centred_cubic_crystals_in_the_cube | Real arithmetic, pseudo-inverse assumed to invert well-conditioned matrices. Examples: rock salt with eight atoms (192 operations), Pt3O4 with fourteen (96).
C125 | proved | C125_answer_in_the_cube_is_the_group, C125_open_groups_never_answered | Real arithmetic, pseudo-inverse assumed to invert well-conditioned matrices. The four groups of diamond type are in the first theorem, which does not say that they get an answer. Examples: diamond with eight atoms, Th3P4 with 28.
