# Formal model of munrojm/cryst-symm in Rocq (Coq 8.16.1)

## 1. How the code is modelled

* **Arithmetic is a parameter.** Every function of the crate is written once, over a
  record `Num` of scalar operations (`theories/Num.v`): literals, `+ - * /`, `abs`, `sqrt`,
  the three comparisons, `x % 1.0`, `f64::round`, `signum`, `powf(1/3)`, `acos`, `PI`, and the saturating
  casts `as i8`, `as i64`. Two instances are given:
  * `RNum`  - exact real arithmetic (stdlib `R`). Theorems "in exact arithmetic" are about this instance.
  * `FNum`  - IEEE-754 binary64, round to nearest even (Flocq `binary_float 53 1024`), bit exact for
    `+ - * / sqrt abs < <= ==`, `% 1.0`, `round`, casts.
    `powf(1/3)` and `acos` are not correctly rounded by any standard, so they are parameters of the instance.
  Theorems about control flow (sorting, counting, species, hash order, tables) are proved for *every* `Num`.
* **nalgebra.** `Matrix3`/`Vector3` are records of nine / three named fields; product, dot, cross, determinant,
  cofactor inverse are written out in nalgebra's evaluation order. The SVD based `pseudo_inverse(1e-6)` is an
  oracle `pinv` (universally quantified in theorems) whose assumed behaviour over R is: if all singular values of A exceed 1e-6
  (i.e. |A x| > 1e-6 |x| for all x <> 0) then `pinv A` is the two-sided inverse of A. It never fails
  (nalgebra returns `Err` only for a negative threshold).
* **Machine integers.** `i8`, `u8`, `u16`, `u32`, `i64` are `Z` with the wrap-around of a release build written out
  where the property is about it; theorems state the no-overflow range, in which a debug build (overflow panics) agrees.
* **Panics and loops.** `res A := Ok a | Panic p | OutOfFuel`. Each `panic!`, `expect`, `unwrap`, index-out-of-bounds is a
  constructor of `panic`. Unbounded `while` loops recurse on fuel and give `OutOfFuel`, never a normal-looking value.
* **Hash order.** Iteration over `HashMap`/`HashSet` goes through an oracle `hord : list nat -> forall A, list A -> list A`,
  indexed by a distinct event path for every iteration performed, which must return a permutation.
  Theorems quantify over all oracles.
* **Strings** are Coq `string`s compared bytewise like Rust `String`.

Specifications. `Spec.v` … `Spec12.v` hold the independent vocabulary used in the statements (real vectors and
matrices, integer matrices, lattice membership, congruence modulo the lattice, Niggli and Delaunay conditions, the 44 rows of the
lattice character table of the International Tables, groups of operations, symmetries of a crystal).
They do not mention the model. `QInst.v` is an instance of `Num` over rationals. It is used inside proofs only:
a run over `Q` is computed and transferred to `RNum` by a homomorphism argument.

### Code covered

| /repo/src | model | remarks |
|----|----|----|
| utils.rs 4-90 | `Utils.v` | all functions |
| symmop.rs 1-75 | `SymmOp.v` | all methods |
| data/core.rs | `DataCore.v` | all tables, the `FromStr`/`Display` style functions used by the crate |
| data/pointgroup.rs, data/spacegroup.rs | `DataPG.v`, `DataSG.v` | all tables, copied from the Rust text by `tools/gen_data.py` |
| pointgroup.rs 1-82 | `PointGroup.v` | all functions |
| spacegroup.rs 1-165 | `SpaceGroup.v` | all functions |
| structure.rs 1-400 | `Structure.v` | all functions |
| reduce.rs 1-560 | `Reduce.v` | all functions |
| analyzer.rs 1-550 | `Analyzer.v` | all functions |
| lib.rs 1-157 | `Lib.v` | the conversions and the five exported functions |

Not modelled: argument extraction and exception translation of pyo3, the module registration (lib.rs 158-167), `Debug`/`Clone` derives,
memory allocation, the algorithm inside nalgebra's SVD (oracle `pinv`), libm (`cbrt`, `acos`), the hasher (oracle `hord`).
Simplifications: a Rust `HashMap` is an association list and a `HashSet` a duplicate-free list, both only ever observed through `hord`;
in-place mutation is written as returning the new value; `f32`-free code needs no second float format;
signalling of NaN payloads is absent (one NaN). Each definition cites the lines it stands for.

## 2. How each property is proved

(M = modelled function, P = proof idea, `refuted` = the faithful model violates the property; a witness is proved.)

| id | what is modelled, how it is proved |
|----|----|
| C01 | `normalize1` at `FNum`; exactness of `% 1.0`, Sterbenz-type argument and monotonicity of rounding with Flocq |
| C02 | `normalize_frac_vectors` at `RNum`; case analysis, list induction |
| C03 | consequence of C01 at `FNum` plus exactness of `% 1.0` below 1 |
| C04 | real arithmetic; boundary exception shown to be real by a witness |
| C05 | `cust_eq` etc. at `RNum`; lengths: induction, panic as value |
| C06 | list induction, every eps >= 0, wrap at 128 excluded by the length bound |
| C07 | induction on the number of digits over Z |
| C08 | from C07; finite tables lifted with `forallb` |
| C09 | `is_approx_eq` at `RNum` against an existential spec |
| C10 | unfold, C02 |
| C11 | refuted: witness pair/triple by computation |
| C12 | matrix algebra; translation t1 chosen to separate |
| C13 | closure loop over an arbitrary hash oracle; invariant "closed under left multiplication by generators" |
| C14 | C13 + finite computation on the 32 tables |
| C15 | cofactor inverse at `RNum`, rounding of integers |
| C16 | C14/C15 + finite computation over 15 Bravais types |
| C17 | loop invariant over rounds (fuel), every fuel |
| C18 | loop invariant: everything not in the last round is closed |
| C19 | refuted for 21 groups; exact list by computation, positive for the others |
| C20 | loop invariant at `RNum` |
| C21 | refuted: witness |
| C22 | matrix algebra with the `pinv` contract |
| C23 | refuted: no path of the model panics |
| C24 | stable insertion sort + C02 |
| C25 | loop invariant |
| C26 | loop invariant + pigeonhole on one pass |
| C27 | refuted: divergence for every fuel on a family of supercells |
| C28, C29, C30 | matrix algebra, Cauchy-Schwarz, stdlib `acos` |
| C31 | association-list map under hash oracle |
| C32, C33 | tally over Z with i8 wrap; gcd characterisation; witness at 127/128 |
| C34 | ring |
| C35-C38 | loop invariant of the 100-step loop: G = T^t G0 T, T integer, det T = 1; exit condition |
| C39 | refuted by a skewed cell (binary64 run), plus a general real family if time permits |
| C40 | `FNum` with NaN epsilon: no step fires, for every metric |
| C41-C43 | loop invariant on the quadruple; off-by-one witnesses |
| C44 | stable sort by length |
| C45, C46 | loop invariants of the search and fold loops |
| C47 | refuted: binary64 witness; partial: when the selection succeeds |
| C48-C50 | case analysis of the character tree; linear arithmetic for 44 rows |
| C51, C52 | finite computation + determinant multiplicativity; refuted for character 17 |
| C53 | refuted: real family / binary64 witness |
| C54 | finite computation over the 230 entries |
| C55, C56 | loop over hash-ordered candidates; pairwise separation of tabulated entries by computation |
| C57 | refuted: for every structure, returned number is not rhombohedral |
| C58, C59 | clustering invariant under hash oracle; pigeonhole |
| C60 | refuted: binary64 witness |
| C61 | matrix algebra along the pipeline |
| C62 | list/record computation |
| C63 | finite case analysis |
| C64 | refuted: binary64 witness at tolerance 0: -2^-70 becomes 1, then 0 |
| C65 | exact arithmetic: every operation has a key (rotation modulo 256, translation in a grid finer than the tolerance), new operations have new keys, and there are finitely many |
| C66 | refuted: binary64 witness: an integral conjugate without any entry 0 or +-1 is dropped by the filter |
| C67 | refuted: u16 counts wrap at 65536, symbolic in the length of the list |
| C68 | loop invariant of `apply_transformation`: every image of every site lies in the new list once the loop ends |
| C69, C70 | refuted: zero scalar product counted as positive; run at `QNum` transferred to `RNum` |
| C71 | refuted: cubic cell, exact run |
| C72 | as C36, for the Delaunay loop |
| C73 | exact arithmetic: each step lowers the sum of squared lengths by twice the largest scalar product, hence by at least 2u when all products are multiples of u |
| C74 | C45 plus: with no proper translation the first three candidates chosen are a basis (`PLattice.v`) |
| C75 | refuted: binary64 hydrogen molecule; the companion says which sites represent which |
| C76, C77 | bijection argument between the operation list and the tabulated list, pairwise separation of the 230 tabulated lists by computation |
| C78, C79 | rigidity hypothesis turns the search (C58, C59) into equality with the symmetry group, then C76 |
| C80 | the search on one atom returns the holohedry with zero translations; comparison with the tables per character |
| C81 | the selection loop runs over a list sorted by length that contains the 26 neighbours; first choice that passes the tests of `get_shortest_translation_vecs` |
| C82, C84 | C80/C58 chained with C51, C61 through `get_space_group_info` |
| C83 | every intermediate value computed symbolically for six orderings of the edges |
| C85 | an integer version of the eight steps; three phases of iterations between two decreases of the trace |
| C86 - C88 | the selection on the four candidate vectors run on integer coordinates for each order of their lengths |
| C89 | refuted by C86 in a sharp body-centred cell |
| C90 | each model function commutes with a rotation of lattice and Cartesian positions, up to `get_space_group_info` |
| C91, C92 | refuted with C87 and C83 |
| C93 | candidates tagged by (operation, class of Z^3/TZ^3); the stored list is a duplicate-free set of tags, complete after the pass with mult = \|D\| |
| C94 | refuted in binary64 by evaluation |
| C95–C97 | a checker for an integral cell metric with atoms on the points k/N (`family_check`, PEnd9.v) evaluated once per crystal; its soundness theorem (`family_run`) follows the whole run: every selection find_primitive_cell can make, the Niggli reduction of that selection, the character, the operations carried back |
| C98, C99 | find_primitive_cell keeps a crystal whose only translations are lattice vectors, up to a signed permutation of the axes (PEnd11–PEnd13); every tabulated boxed group is kept by every isometry of its box (PEnd14, checked over the table); a renamed group is contained in another entry only if it is its own (PEnd16); a decision procedure for the exact operations of sites at k/m (PEnd17) gives the examples |
| C100 | refuted: pyrite and CaTiO3, the decision procedure for their operations and C99 |
| C101 | the operations found are exact to 1e-9 and each within the tolerance of a tabulated one; the displacements of the translations sum, over the group, to a common point |
| C102 | as C101; the displacements are below the tolerance, so products are recognised and nothing is added to the operations found |
| C103 | products of displaced operations stay within the tolerance of the tabulated product; C102 for the converse |
| C104, C105 | error bounds of single operations (half a unit in the last place at a power of two) added along the sums |
| C106, C107 | monotonicity of rounding, error of one subtraction |
| C108, C109 | candidates within 2^-48 of the twelfths; C56, C76 and the closure of the table carried over with widened tolerances |
| C110 | refuted: the difference of 1 and 2^-60 rounds to 1 |
| C111 | find_primitive_cell returns axes of the same lattice (PRun2), the Niggli cell of a hexagonal lattice is one of two forms (PHex2), the standard cell differs from the hexagonal axes by one of the 24 isometries (PHex4), and the tabulated groups are kept by these (PHex3, checked over the table) |
| C112 | refuted: C111 for magnesium in a skewed cell |
| C113 | one integral metric per character (Spec9.v, found by a search outside Coq), `family_check` of PEnd9.v evaluated for each, isometries enumerated within a proved bound |
| C114 | the operations found are those of the group along the standard axes (PRun.v), a tabulated group containing them and their products equals them (PEnd16.v); tables compared along all 24 hexagonal axes by vm_compute |
| C115 | refuted: C114 for low quartz |
| C116 | isometries of a strictly reduced cell are sign changes that keep the signs of the scalar products (PRed.v); characters 31, 44 (PRed2.v); every column chosen by the reduction is a reduced axis up to sign (PRed3.v); run as in PRun.v |
| C117 | the same with characters 33, 34, 35; the tabulated operations commute with changes of axes in the plane, the glide vector does not (PRed6.v) |
| C118 | refuted: C117 for a crystal with the first and third axis exchanged |
| C119 | integer metrics of the two primitive cells, their 48 isometries (PCen.v); every reduced basis chosen is an isometry of the standard one (PCen2.v); the twelve groups are unchanged by all 48, checked on the whole table (PCen2.v, PCen3.v) |
| C120 | the same run; no two groups on these lattices coincide along any of the 48 axes, and the five groups are not closed along any (PCen3.v) |
| C121 | refuted: C120 for Th3P4 (PCen4.v) |
| C122 | the choice of axes computed on the integers: stable sort, scans for the second and third vector, sign changes of the Niggli pass (PAxes.v); the axes are a cyclic permutation of those given, negated if left-handed, and the four tables are unchanged by the first and changed by the second (PCen5.v) |
| C123 | refuted: C122 for diamond (Prop28.v) |
| C124, C125 | the cubic matrices up to the lattice's symmetry, the centring vectors found and the primitive cells that find_primitive_cell can choose among them, all computed on the integers (PConv.v); every such cell has the form of C119 up to an integer matrix that keeps the metric, and the operations are carried back (PConv2.v); same_atoms, listed_once and cube_cell of Spec12.v say what the cubic cell of a crystal is (PConv3.v, Prop29.v) |

## 3. Where the code does not do what was expected

All 33 properties with status `partial` in MANIFEST.json are false of the code: their full statement is refuted by a proved witness and, where
useful, a companion theorem says what does hold. None is partial because a proof was not finished, with one reservation:
the positive half of C60 covers shifts of the origin by whole periods only.

| id | what goes wrong |
|----|----|
| C11, C19 | the product is { R1 R2 | R2 t1 + t2 }, which is neither of the two compositions; 21 tabulated groups are not closed under it |
| C21, C66 | the filter keeps a rotation as soon as any entry of the conjugate is 0 or +-1: non-integral ones are kept (and rounded), some integral ones are dropped |
| C23 | a singular lattice is never rejected, the pseudo inverse always succeeds |
| C27 | infinite loop on supercells along one axis |
| C33, C67 | i8 and u16 counters wrap; the divisor search stops one short |
| C39, C42, C43, C71 | iteration limits, off-by-one exit, orientation flip, wrong vectors in the two reductions |
| C40 | left-handed cell: the cube root of a negative volume is NaN, so no reduction step fires |
| C47, C75 | the primitive cell search can return a singular lattice, or merge two atoms |
| C52 | lattice character 17 has a transformation of determinant -2 |
| C53 | some reduced cells have no row in the section searched; the code then panics |
| C57, C80 | rhombohedral groups are never identified; character 43 is tabulated as mI, so one-atom crystals of that type are not identified either |
| C60, C84 | the group found depends on the origin: a one-atom crystal moved off the 24ths of its axes is never identified |
| C86, C89 | a body centring is missed when half the diagonal is longer than all edges: the three shortest independent candidates are taken, and they need not span the lattice |
| C87, C88 | `find_primitive_cell` returns a lattice of determinant zero, without an error, for C-centred boxes with a < b < c and b < sqrt 3 a and for some boxes doubled along an axis: the third vector must make a right-handed triple (`cross.dot > dtol`, no absolute value), and if none does, index 2 is used although it may be coplanar |
| C91 | the same test makes the outcome depend on the hand of the cell: mirror images are treated differently |
| C92 | `epsilon = tol * volume^(1/3)` is a length but is compared with squared lengths, so the answer depends on the unit |
| C94 | `initial_num_ops` is lowered by the number of discarded operations in every pass instead of once, so the loop over supercells can end early: the result is not closed under multiplication |
| C100 | crystals of tabulated groups without an answer: in 91, 92, 95, 96, 198, 205, 212, 213 the tabulated operations are not closed under the code's product, which is not composition (C11, C19), so `from_generators` gives more operations than the table has, and orthorhombic crystals whose axes in order of length are not the table's setting (CaTiO3 in Pnma) |
| C64, C69, C70 | zero tolerance and exact ties: not idempotent |
| C110 | a difference just below the tolerance can round up to it and is then rejected (harmless) |
| C112 | in a skewed cell operations without an entry 0 or +-1 are dropped from an otherwise right answer (the filter of C21 and C66) |
| C115 | low quartz gets no answer: the table of its group is not closed under the product of the code (C11, C19, C100) |
| C118 | a P2_1/c crystal whose glide goes along the shorter of the axes gets no answer: the standard cell always has the shorter axis first, and the tables have one setting of each group |
| C121 | Th3P4, I-43d, gets no answer: the tables of I2_13, Ia-3, I4_132, I-43d and Ia-3d are not closed under the product of the code along any of the 48 axes (C11, C19, C100) |
| C123 | diamond gets 227 in a right-handed primitive cell and no answer in a left-handed one: find_primitive_cell turns the third axis of a left-handed cell around and niggli_reduce the other two, so that the operations are compared with the table after inversion in an atom, which is not a symmetry of Fd-3, F4_132, Fd-3m, Fd-3c with the origin of the table |

Other observations:
* C50 has a same-sign hypothesis. `niggli_reduce` tests twice the scalar product against epsilon, `get_lattice_character` the scalar product itself,
  so products between epsilon/2 and epsilon are signed for one and zero for the other.
* The repository's own `test_normalize` fails on its code: it expects 1.000001 to be left alone at tolerance 1e-3, the code gives 0.000001.
* `test_niggli_reduce` and `test_find_primitive` contain an exact tie of lengths (b against a+-b). Which of the two is returned is decided by rounding errors
  in the pseudo inverse. With the cofactor inverse the model returns the other one than the tests expect; for `test_niggli_reduce` an error of 2e-16 in one entry gives the expected cell.

## 4. Checking the model against the code

The crate is not built or run. `Validation.v` transcribes the inputs and expected outputs of the repository's unit tests and runs them on the binary64 model
with stand-in oracles (a Newton cube root, a series for acos, the cofactor inverse for `pinv`, insertion order for hash maps).
The tests agree with the model except as listed above; `test_find_primitive` is described there but not run, because of its running time.

Mutation testing: edits that realistic bugs would make are applied to a scratch copy of the theories, one at a time, and everything is rebuilt.
`seeded/LOG.jsonl` records the definition edited, the edit, the claims it should break, the theorems that stopped proving,
and what was tightened. A mutant counts as caught only if a theorem of a claim it breaks fails.

## 5. Trusted base

* Coq 8.16.1's kernel (`vm_compute` included), checked again by `coqchk`.
* The reading of the Rust source recorded in the comments of the model files.
* The `pinv` contract (`pinv_inverts` in `Prop5.v`): a hypothesis of the theorems that need it, never an axiom. `cofactor_pinv_ok` shows it can be met. C90 uses instead `pinv_turns` (`Prop16.v`), met by the Moore-Penrose inverse and by `cofactor_pinv` (`cofactor_pinv_turns`).
* Hash oracles and libm oracles are universally quantified; the refutations that need `cbrt 1 = 1` say so.
* No axioms are declared here. What `Print Assumptions` lists, collected by `tools/assumptions.py`; all four axioms are from the standard library
  (`ClassicalDedekindReals`, `Classical_Prop`, `FunctionalExtensionality`):

* **no axioms (closed under the global context)**: C07_decode_positional, C08_decode_spg_op, C13_generation_is_the_generated_set, C14_from_number_is_a_point_group, C31_min_element, C32_formulas, C33_formulas_any_size_refuted, C67_min_element_any_size_refuted, C48_lattice_character_in_tables, C57_rhombohedral_never_returned, C57_every_number_refuted, C62_boundary_lossless, C62_short_input_panics, C62_operations_row_by_row, C63_centering_strings, C63_lattice_system_strings, C63_bravais_letters, C54_tabulated_groups, C54_every_number_tabulated, C113_all_characters.
* **`sig_forall_dec`, `sig_not_dec`, `classic`, `functional_extensionality_dep`**: C01_normalize_range_binary64, C02_normalize_whole_periods, C03_normalize_idempotent_binary64, C04_normalize_canonical, C05_comparisons_decide, C06_num_negative_zero_counts, C64_normalize_idempotent_all_tolerances_refuted, C09_is_approx_eq_spec, C10_apply_and_normalize, C11_product_is_composition_refuted, C12_product_composes_iff_commuting, C15_apply_transformation_conjugates, C16_holohedries_integral_in_primitive_basis, C17_from_generators_adds_new_products, C18_from_generators_closed, C19_complete_list_unchanged_partial, C19_complete_list_unchanged_refuted, C20_unimodular_transformation, C21_non_integral_operations_dropped_refuted, C65_from_generators_terminates, C66_unimodular_keeps_operations_refuted, C22_new_consistent, C23_singular_lattice_rejected_refuted, C24_normalize_coords_keeps_crystal, C25_apply_transformation_genuine_sites, C26_basis_change_keeps_sites, C27_supercell_terminates_refuted, C27_row_supercells_diverge, C28_transformation_matrix_recovered, C29_reciprocal_lattice_dual, C30_cell_scalars, C34_delaunay_matrix, C68_supercell_complete, C35_niggli_same_lattice, C36_niggli_keeps_sites, C37_niggli_reduced, C38_niggli_idempotent, C39_niggli_succeeds_refuted, C40_left_handed_reduced_refuted, C40_left_handed_untouched, C69_exact_niggli_refuted, C70_exact_idempotent_refuted, C41_delaunay_same_lattice, C42_delaunay_reduced_refuted, C42_delaunay_reduced_or_exhausted, C43_delaunay_handedness_refuted, C71_full_reduction_shortest_refuted, C72_delaunay_keeps_sites, C73_delaunay_terminates, C44_shortest_vectors, C45_primitive_lattice_from_translations, C46_primitive_sites, C47_primitive_cell_nonsingular_refuted, C74_primitive_cell_kept, C75_close_sites_only_refuted, C75_sites_represented, C49_character_conditions, C50_conventional_metric, C51_conventional_volume, C51_primitive_same_lattice, C51_transformations, C52_right_handed_partial, C52_right_handed_refuted, C53_generic_lengths_partial, C53_every_reduced_cell_refuted, C55_identify_sound, C62_cartesian_input, C56_identify_order_independent, C76_identify_complete, C77_tables_identified, C58_operations_are_symmetries, C59_exact_symmetries_found, C78_search_exact, C79_tabulated_group_identified, C80_one_atom, C60_origin_refuted, C60_origin_partial, C61_reported_basis, C81_primitive_axes_shortest, C82_one_atom_answer, C83_orthogonal_box, C84_off_origin_unidentified, C85_niggli_answers, C86_body_centring_found, C86_body_centring_missed, C87_face_centring_found, C87_face_centring_singular, C88_doubled_cell_found, C88_doubled_cell_singular, C89_primitive_refuted, C90_answer_ignores_frame, C90_cells_turn_along, C91_mirror_images_refuted, C92_unit_of_length_refuted, C93_operations_of_a_supercell, C94_kept_operations_complete_refuted, C95_body_centred_cubic, C96_face_centred_cubic, C97_doubled_cube, C98_box_crystals_identified, C98_fractional_positions, C99_answer_is_the_group, C100_open_groups_never_answered, C100_other_settings_never_answered, C100_every_box_crystal_identified_refuted, C100_perovskite_refuted, C101_answer_near_group, C101_inversion_centre_off_the_grid, C102_answer_is_exact, C103_shifted_origin_identified, C103_moved_crystals_identified, C103_exactly_these_are_answered, C104_normalize_near_periods_binary64, C105_apply_accurate_binary64, C105_product_accurate_binary64, C105_cartesian_accurate_binary64, C106_is_approx_eq_binary64, C107_cust_eq_binary64, C107_approx_equal_binary64, C108_identify_sound_binary64, C108_identify_complete_binary64, C108_identify_order_independent_binary64, C109_closure_unchanged_binary64, C109_tables_run_binary64, C110_approx_equal_exact_refuted, C111_hexagonal_crystals_identified, C111_fractional_positions, C112_every_operation_returned_refuted, C113_character_symmetry, C113_elements_identified, C114_answer_is_the_group, C114_open_hexagonal_groups_never_answered, C115_every_hexagonal_crystal_identified_refuted, C116_no_inversion_P1, C116_inversion_Pm1, C117_monoclinic_crystals_identified, C117_other_glides_never_answered, C118_every_monoclinic_crystal_identified_refuted, C119_centred_cubic_crystals_identified, C120_answer_is_the_group, C120_open_groups_never_answered, C121_every_centred_cubic_crystal_identified_refuted, C122_right_handed_diamonds_identified, C122_left_handed_diamonds_never_answered, C123_order_of_axes_irrelevant_refuted, C124_centred_cubic_crystals_in_the_cube, C125_answer_in_the_cube_is_the_group, C125_open_groups_never_answered.
* **`sig_forall_dec`, `functional_extensionality_dep`**: C111_all_operations.
