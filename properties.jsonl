{"id": "C01", "title": "normalize_frac_vectors puts every component in [-tol, 1-tol], in binary64", "statement": "After normalize_frac_vectors, every component that was finite is finite and lies between -tol and the f64 value 1.0-tol inclusive, exactly, including all rounding of the machine arithmetic.", "quantifier": "every finite f64 component and every f64 tolerance with 0 <= tol <= 1", "why_tests_cant": "There are 2^64 components per tolerance, and the failures one fears live at rounding boundaries next to -tol and 1-tol.", "anchors": ["src/utils.rs: normalize_frac_vectors"]}
{"id": "C02", "title": "normalize_frac_vectors moves every component by an integer", "statement": "normalize_frac_vectors changes each component by an exact whole number of periods (in exact arithmetic), keeps the number and the order of the vectors, and treats every vector and every axis with its own tolerance.", "quantifier": "every list of vectors and every tolerance vector", "why_tests_cant": "Holds for every real component and every list length.", "anchors": ["src/utils.rs: normalize_frac_vectors"]}
{"id": "C03", "title": "normalize_frac_vectors is idempotent", "statement": "Normalizing twice with the same tolerances gives bit for bit the result of normalizing once.", "quantifier": "every finite f64 component and every f64 tolerance with 2^-54 < tol < 1 (binary64 arithmetic)", "why_tests_cant": "A single rounding error at the boundary would make a second pass move an atom by a whole cell; sampling does not reach those inputs.", "anchors": ["src/utils.rs: normalize_frac_vectors"]}
{"id": "C04", "title": "normalized representatives are canonical", "statement": "Two components that differ by a whole number of periods normalize to the same value, except when the value sits exactly on the cell boundary -tol / 1-tol.", "quantifier": "every pair of congruent real components, every tolerance in [0,1)", "why_tests_cant": "The exceptional set has measure zero, so random tests never see it, yet deduplication relies on the claim.", "anchors": ["src/utils.rs: normalize_frac_vectors"]}
{"id": "C05", "title": "the tolerant comparisons decide |a-b| against the tolerance", "statement": "cust_eq(a,b,eps) is true exactly when |a-b| <= eps, approx_equal exactly when |a-b| < tol; compare_matrices is the conjunction of cust_eq over the nine entries with the tolerance of the same index; approx_equal_iter is the conjunction over all positions and panics exactly when the lengths differ. Both comparisons are symmetric.", "quantifier": "all values, tolerances, matrices and lists", "why_tests_cant": "Unbounded input space; strict versus non-strict at the boundary is a measure-zero difference.", "anchors": ["src/utils.rs: cust_eq, approx_equal, compare_matrices, approx_equal_iter"]}
{"id": "C06", "title": "num_negative_zero counts the three-way partition", "statement": "For a list of at most 127 values, the two counts are the number of values below -eps and the number in [-eps, eps); the rest is the number of values >= eps, and the counts do not depend on the order of the list.", "quantifier": "every list of at most 127 values, every eps >= 0", "why_tests_cant": "Every list and tolerance.", "anchors": ["src/utils.rs: num_negative_zero"]}
{"id": "C07", "title": "decode is positional notation", "statement": "decode(e, base, sub, len) returns exactly len digits, most significant first, each digit d stored as d-sub, and re-reading them in that base gives back e modulo base^len; hence it is a bijection from [0, base^len) to digit lists.", "quantifier": "every u32 e, every base 1..=127 and sub with no i8 overflow, every len", "why_tests_cant": "2^32 codes times all bases and lengths.", "anchors": ["src/utils.rs: decode"]}
{"id": "C08", "title": "decode_spg_op never fails and inverts the table encoding", "statement": "decode_spg_op returns nine entries in {-1,0,1} and three entries in {0,2,3,4,6,8,9,10} for every u32 (the table index is never out of bounds), is injective below 3^9*8^3, and every such rotation/translation pair is the image of exactly one code in that range.", "quantifier": "every u32", "why_tests_cant": "2^32 codes.", "anchors": ["src/utils.rs: decode_spg_op"]}
{"id": "C09", "title": "is_approx_eq is equality of rotations plus congruence of translations within the tolerance", "statement": "a.is_approx_eq(b, tols) holds exactly when the rotations are equal and for each axis some whole number of periods brings the translations closer than the tolerance of that axis. It is reflexive, symmetric and unaffected by adding lattice vectors to either translation.", "quantifier": "all pairs of operations and all tolerances in (0, 1/2]", "why_tests_cant": "Real-valued translations; symmetry and periodicity are relations between infinitely many calls.", "anchors": ["src/symmop.rs: SymmOp::is_approx_eq"]}
{"id": "C10", "title": "SymmOp * vector applies the operation", "statement": "op * v is R v + t; SymmOp::normalize keeps the rotation and changes the action of the operation on every vector by a fixed lattice vector only, leaving each translation component in [-tol, 1-tol].", "quantifier": "all operations, vectors, tolerances in [0,1]", "why_tests_cant": "Real-valued inputs.", "anchors": ["src/symmop.rs: impl Mul<Vector3<f64>> for SymmOp, SymmOp::normalize"]}
{"id": "C11", "title": "SymmOp * SymmOp is composition of operations", "statement": "(S1 * S2) applied to a vector gives the same result as applying the two operations one after the other (in one of the two orders), and the product is associative.", "quantifier": "all pairs and triples of operations, all vectors", "why_tests_cant": "The unit test multiplies one pair of operations and compares with the implementation's own formula; it cannot see that for non-commuting rotations the product is not a composition in either order.", "anchors": ["src/symmop.rs: impl Mul for SymmOp"]}
{"id": "C12", "title": "the product is a composition exactly when the rotations commute", "statement": "S1 * S2 acts as 'first S1, then S2' on every vector if the two rotations commute, and if they do not commute there is a vector on which it acts differently.", "quantifier": "all pairs of operations", "why_tests_cant": "Characterises the whole infinite input space.", "anchors": ["src/symmop.rs: impl Mul for SymmOp"]}
{"id": "C13", "title": "point group generation yields exactly the generated group", "statement": "For generators that generate a finite set of matrices under multiplication, the generated operations are exactly the products of generators, each listed once, the loop terminates, and the set does not depend on hash iteration order.", "quantifier": "all generator lists with a finite closure, every hash iteration order", "why_tests_cant": "HashSet order is randomised per process; tests see a few of the schedules.", "anchors": ["src/pointgroup.rs: PointGroup::generate_operations"]}
{"id": "C14", "title": "PointGroup::from_number returns a group for every tabulated point group", "statement": "For every number 1..=32 and every hash iteration order, from_number returns the tabulated symbol and a duplicate-free list of operations that contains the identity and all generators, is closed under multiplication and inverses, consists of integer matrices of determinant +-1, and has the crystallographic order of that point group. For any other u8 it panics.", "quantifier": "every u8, every hash iteration order", "why_tests_cant": "Hash orders are randomised; the tables are large.", "anchors": ["src/pointgroup.rs: PointGroup::from_number", "src/data/pointgroup.rs: PG_NUM_TO_GENERATOR_MATRICES, PG_NUM_TO_SYMBOL"]}
{"id": "C15", "title": "PointGroup::apply_transformation conjugates the operations", "statement": "apply_transformation panics exactly when the matrix is singular, and otherwise replaces each operation and each generator R by T^-1 R T whenever that matrix is an integer matrix in the i8 range; conjugation preserves closure of the group.", "quantifier": "all invertible matrices and all groups", "why_tests_cant": "Real matrices.", "anchors": ["src/pointgroup.rs: PointGroup::apply_transformation"]}
{"id": "C16", "title": "holohedries stay integral groups in the primitive basis", "statement": "For each of the fifteen Bravais types, transforming the conventional holohedry with the centering matrix gives matrices that are exactly integer, pairwise distinct, and again a group of the same order.", "quantifier": "all Bravais types, every hash iteration order", "why_tests_cant": "Needs all operations of all holohedries under all iteration orders.", "anchors": ["src/analyzer.rs: get_primitive_space_group_ops", "src/data/core.rs: CENTERING_TO_PRIM_TRANS", "src/data/pointgroup.rs: BRAVAIS_TO_HOLOHEDRY_NUM"]}
{"id": "C17", "title": "SpaceGroup::from_generators keeps the generators and adds no duplicate operation", "statement": "The result starts with the generators in order; every added operation is a product of earlier ones modulo lattice translations, has its translation in [-tol,1-tol], and is inequivalent to every operation listed before it.", "quantifier": "all generator lists, all tolerances in (0,1/2], whenever the call returns", "why_tests_cant": "Unbounded lists and real translations.", "anchors": ["src/spacegroup.rs: SpaceGroup::from_generators, ops_from_generators"]}
{"id": "C18", "title": "SpaceGroup::from_generators is closed", "statement": "When from_generators returns, multiplying a generator with any returned operation gives an operation equivalent to a returned one.", "quantifier": "all generator lists, all tolerances in (0,1/2]", "why_tests_cant": "Unbounded lists and real translations; the loop only multiplies by operations of the last round, so closure is an invariant over all rounds.", "anchors": ["src/spacegroup.rs: ops_from_generators"]}
{"id": "C19", "title": "from_generators leaves a complete space group unchanged", "statement": "Feeding the complete list of operations of a space group (as tabulated, primitive setting) to from_generators returns that list, so that its order can be looked up.", "quantifier": "all 230 tabulated space groups", "why_tests_cant": "No unit test runs from_generators on a non-symmorphic group with non-commuting rotations; the claim fails for 21 groups.", "anchors": ["src/spacegroup.rs: ops_from_generators", "src/symmop.rs: impl Mul for SymmOp", "src/data/spacegroup.rs: SG_NUM_TO_FULL_MATRICES"]}
{"id": "C20", "title": "SpaceGroup::apply_transformation transports operations to the new basis", "statement": "For an integer matrix T of determinant +-1 (a change of primitive basis) each new operation {R'|t'} satisfies R' = T^-1 R T and T^-1(op x) = op'(T^-1 x) modulo the new lattice for an old operation; exactly the old operations whose conjugated rotation has an entry 0 or +-1 are represented, once each and in order, and no two new operations with one rotation are equivalent.", "quantifier": "all unimodular T, all lists of pairwise inequivalent operations with conjugates in the i8 range, all vectors, all tolerances in (0,1/2]", "why_tests_cant": "Real translations, infinitely many T.", "anchors": ["src/spacegroup.rs: SpaceGroup::apply_transformation"]}
{"id": "C21", "title": "SpaceGroup::apply_transformation drops operations that are not integral in the new basis", "statement": "Every operation kept by apply_transformation has an integer conjugated rotation T^-1 R T, which is what is stored.", "quantifier": "all T and all operations", "why_tests_cant": "The filter uses 'any entry is 0 or +-1' where 'all entries' is needed; the unit test uses a T for which the two agree.", "anchors": ["src/spacegroup.rs: SpaceGroup::apply_transformation"]}
{"id": "C22", "title": "Structure::new keeps fractional and cartesian coordinates consistent", "statement": "For a well-conditioned lattice, coords = lattice * frac_coords for every site whichever kind of coordinates is given; the given coordinates, lattice and species are stored unchanged, and converting to fractional and back is the identity.", "quantifier": "all lattices whose singular values exceed 1e-6, all coordinate lists", "why_tests_cant": "Real matrices.", "anchors": ["src/structure.rs: Structure::new, get_cart_coords, get_frac_coords"]}
{"id": "C23", "title": "a singular lattice is rejected", "statement": "Building a structure from cartesian coordinates on a singular lattice panics with 'Crystal lattice is not invertible!'.", "quantifier": "all singular lattices", "why_tests_cant": "No test passes a singular lattice; pseudo_inverse never reports an error for a non-negative threshold.", "anchors": ["src/structure.rs: get_frac_coords, get_transformation_matrix"]}
{"id": "C24", "title": "normalize_coords keeps the crystal", "statement": "normalize_coords leaves the lattice, yields sites sorted by species name, keeps sites of equal species in their input order, keeps every site's species, moves each site by a lattice vector only, leaves all fractional components in [-tol_i, 1-tol_i] and coords = lattice * frac_coords. If the coordinate list and species list have different lengths the surplus is dropped.", "quantifier": "all structures, all tolerances not larger than the cell edges", "why_tests_cant": "Unbounded site lists and real coordinates; stability only shows with repeated species.", "anchors": ["src/structure.rs: Structure::normalize_coords"]}
{"id": "C25", "title": "Structure::apply_transformation produces the transformed cell with genuine sites", "statement": "If it returns, the lattice is lattice * T, every new site has the species of some old site and differs from it by an old lattice vector (modulo the new lattice), the species/coords/frac_coords lists have one length, and the number of sites is at least the (2-decimal) volume ratio times the old number.", "quantifier": "all structures, all invertible T, all tolerances", "why_tests_cant": "Real matrices and unbounded site lists.", "anchors": ["src/structure.rs: Structure::apply_transformation"]}
{"id": "C26", "title": "Structure::apply_transformation does not lose or duplicate sites for a basis change", "statement": "For an integer T of determinant +-1 and sites that the function itself regards as distinct, the transformed structure has exactly the same number of sites, one for each old site.", "quantifier": "all unimodular T, all structures with separated sites", "why_tests_cant": "Infinitely many T and site lists.", "anchors": ["src/structure.rs: Structure::apply_transformation"]}
{"id": "C27", "title": "Structure::apply_transformation terminates on supercells", "statement": "For every integer matrix T with positive determinant and every structure with separated sites the call returns.", "quantifier": "all integer T, all structures", "why_tests_cant": "Termination cannot be observed by tests; the duplicate test measures new fractional differences with the old lattice, so large supercells never fill up.", "anchors": ["src/structure.rs: Structure::apply_transformation"]}
{"id": "C28", "title": "get_transformation_matrix recovers the transformation", "statement": "For a well-conditioned lattice, s.get_transformation_matrix(s') = T whenever s' has lattice s.lattice * T, in particular after apply_transformation(T).", "quantifier": "all well-conditioned lattices, all T", "why_tests_cant": "Real matrices.", "anchors": ["src/structure.rs: get_transformation_matrix"]}
{"id": "C29", "title": "reciprocal_lattice is dual to the lattice", "statement": "Column i of the lattice dotted with column j of the reciprocal lattice is 2*pi if i=j and 0 otherwise; the call panics exactly for singular lattices.", "quantifier": "all lattices", "why_tests_cant": "Real matrices.", "anchors": ["src/structure.rs: reciprocal_lattice"]}
{"id": "C30", "title": "cell scalars agree with the metric", "statement": "metric_tensor is symmetric with the squared edge lengths on the diagonal, volume squared is its determinant, volume is invariant under adding multiples of one lattice vector to another, and alpha, beta, gamma are angles in [0,180] whose cosine times the two edge lengths gives the off-diagonal metric entry.", "quantifier": "all non-singular lattices", "why_tests_cant": "Real matrices.", "anchors": ["src/structure.rs: a, b, c, alpha, beta, gamma, volume, metric_tensor"]}
{"id": "C31", "title": "get_min_element returns the rarest element deterministically", "statement": "For 1 to 65535 sites the returned element occurs in the structure, no element has fewer sites, ties go to the alphabetically first; the maps give the exact count and the first index of each element, for every hash iteration order. With no sites it panics.", "quantifier": "all species lists, every hash iteration order", "why_tests_cant": "Hash order is randomised, lists are unbounded.", "anchors": ["src/structure.rs: get_min_element"]}
{"id": "C32", "title": "formulas are correct", "statement": "For structures with at most 126 sites of each element, formula lists each element once in alphabetical order followed by its count unless that is 1, and reduced_formula divides all counts by their greatest common divisor.", "quantifier": "all species lists", "why_tests_cant": "Unbounded lists; counts are i8.", "anchors": ["src/structure.rs: formulas"]}
{"id": "C33", "title": "formulas handle large cells", "statement": "formulas is correct whatever the number of sites.", "quantifier": "all species lists", "why_tests_cant": "Counters are i8 and overflow at 128 (and the divisor loop at 127); no test has that many sites.", "anchors": ["src/structure.rs: formulas"]}
{"id": "C34", "title": "delaunay_matrix is a quadruple with zero sum", "statement": "The four columns are the three lattice vectors and minus their sum.", "quantifier": "all lattices", "why_tests_cant": "Real matrices.", "anchors": ["src/structure.rs: delaunay_matrix"]}
{"id": "C35", "title": "niggli_reduce returns a cell of the same lattice", "statement": "If niggli_reduce returns, the new lattice is the old one times an integer matrix of determinant exactly +1 (epsilon below 1), so volume, handedness and the set of lattice points are unchanged.", "quantifier": "all right-handed structures, all tolerances with 0 <= epsilon < 1", "why_tests_cant": "Up to 100 data-dependent iterations on real data.", "anchors": ["src/reduce.rs: Reducer::niggli_reduce"]}
{"id": "C36", "title": "niggli_reduce keeps every site", "statement": "If niggli_reduce returns, the output has the same sites (species and cartesian position modulo the lattice) as the input, sorted by species.", "quantifier": "all right-handed structures whose reduced lattice is well-conditioned", "why_tests_cant": "Unbounded site lists.", "anchors": ["src/reduce.rs: Reducer::niggli_reduce"]}
{"id": "C37", "title": "niggli_reduce returns a Niggli-reduced cell", "statement": "If niggli_reduce returns, the metric of the output satisfies all Niggli conditions within epsilon: a<=b<=c, |xi|<=b, |eta|<=a, |zeta|<=a, xi+eta+zeta+a+b>=0, all scalar products at least epsilon or all at most epsilon, and the special boundary conditions.", "quantifier": "all right-handed structures, all tolerances with 0 <= epsilon < 1", "why_tests_cant": "Exit condition of a data-dependent loop.", "anchors": ["src/reduce.rs: Reducer::niggli_reduce"]}
{"id": "C38", "title": "niggli_reduce is idempotent on the lattice", "statement": "Reducing an already reduced structure with the same tolerance returns the same lattice, unless one of the doubled scalar products of the reduced cell equals epsilon exactly.", "quantifier": "all right-handed structures, 0 <= epsilon < 1", "why_tests_cant": "Relation between two calls on arbitrary inputs.", "anchors": ["src/reduce.rs: Reducer::niggli_reduce"]}
{"id": "C39", "title": "niggli_reduce succeeds on every right-handed cell", "statement": "niggli_reduce returns a structure for every right-handed well-conditioned lattice.", "quantifier": "all right-handed lattices", "why_tests_cant": "The iteration cap is 100 and each iteration moves by one lattice vector; tests use cells that need a handful.", "anchors": ["src/reduce.rs: Reducer::niggli_reduce"]}
{"id": "C40", "title": "niggli_reduce reduces left-handed cells as well", "statement": "For a left-handed input lattice the result is Niggli-reduced too.", "quantifier": "all left-handed lattices", "why_tests_cant": "epsilon is NaN for a negative volume, which silently disables every comparison.", "anchors": ["src/reduce.rs: Reducer::niggli_reduce"]}
{"id": "C41", "title": "delaunay_reduce returns a cell of the same lattice", "statement": "If delaunay_reduce returns (either mode), the new lattice is the old one times an integer matrix of determinant +1 or -1.", "quantifier": "all structures, both modes", "why_tests_cant": "Data-dependent loop.", "anchors": ["src/reduce.rs: Reducer::delaunay_reduce"]}
{"id": "C42", "title": "delaunay_reduce returns a Delaunay-reduced cell or panics", "statement": "If delaunay_reduce (without full reduction) returns, all six scalar products of the quadruple are at most 1e-6; it panics only if the reduction did not finish.", "quantifier": "all structures", "why_tests_cant": "The loop bound and the panic test disagree by one, so the cap is only wrong for inputs needing 100 or more steps.", "anchors": ["src/reduce.rs: Reducer::delaunay_reduce"]}
{"id": "C43", "title": "delaunay_reduce preserves handedness", "statement": "A right-handed input gives a right-handed output.", "quantifier": "all structures", "why_tests_cant": "Each step flips orientation, so the outcome depends on the parity of the step count.", "anchors": ["src/reduce.rs: Reducer::delaunay_reduce"]}
{"id": "C44", "title": "the shortest-vector selection is sorted, and right-handed when a right-handed choice exists", "statement": "get_shortest_translation_vecs returns three of the candidates: the first is a shortest one; if some candidate is not parallel to it (cross product longer than dtol) the second is a shortest such candidate; if some such candidate makes a triple product above dtol with the first two, the third is a shortest one with that property, so the determinant exceeds dtol.", "quantifier": "all lists of at least three candidates, all dtol >= 0", "why_tests_cant": "Unbounded lists, stable sort.", "anchors": ["src/reduce.rs: get_shortest_translation_vecs"]}
{"id": "C45", "title": "find_primitive_cell only uses translations that map the crystal to itself", "statement": "If find_primitive_cell returns, its lattice is L*(t1 t2 t3)*T where T has entries -1, 0, 1 and each t_i carries every site to within 2*dtol of a site of the same species, modulo the input lattice.", "quantifier": "all well-conditioned structures with one species per site, all dtol >= 0", "why_tests_cant": "Unbounded site lists.", "anchors": ["src/reduce.rs: Reducer::find_primitive_cell"]}
{"id": "C46", "title": "find_primitive_cell keeps genuine sites only", "statement": "Every site of the primitive structure has the species of some input site and the same cartesian position modulo the input lattice and the new lattice.", "quantifier": "all structures whose new lattice is inverted by the pseudo inverse", "why_tests_cant": "Unbounded site lists.", "anchors": ["src/reduce.rs: Reducer::find_primitive_cell"]}
{"id": "C47", "title": "find_primitive_cell returns a non-singular right-handed cell", "statement": "For every structure on a non-singular lattice the primitive lattice is non-singular and right-handed.", "quantifier": "all structures", "why_tests_cant": "Depends on the order of sites and handedness: when no right-handed third vector follows, the code falls back to a fixed index that may be coplanar.", "anchors": ["src/reduce.rs: find_primitive_cell, get_shortest_translation_vecs"]}
{"id": "C48", "title": "lattice character is one of 44 and always has table entries", "statement": "get_lattice_character returns a number in 1..=44 or panics, and for every number it returns the conventional transformation, the Bravais type, the centering matrix, the holohedry and its generators exist, so no later table lookup fails.", "quantifier": "all structures, all tolerances", "why_tests_cant": "Every branch on real data.", "anchors": ["src/analyzer.rs: get_lattice_character, conventional_transformation_matrix, primitive_transformation_matrix", "src/data/core.rs: tables"]}
{"id": "C49", "title": "the lattice character's metric conditions hold", "statement": "If get_lattice_character returns n, the cell satisfies the metric conditions of row n of the International Tables within epsilon.", "quantifier": "all right-handed structures, all tol > 0 (eps = tol * cbrt(volume)), exact arithmetic", "why_tests_cant": "Real data, 44 rows.", "anchors": ["src/analyzer.rs: get_lattice_character"]}
{"id": "C50", "title": "the conventional cell has the metric of its Bravais type", "statement": "The conventional lattice computed from a cell with character n is cubic / tetragonal / orthorhombic / monoclinic (unique axis b) / hexagonal in its metric, as announced by the Bravais type, within 40 epsilon, whenever the scalar products D, E, F are either all above epsilon or all at most epsilon.", "quantifier": "all right-handed structures, eps = 1e-5 * cbrt(volume), exact arithmetic", "why_tests_cant": "Real data, 44 transformation matrices.", "anchors": ["src/analyzer.rs: conventional_transformation_matrix", "src/data/core.rs: LATTICE_CHAR_TO_CONV_TRANS, LATTICE_CHAR_TO_BRAVAIS"]}
{"id": "C51", "title": "conventional and primitive cells have consistent volumes and lattices", "statement": "For every character the conventional cell volume is the centering multiplicity (1,2,2,4,3) times the reduced cell volume, and conventional times primitive transformation is an integer matrix of determinant +-1, so the standard primitive cell spans the same lattice as the reduced cell.", "quantifier": "all 44 characters; all structures, hash orders and distance tolerances for which the standard cells are returned, exact arithmetic", "why_tests_cant": "All lattices.", "anchors": ["src/analyzer.rs: primitive_transformation_matrix", "src/data/core.rs: CENTERING_TO_PRIM_TRANS"]}
{"id": "C52", "title": "the standard conventional cell is right-handed", "statement": "Right-handed reduced cells give right-handed standard conventional cells.", "quantifier": "all right-handed reduced cells", "why_tests_cant": "Only character 17 is wrong.", "anchors": ["src/data/core.rs: LATTICE_CHAR_TO_CONV_TRANS"]}
{"id": "C53", "title": "every Niggli-reduced cell has a lattice character", "statement": "get_lattice_character does not panic on a Niggli-reduced cell.", "quantifier": "all Niggli-reduced cells", "why_tests_cant": "Only the section of the table for the matching edge-equality pattern is searched; generic cells with two equal edges have no row there.", "anchors": ["src/analyzer.rs: get_lattice_character"]}
{"id": "C54", "title": "space group tables hold groups", "statement": "For each of the 230 numbers there is exactly one tabulated entry; its count of operations is the bucket's order (at most 48); its rotations are pairwise distinct with determinant +-1, and modulo lattice translations the operations contain the identity and are closed under composition and inverse.", "quantifier": "all 230 numbers and all pairs of operations", "why_tests_cant": "Hundreds of thousands of products; finite but not covered by any test.", "anchors": ["src/data/spacegroup.rs: SG_NUM_TO_FULL_MATRICES, SG_NUM_TO_SYMBOL"]}
{"id": "C55", "title": "identify_space_group is sound", "statement": "If a number is returned it is in the bucket of the lattice system and of the number of operations, the symbol is the tabulated one, and every operation of the group matches a tabulated operation of that number within the tolerance (after the C-to-A axis permutation for A-centred symbols).", "quantifier": "all operation lists, lattice systems, tolerances in (0, 1/2], every hash iteration order", "why_tests_cant": "Hash order randomised; real translations.", "anchors": ["src/analyzer.rs: identify_space_group"]}
{"id": "C56", "title": "identify_space_group does not depend on hash order", "statement": "For tolerances at most 1/24 and a list of operations with pairwise distinct rotations, at most one candidate number matches, so the answer is the same for every iteration order of the candidate map.", "quantifier": "all operation lists with distinct rotations, every hash iteration order", "why_tests_cant": "Iteration order is randomised per process.", "anchors": ["src/analyzer.rs: identify_space_group"]}
{"id": "C57", "title": "rhombohedral space groups can be identified", "statement": "get_space_group_info can return each of the 230 numbers.", "quantifier": "all structures", "why_tests_cant": "Lattice system is taken from the first letter of the Bravais symbol, so hR is looked up as hexagonal; numbers 146,148,155,160,161,166,167 are never returned.", "anchors": ["src/analyzer.rs: get_space_group_info, identify_space_group", "src/data/core.rs: BravaisType::lattice_system"]}
{"id": "C58", "title": "operations found for the primitive cell are symmetries of the crystal", "statement": "Each operation {R|t} returned by the symmetry search has R in the transformed holohedry and maps every site to within 2*dtol (plus the 1e-9 rounding of t) of a site of the same species modulo the lattice.", "quantifier": "all species-sorted structures whose sites are farther apart than the matching radius, every hash iteration order", "why_tests_cant": "Unbounded site lists and hash orders; the code only counts vectors.", "anchors": ["src/analyzer.rs: get_primitive_space_group_ops"]}
{"id": "C59", "title": "all symmetries of a perfect crystal are found", "statement": "If an operation of the holohedry together with some translation maps the sites of each species exactly onto themselves, the search returns that rotation with that translation (up to 1e-9 and whole periods).", "quantifier": "all species-sorted structures with separated sites, every hash iteration order", "why_tests_cant": "Unbounded site lists and hash orders.", "anchors": ["src/analyzer.rs: get_primitive_space_group_ops"]}
{"id": "C60", "title": "space group number does not depend on the origin", "statement": "Translating all atoms by one vector does not change the outcome of get_space_group_info.", "quantifier": "all structures and shifts", "why_tests_cant": "Relation between two runs; tests use one structure with an inversion centre at the origin.", "anchors": ["src/analyzer.rs: get_space_group_info, identify_space_group"]}
{"id": "C61", "title": "operations are reported in the basis of the input", "statement": "The transformation applied to the operations before returning equals (standard primitive lattice)^-1 * (input lattice).", "quantifier": "all structures with well-conditioned lattices", "why_tests_cant": "Real matrices through five changes of basis.", "anchors": ["src/analyzer.rs: get_space_group_info"]}
{"id": "C62", "title": "the Python boundary is lossless", "statement": "For nine lattice numbers and coordinates of three numbers, converting Python lists to a structure and back returns the same lattice list, species and (for fractional input) coordinates; the lattice list is read column by column; rotations are reported row by row. Coordinates shorter than three or lattices shorter than nine panic.", "quantifier": "all inputs, any arithmetic for fractional input, exact arithmetic and well-conditioned lattices for Cartesian input", "why_tests_cant": "Unbounded lists.", "anchors": ["src/lib.rs: generate_input_structure, generate_output_structure_data, get_space_group_info"]}
{"id": "C63", "title": "Bravais letters are parsed consistently", "statement": "Display and FromStr of Centering and LatticeSystem are inverse to each other, and centering()/lattice_system() never panic; lattice_system agrees with the crystallographic lattice system of every Bravais type except hR.", "quantifier": "all Bravais types, all strings", "why_tests_cant": "All strings.", "anchors": ["src/data/core.rs: Centering, LatticeSystem, BravaisType"]}
{"id": "C64", "title": "normalize_frac_vectors is idempotent for every tolerance including 0", "statement": "Normalizing twice with the same tolerances gives bit for bit the result of normalizing once, also for tolerance 0.", "quantifier": "every finite f64 component and every f64 tolerance with 0 <= tol <= 1 (binary64 arithmetic)", "why_tests_cant": "Fails only for components within half an ulp of a cell boundary, which no sampled test hits.", "anchors": ["src/utils.rs: normalize_frac_vectors"]}
{"id": "C65", "title": "SpaceGroup::from_generators always terminates", "statement": "For every list of generators the closure search ends after finitely many rounds, and its answer does not change when more rounds are allowed (in exact arithmetic).", "quantifier": "all generator lists, all tolerances in (0,1/2]", "why_tests_cant": "An unbounded while loop over real-valued translations; tests only see particular generators.", "anchors": ["src/spacegroup.rs: ops_from_generators"]}
{"id": "C66", "title": "a change of basis loses no operation", "statement": "For an integer matrix T of determinant +-1 SpaceGroup::apply_transformation represents every operation of the group in the new basis.", "quantifier": "all unimodular T, all groups", "why_tests_cant": "The filter that discards operations depends on the entries of T^-1 R T, for unboundedly many T.", "anchors": ["src/spacegroup.rs: apply_transformation"]}
{"id": "C67", "title": "get_min_element for any number of sites", "statement": "For every species list the returned element has the fewest sites.", "quantifier": "all species lists", "why_tests_cant": "The counts are u16; a list with 65536 sites of one element is needed.", "anchors": ["src/structure.rs: get_min_element"]}
{"id": "C68", "title": "supercells of well separated sites are complete", "statement": "For every integer matrix T with non-zero determinant and every structure whose distinct sites stay more than twice the tolerance apart in the function's own distance, the call returns within |det T| passes a structure with exactly N*|det T| sites, in which every old site translated by every old lattice vector is present with its species.", "quantifier": "all integer T, all structures, all tolerances", "why_tests_cant": "Unbounded family of supercells and positions.", "anchors": ["src/structure.rs: Structure::apply_transformation"]}
{"id": "C69", "title": "niggli_reduce with zero tolerance returns an exact Niggli cell", "statement": "With tol = 0 the scalar products of the output are all positive or all non-positive.", "quantifier": "all right-handed structures, tol = 0", "why_tests_cant": "Only visible when a scalar product is exactly zero and the tolerance is zero; a vanishing product is then counted as positive.", "anchors": ["src/reduce.rs: Reducer::niggli_reduce, num_negative_zero"]}
{"id": "C70", "title": "niggli_reduce is idempotent for every tolerance", "statement": "Reducing the output again with the same tolerance, zero included, returns the same lattice.", "quantifier": "all right-handed structures, all tol >= 0", "why_tests_cant": "Needs an exact tie between a scalar product and epsilon.", "anchors": ["src/reduce.rs: Reducer::niggli_reduce"]}
{"id": "C71", "title": "full Delaunay reduction picks the shortest vectors", "statement": "With full_reduction the three returned vectors are a shortest independent choice from a, b, c, d, a+b, b+c, c+a: their squared lengths add up to no more than those of any other independent triple of the seven.", "quantifier": "all structures", "why_tests_cant": "The comparison is inverted, which only shows when squared lengths are compared with the alternatives; tests look at the lattice points only.", "anchors": ["src/reduce.rs: Reducer::delaunay_reduce (lines 463-497)"]}
{"id": "C72", "title": "delaunay_reduce keeps every site", "statement": "If delaunay_reduce returns (either mode), the output has the same sites (species and cartesian position modulo the lattice) as the input, sorted by species.", "quantifier": "all structures whose reduced lattice is well-conditioned, both modes", "why_tests_cant": "Unbounded site lists.", "anchors": ["src/reduce.rs: Reducer::delaunay_reduce"]}
{"id": "C73", "title": "delaunay_reduce succeeds on cells that are not too elongated", "statement": "If all scalar products of basis vectors are whole multiples of a unit u and the squared lengths of the quadruple add up to at most 200 u, delaunay_reduce returns a reduced cell.", "quantifier": "all non-singular structures, all units u > 0", "why_tests_cant": "Termination bound over infinitely many lattices.", "anchors": ["src/reduce.rs: Reducer::delaunay_reduce"]}
{"id": "C74", "title": "find_primitive_cell leaves a primitive cell alone up to a change of basis", "statement": "If no difference of two sites of the same species is a translation of the crystal within 2*dtol, and dtol is small against the cell (below the volume, the column lengths, and volume over column length), find_primitive_cell returns, and the new basis is a right-handed basis of the same lattice.", "quantifier": "all well-conditioned structures with 1 to 65535 sites", "why_tests_cant": "The selection among 26 combinations yields a basis only by a geometric argument over all lattices.", "anchors": ["src/reduce.rs: Reducer::find_primitive_cell, get_shortest_translation_vecs"]}
{"id": "C75", "title": "find_primitive_cell merges only sites that are close", "statement": "Two input sites are merged only if they are within 2*dtol of each other modulo the new lattice.", "quantifier": "all structures", "why_tests_cant": "New fractional coordinates are measured with the old lattice; the error only shows when the new basis vectors are permuted or rescaled, and it depends on the order of the sites.", "anchors": ["src/reduce.rs: Reducer::find_primitive_cell (lines 180-199)"]}
{"id": "C76", "title": "identify_space_group is complete", "statement": "If the rotations of a list of operations are pairwise distinct, there are as many as tabulated for number n, and each operation matches a tabulated operation of n within the tolerance (at most 1/24), then identify_space_group in n's lattice system returns n with its symbol.", "quantifier": "all 230 numbers, all operation lists, all tolerances in (0, 1/24], every hash iteration order, exact arithmetic", "why_tests_cant": "230 groups, real translations and randomised candidate order; a wrong neighbour in the same bucket would only show for some orders.", "anchors": ["src/analyzer.rs: identify_space_group", "src/data/spacegroup.rs: SG_NUM_TO_FULL_MATRICES"]}
{"id": "C77", "title": "each tabulated group is identified as itself", "statement": "Given exactly the tabulated operations of number n, identify_space_group in n's lattice system returns n, for every hash order and every tolerance up to 1/24.", "quantifier": "all 230 numbers, all tolerances in (0, 1/24], every hash iteration order, exact arithmetic", "why_tests_cant": "No test runs the identification of more than a few groups, and each run sees one hash order.", "anchors": ["src/analyzer.rs: identify_space_group", "src/data/spacegroup.rs"]}
{"id": "C78", "title": "the search returns exactly the symmetries of a rigid crystal, once each", "statement": "If every approximate operation (to 2*dtol) of a structure is that close to an exact one, the list returned by the symmetry search has no repetition, each of its operations is within 1e-9 (modulo periods) of an exact symmetry, and each exact symmetry with a rotation of the transformed holohedry appears exactly once.", "quantifier": "all species-sorted structures with separated sites, all Bravais types, every hash iteration order", "why_tests_cant": "Unbounded site lists, real coordinates and hash orders.", "anchors": ["src/analyzer.rs: get_primitive_space_group_ops"]}
{"id": "C79", "title": "a crystal showing a tabulated group is identified as that group", "statement": "If the exact symmetries of the standard cell with rotations in the transformed holohedry are the operations tabulated for space group N, and N is not one of the 21 groups whose list from_generators extends, then the search returns one operation per tabulated code, from_generators leaves the list alone, and identify_space_group returns N with its symbol.", "quantifier": "all rigid species-sorted structures with tolerance between 1e-8 and 1/24 of the cell edges, all tabulated groups outside the 21, every hash iteration order", "why_tests_cant": "Tests identify one or two structures; the claim covers 209 groups and all structures that realise them.", "anchors": ["src/analyzer.rs: get_space_group_info, get_primitive_space_group_ops, identify_space_group", "src/spacegroup.rs: from_generators"]}
{"id": "C80", "title": "one atom per primitive cell: the group of the lattice, except hR and mI", "statement": "For a standard primitive cell with a single atom at a lattice point the search, from_generators and identify_space_group give the symmorphic holohedral group of the Bravais type (2, 10, 12, 47, 65, 71, 69, 123, 139, 191, 221, 229, 225), whereas for the types hR and mI no space group is ever identified.", "quantifier": "all cells with one atom at an integer position, all 15 Bravais types, tolerance between 1e-8 and 1/24 of the edges, every hash iteration order", "why_tests_cant": "Tests contain one cubic structure; the failure for hR and mI concerns every crystal of these types.", "anchors": ["src/analyzer.rs: get_space_group_info, identify_space_group", "src/data/core.rs", "src/data/spacegroup.rs"]}
{"id": "C81", "title": "axes of the primitive cell are successively shortest among the neighbours", "statement": "When a cell has no inner translation, the first axis returned by find_primitive_cell is no longer than any of the 26 combinations of the given axes with coefficients -1, 0, 1; the second is no longer than any such combination not parallel to the first; the third no longer than any such combination out of the plane of the first two.", "quantifier": "all well-conditioned structures with 1 to 65535 sites, dtol small against the cell, every hash order", "why_tests_cant": "The selection sorts 26 real vectors; tests check one lattice.", "anchors": ["src/reduce.rs: Reducer::find_primitive_cell, get_shortest_translation_vecs"]}
{"id": "C82", "title": "a one-atom crystal is only ever given the group of its lattice", "statement": "If get_space_group_info answers for a crystal with one atom at a lattice point, the number and symbol are those of the symmetry group of the lattice type (Bravais symbol) of the Niggli-reduced cell.", "quantifier": "all one-atom structures with well-conditioned cells and no lattice vector shorter than 24*dtol, every hash order", "why_tests_cant": "Runs through five changes of basis, the operation search and the table lookup on real matrices.", "anchors": ["src/analyzer.rs: get_space_group_info"]}
{"id": "C83", "title": "orthogonal boxes with one atom are solved completely", "statement": "For one atom at a lattice point in an a x b x c box get_space_group_info returns: group 221 with 48 operations when the squared edges agree within 1e-5*V^(1/3), 123 with 16 operations when only two neighbours in size do, 47 with 8 operations otherwise; rotations are distinct orthogonal integer matrices.", "quantifier": "all edges between 1 and 1000 in any order, all dtol between 1e-5 and 1/24, every hash order", "why_tests_cant": "Termination and answer over a continuum of boxes.", "anchors": ["src/analyzer.rs: get_space_group_info", "src/reduce.rs: niggli_reduce, find_primitive_cell", "src/symmop.rs"]}
{"id": "C84", "title": "a one-atom crystal off the twenty-fourths of its axes is never identified", "statement": "If 24 times the position of the only atom is farther than 54*dtol from every lattice point, get_space_group_info never returns a space group, although the crystal has inversion symmetry about the atom.", "quantifier": "all such one-atom structures with well-conditioned cells, every hash order", "why_tests_cant": "A negative statement over all positions.", "anchors": ["src/analyzer.rs: get_space_group_info, identify_space_group"]}
{"id": "C85", "title": "Niggli reduction answers on small integral metrics", "statement": "niggli_reduce returns (and the result is Niggli reduced) whenever the entries of the metric are whole multiples of a unit u larger than the tolerance and the squared axes add up to at most 27 u: at most four iterations in a row keep the sum of the squared axes.", "quantifier": "all right-handed structures with such a metric, all tolerances with 0 < eps < min(u, 1)", "why_tests_cant": "Termination within 100 iterations for an infinite family; an extra iteration or a wrong exit shows only in some cells.", "anchors": ["src/reduce.rs: niggli_reduce"]}
{"id": "C86", "title": "body-centred cells are reduced exactly when an edge is longer than half the body diagonal", "statement": "For a crystal whose only inner translation is t = (1/2,1/2,1/2) and a tolerance small against the cell, find_primitive_cell returns a right-handed cell of half the volume spanning the lattice with t added if |t| is smaller than some edge; if |t| is larger than all three edges the cell returned still spans the input lattice and the centring is missed.", "quantifier": "all structures with such a translation and a well-conditioned cell of either hand, every number of atoms up to 65535, every tolerance small against the cell, every hash order", "why_tests_cant": "Which of the sorted vectors are chosen depends on real inequalities between edges; the missed case occurs only in sharply angled cells.", "anchors": ["src/reduce.rs: find_primitive_cell"]}
{"id": "C87", "title": "face-centred (C) cells are reduced or flattened by find_primitive_cell depending on the order of the edges", "statement": "For a crystal in a right-handed cell whose only inner translation is t = (1/2,1/2,0), find_primitive_cell returns a cell of half the volume spanning the extended lattice when c is shorter than a or b, or |t| < b < a < c, or a < |t| < b < c; when |t| < a < b < c or b < |t| < a < c it returns, without an error, a lattice matrix of determinant zero.", "quantifier": "all structures with such a translation and a well-conditioned right-handed cell, every tolerance small against the cell, every hash order", "why_tests_cant": "The failing cells form an open set of shapes (for example C-centred orthorhombic boxes with a < b < c, b*b < 3*a*a) which the repository's tests do not contain.", "anchors": ["src/reduce.rs: find_primitive_cell"]}
{"id": "C88", "title": "cells doubled along an axis are reduced or flattened by find_primitive_cell depending on the order of the edges", "statement": "For a crystal in a right-handed cell whose only inner translation is t = (1/2,0,0), find_primitive_cell returns a cell of half the volume spanning the extended lattice when c < |t|, or |t| < b < c, or c < b < a, or b < |t| and c < a; when b < |t| and a < c, or |t| < c < b and a < b, it returns, without an error, a lattice matrix of determinant zero.", "quantifier": "all structures with such a translation and a well-conditioned right-handed cell, every tolerance small against the cell, every hash order", "why_tests_cant": "As C87: the outcome depends on the order of four lengths; a test fixes one order.", "anchors": ["src/reduce.rs: find_primitive_cell"]}
{"id": "C89", "title": "find_primitive_cell returns a primitive cell", "statement": "Every exact translation of the input crystal is a lattice vector of the cell find_primitive_cell returns (for a tolerance small against a well-conditioned cell).", "quantifier": "all structures, all small tolerances, every hash order", "why_tests_cant": "The statement quantifies over crystals; the tests show particular ones.", "anchors": ["src/reduce.rs: find_primitive_cell"]}
{"id": "C90", "title": "the Cartesian frame does not matter", "statement": "Turning the crystal as a whole (lattice vectors and Cartesian positions) by a proper rotation leaves the whole outcome of get_space_group_info unchanged - number, symbol, operations, or the panic - and the cells returned by find_primitive_cell, niggli_reduce, delaunay_reduce, apply_transformation and the two standard-cell functions turn along.", "quantifier": "all structures (no condition on cell, lists or tolerance), all proper rotations, every hash order", "why_tests_cant": "Needs two runs on related inputs for all rotations; the tests use one setting per crystal.", "anchors": ["src/analyzer.rs: get_space_group_info, get_standard_conventional_structure, get_standard_primitive_structure", "src/reduce.rs: find_primitive_cell, niggli_reduce, delaunay_reduce", "src/structure.rs: apply_transformation"]}
{"id": "C91", "title": "mirror images are reduced alike", "statement": "A crystal and its mirror image have primitive cells of the same volume according to find_primitive_cell.", "quantifier": "all structures with well-conditioned cells, all orthogonal matrices, small tolerances", "why_tests_cant": "Needs pairs of enantiomorphic inputs.", "anchors": ["src/reduce.rs: find_primitive_cell"]}
{"id": "C92", "title": "the unit of length does not matter", "statement": "Multiplying the lattice, the Cartesian positions and the tolerance by the same positive number leaves the space group number of get_space_group_info unchanged.", "quantifier": "all structures, tolerances and positive factors", "why_tests_cant": "Needs pairs of runs in different units.", "anchors": ["src/analyzer.rs: get_space_group_info, get_lattice_character", "src/reduce.rs: niggli_reduce"]}
{"id": "C93", "title": "SpaceGroup::apply_transformation is complete for supercells", "statement": "For an integer matrix T of determinant D <> 0 under which every operation stays integral and is kept, apply_transformation returns after at most |D| passes a list with |D| entries per old operation: every old operation followed by every old lattice vector occurs, written in the new basis and modulo the new lattice, and nothing else does.", "quantifier": "all integer matrices of non-zero determinant, all lists of operations whose images are separated by more than the tolerance, all tolerances up to 1/2", "why_tests_cant": "The search over translations stops by a count; that the count is reached exactly when all classes of Z^3/TZ^3 have been visited is a statement about all T.", "anchors": ["src/spacegroup.rs: apply_transformation"]}
{"id": "C94", "title": "operations kept by apply_transformation come with all their translations", "statement": "Every operation that SpaceGroup::apply_transformation keeps is listed with |det T| translations, whatever happens to the other operations.", "quantifier": "all integer matrices T of non-zero determinant, all groups", "why_tests_cant": "Needs a supercell for which an operation is discarded and the search takes two passes.", "anchors": ["src/spacegroup.rs: apply_transformation"]}
{"id": "C95", "title": "body-centred cubic elements are Im-3m", "statement": "For one kind of atom on the corners and the centre of a cube, get_space_group_info answers 229, Im-3m, with 96 operations: the 48 rotations and rotoinversions of the cube, each with the translations 0 and (1/2,1/2,1/2), nothing missing and nothing spurious.", "quantifier": "all edges from 2 to 1000, all tolerances from 1e-5 to 1/24, every orientation and handedness of the cube, every order of the two atoms and every choice of their periodic images, every hash order", "why_tests_cant": "A test fixes one edge, one orientation, one listing of the atoms and one tolerance.", "anchors": ["src/analyzer.rs: get_space_group_info", "src/reduce.rs: find_primitive_cell, niggli_reduce", "src/data/core.rs"]}
{"id": "C96", "title": "face-centred cubic elements are Fm-3m", "statement": "For one kind of atom on the corners and the face centres of a cube, get_space_group_info answers 225, Fm-3m, with 192 operations: the 48 of the cube, each with the four face-centring translations, nothing missing and nothing spurious.", "quantifier": "all edges from 2 to 1000, all tolerances from 1e-5 to 1/24, every orientation and handedness, every order and periodic image of the four atoms, every hash order", "why_tests_cant": "There are 24 orders of the atoms, infinitely many images, orientations and edges; tests sample a few.", "anchors": ["src/analyzer.rs: get_space_group_info", "src/reduce.rs: find_primitive_cell, niggli_reduce", "src/data/core.rs"]}
{"id": "C97", "title": "a doubled cell of a simple cubic element is still Pm-3m", "statement": "For one kind of atom on the eight points 0 or 1/2 of a cube, get_space_group_info answers 221, Pm-3m, with 384 operations of the doubled cell: the 48 of the cube, each with the eight translations by half edges.", "quantifier": "all edges from 2 to 1000, all tolerances from 1e-5 to 1/24, every orientation and handedness, every one of the 40320 orders of the atoms and all their periodic images, every hash order", "why_tests_cant": "The number of orders and images is out of reach of tests; each order makes find_primitive_cell meet other candidate vectors first.", "anchors": ["src/analyzer.rs: get_space_group_info", "src/reduce.rs: find_primitive_cell, niggli_reduce", "src/data/core.rs"]}
{"id": "C98", "title": "crystals in rectangular cells are identified", "statement": "If the exact symmetry operations of a crystal with a cubic, tetragonal or orthorhombic box as primitive cell are those of a tabulated group along the axes named by their lengths, and the group's tabulated operations are closed under the code's product, then get_space_group_info answers the group's number, its symbol and exactly the crystal's operations, each once and each within 1e-9.", "quantifier": "all structures of 1 to 65535 sites, all box edges from 1 to 1000 told apart by the code's own epsilon, every orientation and naming of the basis vectors, every such group (76 and 78 in right-handed bases), all tolerances from 1e-5 to 1/24 small against the distances of the sites, every hash order", "why_tests_cant": "The statement covers every arrangement of atoms and every group in a box; a test runs one crystal.", "anchors": ["src/analyzer.rs: get_space_group_info, get_space_group_symmetry_operations, get_lattice_character", "src/reduce.rs: find_primitive_cell, niggli_reduce", "src/data/core.rs"]}
{"id": "C99", "title": "an answered number is the crystal's own group", "statement": "If the exact operations of a crystal in a rectangular cell are those of a tabulated group along any axes, and get_space_group_info returns an answer, then the answered number is that group's (76 and 78 may be exchanged with the axes), and the crystal's operations are those of the answered entry along the axes named by their lengths.", "quantifier": "all such structures of 1 to 65535 sites, right-handed choices of the axes, edges from 1 to 1000, tolerances from 1e-5 to 1/25, every hash order", "why_tests_cant": "Rules out a wrong answer for every crystal of this kind; a test can only show one right answer.", "anchors": ["src/analyzer.rs: get_space_group_info, get_space_group_symmetry_operations, get_lattice_character", "src/reduce.rs: find_primitive_cell, niggli_reduce", "src/data/core.rs"]}
{"id": "C100", "title": "every crystal of a tabulated group in a rectangular cell is identified", "statement": "Whenever the exact operations of a crystal in a rectangular primitive cell are those of a tabulated group along some axes, get_space_group_info answers that group's number.", "quantifier": "as C99", "why_tests_cant": "The settings of the table and the naming of the axes by length meet only for some crystals; the failures need crystals chosen for it.", "anchors": ["src/analyzer.rs: get_space_group_info, get_space_group_symmetry_operations, get_lattice_character", "src/reduce.rs: find_primitive_cell, niggli_reduce", "src/data/core.rs"]}
{"id": "C101", "title": "an answered group lies within the tolerance of the crystal", "statement": "If get_space_group_info answers a number for a crystal given by a primitive rectangular cell, then in some right-handed axes with the standard edges, and about one point moved by its rotations by no more than the tolerance (plus 1e-9), every exact operation of the crystal is an operation of the entry tabulated under that number. In particular a crystal whose inversion centre is off the multiples of 1/24 by more than the tolerance is never answered.", "quantifier": "all structures of 1 to 65535 sites in a primitive rectangular cell with edges from 1 to 1000, any origin, tolerances from 1e-5 to 1/24 with sites four tolerances apart and no accidental near-symmetry, every hash order", "why_tests_cant": "Says what any answer means, without being told the crystal's group; tests compare one answer with one expected number.", "anchors": ["src/analyzer.rs: get_space_group_info, get_space_group_symmetry_operations, identify_space_group, get_lattice_character", "src/spacegroup.rs: from_generators", "src/reduce.rs: find_primitive_cell, niggli_reduce", "src/data/core.rs"]}
{"id": "C102", "title": "clear of the tolerance, an answer is the crystal's group exactly", "statement": "If moreover no translation of an operation is off a twelfth by the tolerance itself (to 1e-8), then the exact operations of the crystal are exactly those of the answered entry about such a point, the entry is one of those closed under the code's product, and the operations returned are the crystal's operations, each once, with translations to 1e-9.", "quantifier": "as C101, tolerances up to 1/40", "why_tests_cant": "Soundness for all answers and all origins; a test sees one crystal.", "anchors": ["src/analyzer.rs: get_space_group_info, get_space_group_symmetry_operations, identify_space_group, get_lattice_character", "src/spacegroup.rs: from_generators", "src/reduce.rs: find_primitive_cell, niggli_reduce", "src/data/core.rs"]}
{"id": "C103", "title": "which crystals with a shifted origin are answered", "statement": "A crystal in a rectangular cell whose operations are those of a tabulated group about a point moved by the rotations by less than the tolerance is answered that number and its operations; so is a crystal of C98 moved as a whole by such a vector. Under the conditions of C102 a number is answered for exactly these crystals.", "quantifier": "as C101 and C102, groups other than 91, 92, 95, 96, 198, 205, 212, 213; 76 and 78 in right-handed axes", "why_tests_cant": "A characterisation: both which crystals succeed and which fail, for every displacement of the origin.", "anchors": ["src/analyzer.rs: get_space_group_info, get_space_group_symmetry_operations, identify_space_group, get_lattice_character", "src/spacegroup.rs: from_generators", "src/reduce.rs: find_primitive_cell, niggli_reduce", "src/data/core.rs"]}
{"id": "C104", "title": "coordinates reduced in binary64 move by whole periods to 2^-53", "statement": "normalize_frac_vectors, in IEEE binary64 arithmetic, returns as many vectors as it is given, and every component of the result is finite and differs from the component given minus some integer by at most 2^-53.", "quantifier": "all finite binary64 coordinates of any magnitude, tolerances from 0 to 1", "why_tests_cant": "Rounding is exercised by tests only at a few values; the bound holds for every double.", "anchors": ["src/utils.rs: normalize_frac_vectors"]}
{"id": "C105", "title": "applying and multiplying operations and converting coordinates in binary64", "statement": "In IEEE binary64, applying an operation to a point, the translation of a product of two operations, and get_cart_coords differ from the exact result by at most 2^(j+e-48) in each component, where 2^j bounds the matrix entries and 2^e the vectors; no overflow or NaN arises. The rotation of the product is the same as in exact arithmetic.", "quantifier": "all finite inputs within the bounds, j from 0 to 50 (100 for get_cart_coords), e from -200 to 100", "why_tests_cant": "Every double, not samples; the bound scales with the magnitude.", "anchors": ["src/symmop.rs: impl Mul", "src/structure.rs: get_cart_coords"]}
{"id": "C106", "title": "is_approx_eq in binary64", "statement": "In IEEE binary64, is_approx_eq true means equal rotations and translations equal modulo whole periods within the tolerances plus 1e-15; equal rotations and translations within the tolerances minus 1e-15 mean true.", "quantifier": "finite translations of magnitude at most 2, finite tolerances from 0 to 1/4", "why_tests_cant": "The band in which rounding decides is bounded for all inputs.", "anchors": ["src/symmop.rs: is_approx_eq", "src/utils.rs: normalize_frac_vectors"]}
{"id": "C107", "title": "cust_eq and approx_equal in binary64", "statement": "In IEEE binary64, cust_eq accepts every pair that differs by at most eps and only pairs that differ by at most eps + 2^(k-52), where 2^k bounds the arguments; approx_equal accepts only pairs that differ by less than tol, and accepts every pair whose difference is at most some double below tol.", "quantifier": "all finite doubles with magnitudes up to 2^999", "why_tests_cant": "Boundary behaviour at every double.", "anchors": ["src/utils.rs: cust_eq, approx_equal"]}
{"id": "C108", "title": "identification in binary64", "statement": "In IEEE binary64, an answer of identify_space_group means that every operation is an operation of the answered entry with translations within the tolerances plus 1e-14; a list with distinct rotations matching an entry within the tolerances minus 1e-14 is answered that entry; and the answer does not depend on the iteration order of the hash maps.", "quantifier": "all lists of operations with finite translations of magnitude at most 2, tolerances from 1e-14 to 1/24 - 1e-14, all entries of the tables, every hash order", "why_tests_cant": "All lists of doubles and all iteration orders.", "anchors": ["src/analyzer.rs: identify_space_group", "src/data/core.rs: SG_NUM_TO_FULL_MATRICES"]}
{"id": "C109", "title": "closure of a tabulated group in binary64", "statement": "In IEEE binary64, from_generators returns the operations of each of the 209 groups closed under the code's product unchanged, in whatever order and with translations off the twelfths by up to a fifth of the tolerance; and the list decoded from the table in binary64 is identified as the group it was decoded from, for all 230 groups.", "quantifier": "all such lists of doubles, tolerances from 1e-13 to 1/25 for the decoded lists", "why_tests_cant": "All perturbations of all groups; rounding in every product bounded.", "anchors": ["src/spacegroup.rs: from_generators", "src/analyzer.rs: identify_space_group", "src/utils.rs: decode_spg_op"]}
{"id": "C110", "title": "approx_equal decides |a - b| < tol exactly in binary64", "statement": "In IEEE binary64, approx_equal a b tol is true whenever |a - b| < tol.", "quantifier": "all finite doubles", "why_tests_cant": "A difference just below the tolerance that rounds up to it is rare in samples.", "anchors": ["src/utils.rs: approx_equal"]}
{"id": "C111", "title": "crystals in hexagonal cells are identified", "statement": "If the exact symmetry operations of a crystal with a hexagonal primitive lattice (given in any cell whose axes are sums of hexagonal axes and their opposites) are those of a tabulated group along the hexagonal axes, and the group's tabulated operations are closed under the code's product, then get_space_group_info answers the group's number and symbol, and returns the crystal's operations whose matrix has an entry among -1, 0, 1, each once, with translations to 6e-9. Along axes with at most six non-zero entries these are all operations.", "quantifier": "edges a, c from 1 to 1000 whose squares differ by more than 1e-5 of the cube root of the volume, tolerances from 1e-5 to 1/24 at most 1/26 of the distances between sites, any number of sites; 144, 145, 169-172 in right-handed axes", "why_tests_cant": "Infinitely many crystals; a test sees one.", "anchors": ["src/analyzer.rs: get_space_group_info, get_space_group_symmetry_operations, identify_space_group, get_lattice_character", "src/spacegroup.rs: from_generators, apply_transformation", "src/reduce.rs: find_primitive_cell, niggli_reduce", "src/data/core.rs"]}
{"id": "C112", "title": "every operation of an identified crystal is returned", "statement": "If get_space_group_info answers, each exact symmetry operation of the crystal has an operation with the same rotation in the list returned.", "quantifier": "all crystals that get an answer", "why_tests_cant": "The missing operations appear only in skewed cells, and the answer otherwise looks right.", "anchors": ["src/analyzer.rs: get_space_group_info, get_space_group_symmetry_operations, identify_space_group, get_lattice_character", "src/spacegroup.rs: from_generators, apply_transformation", "src/reduce.rs: find_primitive_cell, niggli_reduce", "src/data/core.rs"]}
{"id": "C113", "title": "the symmetry assumed for each of the 44 lattice characters is that of its lattices", "statement": "For each of the 44 lattice characters there is a lattice that get_lattice_character assigns to it and that has exactly as many isometries as the Bravais type listed for the character. A crystal with one atom per cell of that lattice is answered the largest group of the Bravais type (unless the type is hR or mI), and the operations returned are all isometries of the lattice, each once.", "quantifier": "44 metrics, each at every scale (u from 1 to 10000), every orientation and handedness; tolerances from 1e-5 to 1/40; any hash order", "why_tests_cant": "A Bravais type of too low symmetry gives a plausible answer with fewer operations; a test with the right lattice for each character, scale and orientation would be needed.", "anchors": ["src/analyzer.rs: get_lattice_character, get_space_group_info, get_space_group_symmetry_operations", "src/data/core.rs: LATTICE_CHAR_TO_BRAVAIS, LATTICE_CHAR_TO_CONV_TRANS, BRAVAIS_TO_HOLOHEDRY_NUM, CENTERING_TO_PRIM_TRANS"]}
{"id": "C114", "title": "an answer for a hexagonal crystal is its group", "statement": "If get_space_group_info answers for a crystal in a hexagonal cell whose operations are those of a tabulated group, that group is not among the 21 whose table is not closed under the code's product, and the number is the group's own; along left-handed axes it can also be that of another of the six groups with only a screw axis (144, 145, 169-172). Crystals with group 151-154 or 178-181 never get an answer.", "quantifier": "all hexagonal cells along any axes near to the hexagonal ones, all contents with the given operations, tolerances from 1e-5 to 1/25, any hash order, any fuel from 48", "why_tests_cant": "A test shows one crystal; that no crystal with a given group is ever answered, and that no answer is wrong, is about all of them.", "anchors": ["src/analyzer.rs: get_space_group_info, get_space_group_symmetry_operations, get_lattice_character", "src/reduce.rs: find_primitive_cell, niggli_reduce", "src/data/core.rs"]}
{"id": "C115", "title": "every hexagonal crystal with a tabulated group is identified", "statement": "A crystal in a hexagonal cell whose exact operations are those of a tabulated hexagonal group, with atoms well apart, is given that group's number by get_space_group_info.", "quantifier": "all such crystals", "why_tests_cant": "It holds for 37 of the 45 hexagonal entries; a test set without a quartz-like crystal passes.", "anchors": ["src/analyzer.rs: get_space_group_info, get_space_group_symmetry_operations, get_lattice_character", "src/reduce.rs: find_primitive_cell, niggli_reduce", "src/data/core.rs"]}
{"id": "C116", "title": "triclinic crystals are identified", "statement": "For a crystal whose reduced cell has no two right angles and all of whose reduction inequalities hold by more than the code's tolerance, without shorter translations, get_space_group_info answers P1 with one operation if the crystal has no inversion, and P-1 with exactly the identity and the inversion if the origin is a centre of inversion.", "quantifier": "all such cells, given along any axes near to the reduced ones, all contents with atoms well apart, tolerances from 1e-5 to 1/25, any hash order", "why_tests_cant": "The cells form a six-parameter family with both signs of the angles; a test covers single points of it.", "anchors": ["src/analyzer.rs: get_space_group_info, get_space_group_symmetry_operations, get_lattice_character", "src/reduce.rs: find_primitive_cell, niggli_reduce", "src/data/core.rs"]}
{"id": "C117", "title": "which primitive monoclinic crystals are identified", "statement": "For a crystal in a primitive monoclinic cell whose operations are those of a tabulated group along some axes, get_space_group_info answers that group, with the operations along those axes, if the group has no glide plane or the glide goes along an axis with even component along the shortest axis at right angles to the unique one. Otherwise (Pc, P2/c, P2_1/c in another setting) it never answers.", "quantifier": "all primitive monoclinic cells that are generic by more than the code's tolerance, all choices of axes with the same unique axis (any integer change of basis of the plane), tolerances from 1e-5 to 1/25, any hash order", "why_tests_cant": "A test has one setting; there are infinitely many choices of axes, falling into three classes, only one of which is in the tables.", "anchors": ["src/analyzer.rs: get_space_group_info, get_space_group_symmetry_operations, get_lattice_character", "src/reduce.rs: find_primitive_cell, niggli_reduce", "src/data/core.rs"]}
{"id": "C118", "title": "every primitive monoclinic crystal with a tabulated group is identified", "statement": "A crystal in a primitive monoclinic cell whose exact operations are those of a tabulated group along some axes, with atoms well apart, is given that group's number by get_space_group_info.", "quantifier": "all such crystals", "why_tests_cant": "It holds whenever the glide goes along the longer of the two shortest axes in the plane, as in many published settings.", "anchors": ["src/analyzer.rs: get_space_group_info, get_space_group_symmetry_operations, get_lattice_character", "src/reduce.rs: find_primitive_cell, niggli_reduce", "src/data/core.rs"]}
{"id": "C119", "title": "cubic crystals on a centred lattice are identified", "statement": "For a crystal in the standard primitive cell of a face-centred or body-centred cubic lattice whose exact operations are those of one of twelve tabulated groups (F23, Fm-3, F432, F-43m, F-43c, Fm-3m, Fm-3c; I23, Im-3, I432, I-43m, Im-3m), get_space_group_info answers that group with its symbol, and returns each of its operations once, with the rotation exact and the translation right to 3e-9 modulo the lattice.", "quantifier": "all edges from 2 to 1000, all orientations and both handednesses of the cell, all contents with atoms well apart, tolerances from 1e-5 to 1/25, any hash order", "why_tests_cant": "The primitive cell has up to 48 choices of reduced axes of equal length; which one is taken depends on the order of ties and on rounding, and the answer has to be the same for all of them.", "anchors": ["src/analyzer.rs: get_space_group_info, get_space_group_symmetry_operations, get_lattice_character", "src/reduce.rs: find_primitive_cell, niggli_reduce", "src/data/core.rs"]}
{"id": "C120", "title": "on a centred cubic lattice an answer is the crystal's group", "statement": "For a crystal in the standard primitive cell of a face-centred or body-centred cubic lattice whose exact operations are those of one of the 21 tabulated F and I cubic groups, the number and symbol answered by get_space_group_info, if it answers, are those of the crystal's group. For I2_13, Ia-3, I4_132, I-43d and Ia-3d it never answers.", "quantifier": "all edges from 2 to 1000, all orientations of the cell, all contents with atoms well apart, tolerances from 1e-5 to 1/25, any hash order", "why_tests_cant": "A wrong answer could come from any of 48 choices of axes and any other group of the same order.", "anchors": ["src/analyzer.rs: get_space_group_info, get_space_group_symmetry_operations, get_lattice_character", "src/reduce.rs: find_primitive_cell, niggli_reduce", "src/data/core.rs"]}
{"id": "C121", "title": "every centred cubic crystal with a tabulated group is identified", "statement": "A crystal in the standard primitive cell of a centred cubic lattice whose exact operations are those of a tabulated group, with atoms well apart, is given that group's number by get_space_group_info.", "quantifier": "all such crystals", "why_tests_cant": "It holds for rock salt, zinc blende and most other common structures.", "anchors": ["src/analyzer.rs: get_space_group_info, get_space_group_symmetry_operations, get_lattice_character", "src/reduce.rs: find_primitive_cell, niggli_reduce", "src/data/core.rs"]}
{"id": "C122", "title": "crystals of diamond type are identified in right-handed cells and in no left-handed cell", "statement": "For a crystal in the standard primitive cell of a face-centred cubic lattice whose exact operations are those of Fd-3, F4_132, Fd-3m or Fd-3c, get_space_group_info answers that group with its symbol and all its operations, translations right to 3e-9 modulo the lattice, if the three axes are right-handed. If they are left-handed it never answers.", "quantifier": "all edges from 2 to 1000, all orientations of the cell, all contents with atoms well apart, tolerances from 1e-5 to 1/25, any hash order, any pseudo-inverse that inverts", "why_tests_cant": "The cell has 48 choices of reduced axes of equal length and only 24 of them show the tabulated operations. Which is taken depends on ties in a sort and on the sign of a triple product.", "anchors": ["src/analyzer.rs: get_space_group_info, get_space_group_symmetry_operations, get_lattice_character", "src/reduce.rs: find_primitive_cell, niggli_reduce", "src/data/core.rs"]}
{"id": "C123", "title": "the order in which the axes are listed does not matter", "statement": "Listing the first two axes of a crystal's cell, and the first two fractional coordinates of its atoms, in the other order does not change the number answered by get_space_group_info.", "quantifier": "all crystals that get an answer", "why_tests_cant": "It holds for most structures; it takes a group whose tabulated operations are not symmetric in the axes.", "anchors": ["src/analyzer.rs: get_space_group_info, get_space_group_symmetry_operations, get_lattice_character", "src/reduce.rs: find_primitive_cell, niggli_reduce", "src/data/core.rs"]}
{"id": "C124", "title": "centred cubic crystals are identified in their cubic cell, with every operation and every lattice vector", "statement": "For a crystal given in the cubic cell of a face-centred or body-centred lattice, whose exact operations in the primitive cell are those of one of the groups identified there (C119), get_space_group_info answers that group with its symbol. It returns four (face-centred) or two (body-centred) times as many operations as the table has. Each is a tabulated operation expressed in the cubic axes, with some lattice vector added, right to 3e-9. For every tabulated operation and every lattice vector there is one.", "quantifier": "all edges from 2 to 1000, all orientations of the cell, all orders of the axes, all contents with atoms well apart, at most 65535 atoms, tolerances from 1e-5 to 1/25, any hash order, any pseudo-inverse that inverts", "why_tests_cant": "The program has to find the centring vectors, choose a primitive cell, reduce it, identify the group and carry the operations back through four changes of axes; a fixture tries one content in one orientation.", "anchors": ["src/analyzer.rs: get_space_group_info, get_space_group_symmetry_operations, get_lattice_character", "src/reduce.rs: find_primitive_cell, niggli_reduce", "src/data/core.rs"]}
{"id": "C125", "title": "an answer in the cubic cell is the crystal's group", "statement": "For a crystal given in the cubic cell of a face-centred or body-centred lattice with the operations of one of the 21 groups of those lattices, an answer of get_space_group_info is the number and symbol of that group. For I2_13, Ia-3, I4_132, I-43d and Ia-3d there is never an answer.", "quantifier": "all edges from 2 to 1000, all orientations of the cell, all orders of the axes, all contents with atoms well apart, at most 65535 atoms, tolerances from 1e-5 to 1/25, any hash order, any pseudo-inverse that inverts", "why_tests_cant": "It excludes a wrong answer for every content, and shows that no choice of origin or tolerance makes five groups come out.", "anchors": ["src/analyzer.rs: get_space_group_info, get_space_group_symmetry_operations, get_lattice_character", "src/reduce.rs: find_primitive_cell, niggli_reduce", "src/data/core.rs"]}
