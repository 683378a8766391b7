(** Model of /repo/src/analyzer.rs.  A [SymmetryAnalyzer] is represented by [dtol] ([atol] is never read). *)
From Coq Require Import ZArith String Ascii List Bool.
From Verif Require Import Num Mat Utils DataCore DataPG DataSG SymmOp PointGroup SpaceGroup Structure Reduce.
Import ListNotations.
Open Scope Z_scope.

(** derived Eq of the enumerations, core.rs 11, 53, 102 *)
Definition centering_eqb (a b : centering) : bool :=
  match a, b with
  | CP, CP | CA, CA | CB, CB | CC, CC | CI, CI | CF, CF | CR, CR => true
  | _, _ => false
  end.
Definition lattice_system_eqb (a b : lattice_system) : bool :=
  match a, b with
  | Triclinic, Triclinic | Monoclinic, Monoclinic | Orthorhombic, Orthorhombic
  | Tetragonal, Tetragonal | Rhombohedral, Rhombohedral | Hexagonal, Hexagonal | Cubic, Cubic => true
  | _, _ => false
  end.
Definition bravais_eqb (a b : bravais) : bool :=
  String.eqb (bravais_to_string a) (bravais_to_string b).

(** core.rs 124, 130: [chars().last()] and [chars().next()], as one-character strings *)
Fixpoint last_char (s : string) : option ascii :=
  match s with
  | EmptyString => None
  | String c EmptyString => Some c
  | String _ t => last_char t
  end.
Definition first_char (s : string) : option ascii :=
  match s with EmptyString => None | String c _ => Some c end.

(** core.rs 123-127 *)
Definition bravais_centering (b : bravais) : res centering :=
  do c <- of_opt PUnwrapNone (last_char (bravais_to_string b));
  of_opt PCentering (am_get String.eqb (String c EmptyString) centering_table).
(** core.rs 129-133 *)
Definition bravais_lattice_system (b : bravais) : res lattice_system :=
  do c <- of_opt PUnwrapNone (first_char (bravais_to_string b));
  of_opt PLatticeSystem (am_get String.eqb (String c EmptyString) lattice_system_table).

(** analyzer.rs 106-111: [to_string().chars().any(|c| c == 'A')] *)
Fixpoint has_char (c : ascii) (s : string) : bool :=
  match s with EmptyString => false | String d t => Ascii.eqb c d || has_char c t end.

(** analyzer.rs 123-124 *)
Definition c_to_a_transformation : mat Z := M 0 0 1 1 0 0 0 1 0.
(** analyzer.rs 126-127 *)
Definition c_to_a_transformation_inv : mat Z := M 0 1 0 0 0 1 1 0 0.

Section Analyzer.
  Context {N : Num} {P : Pinv} {H : HashOrd}.
  Local Open Scope F_scope.

  (** data/core.rs 9 *)
  Definition INT_CONVERSION_MULT : num := fofZ 1000000000.

  (** ** Lattice character, analyzer.rs 363-551 *)

  (** analyzer.rs 423-425 *)
  Definition extra_eval_a (a b d e f eps : num) : bool :=
    cust_eq (fabs (d + e + f) * f2) (a + b) eps.
  (** analyzer.rs 427-431 *)
  Definition extra_eval_b (a b d e f eps : num) : bool :=
    cust_eq (fabs (d + e + f) * f2) (a + b) eps && cust_eq (fabs (f2 * d + f)) b eps.

  (** analyzer.rs 434-459 *)
  Definition get_first_set (type_i : bool) (a b d e f eps : num) : list (vec num * Z) :=
    if type_i then
      [(vdivs (V a a a) f2, 1%Z); (V d d d, 2%Z)]
    else
      [(V f0 f0 f0, 3%Z); (vdivs (V a a a) (fofZ (-3)), 5%Z); (V d d d, 4%Z)] ++
      (if extra_eval_a a b d e f eps
       then [(V d d f, 6%Z); (V d e e, 7%Z); (V d e f, 8%Z)] else []).

  (** analyzer.rs 462-487 *)
  Definition get_second_set (type_i : bool) (a b d e f eps : num) : list (vec num * Z) :=
    if type_i then
      [(vdivs (V a a a) f2, 9%Z); (V d d f, 10%Z)]
    else
      [(V f0 f0 f0, 11%Z); (vdivs (V f0 f0 a) (fofZ (-2)), 12%Z); (V f0 f0 f, 13%Z);
       (vdivs (V a a f0) (fofZ (-2)), 15%Z); (V d d f, 14%Z)] ++
      (if extra_eval_a a b d e f eps then [(V d e f, 17%Z)] else []).

  (** analyzer.rs 490-515 *)
  Definition get_third_set (type_i : bool) (a b d e f eps : num) : list (vec num * Z) :=
    if type_i then
      [(V (a / fofZ 4) (a / f2) (a / f2), 18%Z); (V d (a / f2) (a / f2), 19%Z); (V d e e, 20%Z)]
    else
      [(V f0 f0 f0, 21%Z); (vdivs (V b f0 f0) (fofZ (-2)), 22%Z); (V d f0 f0, 23%Z)] ++
      (if extra_eval_a a b d e f eps then [(V d (a / fofZ (-3)) (a / fofZ (-3)), 24%Z)] else []) ++
      [(V d e e, 25%Z)].

  (** analyzer.rs 518-551 *)
  Definition get_fourth_set (type_i : bool) (a b d e f : num) : list (vec num * Z) :=
    if type_i then
      [(V (a / fofZ 4) (a / f2) (a / f2), 26%Z); (V d (a / f2) (a / f2), 27%Z);
       (V d (a / f2) (d * f2), 28%Z); (V d (d * f2) (a / f2), 29%Z);
       (V (b / f2) e (e * f2), 30%Z); (V d e f, 31%Z)]
    else
      [(V f0 f0 f0, 32%Z); (vdivs (V b f0 f0) (fofZ (-2)), 40%Z); (V d f0 f0, 35%Z);
       (vdivs (V f0 a f0) (fofZ (-2)), 36%Z); (V f0 e f0, 33%Z);
       (vdivs (V f0 f0 a) (fofZ (-2)), 38%Z); (V f0 f0 f, 34%Z);
       (vdivs (V b a f0) (fofZ (-2)), 42%Z); (V (b / fofZ (-2)) e f0, 41%Z);
       (V d (a / fofZ (-2)) f0, 37%Z); (V d f0 (a / fofZ (-2)), 39%Z);
       (V d e f, 44%Z)].

  (** analyzer.rs 399-408: first row whose vector equals (d,e,f) within eps, 0 if none *)
  Fixpoint first_match (eps : num) (def : vec num) (l : list (vec num * Z)) : Z :=
    match l with
    | [] => 0%Z
    | (v, n) :: t =>
        if cust_eq (vx v) (vx def) eps && cust_eq (vy v) (vy def) eps && cust_eq (vz v) (vz def) eps
        then n else first_match eps def t
    end.

  (** analyzer.rs 379-420 as a function of the Niggli parameters *)
  Definition character_of (eps a b c d e f : num) : res Z :=
    let '(num_negative, num_zero) := num_negative_zero [d; e; f] eps in
    let type_i := (Z.rem num_negative 2 =? 0)%Z && (num_zero =? 0)%Z in
    let vecs :=
      if cust_eq a b eps && cust_eq a c eps then get_first_set type_i a b d e f eps
      else if cust_eq a b eps then get_second_set type_i a b d e f eps
      else if cust_eq b c eps then get_third_set type_i a b d e f eps
      else get_fourth_set type_i a b d e f in
    let char_num := first_match eps (V d e f) vecs in
    let char_num :=
      if (char_num =? 14)%Z && extra_eval_a a b d e f eps then (char_num + 2)%Z
      else if (char_num =? 44)%Z && extra_eval_b a b d e f eps then (char_num - 1)%Z
      else char_num in
    if (char_num =? 0)%Z then Panic PLatticeChar else Ok char_num.

  (** analyzer.rs 363-421 *)
  Definition get_lattice_character (s : structure) (tol : num) : res Z :=
    let eps := epsilon_of tol s in
    let a_vec := col0 (lattice s) in let b_vec := col1 (lattice s) in let c_vec := col2 (lattice s) in
    character_of eps (magnitude_squared a_vec) (magnitude_squared b_vec) (magnitude_squared c_vec)
                 (dot b_vec c_vec) (dot a_vec c_vec) (dot a_vec b_vec).

  (** analyzer.rs 351: the literal 1e-5 *)
  Definition tol_1em5 : num := flit 1 100000.

  (** analyzer.rs 347-360 *)
  Definition conventional_transformation_matrix (s : structure) : res (mat num * Z) :=
    do lattice_character <- get_lattice_character s tol_1em5;
    do trans_mat <- of_opt PConvTrans (am_get Z.eqb lattice_character LATTICE_CHAR_TO_CONV_TRANS);
    Ok (transpose (mcast trans_mat), lattice_character).

  (** analyzer.rs 184-187, 320-323: [Matrix3::from(block) / m44] *)
  Definition prim_trans_of (c : centering) : option (mat num) :=
    match am_get centering_eqb c CENTERING_TO_PRIM_TRANS with
    | Some (b, d) => Some (mdivs (mcast b) (fofZ d))
    | None => None
    end.

  (** analyzer.rs 308-326 *)
  Definition primitive_transformation_matrix (lattice_character : Z) : res (mat num * bravais) :=
    do bravais_symbol <- of_opt PBravais (am_get Z.eqb lattice_character LATTICE_CHAR_TO_BRAVAIS);
    do c <- bravais_centering bravais_symbol;
    do m <- of_opt PPrimTrans (prim_trans_of c);
    Ok (m, bravais_symbol).

  (** ** Standard cells *)

  (** analyzer.rs 330-345 *)
  Definition get_standard_conventional_structure (fuel : nat) (path : list nat) (dtol : num)
             (s : structure) : res structure :=
    do prim <- find_primitive_cell path dtol s;
    do reduced <- niggli_reduce dtol prim tol_1em5;
    do (trans_mat, _) <- conventional_transformation_matrix reduced;
    apply_transformation fuel reduced trans_mat dtol.

  (** analyzer.rs 286-306 *)
  Definition get_standard_primitive_structure (fuel : nat) (path : list nat) (dtol : num)
             (s : structure) : res structure :=
    do prim <- find_primitive_cell path dtol s;
    do reduced <- niggli_reduce dtol prim tol_1em5;
    do (trans_mat, lattice_character) <- conventional_transformation_matrix reduced;
    do reduced <- apply_transformation fuel reduced trans_mat dtol;
    do (prim_trans_mat, _) <- primitive_transformation_matrix lattice_character;
    apply_transformation fuel reduced prim_trans_mat dtol.

  (** ** Operations of the primitive cell, analyzer.rs 164-283 *)

  (** analyzer.rs 204-220: the translations of one species block *)
  Definition block_translations (s : structure) (frac_tols : vec num) (float_op : mat num)
             (start cnt : Z) : res (list (vec num)) :=
    let idx := map (fun i => Z.to_nat start + i)%nat (seq 0 (Z.to_nat (wrap_u16 (start + cnt) - start))) in
    do rows <- map_res (fun ia =>
        do ca <- of_opt PIndex (nth_error (frac_coords s) ia);
        let rotated_coord := mvmul float_op ca in
        map_res (fun ib =>
          do cb <- of_opt PIndex (nth_error (frac_coords s) ib);
          Ok (normalize_vec (vsub cb rotated_coord) frac_tols)) idx) idx;
    Ok (concat rows).

  (** analyzer.rs 202-220: the translations of one rotation, species in hash order *)
  Definition op_translations (path : list nat) (s : structure) (frac_tols : vec num)
             (ele_inds ele_counts : list (string * Z)) (op : mat Z) : res (list (vec num)) :=
    do ls <- map_res (fun p =>
        do cnt <- of_opt PUnwrapNone (am_get String.eqb (fst p) ele_counts);
        block_translations s frac_tols (mcast op) (snd p) cnt) (hord path ele_inds);
    Ok (concat ls).

  (** analyzer.rs 233-237 *)
  Definition int_translation (v : vec num) : vec Z := vmap (fun x => fto_i64 (x * INT_CONVERSION_MULT)) v.
  (** analyzer.rs 242-244, 268-272 *)
  Definition float_translation (v : vec Z) : vec num := vmap (fun x => fofZ x / INT_CONVERSION_MULT) v.

  (** analyzer.rs 246-252 *)
  Definition counts_match (dtol : num) (lat : mat num) (frac_tols : vec num) (t : vec num) (k : vec Z) : bool :=
    same_site lat frac_tols (f2 * dtol) t (float_translation k).

  (** analyzer.rs 239-257: increment the first (in hash order) matching entry; None if there is none *)
  Definition find_match (dtol : num) (lat : mat num) (frac_tols t : vec num)
             (m : list (vec Z * Z)) : option (vec Z) :=
    option_map fst (find (fun p => counts_match dtol lat frac_tols t (fst p)) m).
  Fixpoint count_incr (k : vec Z) (m : list (vec Z * Z)) : list (vec Z * Z) :=
    match m with
    | [] => []
    | (k', c) :: t => if zvec_eqb k k' then (k', c + 1)%Z :: t else (k', c) :: count_incr k t
    end.

  (** analyzer.rs 232-262: one translation vector, [i] its index *)
  Definition count_step (path : list nat) (dtol : num) (lat : mat num) (frac_tols : vec num)
             (m : list (vec Z * Z)) (it : nat * vec num) : list (vec Z * Z) :=
    let '(i, t) := it in
    match find_match dtol lat frac_tols t (hord (i :: path) m) with
    | Some k => count_incr k m
    | None => am_insert zvec_eqb (int_translation t) 1%Z m
    end.

  (** analyzer.rs 229-280: the accepted operations of one rotation *)
  Definition accepted_ops (path : list nat) (dtol : num) (s : structure) (frac_tols : vec num)
             (e : mat Z * list (vec num)) : list symmop :=
    let '(op, tvs) := e in
    let counts := fold_left (count_step (0%nat :: path) dtol (lattice s) frac_tols)
                            (combine (seq 0 (List.length tvs)) tvs) [] in
    map (fun p => SymmOp op (float_translation (fst p)))
        (filter (fun p => (snd p =? Z.of_nat (num_sites s))%Z) (hord (1%nat :: path) counts)).

  (** The HashMap insertions of analyzer.rs 200-223 *)
  Definition insert_all (l : list (mat Z * list (vec num))) : list (mat Z * list (vec num)) :=
    fold_left (fun m p => am_insert zmat_eqb (fst p) (snd p) m) l [].

  (** analyzer.rs 164-283.  [i]-th operation / map entry use their own hash-order path. *)
  Definition get_primitive_space_group_ops (fuel : nat) (path : list nat) (dtol : num)
             (s : structure) (bravais_symbol : bravais) : res (list symmop) :=
    let frac_tols := frac_tols_of (lattice s) dtol in
    do holohedry_num <- of_opt PUnwrapNone (am_get bravais_eqb bravais_symbol BRAVAIS_TO_HOLOHEDRY_NUM);
    do holohedry_pg <- pg_from_number fuel (0%nat :: path) holohedry_num;
    do c <- bravais_centering bravais_symbol;
    do prim_transformation <- of_opt PUnwrapNone (prim_trans_of c);
    do holohedry_pg <- pg_apply_transformation holohedry_pg prim_transformation;
    do (_, ele_inds, ele_counts) <- get_min_element (1%nat :: path) (species s);
    let ops := pg_operations holohedry_pg in
    do entries <- map_res (fun io =>
        do tvs <- op_translations (fst io :: 2%nat :: path) s frac_tols ele_inds ele_counts (snd io);
        Ok (snd io, tvs)) (combine (seq 0 (List.length ops)) ops);
    let op_trans_vecs := hord (3%nat :: path) (insert_all entries) in
    Ok (concat (map (fun ie => accepted_ops (fst ie :: 4%nat :: path) dtol s frac_tols (snd ie))
                    (combine (seq 0 (List.length op_trans_vecs)) op_trans_vecs))).

  (** ** Identification, analyzer.rs 87-162 *)

  (** analyzer.rs 117-136: candidate operation of one code *)
  Definition candidate_op (is_a_centered : bool) (encoded_op : Z) : res symmop :=
    do (matrix_vec, trans_vec) <- decode_spg_op encoded_op;
    do m <- mat_from_iter matrix_vec;
    let rotation := transpose m in
    do tz <- vec_from_iter trans_vec;
    let translation := vdivs (vcast tz) (fofZ 12) in
    Ok (if is_a_centered then
          SymmOp (i8_mmul (i8_mmul c_to_a_transformation_inv rotation) c_to_a_transformation)
                 (mvmul (mcast c_to_a_transformation_inv) translation)
        else SymmOp rotation translation).

  (** analyzer.rs 113-147: is every operation found among the candidates?  (The decoding of all codes is
      hoisted out of the loop over operations; it does not depend on it.) *)
  Definition all_found (ops cands : list symmop) (frac_tols : vec num) : bool :=
    forallb (fun sg_op => existsb (fun c => is_approx_eq sg_op c frac_tols) cands) ops.

  (** analyzer.rs 104-159 *)
  Fixpoint identify_loop (ops : list symmop) (frac_tols : vec num) (groups : list (Z * list Z))
    : res (option (Z * string)) :=
    match groups with
    | [] => Ok None
    | (n, encoded_ops) :: t =>
        do symbol <- of_opt PBadNumber (am_get Z.eqb n SG_NUM_TO_SYMBOL);
        do cands <- map_res (candidate_op (has_char "A"%char symbol)) encoded_ops;
        if all_found ops cands frac_tols then Ok (Some (n, symbol))
        else identify_loop ops frac_tols t
    end.

  (** analyzer.rs 87-162 *)
  Definition identify_space_group (path : list nat) (ops : list symmop) (ls : lattice_system)
             (frac_tols : vec num) : res (option (Z * string)) :=
    let order := wrap_u8 (Z.of_nat (List.length ops)) in
    do lattice_groups <- of_opt PNoLatticeGroups (am_get lattice_system_eqb ls SG_NUM_TO_FULL_MATRICES);
    do candidate_groups <- of_opt PNoOrder (am_get Z.eqb order lattice_groups);
    identify_loop ops frac_tols (hord path candidate_groups).

  (** analyzer.rs 27-85 *)
  Definition get_space_group_info (fuel : nat) (path : list nat) (dtol : num) (s : structure)
    : res (Z * string * list symmop) :=
    do prim <- find_primitive_cell (0%nat :: path) dtol s;
    do niggli <- niggli_reduce dtol prim tol_1em5;
    do (conv_trans_mat, lattice_character) <- conventional_transformation_matrix niggli;
    do reduced <- apply_transformation fuel niggli conv_trans_mat dtol;
    do (prim_trans_mat, bravais_symbol) <- primitive_transformation_matrix lattice_character;
    do reduced <- apply_transformation fuel reduced prim_trans_mat dtol;
    do sg_generators <- get_primitive_space_group_ops fuel (1%nat :: path) dtol reduced bravais_symbol;
    let frac_tols := frac_tols_of (lattice reduced) dtol in
    do sg <- from_generators fuel sg_generators frac_tols;
    do ls <- bravais_lattice_system bravais_symbol;
    do idr <- identify_space_group (2%nat :: path) sg ls frac_tols;
    do (int_num, sg_symbol) <- of_opt PIdentify idr;
    do initial_trans_mat <- get_transformation_matrix prim s;
    do niggli_trans_mat <- get_transformation_matrix niggli prim;
    do inv_prim <- of_opt PPrimNotInvertible (try_inverse prim_trans_mat);
    do inv_conv <- of_opt PConvNotInvertible (try_inverse conv_trans_mat);
    let total_transformation := mmul (mmul (mmul inv_prim inv_conv) niggli_trans_mat) initial_trans_mat in
    do sg <- sg_apply_transformation fuel sg total_transformation frac_tols;
    Ok (int_num, sg_symbol, sg).
End Analyzer.
