(** Model of /repo/src/reduce.rs.  A [Reducer] is represented by its field [dtol] ([atol] is never read). *)
From Coq Require Import ZArith String List Bool.
From Verif Require Import Num Mat Utils SpaceGroup Structure.
Import ListNotations.
Open Scope Z_scope.

Section Reduce.
  Context {N : Num} {P : Pinv} {H : HashOrd}.
  Local Open Scope F_scope.

  (** reduce.rs 471, 513: [sort_by(|a, b| a.magnitude().partial_cmp(&b.magnitude()).unwrap())];
      with two or more vectors a NaN length makes the comparison panic. *)
  Definition sort_by_length (l : list (vec num)) : res (list (vec num)) :=
    if (1 <? List.length l)%nat && existsb (fun v => fisnan (magnitude v)) l then Panic PNanCmp
    else Ok (sort_by (fun a b => magnitude a <=? magnitude b) l).

  (** reduce.rs 516-527: first later vector not parallel to [first]; gives (cross_vec, second_ind).
      [i] is the index of the head of [l]; without a hit the last cross product is kept. *)
  Fixpoint scan_second (dtol : num) (first : vec num) (i : nat) (cross_vec : vec num)
           (l : list (vec num)) : vec num * nat :=
    match l with
    | [] => (cross_vec, 1%nat)
    | v :: t => let cv := cross first v in
                if fabs (magnitude cv) >? dtol then (cv, i) else scan_second dtol first (S i) cv t
    end.

  (** reduce.rs 529-534 *)
  Fixpoint scan_third (dtol : num) (cross_vec : vec num) (i : nat) (l : list (vec num)) : nat :=
    match l with
    | [] => 2%nat
    | v :: t => if dot cross_vec v >? dtol then i else scan_third dtol cross_vec (S i) t
    end.

  (** reduce.rs 512-539; the result is the triple of [final_vecs] *)
  Definition get_shortest_translation_vecs (dtol : num) (cart_vecs : list (vec num))
    : res (vec num * vec num * vec num) :=
    do l <- sort_by_length cart_vecs;
    do first <- of_opt PIndex (nth_error l 0);
    let '(cross_vec, second_ind) := scan_second dtol first 1 (V f0 f0 f0) (skipn 1 l) in
    if (List.length l <? S second_ind)%nat then Panic PIndex else
    let third_ind := scan_third dtol cross_vec (S second_ind) (skipn (S second_ind) l) in
    do second <- of_opt PIndex (nth_error l second_ind);
    do third <- of_opt PIndex (nth_error l third_ind);
    Ok (first, second, third).

  (** reduce.rs 54-58 *)
  Definition unit_vecs : list (vec num) := [V f1 f0 f0; V f0 f1 f0; V f0 f0 f1].

  (** reduce.rs 54-70 *)
  Definition fp_candidates (s : structure) (frac_tols : vec num) (min_ele : string) (base_ind : nat)
             (base_site : vec num) : list (vec num) :=
    unit_vecs ++
    map (fun p => normalize_vec (vsub (fst (snd p)) base_site) frac_tols)
        (filter (fun p => String.eqb (snd (snd p)) min_ele && negb (Nat.eqb (fst p) base_ind))
                (combine (seq 0 (List.length (frac_coords s))) (combine (frac_coords s) (species s)))).

  (** reduce.rs 77-112: is [v] a translation that maps every site onto a site of the same species? *)
  Definition fp_is_translation (dtol : num) (s : structure) (frac_tols v : vec num) : bool :=
    let sites := combine (frac_coords s) (species s) in
    forallb (fun p =>
      existsb (fun q => String.eqb (snd p) (snd q) &&
                        same_site (lattice s) frac_tols (f2 * dtol) (vadd (fst p) v) (fst q)) sites) sites.

  (** reduce.rs 132-146 *)
  Definition base_comb_vecs : list (vec num) :=
    map (fun v => V (fofZ (vx v)) (fofZ (vy v)) (fofZ (vz v)))
      [V 1 0 0; V 0 1 0; V 0 0 1; V 1 1 0; V 1 0 1; V 0 1 1; V (-1) 1 0; V (-1) 0 1; V 0 (-1) 1;
       V 1 1 1; V (-1) 1 1; V 1 (-1) 1; V 1 1 (-1)]%Z.

  (** reduce.rs 150-160 *)
  Definition combination_vecs (frac_matrix : mat num) : list (vec num) :=
    flat_map (fun comb_vec =>
      let transformed_vec := mvmul frac_matrix comb_vec in
      let new_vec := vscale fm1 transformed_vec in
      [transformed_vec; vscale fm1 transformed_vec] ++
      (if fabs (magnitude new_vec) >? ZERO_TOL then [new_vec] else [])) base_comb_vecs.

  (** reduce.rs 180-199: fold the sites into the new cell; state = (new_frac_coords, new_species).
      Line 195 normalizes a temporary and has no effect. *)
  Definition fp_fold_step (lat : mat num) (frac_tols : vec num) (dtol : num)
             (st : list (vec num) * list string) (site : vec num * string)
    : list (vec num) * list string :=
    let '(nfc, nsp) := st in
    if existsb (fun nc => same_site lat frac_tols (dtol * f2) (fst site) nc) nfc then st
    else (nfc ++ [fst site], nsp ++ [snd site]).

  (** reduce.rs 26-205 *)
  Definition find_primitive_cell (path : list nat) (dtol : num) (s : structure) : res structure :=
    let frac_tols := frac_tols_of (lattice s) dtol in
    let temp := normalize_coords s dtol in
    do (min_ele, ele_inds, _) <- get_min_element path (species temp);
    do base_i <- of_opt PUnwrapNone (am_get String.eqb min_ele ele_inds);
    let base_ind := Z.to_nat base_i in
    do base_site <- of_opt PIndex (nth_error (frac_coords temp) base_ind);
    let candidate_vecs := fp_candidates temp frac_tols min_ele base_ind base_site in
    let translation_vecs := filter (fp_is_translation dtol temp frac_tols) candidate_vecs in
    do (v1, v2, v3) <- get_shortest_translation_vecs dtol (get_cart_coords (lattice temp) translation_vecs);
    do smallest <- get_frac_coords (lattice temp) [v1; v2; v3];
    match smallest with
    | [w1; w2; w3] =>
        let frac_matrix := from_columns w1 w2 w3 in
        do (u1, u2, u3) <- get_shortest_translation_vecs dtol
                              (get_cart_coords (lattice temp) (combination_vecs frac_matrix));
        let new_lattice := from_columns u1 u2 u3 in
        do temp_frac_coords <- get_frac_coords new_lattice (coords temp);
        let '(nfc, nsp) := fold_left (fp_fold_step (lattice temp) frac_tols dtol)
                                     (combine temp_frac_coords (species temp)) ([], []) in
        do prim <- structure_new new_lattice nsp nfc false;
        Ok (normalize_coords prim dtol)
    | _ => Panic PIndex  (* not reachable: get_frac_coords keeps the length *)
    end.

  (** ** Niggli reduction, reduce.rs 214-398 *)

  (** reduce.rs 228-235, 245-252, 317-324: (a, b, c, xi, eta, zeta) *)
  Definition g_a (g : mat num) : num := m11 g.
  Definition g_b (g : mat num) : num := m22 g.
  Definition g_c (g : mat num) : num := m33 g.
  Definition g_xi (g : mat num) : num := f2 * m23 g.
  Definition g_eta (g : mat num) : num := f2 * m13 g.
  Definition g_zeta (g : mat num) : num := f2 * m12 g.

  (** reduce.rs 242-243 etc.: [metric_tensor = c^T * metric_tensor * c; transformation *= c] *)
  Definition congr (c : mat num) (st : mat num * mat num) : mat num * mat num :=
    (mmul (mmul (transpose c) (fst st)) c, mmul (snd st) c).

  (** reduce.rs 238 *)
  Definition c1_mat : mat num := mcast (M 0 (-1) 0 (-1) 0 0 0 0 (-1))%Z.
  (** reduce.rs 256 *)
  Definition c2_mat : mat num := mcast (M (-1) 0 0 0 0 (-1) 0 (-1) 0)%Z.
  (** reduce.rs 373 *)
  Definition c8_mat : mat num := mcast (M 1 0 1 0 1 1 0 0 1)%Z.

  (** reduce.rs 239-240 *)
  Definition a1_cond (eps : num) (g : mat num) : bool :=
    (g_a g - eps >? g_b g) ||
    (cust_eq (g_a g) (g_b g) eps && (fabs (g_xi g) - eps >? fabs (g_eta g))).
  (** reduce.rs 257-258 *)
  Definition a2_cond (eps : num) (g : mat num) : bool :=
    (g_b g - eps >? g_c g) ||
    (cust_eq (g_b g) (g_c g) eps && (fabs (g_eta g) - eps >? fabs (g_zeta g))).

  (** reduce.rs 284-310: which of i, j, k the reference [p] points to (0 = the temporary) *)
  Definition a4_signs (eps xi eta zeta : num) : num * num * num :=
    let '(i, prod, p) :=
      if xi - eps >? f0 then (fm1, f1 * fm1, 0%nat)
      else (f1, f1, if negb (xi <? fneg eps) then 1%nat else 0%nat) in
    let '(j, prod, p) :=
      if eta - eps >? f0 then (fm1, prod * fm1, p)
      else (f1, prod, if negb (eta <? fneg eps) then 2%nat else p) in
    let '(k, prod, p) :=
      if zeta - eps >? f0 then (fm1, prod * fm1, p)
      else (f1, prod, if negb (zeta <? fneg eps) then 3%nat else p) in
    if prod <? fneg eps then
      (if Nat.eqb p 1 then fm1 else i, if Nat.eqb p 2 then fm1 else j, if Nat.eqb p 3 then fm1 else k)
    else (i, j, k).

  (** reduce.rs 274-282 *)
  Definition a3_signs (eps xi eta zeta : num) : num * num * num :=
    (if xi <? fneg eps then fm1 else f1,
     if eta <? fneg eps then fm1 else f1,
     if zeta <? fneg eps then fm1 else f1).

  (** reduce.rs 267-313 *)
  Definition c34_mat (eps : num) (g : mat num) : mat num :=
    let '(num_negative, num_zero) := num_negative_zero [g_xi g; g_eta g; g_zeta g] eps in
    let '(i, j, k) :=
      if (Z.rem num_negative 2 =? 0)%Z && (num_zero =? 0)%Z
      then a3_signs eps (g_xi g) (g_eta g) (g_zeta g)
      else a4_signs eps (g_xi g) (g_eta g) (g_zeta g) in
    M i f0 f0 f0 j f0 f0 f0 k.

  (** reduce.rs 328-330 *)
  Definition a5_cond (eps : num) (g : mat num) : bool :=
    (fabs (g_xi g) - eps >? g_b g) ||
    (cust_eq (g_xi g) (g_b g) eps && (g_zeta g - eps >? f2 * g_eta g)) ||
    (cust_eq (g_xi g) (fm1 * g_b g) eps && (g_zeta g <? fneg eps)).
  (** reduce.rs 332-333 *)
  Definition c5_mat (g : mat num) : mat num := M f1 f0 f0 f0 f1 (fm1 * fsignum (g_xi g)) f0 f0 f1.

  (** reduce.rs 341-343 *)
  Definition a6_cond (eps : num) (g : mat num) : bool :=
    (fabs (g_eta g) - eps >? g_a g) ||
    (cust_eq (g_eta g) (g_a g) eps && (g_zeta g - eps >? f2 * g_xi g)) ||
    (cust_eq (g_eta g) (fm1 * g_a g) eps && (g_zeta g <? fneg eps)).
  (** reduce.rs 345-346 *)
  Definition c6_mat (g : mat num) : mat num := M f1 f0 (fm1 * fsignum (g_eta g)) f0 f1 f0 f0 f0 f1.

  (** reduce.rs 354-356 *)
  Definition a7_cond (eps : num) (g : mat num) : bool :=
    (fabs (g_zeta g) - eps >? g_a g) ||
    (cust_eq (g_zeta g) (g_a g) eps && (g_eta g - eps >? f2 * g_xi g)) ||
    (cust_eq (g_zeta g) (fm1 * g_a g) eps && (g_eta g <? fneg eps)).
  (** reduce.rs 358-359 *)
  Definition c7_mat (g : mat num) : mat num := M f1 (fm1 * fsignum (g_zeta g)) f0 f0 f1 f0 f0 f0 f1.

  (** reduce.rs 367-371 *)
  Definition a8_cond (eps : num) (g : mat num) : bool :=
    let bool_sum := g_xi g + g_eta g + g_zeta g + g_a g + g_b g in
    (bool_sum <? fneg eps) ||
    (cust_eq bool_sum f0 eps && ((f2 * (g_a g + g_eta g)) + g_zeta g - eps >? f0)).

  (** reduce.rs 228-379: one iteration; [true] = [continue], [false] = [break] *)
  Definition niggli_step (eps : num) (st : mat num * mat num) : bool * (mat num * mat num) :=
    let st := if a1_cond eps (fst st) then congr c1_mat st else st in
    if a2_cond eps (fst st) then (true, congr c2_mat st) else
    let st := congr (c34_mat eps (fst st)) st in
    let g := fst st in
    if a5_cond eps g then (true, congr (c5_mat g) st)
    else if a6_cond eps g then (true, congr (c6_mat g) st)
    else if a7_cond eps g then (true, congr (c7_mat g) st)
    else if a8_cond eps g then (true, congr c8_mat st)
    else (false, st).

  (** reduce.rs 223-380: [n] = iterations left before the one that panics *)
  Fixpoint niggli_loop (n : nat) (eps : num) (st : mat num * mat num) : res (mat num * mat num) :=
    match n with
    | O => Panic PNiggli
    | S n' => let '(cont, st') := niggli_step eps st in
              if cont then niggli_loop n' eps st' else Ok st'
    end.

  (** reduce.rs 215 and analyzer.rs 364 *)
  Definition epsilon_of (tol : num) (s : structure) : num := tol * fcbrt (volume s).

  (** reduce.rs 214-398 *)
  Definition niggli_reduce (dtol : num) (s : structure) (tol : num) : res structure :=
    let eps := epsilon_of tol s in
    do (_, transformation) <- niggli_loop 100 eps (metric_tensor s, midentity);
    let new_lattice := mmul (lattice s) transformation in
    do new_frac_coords <- get_frac_coords new_lattice (coords s);
    do new_structure <- structure_new new_lattice (species s) new_frac_coords false;
    Ok (normalize_coords new_structure dtol).

  (** ** Delaunay reduction, reduce.rs 409-509.  The 3x4 matrix is its four columns. *)

  (** The 3x4 Delaunay matrix (reduce.rs 422) as four columns *)
  Record quad := Quad { q0 : vec num; q1 : vec num; q2 : vec num; q3 : vec num }.

  (** reduce.rs 542-552 *)
  Definition get_scalar_prods (q : quad) : list num :=
    [dot (q0 q) (q1 q); dot (q0 q) (q2 q); dot (q0 q) (q3 q);
     dot (q1 q) (q2 q); dot (q1 q) (q3 q); dot (q2 q) (q3 q)].

  (** reduce.rs 430-437: gives max_index; [i] is the index of the head *)
  Fixpoint max_scan (i : nat) (max_scalar_prod : num) (max_index : nat) (l : list num) : nat :=
    match l with
    | [] => max_index
    | entry :: t =>
        if (entry >? ZERO_TOL) && (entry >? max_scalar_prod)
        then max_scan (S i) entry i t else max_scan (S i) max_scalar_prod max_index t
    end.

  (** reduce.rs 443-451 for the pair [pair_map[ind]] (413-420) *)
  Definition delaunay_transform (ind : nat) (q : quad) : quad :=
    let neg v := vscale_r v fm1 in
    match ind with
    | 0%nat => Quad (q0 q) (neg (q1 q)) (vadd (q1 q) (q2 q)) (vadd (q1 q) (q3 q))
    | 1%nat => Quad (q0 q) (vadd (q2 q) (q1 q)) (neg (q2 q)) (vadd (q2 q) (q3 q))
    | 2%nat => Quad (q0 q) (vadd (q3 q) (q1 q)) (vadd (q3 q) (q2 q)) (neg (q3 q))
    | 3%nat => Quad (vadd (q2 q) (q0 q)) (q1 q) (neg (q2 q)) (vadd (q2 q) (q3 q))
    | 4%nat => Quad (vadd (q3 q) (q0 q)) (q1 q) (vadd (q3 q) (q2 q)) (neg (q3 q))
    | _ => Quad (vadd (q3 q) (q0 q)) (vadd (q3 q) (q1 q)) (q2 q) (neg (q3 q))
    end.

  (** reduce.rs 429-456; gives the matrix and [count].  [count <= 100] bounds the loop, so 102 levels
      of fuel are never exhausted. *)
  Fixpoint delaunay_loop (fuel : nat) (count : Z) (q : quad) : res (quad * Z) :=
    if existsb (fun val => val >? ZERO_TOL) (get_scalar_prods q) && (count <=? 100)%Z then
      match fuel with
      | O => OutOfFuel
      | S fuel' =>
          delaunay_loop fuel' (count + 1)%Z
            (delaunay_transform (max_scan 0 f0 0 (get_scalar_prods q)) q)
      end
    else Ok (q, count).

  (** reduce.rs 467-497 *)
  Definition delaunay_select (q : quad) : res (mat num) :=
    do base_vecs <- sort_by_length [q0 q; q1 q; q2 q; q3 q];
    match base_vecs with
    | [first; second; third; fourth] =>
        let g12 := dot first second in let g13 := dot first third in
        let g14 := dot first fourth in let g23 := dot second third in
        let g24 := dot second fourth in
        let '(first, second, third) :=
          if fneg g12 <? fneg (g13 + g14) then
            (vscale_r first fm1, vscale fm1 (vadd first second), third)
          else if fneg g23 <? fneg (g12 + g24) then
            (first, vscale_r second fm1, vscale fm1 (vadd second third))
          else if fneg g13 <? fneg (g12 + g14) then
            (vscale_r first fm1, second, vscale fm1 (vadd first third))
          else (first, second, third) in
        Ok (from_columns first second third)
    | _ => Panic PIndex  (* not reachable: sorting keeps the length *)
    end.

  (** reduce.rs 409-509 *)
  Definition delaunay_reduce (dtol : num) (s : structure) (full_reduction : bool) : res structure :=
    match delaunay_matrix s with
    | [d0; d1; d2; d3] =>
        do (q, count) <- delaunay_loop 102 0 (Quad d0 d1 d2 d3);
        if (count =? 100)%Z then Panic PDelaunay else
        do new_lattice <- (if full_reduction then delaunay_select q
                           else Ok (from_columns (q0 q) (q1 q) (q2 q)));
        do new_frac_coords <- get_frac_coords new_lattice (coords s);
        do new_structure <- structure_new new_lattice (species s) new_frac_coords false;
        Ok (normalize_coords new_structure dtol)
    | _ => Panic PIndex  (* not reachable: delaunay_matrix has four columns *)
    end.
End Reduce.
