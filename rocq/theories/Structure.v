(** Model of /repo/src/structure.rs *)
From Coq Require Import ZArith String Ascii DecimalString List Bool.
From Verif Require Import Num Mat Utils SpaceGroup.
Import ListNotations.
Open Scope Z_scope.

(** structure.rs 13-18 *)
Record structure {N : Num} := Structure {
  lattice : mat num;
  species : list string;
  coords : list (vec num);
  frac_coords : list (vec num) }.
Arguments structure : clear implicits.
Arguments structure {N}.
Arguments Structure {N} _ _ _ _.

(** String::cmp <= (structure.rs 241, 322): bytewise lexicographic *)
Definition str_le (a b : string) : bool := String.leb a b.

(** structure.rs 314-316, 340-342: [*entry(k).or_insert(0) += 1], with the integer type's wrap *)
Fixpoint tally_incr (wrap : Z -> Z) (m : list (string * Z)) (k : string) : list (string * Z) :=
  match m with
  | [] => [(k, wrap 1)]
  | (k', c) :: t => if String.eqb k k' then (k', wrap (c + 1)) :: t
                    else (k', c) :: tally_incr wrap t k
  end.

(** structure.rs 316: [entry(k).or_insert(i)] *)
Definition entry_or_insert (m : list (string * Z)) (k : string) (i : Z) : list (string * Z) :=
  match am_get String.eqb k m with Some _ => m | None => m ++ [(k, i)] end.

(** structure.rs 324-327: [min_by_key(|e| e.1)] returns the first minimum *)
Fixpoint min_by_count (l : list (string * Z)) : option (string * Z) :=
  match l with
  | [] => None
  | x :: t => match min_by_count t with
              | None => Some x
              | Some y => if snd x <=? snd y then Some x else Some y
              end
  end.

(** structure.rs 309-332.  The maps are returned in insertion order (they are only looked up or
    iterated through [hord] by the callers). *)
Definition get_min_element {H : HashOrd} (path : list nat) (sp : list string)
  : res (string * list (string * Z) * list (string * Z)) :=
  let type_count := fold_left (tally_incr wrap_u16) sp [] in
  let ele_inds := fold_left (fun m p => entry_or_insert m (snd p) (wrap_u16 (Z.of_nat (fst p))))
                            (combine (seq 0 (length sp)) sp) [] in
  let sorted_pairs := sort_by (fun a b => str_le (fst a) (fst b)) (hord path type_count) in
  do m <- of_opt PUnwrapNone (min_by_count sorted_pairs);
  Ok (fst m, ele_inds, type_count).

(** i8::to_string (structure.rs 367, 373) *)
Definition i8_to_string (z : Z) : string := NilZero.string_of_int (Z.to_int z).

(** structure.rs 340-347: state = (species_tally, max_count) *)
Definition tally_step (st : list (string * Z) * Z) (specie : string) : list (string * Z) * Z :=
  let m := tally_incr wrap_i8 (fst st) specie in
  let count := match am_get String.eqb specie m with Some c => c | None => 0 end in
  (m, if snd st <? count then count else snd st).

(** structure.rs 350-354; [2..(max_count + 1)] in i8, release build *)
Definition gcf_of (tally : list (string * Z)) (max_count : Z) : Z :=
  let hi := wrap_i8 (max_count + 1) in
  fold_left (fun gcf div => if forallb (fun p => Z.rem (snd p) div =? 0) tally then div else gcf)
            (map (fun i => Z.of_nat i + 2) (seq 0 (Z.to_nat (hi - 2)))) 1.

(** structure.rs 359-375 *)
Definition formula_piece (element : string) (count : Z) : string :=
  if count =? 1 then element else String.append element (i8_to_string count).

(** structure.rs 335-378.  [.sorted()] orders by (element, count). *)
Definition formulas {H : HashOrd} (path : list nat) (sp : list string) : string * string :=
  let '(tally, max_count) := fold_left tally_step sp ([], 0) in
  let gcf := gcf_of (hord (0%nat :: path) tally) max_count in
  let sorted := sort_by (fun a b => str_le (fst a) (fst b)) (hord (1%nat :: path) tally) in
  (fold_left (fun s p => String.append s (formula_piece (fst p) (snd p))) sorted EmptyString,
   fold_left (fun s p => String.append s (formula_piece (fst p) (Z.quot (snd p) gcf))) sorted EmptyString).

Section Str.
  Context {N : Num} {P : Pinv}.
  Local Open Scope F_scope.

  (** structure.rs 262-272 *)
  Definition get_cart_coords (lat : mat num) (fc : list (vec num)) : list (vec num) :=
    map (mvmul lat) fc.

  (** structure.rs 280-294 *)
  Definition get_frac_coords (lat : mat num) (cc : list (vec num)) : res (list (vec num)) :=
    do inv <- of_opt PLatticeNotInvertible (pseudo_inverse ZERO_TOL lat);
    Ok (map (mvmul inv) cc).

  (** structure.rs 53-76 *)
  Definition structure_new (lat : mat num) (sp : list string) (cs : list (vec num))
             (coords_are_cart : bool) : res structure :=
    if coords_are_cart then
      do fc <- get_frac_coords lat cs; Ok (Structure lat sp cs fc)
    else Ok (Structure lat sp (get_cart_coords lat cs) cs).

  (** structure.rs 79-81 *)
  Definition num_sites (s : structure) : nat := length (species s).
  (** structure.rs 84-96 *)
  Definition len_a (s : structure) : num := magnitude (col0 (lattice s)).
  Definition len_b (s : structure) : num := magnitude (col1 (lattice s)).
  Definition len_c (s : structure) : num := magnitude (col2 (lattice s)).
  (** structure.rs 99-120 *)
  Definition alpha (s : structure) : num :=
    facos (dot (col1 (lattice s)) (col2 (lattice s)) / (fabs (len_b s) * fabs (len_c s)))
    * (fofZ 180 / fpi).
  Definition beta (s : structure) : num :=
    facos (dot (col0 (lattice s)) (col2 (lattice s)) / (fabs (len_a s) * fabs (len_c s)))
    * (fofZ 180 / fpi).
  Definition gamma (s : structure) : num :=
    facos (dot (col0 (lattice s)) (col1 (lattice s)) / (fabs (len_a s) * fabs (len_b s)))
    * (fofZ 180 / fpi).
  (** structure.rs 123-130 *)
  Definition volume (s : structure) : num := det (lattice s).
  Definition metric_tensor (s : structure) : mat num := mmul (transpose (lattice s)) (lattice s).

  (** structure.rs 142-146, 227-231; reduce.rs 29-34; analyzer.rs 53-58, 169-174:
      [pos_tol / |column|] *)
  Definition frac_tols_of (lat : mat num) (pos_tol : num) : vec num :=
    V (pos_tol / magnitude (col0 lat)) (pos_tol / magnitude (col1 lat)) (pos_tol / magnitude (col2 lat)).

  (** structure.rs 226-254 *)
  Definition normalize_coords (s : structure) (pos_tol : num) : structure :=
    let frac_tols := frac_tols_of (lattice s) pos_tol in
    let fc := normalize_frac_vectors (frac_coords s) frac_tols in
    let cc := get_cart_coords (lattice s) fc in
    let zipped := combine (species s) (combine cc fc) in
    let sorted := sort_by (fun a b => str_le (fst a) (fst b)) zipped in
    Structure (lattice s) (map fst sorted)
              (map (fun t => fst (snd t)) sorted) (map (fun t => snd (snd t)) sorted).

  (** structure.rs 180-187 and reduce.rs 183-191: same site, compared with the OLD lattice *)
  Definition same_site (lat : mat num) (frac_tols : vec num) (bound : num) (x y : vec num) : bool :=
    let d := normalize_vec (vsub x y) frac_tols in
    fabs (magnitude (mvmul lat d)) <=? bound.

  (** structure.rs 173-195: one translation; state = (new_frac_coords, new_species).
      Line 191 normalizes a temporary and has no effect. *)
  Definition at_vec_step (inv lat : mat num) (frac_tols : vec num) (pos_tol : num) (mult : nat)
             (coord : vec num) (specie : string)
             (st : list (vec num) * list string) (tv : vec num) : list (vec num) * list string :=
    let '(nfc, nsp) := st in
    let fc := mvmul inv (vadd coord (vscale_r tv (fofZ (Z.of_nat mult)))) in
    if existsb (fun nc => same_site lat frac_tols (pos_tol * f2) fc nc) nfc then st
    else (nfc ++ [fc], nsp ++ [specie]).

  (** structure.rs 172-196 *)
  Definition at_site_step (inv lat : mat num) (frac_tols : vec num) (pos_tol : num) (mult : nat)
             (st : list (vec num) * list string) (site : vec num * string)
    : list (vec num) * list string :=
    fold_left (at_vec_step inv lat frac_tols pos_tol mult (fst site) (snd site))
              (unit_translations mult) st.

  (** structure.rs 164-198 *)
  Fixpoint at_search (fuel : nat) (inv : mat num) (s : structure) (frac_tols : vec num)
           (pos_tol ratio : num) (mult : nat) (st : list (vec num) * list string)
    : res (list (vec num) * list string) :=
    if ratio_lt (length (fst st)) (fofZ (Z.of_nat (length (coords s)))) ratio then
      match fuel with
      | O => OutOfFuel
      | S fuel' =>
          at_search fuel' inv s frac_tols pos_tol ratio (S mult)
            (fold_left (at_site_step inv (lattice s) frac_tols pos_tol mult)
                       (combine (frac_coords s) (species s)) st)
      end
    else Ok st.

  (** structure.rs 141-205 *)
  Definition apply_transformation (fuel : nat) (s : structure) (t : mat num) (pos_tol : num)
    : res structure :=
    let frac_tols := frac_tols_of (lattice s) pos_tol in
    match try_inverse t with
    | None => Panic PTransNotInvertible
    | Some inv =>
        let new_lattice := mmul (lattice s) t in
        do st <- at_search fuel inv s frac_tols pos_tol (volume_ratio t) 2 ([], []);
        let '(nfc, nsp) := st in
        Ok (normalize_coords
              (Structure new_lattice nsp (get_cart_coords new_lattice nfc) nfc) pos_tol)
    end.

  (** structure.rs 208-219: the four columns *)
  Definition delaunay_matrix (s : structure) : list (vec num) :=
    let a := col0 (lattice s) in let b := col1 (lattice s) in let c := col2 (lattice s) in
    [a; b; c; vscale fm1 (vadd (vadd a b) c)].

  (** structure.rs 297-306 *)
  Definition reciprocal_lattice (s : structure) : res (mat num) :=
    match try_inverse (lattice s) with
    | None => Panic PLatticeNotInvertible
    | Some inv => Ok (mscale_r (mscale_r (transpose inv) f2) fpi)
    end.

  (** structure.rs 385-392 *)
  Definition get_transformation_matrix (s s' : structure) : res (mat num) :=
    do inv <- of_opt PLatticeNotInvertible (pseudo_inverse ZERO_TOL (lattice s));
    Ok (mmul inv (lattice s')).
End Str.
