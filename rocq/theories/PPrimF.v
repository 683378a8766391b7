(** Runs of find_primitive_cell in binary64. *)
From Coq Require Import ZArith Reals String List Bool Lia Permutation.
From Flocq Require Import Core IEEE754.BinarySingleNaN.
From Verif Require Import Num Mat Utils SpaceGroup Structure Reduce FInst RFacts PFloat PDelaunay PDelaunayF.
Import ListNotations.

Section F.
  Context {Lm : Libm}.
  Notation F := (@FNum Lm).
  (** the lattice found from the inverse [Li] of the input lattice, base element and base index *)
  Definition fp_lat (Li : mat f64) (dtol : f64) (s : @structure F) (me : string) (bi : nat) : option (mat f64) :=
    let frac_tols := @frac_tols_of F (lattice s) dtol in
    let temp := @normalize_coords F s dtol in
    match nth_error (frac_coords temp) bi with None => None | Some bs =>
    let tv := filter (@fp_is_translation F dtol temp frac_tols) (@fp_candidates F temp frac_tols me bi bs) in
    match @get_shortest_translation_vecs F dtol (@get_cart_coords F (lattice temp) tv) with
    | Ok (v1, v2, v3) =>
      match @get_shortest_translation_vecs F dtol (@get_cart_coords F (lattice temp)
              (@combination_vecs F (from_columns (@mvmul F Li v1) (@mvmul F Li v2) (@mvmul F Li v3)))) with
      | Ok (u1, u2, u3) => Some (from_columns u1 u2 u3)
      | _ => None end
    | _ => None end end.
  Definition fp_fold (Lni : mat f64) (dtol : f64) (s : @structure F) : list (vec f64) * list string :=
    let temp := @normalize_coords F s dtol in
    fold_left (@fp_fold_step F (lattice temp) (@frac_tols_of F (lattice s) dtol) dtol)
      (combine (map (@mvmul F Lni) (coords temp)) (species temp)) ([], []).
  Lemma fp_run (P : @Pinv F) (HO : HashOrd) path (dtol : f64) (s : @structure F) me ei tc bi lat :
    get_min_element path (species (@normalize_coords F s dtol)) = Ok (me, ei, tc) ->
    am_get String.eqb me ei = Some bi ->
    fp_lat (@pinv F P (lattice s)) dtol s me (Z.to_nat bi) = Some lat ->
    exists s', @find_primitive_cell F P HO path dtol s = Ok s' /\ lattice s' = lat /\
      List.length (species s') = Nat.min (List.length (snd (fp_fold (@pinv F P lat) dtol s))) (List.length (fst (fp_fold (@pinv F P lat) dtol s))).
  Proof.
    intros E1 E2 E3. unfold find_primitive_cell. rewrite E1. cbn [bind]. rewrite E2. cbn [of_opt bind].
    unfold fp_lat in E3. destruct (nth_error _ (Z.to_nat bi)) as [bs|]; [|discriminate E3]. cbn [of_opt bind].
    destruct (@get_shortest_translation_vecs F dtol (@get_cart_coords F _ (filter _ _))) as [[[v1 v2] v3]| |]; try discriminate E3. cbn [bind].
    unfold get_frac_coords, pseudo_inverse.
    assert (EZ : @flt F (@ZERO_TOL F) (@f0 F) = false) by (vm_compute; reflexivity). rewrite EZ. cbn [bind of_opt map].
    change (lattice (@normalize_coords F s dtol)) with (lattice s) in *.
    destruct (@get_shortest_translation_vecs F dtol (@get_cart_coords F _ (@combination_vecs F _))) as [[[u1 u2] u3]| |]; try discriminate E3. cbn [bind].
    injection E3 as <-. set (lat := from_columns u1 u2 u3).
    unfold fp_fold. change (lattice (@normalize_coords F s dtol)) with (lattice s).
    set (r := fold_left _ _ _). destruct r as [nfc nsp] eqn:Er. unfold structure_new. cbn [bind].
    eexists. split; [reflexivity|]. split; [reflexivity|]. unfold normalize_coords. cbn [species lattice frac_coords fst snd].
    rewrite map_length, (Permutation_length (sort_by_perm _ _)), !combine_length. unfold get_cart_coords, normalize_frac_vectors. rewrite !map_length. f_equal. apply Nat.min_id.
  Qed.
End F.

(** one species: the hash order does not matter *)
Lemma hord_one {HO : HashOrd} path {A} (x : A) : hord path [x] = [x].
Proof. apply Permutation_length_1_inv, Permutation_sym, hord_perm. Qed.
Definition mSF (m : mat f64) := mmap (@B2SF 53 1024) m.
Lemma mSF_eq m n : mSF m = mSF n -> m = n.
Proof. unfold mSF, mmap. intro E. injection E. intros. apply mat_ext; now apply f64_eq. Qed.
Lemma some_mSF o n : option_map mSF o = Some (mSF n) -> o = Some n.
Proof. destruct o; cbn; [|discriminate]. intro E. f_equal. apply mSF_eq. congruence. Qed.
Lemma min_one {HO : HashOrd} path sp e c ii :
  fold_left (tally_incr wrap_u16) sp [] = [(e, c)] ->
  fold_left (fun m p => entry_or_insert m (snd p) (wrap_u16 (Z.of_nat (fst p)))) (combine (seq 0 (List.length sp)) sp) [] = ii ->
  get_min_element path sp = Ok (e, ii, [(e, c)]).
Proof. intros E1 E2. unfold get_min_element. rewrite E1, E2, hord_one. reflexivity. Qed.
Definition mshow (m : mat f64) := mmap nshow m.
Lemma some_mshow o n : option_map mshow o = Some (mshow n) -> exists m, o = Some m /\ mR m = mR n.
Proof.
  destruct o as [m|]; cbn [option_map]; [|discriminate]. intro E. exists m. split; [reflexivity|].
  assert (E' : mshow m = mshow n) by congruence. unfold mshow, mmap in E'. injection E'. intros. unfold mR, mmap. f_equal; now apply nshow_R.
Qed.
Lemma B2R_show (x : f64) m e : B2SF x = SpecFloat.S754_finite false m e -> B2R x = (IZR (Zpos m) * bpow radix2 e)%R.
Proof. intro E. rewrite <- SF2R_B2SF, E. reflexivity. Qed.
