(** Runs of the plain Delaunay reduction in binary64. *)
From Coq Require Import ZArith Reals String List Bool Lia.
From Flocq Require Import Core IEEE754.BinarySingleNaN.
From Verif Require Import Num Mat SpaceGroup Structure Reduce FInst Spec PFloat.
Import ListNotations.

Section F.
  Context {Lm : Libm}.
  Notation F := (@FNum Lm).
  Definition fquad (L : mat Z) : @quad F :=
    let a := col0 (@mcast F L) in let b := col1 (@mcast F L) in let c := col2 (@mcast F L) in
    Quad (N := F) a b c (@vscale F (@fm1 F) (@vadd F (@vadd F a b) c)).
  (** proof-free form, both zeros alike *)
  Definition nshow (x : f64) := match B2SF x with SpecFloat.S754_zero _ => SpecFloat.S754_zero false | y => y end.
  Definition vshow (v : vec f64) := (nshow (vx v), nshow (vy v), nshow (vz v)).
  Definition fshow (r : res (@quad F * Z)) :=
    match r with Ok (q, c) => Some (c, vshow (q0 q), vshow (q1 q), vshow (q2 q)) | _ => None end.
  Lemma nshow_R x y : nshow x = nshow y -> B2R x = B2R y.
  Proof.
    intro E. rewrite <- !SF2R_B2SF. unfold nshow in E.
    assert (H : forall z : f64, SF2R radix2 (match B2SF z with SpecFloat.S754_zero _ => SpecFloat.S754_zero false | y => y end) = SF2R radix2 (B2SF z))
      by (intros [| | |]; reflexivity).
    rewrite <- (H x), <- (H y), E. reflexivity.
  Qed.
  Definition vR (v : vec f64) : vec R := V (B2R (vx v)) (B2R (vy v)) (B2R (vz v)).
  Lemma vshow_R a b : vshow a = vshow b -> vR a = vR b.
  Proof. unfold vshow. intro E. injection E. intros. unfold vR. f_equal; now apply nshow_R. Qed.
  (** the real numbers held by a matrix of floats *)
  Definition mR (m : mat f64) : mat R := mmap B2R m.
  Lemma mR_cols a b c : mR (from_columns a b c) = from_columns (vR a) (vR b) (vR c). Proof. reflexivity. Qed.
  Definition small (L : mat Z) : bool :=
    forallb (fun z => Z.abs z <=? 2 ^ 53)%Z [m11 L; m12 L; m13 L; m21 L; m22 L; m23 L; m31 L; m32 L; m33 L].
  Lemma mR_mcast L : small L = true -> mR (@mcast F L) = MofZ L.
  Proof.
    unfold small. rewrite forallb_forall. intro H.
    assert (K : forall z, In z [m11 L; m12 L; m13 L; m21 L; m22 L; m23 L; m31 L; m32 L; m33 L] -> B2R (F_of_Z z) = IZR z).
    { intros z Hz. apply F_of_Z_exact. apply H in Hz. now apply Z.leb_le. }
    unfold mR, mcast, mmap, MofZ. cbn [m11 m12 m13 m21 m22 m23 m31 m32 m33]. f_equal; apply K; cbn; tauto.
  Qed.
  Lemma frun (P : @Pinv F) (dtol : f64) (s : @structure F) (L L' : mat Z) c :
    lattice s = @mcast F L -> small L' = true ->
    fshow (@delaunay_loop F 102 0 (fquad L)) =
      Some (c, vshow (col0 (@mcast F L')), vshow (col1 (@mcast F L')), vshow (col2 (@mcast F L'))) ->
    c <> 100%Z ->
    exists s', @delaunay_reduce F P dtol s false = Ok s' /\ mR (lattice s') = MofZ L'.
  Proof.
    intros HL HS HR Hc. unfold delaunay_reduce. unfold delaunay_matrix. rewrite HL. cbv beta iota zeta.
    change (Quad _ _ _ _) with (fquad L).
    destruct (@delaunay_loop F 102 0 (fquad L)) as [[q n]| |]; try discriminate HR. cbn [bind]. cbn [fshow] in HR.
    assert (E0 : n = c) by congruence. assert (E1 : vshow (q0 q) = vshow (col0 (@mcast F L'))) by congruence.
    assert (E2 : vshow (q1 q) = vshow (col1 (@mcast F L'))) by congruence.
    assert (E3 : vshow (q2 q) = vshow (col2 (@mcast F L'))) by congruence.
    apply vshow_R in E1, E2, E3. subst n. apply Z.eqb_neq in Hc. rewrite Hc.
    unfold get_frac_coords, pseudo_inverse.
    assert (EZ : @flt F (@ZERO_TOL F) (@f0 F) = false) by (vm_compute; reflexivity). rewrite EZ. cbn [bind of_opt].
    eexists. split; [reflexivity|]. transitivity (mR (from_columns (q0 q) (q1 q) (q2 q))); [reflexivity|].
    rewrite mR_cols, E1, E2, E3, <- mR_mcast by exact HS. reflexivity.
  Qed.
End F.
