(** Crystals in two cells: from the atoms to the lists of sites, and examples on a grid *)
From Coq Require Import ZArith Reals String Ascii List Bool Lia Lra Psatz Permutation.
From Verif Require Import Num Mat DataCore DataSG SymmOp SpaceGroup Structure Analyzer RInst Spec Spec2 Spec3 Spec5 Spec6 Spec8 Spec10 Spec11 Spec12 RFacts PSymmOp PStructure PLattice PPrim PPointGroup PSpaceGroup2 PCode PIdentify PSearch6 PSearch7 PEnd4
  PSearch PEnd8 PEnd11 PEnd12 PEnd13 PEnd14 PEnd15 PEnd17 PEnd18 PNiggli PNiggli2 PTables PCen2 PCen3 PCen4 PEnd9 PEnd10 PConv PConv2.
Import ListNotations.
Open Scope R_scope.

Section Bridge.
  Context (L0 L : mat R) (S0 S : list (vec R * string)) (C : mat Z).
  Hypothesis (D0 : Mdet L0 <> 0) (LC : L = Mmul L0 (MofZ C)) (SA : same_atoms L S L0 S0).
  Lemma cell_inj v w : Mapp L0 v = Mapp L0 w -> v = w.
  Proof using D0. intro E. destruct (Madj_inverse _ D0) as [_ I]. rewrite <- (Mapp_id v), <- (Mapp_id w), <- I, !Mapp_Mmul, E. reflexivity. Qed.
  Lemma sites_forth x e : In (x, e) S -> exists y, In (y, e) S0 /\ Vcongr (Mapp (MofZ C) x) y.
  Proof using All.
    intro Hx. destruct (proj1 (SA e (Mapp L x))) as (y & n & Hy & E).
    - exists x, (V 0 0 0)%Z. split; [exact Hx|]. f_equal. vlin.
    - exists y. split; [exact Hy|]. exists n. apply cell_inj. rewrite <- E, LC, Mapp_Mmul. reflexivity.
  Qed.
  Lemma sites_back y e n : In (y, e) S0 -> exists x m, In (x, e) S /\ Mapp (MofZ C) (Vadd x (VofZ m)) = Vadd y (VofZ n).
  Proof using All.
    intro Hy. destruct (proj2 (SA e (Mapp L0 (Vadd y (VofZ n))))) as (x & m & Hx & E).
    - exists y, n. split; [exact Hy|reflexivity].
    - exists x, m. split; [exact Hx|]. apply cell_inj. rewrite E, LC, Mapp_Mmul. reflexivity.
  Qed.
End Bridge.
Lemma cube_gram a L : cube_cell a L -> gram L = zmet (a * a / 4) C6.
Proof. intro H. unfold gram. unfold cube_cell in H. rewrite H. unfold zmet, C6, scale6, I6. cbn. apply (@mat_ext R); cbn; lra. Qed.

(** ** Deciding that two lists of sites on a grid give the same atoms *)
Definition bits : list (vec Z) := [V 0 0 0; V 0 0 1; V 0 1 0; V 0 1 1; V 1 0 0; V 1 0 1; V 1 1 0; V 1 1 1]%Z.
Fixpoint onceb (m : Z) (pts : list (vec Z * string)) : bool :=
  match pts with p :: l => forallb (fun q => negb (zmod m (fst p) (fst q))) l && onceb m l | [] => true end.
Definition same_grid (m : Z) (C : mat Z) (pts pts0 : list (vec Z * string)) : bool :=
  forallb (fun q => existsb (fun p => zmod m (ZMapp C (fst q)) (fst p) && String.eqb (snd q) (snd p)) pts0) pts &&
  forallb (fun p => forallb (fun n => existsb (fun q => zmod (2 * m) (ZMapp (khalf C) (ZVadd (fst p) (zvscal m n))) (zvscal 2 (fst q)) && String.eqb (snd p) (snd q)) pts) bits) pts0 &&
  onceb m pts && zmat_eqb (ZMmul C (khalf C)) Z2.
Lemma bits_all n : exists b k, In b bits /\ n = ZVadd b (zvscal 2 k).
Proof.
  destruct n as [x y z]. exists (V (x mod 2) (y mod 2) (z mod 2))%Z, (V (x / 2) (y / 2) (z / 2))%Z. split.
  - assert (B : forall w, (w mod 2 = 0 \/ w mod 2 = 1)%Z) by (intro w; pose proof (Z.mod_pos_bound w 2 ltac:(lia)); lia).
    destruct (B x) as [-> | ->], (B y) as [-> | ->], (B z) as [-> | ->]; cbn; tauto.
  - unfold ZVadd, zvscal. cbn [vx vy vz]. rewrite (Z.div_mod x 2) at 1 by lia. rewrite (Z.div_mod y 2) at 1 by lia. rewrite (Z.div_mod z 2) at 1 by lia. f_equal; ring.
Qed.
Lemma onceb_nth m : forall pts i j p q, (i < j)%nat -> onceb m pts = true -> nth_error pts i = Some p -> nth_error pts j = Some q -> zmod m (fst p) (fst q) = false.
Proof.
  induction pts as [|x l IH]; intros i j p q Hij H Hi Hj; [destruct i; discriminate|]. cbn [onceb] in H. apply andb_true_iff in H. destruct H as [H1 H2].
  destruct j as [|j]; [lia|]. cbn in Hj. destruct i as [|i]; cbn in Hi.
  - injection Hi as <-. rewrite forallb_forall in H1. apply negb_true_iff. apply H1. now apply nth_error_In in Hj.
  - exact (IH i j p q ltac:(lia) H2 Hi Hj).
Qed.
Section SameGrid.
  Context (m : Z) (C : mat Z) (L0 : mat R) (pts pts0 : list (vec Z * string)).
  Hypothesis (Hm : (0 < m)%Z) (CK : same_grid m C pts pts0 = true).
  Let PM : 0 < IZR m. Proof using Hm. apply (IZR_lt 0), Hm. Qed.
  Lemma fracM_app (r : mat Z) k : Mapp (MofZ r) (fracM m k) = fracM m (ZMapp r k).
  Proof using Hm. unfold Mapp, MofZ, fracM, ZMapp, mmap. cbn. apply (@vec_ext R); cbn; rewrite !plus_IZR, !mult_IZR; field; pose proof PM; lra. Qed.
  Lemma fracM_shift k n : fracM m (ZVadd k (zvscal m n)) = Vadd (fracM m k) (VofZ n).
  Proof using Hm. unfold fracM, ZVadd, zvscal, Vadd, VofZ. cbn. apply (@vec_ext R); cbn; rewrite plus_IZR, mult_IZR; field; pose proof PM; lra. Qed.
  Lemma grid_same : same_atoms (Mmul L0 (MofZ C)) (grid_sites m pts) L0 (grid_sites m pts0).
  Proof using All.
    unfold same_grid in CK. rewrite !andb_true_iff in CK. destruct CK as (((H1 & H2) & _) & H4). apply zmat_eqb_spec in H4. rewrite forallb_forall in H1, H2. intros e z. split.
    - intros (x & n & Hx & ->). apply grid_in in Hx. destruct Hx as (k & Hk & ->). pose proof (H1 _ Hk) as Q. apply existsb_exists in Q. destruct Q as ([p e'] & Hp & Q). cbn [fst snd] in Q. apply andb_true_iff in Q. destruct Q as [Q1 Q2].
      apply String.eqb_eq in Q2. subst e'. apply (zmod_spec m Hm) in Q1. destruct Q1 as (w & Q1). exists (fracM m p), (ZVadd w (ZMapp C n)). split; [apply grid_in; exists p; split; [exact Hp|reflexivity]|].
      rewrite Mapp_Mmul. f_equal. rewrite Mapp_add, fracM_app, Q1, fracM_shift, VofZ_add, MofZ_app. generalize (Mapp (MofZ C) (VofZ n)). intro v. vlin.
    - intros (y & n & Hy & ->). apply grid_in in Hy. destruct Hy as (p & Hp & ->). destruct (bits_all n) as (b & k & Hb & ->).
      pose proof (proj1 (forallb_forall _ _) (H2 _ Hp) b Hb) as Q. cbv beta in Q. apply existsb_exists in Q. destruct Q as ([q e'] & Hq & Q). cbn [fst snd] in Q. apply andb_true_iff in Q. destruct Q as [Q1 Q2]. apply String.eqb_eq in Q2. subst e'.
      apply (zmod_spec (2 * m) ltac:(lia)) in Q1. destruct Q1 as (w & Q1). exists (fracM m q), (ZVadd w (ZMapp (khalf C) k)). split; [apply grid_in; exists q; split; [exact Hq|reflexivity]|].
      rewrite Mapp_Mmul. f_equal. set (v := Vadd (fracM m q) (VofZ (ZVadd w (ZMapp (khalf C) k)))).
      assert (E1 : Vadd v v = Mapp (MofZ (khalf C)) (Vadd (Vadd (fracM m p) (VofZ b)) (Vadd (VofZ k) (VofZ k)))).
      { rewrite <- fracM_shift, Mapp_add, fracM_app, Q1. unfold v. rewrite Mapp_add, <- MofZ_app, VofZ_add. generalize (ZMapp (khalf C) k). intro h. pose proof PM.
        unfold fracM, ZVadd, zvscal, Vadd, VofZ. cbn [vx vy vz]. apply (@vec_ext R); cbn [vx vy vz]; rewrite plus_IZR, !mult_IZR; field; lra. }
      apply (f_equal (Mapp (MofZ C))) in E1. rewrite <- (Mapp_Mmul (MofZ C) (MofZ (khalf C))), <- MofZ_mul, H4, Z2_app, Mapp_add in E1. fold v. revert E1. generalize (Mapp (MofZ C) v). intros v' E1. rewrite VofZ_add.
      assert (EK : VofZ (zvscal 2 k) = Vadd (VofZ k) (VofZ k)) by (unfold VofZ, zvscal, Vadd; cbn [vx vy vz]; apply (@vec_ext R); cbn [vx vy vz]; rewrite mult_IZR; ring). rewrite EK.
      comps E1. unfold Vadd, VofZ in *. cbn [vx vy vz] in *. apply (@vec_ext R); cbn [vx vy vz]; lra.
  Qed.
  Lemma grid_once : listed_once (grid_sites m pts).
  Proof using All.
    unfold same_grid in CK. rewrite !andb_true_iff in CK. destruct CK as ((_ & H3) & _).
    assert (G : forall i j x e y f, (i < j)%nat -> nth_error (grid_sites m pts) i = Some (x, e) -> nth_error (grid_sites m pts) j = Some (y, f) -> ~ Vcongr x y).
    { intros i j x e y f Hij Hi Hj Q. unfold grid_sites in Hi, Hj. rewrite nth_error_map in Hi, Hj. destruct (nth_error pts i) as [[p pe]|] eqn:Pi; [|discriminate]. destruct (nth_error pts j) as [[q qe]|] eqn:Pj; [|discriminate].
      cbn in Hi, Hj. injection Hi as <- <-. injection Hj as <- <-. apply (zmod_congr m Hm) in Q. pose proof (onceb_nth m pts i j _ _ Hij H3 Pi Pj) as X. cbn [fst] in X. rewrite X in Q. discriminate. }
    intros i j x e y f n Hij Hi Hj E. assert (Q : Vcongr x y). { exists (zneg n). comps E. destruct x as [x1 x2 x3], y as [y1 y2 y3]. unfold Vadd, VofZ, zneg. cbn [vx vy vz] in *. apply (@vec_ext R); cbn [vx vy vz]; rewrite opp_IZR; lra. }
    destruct (Nat.lt_total i j) as [X|[X|X]]; [exact (G i j x e y f X Hi Hj Q)|contradiction|]. apply (G j i y f x e X Hj Hi). now apply PSymmOp.Vcongr_sym.
  Qed.
End SameGrid.
(** the cubic axes, in the axes of [face_axes] and [body_axes] *)
Definition cube_axes (a : R) : mat R := M a 0 0 0 a 0 0 0 a.
Definition face_cube : mat Z := (M (-1) 1 1 1 (-1) 1 1 1 (-1))%Z.
Definition body_cube : mat Z := (M 0 1 1 1 0 1 1 1 0)%Z.
Lemma cube_axes_cell a : cube_cell a (cube_axes a).
Proof. unfold cube_cell, cube_axes, Mmul, Mtr. cbn. apply (@mat_ext R); cbn; ring. Qed.
Lemma face_cube_axes a : cube_axes a = Mmul (face_axes a) (MofZ face_cube).
Proof. unfold cube_axes, face_axes, face_cube, Mmul, MofZ, mmap. cbn. apply (@mat_ext R); cbn; field. Qed.
Lemma body_cube_axes a : cube_axes a = Mmul (body_axes a) (MofZ body_cube).
Proof. unfold cube_axes, body_axes, body_cube, Mmul, MofZ, mmap. cbn. apply (@mat_ext R); cbn; field. Qed.
(** rock salt, Pt3O4, diamond and Th3P4 in their cubic cells *)
Definition rock_salt_cube : list (vec Z * string) :=
  [(V 0 0 0, "Na"); (V 6 6 0, "Na"); (V 6 0 6, "Na"); (V 0 6 6, "Na"); (V 6 6 6, "Cl"); (V 0 0 6, "Cl"); (V 0 6 0, "Cl"); (V 6 0 0, "Cl")]%Z%string.
Definition platinum_oxide_cube : list (vec Z * string) :=
  [(V 6 0 0, "Pt"); (V 0 6 6, "Pt"); (V 0 6 0, "Pt"); (V 6 0 6, "Pt"); (V 0 0 6, "Pt"); (V 6 6 0, "Pt"); (V 3 3 3, "O"); (V 9 9 9, "O"); (V 9 3 3, "O"); (V 3 9 9, "O"); (V 3 9 3, "O"); (V 9 3 9, "O"); (V 3 3 9, "O"); (V 9 9 3, "O")]%Z%string.
Lemma rock_salt_same : same_grid 12 face_cube rock_salt_cube rock_salt = true.
Proof. vm_compute. reflexivity. Qed.
Lemma platinum_oxide_same : same_grid 12 body_cube platinum_oxide_cube platinum_oxide = true.
Proof. vm_compute. reflexivity. Qed.
Definition diamond_cube : list (vec Z * string) :=
  [(V 0 0 0, "C"); (V 6 6 0, "C"); (V 6 0 6, "C"); (V 0 6 6, "C"); (V 3 3 3, "C"); (V 9 9 3, "C"); (V 9 3 9, "C"); (V 3 9 9, "C")]%Z%string.
Definition thorium_phosphide_cube : list (vec Z * string) :=
  [(V 0 6 9, "Th"); (V 12 18 21, "Th"); (V 18 3 0, "Th"); (V 6 15 12, "Th"); (V 3 0 18, "Th"); (V 15 12 6, "Th"); (V 9 0 6, "Th"); (V 21 12 18, "Th"); (V 6 9 0, "Th"); (V 18 21 12, "Th"); (V 0 18 3, "Th"); (V 12 6 15, "Th"); (V 16 20 4, "P"); (V 4 8 16, "P"); (V 20 4 16, "P"); (V 8 16 4, "P"); (V 22 10 2, "P"); (V 10 22 14, "P"); (V 8 8 8, "P"); (V 20 20 20, "P"); (V 10 2 22, "P"); (V 22 14 10, "P"); (V 2 2 2, "P"); (V 14 14 14, "P"); (V 2 22 10, "P"); (V 14 10 22, "P"); (V 4 16 20, "P"); (V 16 4 8, "P")]%Z%string.
Lemma diamond_same : same_grid 12 face_cube diamond_cube diamond = true.
Proof. vm_compute. reflexivity. Qed.
Lemma thorium_phosphide_same : same_grid 24 body_cube thorium_phosphide_cube thorium_phosphide = true.
Proof. vm_compute. reflexivity. Qed.
