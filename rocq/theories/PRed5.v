(** Triclinic and primitive monoclinic crystals: the cells (analyzer.rs 36-162, 206-345) *)
From Coq Require Import ZArith Reals String Ascii List Bool Lia Lra Psatz Permutation.
From Flocq Require Import Core.
From Verif Require Import Num Mat Utils DataCore DataPG DataSG SymmOp PointGroup SpaceGroup Structure Reduce Analyzer RInst Spec Spec2 Spec3 Spec5 Spec6 Spec8 Spec10 RFacts
  PUtils PSymmOp PStructure PStructure2 PStructure3 PNiggli PDelaunay PPrim PPrim2 PLattice PAnalyzer PAnalyzer2 PPointGroup PPointGroup2 PSpaceGroup PSpaceGroup2 PCode PTables PIdentify
  PSearch PSearch3 PSearch4 PSearch6 PSearch7 PEnd PEnd2 PEnd3 PEnd4 PEnd11 PEnd12 PEnd13 PEnd14 PEnd15 PEnd16 Prop5 PRun PRun2 PHex PHex2 PHex3 PHex4 PHex5 PEnd17 PEnd18 PHex6 PHex7 PRed PRed2 PRed3 PRed4.
Import ListNotations.
Open Scope R_scope.

(** ** What the run needs of a cell *)
Record ready (eps : R) (L : mat R) (w : mat Z) (b : bravais) (n : Z) (T0 u : mat Z) (A B C D E F : R) : Prop := {
  re_u : u = ZMmul w (transpose T0);
  re_det : ZMdet u = 1%Z \/ ZMdet u = (-1)%Z;
  re_small : small 1 u;
  re_gram : gram (Mmul L (MofZ u)) = metric A B C D E F;
  re_red : strictly_reduced eps A B C D E F;
  re_C : C <= 1000000;
  re_char : @character_of RNum eps A B C D E F = Ok n;
  re_b : am_get Z.eqb n LATTICE_CHAR_TO_BRAVAIS = Some b;
  re_T : am_get Z.eqb n LATTICE_CHAR_TO_CONV_TRANS = Some T0;
  re_cp : bravais_centering b = Ok CP;
  re_d : ZMdet (transpose T0) = 1%Z;
  re_mt : forall m, small 2 m -> small 2 (ZMmul (transpose T0) m);
  re_tt : ZMmul (transpose T0) (transpose T0) = ZMid;
  re_iso : forall r, In r (holo_rots b) <-> lattice_isometry (Mmul L (MofZ w)) r;
  re_w : m11 (gram (Mmul L (MofZ w))) <= 1000000 /\ m22 (gram (Mmul L (MofZ w))) <= 1000000 /\ m33 (gram (Mmul L (MofZ w))) <= 1000000 }.

Lemma Z1r m : ZMmul m ZMid = m. Proof. apply MofZ_eq_from_action. intro x. rewrite MofZ_mul, Mapp_Mmul, MofZ_id, Mapp_id. reflexivity. Qed.
Lemma Z1l m : ZMmul ZMid m = m. Proof. apply MofZ_eq_from_action. intro x. rewrite MofZ_mul, Mapp_Mmul, MofZ_id, Mapp_id. reflexivity. Qed.
Lemma pm1_same i j x : pm1 i -> pm1 j -> x <> 0 -> IZR (i * j) * x = x -> i = j.
Proof. intros [-> | ->] [-> | ->] X H; try reflexivity; exfalso; apply X; cbn in H; lra. Qed.
Lemma pm1_keep i x : pm1 i -> IZR (i * i) * x = x. Proof. intros [-> | ->]; cbn; ring. Qed.
Lemma in_aP i : pm1 i -> In (zdiag i i i) (holo_rots aP). Proof. rewrite aP_rots. intros [-> | ->]; cbn [In]; tauto. Qed.
Lemma in_mP i j : pm1 i -> pm1 j -> In (zdiag i j i) (holo_rots mP). Proof. rewrite mP_rots. intros [-> | ->] [-> | ->]; cbn [In]; tauto. Qed.
Lemma aP_in h : In h (holo_rots aP) -> exists i, pm1 i /\ h = zdiag i i i.
Proof. rewrite aP_rots. cbn [In]. intros [<-|[<-|[]]]; [exists 1%Z; split; [now left|reflexivity]|exists (-1)%Z; split; [now right|reflexivity]]. Qed.
Lemma mP_in h : In h (holo_rots mP) -> exists i j, pm1 i /\ pm1 j /\ h = zdiag i j i.
Proof.
  assert (P1 : pm1 1) by now left. assert (P2 : pm1 (-1)) by now right. rewrite mP_rots. cbn [In]. intros [<-|[<-|[<-|[<-|[]]]]]; eexists _, _; (split; [|split; [|reflexivity]]); assumption.
Qed.
Lemma tr_id : transpose ZMid = ZMid. Proof. reflexivity. Qed.

Section Cells.
  Context (eps : R) (L : mat R) (w : mat Z).
  Hypothesis (He : 0 < eps) (NZ : Mdet L <> 0) (NA : near_axes w).
  Let SW : small 1 w := proj1 NA.
  Let nz u : ZMdet u = 1%Z \/ ZMdet u = (-1)%Z -> Mdet (Mmul L (MofZ u)) <> 0.
  Proof using NZ. intros H X. rewrite Mdet_mul, MofZ_det in X. apply Rmult_integral in X. destruct X as [X|X]; [contradiction|]. destruct H as [Q|Q]; rewrite Q in X; lra. Qed.
  Lemma triclinic_ready A B C D E F : gram (Mmul L (MofZ w)) = metric A B C D E F -> strictly_reduced eps A B C D E F -> no_two_zero D E F -> 0 < A -> C <= 1000000 ->
    exists n T0, ready eps L w aP n T0 w A B C D E F.
  Proof using All.
    intros EG SR NT HA HC. pose proof (strictly_weak eps _ _ _ _ _ _ ltac:(lra) HA SR) as RD. pose proof (nz w (proj2 NA)) as NW.
    assert (ISO : forall r, In r (holo_rots aP) <-> lattice_isometry (Mmul L (MofZ w)) r).
    { intro r. rewrite (reduced_iso _ A B C D E F NW EG RD r). split.
      - intro Hr. destruct (aP_in r Hr) as (i & Hi & ->). exists i, i, i. exact (Logic.conj Hi (Logic.conj Hi (Logic.conj Hi (Logic.conj (Logic.conj (pm1_keep i D Hi) (Logic.conj (pm1_keep i E Hi) (pm1_keep i F Hi))) eq_refl)))).
      - intros (i & j & k & Hi & Hj & Hk & (K1 & K2 & K3) & ->). destruct NT as (N1 & N2 & N3). assert (i = j /\ j = k) as [-> ->]; [|now apply in_aP].
        destruct (Req_dec D 0) as [D0|D1].
        + assert (E <> 0) by tauto. assert (F <> 0) by tauto. pose proof (pm1_same i k E Hi Hk H K2). pose proof (pm1_same i j F Hi Hj H0 K3). subst. tauto.
        + pose proof (pm1_same j k D Hj Hk D1 K1) as ->. split; [|reflexivity]. destruct (Req_dec E 0) as [E0|E1]; [|exact (pm1_same i k E Hi Hk E1 K2)]. apply (pm1_same i k F Hi Hk); [tauto|exact K3]. }
    assert (GW : m11 (gram (Mmul L (MofZ w))) <= 1000000 /\ m22 (gram (Mmul L (MofZ w))) <= 1000000 /\ m33 (gram (Mmul L (MofZ w))) <= 1000000).
    { rewrite EG. unfold metric. cbn [m11 m22 m33]. destruct SR. lra. }
    assert (CHR : exists n, (n = 31%Z \/ n = 44%Z) /\ @character_of RNum eps A B C D E F = Ok n).
    { pose proof (sr_ab _ _ _ _ _ _ _ SR) as S1. pose proof (sr_bc _ _ _ _ _ _ _ SR) as S2. destruct (sr_angles _ _ _ _ _ _ _ SR) as [(Q1 & Q2 & Q3 & Q4 & Q5 & Q6)|(Q1 & Q2 & Q3 & Q4 & Q5 & Q6 & Q7)].
      - exists 31%Z. split; [now left|]. exact (char_acute eps A B C D E F He S1 S2 Q1 Q2 Q3 Q4 Q5 Q6).
      - exists 44%Z. split; [now right|]. exact (char_44 eps A B C D E F He S1 S2 Q1 Q2 Q3 Q4 Q5 Q6 Q7 NT). }
    destruct CHR as (n & Hn & CH). exists n, ZMid. apply Build_ready; [|exact (proj2 NA)|exact SW|exact EG|exact SR|exact HC|exact CH| | |reflexivity|reflexivity| |reflexivity|exact ISO|exact GW].
    - rewrite tr_id, Z1r. reflexivity.
    - destruct Hn as [-> | ->]; reflexivity.
    - destruct Hn as [-> | ->]; reflexivity.
    - intros m Hm. rewrite tr_id, Z1l. exact Hm.
  Qed.
  Lemma swap_iso t r : ZMmul t t = ZMid -> lattice_isometry (Mmul L (MofZ w)) r <-> lattice_isometry (Mmul L (MofZ (ZMmul w t))) (conj t r t).
  Proof using. intro TT. rewrite MofZ_mul, <- Mmul_assoc, (iso_conj (Mmul L (MofZ w)) t t _ TT), (conj_conj t r t TT TT). reflexivity. Qed.
  Lemma monoclinic_ready A B C E : monoclinic_cell eps A B C E (Mmul L (MofZ w)) -> B <= 1000000 -> C <= 1000000 ->
    exists n T0 u A' B' C' D' E' F', ready eps L w mP n T0 u A' B' C' D' E' F' /\ (n = 33 \/ n = 34 \/ n = 35)%Z.
  Proof using All.
    intros [EG AC OB SH B2 AB BC] HB HC. change (gram (Mmul L (MofZ w)) = M A 0 E 0 B 0 E 0 C) in EG.
    assert (GW : m11 (gram (Mmul L (MofZ w))) <= 1000000 /\ m22 (gram (Mmul L (MofZ w))) <= 1000000 /\ m33 (gram (Mmul L (MofZ w))) <= 1000000) by (rewrite EG; cbn [m11 m22 m33]; lra).
    assert (ZB : forall e x, x < - e -> zero_or_below e x) by (intros; now right). assert (Z0 : forall e, zero_or_below e 0) by (intros; now left).
    assert (EN : E <> 0) by lra.
    assert (CASE : (A + eps < B /\ B + eps < C) \/ C + eps < B \/ B + eps < A).
    { destruct (Rle_dec A B) as [Q|Q]; [rewrite Rabs_left1 in AB by lra; destruct (Rle_dec B C) as [Q'|Q']; [rewrite Rabs_left1 in BC by lra; left; lra|rewrite Rabs_pos_eq in BC by lra; right; left; lra]|rewrite Rabs_pos_eq in AB by lra; right; right; lra]. }
    destruct CASE as [[S1 S2]|[S1|S1]].
    - assert (SR : strictly_reduced eps A B C 0 E 0) by (constructor; [lra|lra|right; repeat (split; [first [exact (Z0 _)|exact (ZB _ _ OB)|lra]|]); lra]). assert (RD := SR); apply strictly_weak in RD; [|lra|lra]. pose proof (nz w (proj2 NA)) as NW.
      exists 33%Z, ZMid, w, A, B, C, 0, E, 0. split; [|now left]. apply Build_ready; [|exact (proj2 NA)|exact SW|exact EG|exact SR|exact HC| |reflexivity|reflexivity|reflexivity|reflexivity| |reflexivity| |exact GW].
      + rewrite tr_id, Z1r. reflexivity.
      + apply (char_33 eps A B C 0 E 0 He S1 S2); try exact (Z0 _); try exact (ZB _ _ OB); try reflexivity; try exact EN; lra.
      + intros m Hm. rewrite tr_id, Z1l. exact Hm.
      + intro r. rewrite (reduced_iso _ A B C 0 E 0 NW EG RD r). split.
        * intro Hr. destruct (mP_in r Hr) as (i & j & Hi & Hj & ->). exists i, j, i. split; [exact Hi|]. split; [exact Hj|]. split; [exact Hi|]. split; [exact (Logic.conj (Rmult_0_r _) (Logic.conj (pm1_keep i E Hi) (Rmult_0_r _)))|]. reflexivity.
        * intros (i & j & k & Hi & Hj & Hk & (K1 & K2 & K3) & ->). pose proof (pm1_same i k E Hi Hk EN K2) as ->. now apply in_mP.
    - set (t := (M (-1) 0 0 0 0 (-1) 0 (-1) 0)%Z). assert (TT : ZMmul t t = ZMid) by reflexivity. assert (ET : transpose t = t) by reflexivity. set (u := ZMmul w t).
      assert (DU : ZMdet u = 1%Z \/ ZMdet u = (-1)%Z) by (unfold u; rewrite ZMdet_mul; change (ZMdet t) with 1%Z; rewrite Z.mul_1_r; exact (proj2 NA)).
      assert (EU : gram (Mmul L (MofZ u)) = metric A C B 0 0 E).
      { unfold u. rewrite MofZ_mul, <- Mmul_assoc, <- rcongr_gram, EG. unfold rcongr, MofZ, metric, Mmul, Mtr, t. cbn [m11 m12 m13 m21 m22 m23 m31 m32 m33]. apply (@mat_ext R); cbn [m11 m12 m13 m21 m22 m23 m31 m32 m33]; ring. }
      assert (SR : strictly_reduced eps A C B 0 0 E) by (constructor; [lra|lra|right; repeat (split; [first [exact (Z0 _)|exact (ZB _ _ OB)|lra]|]); lra]). assert (RD := SR); apply strictly_weak in RD; [|lra|lra]. pose proof (nz u DU) as NW.
      exists 34%Z, t, u, A, C, B, 0, 0, E. split; [|now right; left]. apply Build_ready; [reflexivity|exact DU| |exact EU|exact SR|assumption| |reflexivity|reflexivity|reflexivity|reflexivity| |reflexivity| |exact GW].
      + unfold u. clear - SW. destruct w as [x1 x2 x3 x4 x5 x6 x7 x8 x9]. unfold small, entries_within, ZMmul, t in *. cbn [m11 m12 m13 m21 m22 m23 m31 m32 m33] in *. lia.
      + apply (char_34 eps A C B 0 0 E He AC S1); try exact (Z0 _); try exact (ZB _ _ OB); try reflexivity; try exact EN; lra.
      + intros m. clear. destruct m as [x1 x2 x3 x4 x5 x6 x7 x8 x9]. unfold small, entries_within, ZMmul, t, transpose. cbn [m11 m12 m13 m21 m22 m23 m31 m32 m33]. lia.
      + intro r. rewrite (swap_iso t r TT). fold u. rewrite (reduced_iso _ A C B 0 0 E NW EU RD). split.
        * intro Hr. destruct (mP_in r Hr) as (i & j & Hi & Hj & ->). exists i, i, j. split; [exact Hi|]. split; [exact Hi|]. split; [exact Hj|]. split; [exact (Logic.conj (Rmult_0_r _) (Logic.conj (Rmult_0_r _) (pm1_keep i E Hi)))|]. unfold conj, ZMmul, zdiag, t. cbn [m11 m12 m13 m21 m22 m23 m31 m32 m33]. f_equal; ring.
        * intros (i & j & k & Hi & Hj & Hk & (K1 & K2 & K3) & ER). pose proof (pm1_same i j E Hi Hj EN K3) as ->. apply (f_equal (fun r => conj t r t)) in ER. rewrite (conj_conj t r t TT TT) in ER. rewrite ER.
          replace (conj t (zdiag j j k) t) with (zdiag j k j); [now apply in_mP|]. unfold conj, ZMmul, zdiag, t. cbn [m11 m12 m13 m21 m22 m23 m31 m32 m33]. f_equal; ring.
    - set (t := (M 0 (-1) 0 (-1) 0 0 0 0 (-1))%Z). assert (TT : ZMmul t t = ZMid) by reflexivity. assert (ET : transpose t = t) by reflexivity. set (u := ZMmul w t).
      assert (DU : ZMdet u = 1%Z \/ ZMdet u = (-1)%Z) by (unfold u; rewrite ZMdet_mul; change (ZMdet t) with 1%Z; rewrite Z.mul_1_r; exact (proj2 NA)).
      assert (EU : gram (Mmul L (MofZ u)) = metric B A C E 0 0).
      { unfold u. rewrite MofZ_mul, <- Mmul_assoc, <- rcongr_gram, EG. unfold rcongr, MofZ, metric, Mmul, Mtr, t. cbn [m11 m12 m13 m21 m22 m23 m31 m32 m33]. apply (@mat_ext R); cbn [m11 m12 m13 m21 m22 m23 m31 m32 m33]; ring. }
      assert (SR : strictly_reduced eps B A C E 0 0) by (constructor; [lra|lra|right; repeat (split; [first [exact (Z0 _)|exact (ZB _ _ OB)|lra]|]); lra]). assert (RD := SR); apply strictly_weak in RD; [|lra|lra]. pose proof (nz u DU) as NW.
      exists 35%Z, t, u, B, A, C, E, 0, 0. split; [|now right; right]. apply Build_ready; [reflexivity|exact DU| |exact EU|exact SR|assumption| |reflexivity|reflexivity|reflexivity|reflexivity| |reflexivity| |exact GW].
      + unfold u. clear - SW. destruct w as [x1 x2 x3 x4 x5 x6 x7 x8 x9]. unfold small, entries_within, ZMmul, t in *. cbn [m11 m12 m13 m21 m22 m23 m31 m32 m33] in *. lia.
      + apply (char_35 eps B A C E 0 0 He S1 AC); try exact (Z0 _); try exact (ZB _ _ OB); try reflexivity; try exact EN; lra.
      + intros m. clear. destruct m as [x1 x2 x3 x4 x5 x6 x7 x8 x9]. unfold small, entries_within, ZMmul, t, transpose. cbn [m11 m12 m13 m21 m22 m23 m31 m32 m33]. lia.
      + intro r. rewrite (swap_iso t r TT). fold u. rewrite (reduced_iso _ B A C E 0 0 NW EU RD). split.
        * intro Hr. destruct (mP_in r Hr) as (i & j & Hi & Hj & ->). exists j, i, i. split; [exact Hj|]. split; [exact Hi|]. split; [exact Hi|]. split; [exact (Logic.conj (pm1_keep i E Hi) (Logic.conj (Rmult_0_r _) (Rmult_0_r _)))|]. unfold conj, ZMmul, zdiag, t. cbn [m11 m12 m13 m21 m22 m23 m31 m32 m33]. f_equal; ring.
        * intros (i & j & k & Hi & Hj & Hk & (K1 & K2 & K3) & ER). pose proof (pm1_same j k E Hj Hk EN K1) as ->. apply (f_equal (fun r => conj t r t)) in ER. rewrite (conj_conj t r t TT TT) in ER. rewrite ER.
          replace (conj t (zdiag i k k) t) with (zdiag k i k); [now apply in_mP|]. unfold conj, ZMmul, zdiag, t. cbn [m11 m12 m13 m21 m22 m23 m31 m32 m33]. f_equal; ring.
  Qed.
End Cells.
