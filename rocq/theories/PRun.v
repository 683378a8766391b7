(** From the operations of the standard cell to the answer, for any unimodular description of the input (analyzer.rs 36-162) *)
From Coq Require Import ZArith Reals String Ascii List Bool Lia Lra Psatz Permutation.
From Flocq Require Import Core.
From Verif Require Import Num Mat Utils DataCore DataPG DataSG SymmOp PointGroup SpaceGroup Structure Reduce Analyzer RInst Spec Spec2 Spec3 Spec5 Spec6 RFacts
  PUtils PSymmOp PStructure PStructure2 PStructure3 PNiggli PDelaunay PPrim PPrim2 PLattice PAnalyzer PAnalyzer2 PPointGroup PPointGroup2 PSpaceGroup PSpaceGroup2 PCode PTables PIdentify
  PSearch PSearch3 PSearch4 PSearch6 PSearch7 PEnd PEnd2 PEnd3 PEnd4 PEnd11 PEnd12 PEnd13 PEnd14 PEnd15 Prop5.
Import ListNotations.
Open Scope R_scope.

Record frame (P : @Pinv RNum) (HO : HashOrd) (dtol : R) (fuel : nat) (path : list nat) (s p q std : @structure RNum) (Tm Pm : mat R) (n : Z) (b : bravais) (W Wi : mat Z) : Prop := {
  fr_stages : @stages RNum P HO fuel path dtol s p q std Tm Pm n b;
  fr_p : well_conditioned (lattice p);
  fr_q : well_conditioned (lattice q);
  fr_P : Mdet Pm <> 0;
  fr_T : Mdet Tm <> 0;
  fr_right : 0 < Mdet (lattice std);
  fr_inv : ZMmul W Wi = ZMid;
  fr_std : lattice std = Mmul (lattice s) (MofZ W);
  fr_like : like (MofZ Wi) (sites_of s) std }.

Section Framed.
  Context (P : @Pinv RNum) (HO : HashOrd) (dtol : R) (fuel : nat) (path : list nat) (s : @structure RNum).
  Hypothesis (HP : pinv_inverts P) (HF : (48 <= fuel)%nat) (H0 : 0 < dtol) (WF : List.length (frac_coords s) = List.length (species s)).
  Hypothesis BIG : (0 < Z.of_nat (List.length (species s)) <= 65535)%Z.
  Hypothesis AP : apart (4 * dtol) (lattice s) (sites_of s).
  Hypothesis RI : rigid (2 * dtol) (lattice s) (sites_of s) (lattice_isometry (lattice s)).
  Context (p q std : @structure RNum) (Tm Pm : mat R) (n : Z) (b : bravais) (W Wi : mat Z).
  Hypothesis RUN : frame P HO dtol fuel path s p q std Tm Pm n b W Wi.
  Hypothesis FINE : forall k, (k < 3)%nat -> 1 / 100000000 * Vnorm (Ccol (lattice std) k) <= dtol /\ 24 * dtol <= Vnorm (Ccol (lattice std) k) /\ 0 < Vnorm (Ccol (lattice std) k).
  Let WI : ZMmul W Wi = ZMid. Proof using RUN. exact (fr_inv _ _ _ _ _ _ _ _ _ _ _ _ _ _ _ RUN). Qed.
  Let IW : ZMmul Wi W = ZMid. Proof using RUN. exact (zinv_comm _ _ WI). Qed.
  Let LK : like (MofZ Wi) (sites_of s) std. Proof using RUN. exact (fr_like _ _ _ _ _ _ _ _ _ _ _ _ _ _ _ RUN). Qed.
  Lemma fr_moved : moved Wi (sites_of s) (sites_of std). Proof using RUN. apply like_moved. exact LK. Qed.
  Lemma fr_back : Mmul (lattice std) (MofZ Wi) = lattice s.
  Proof using RUN. rewrite (fr_std _ _ _ _ _ _ _ _ _ _ _ _ _ _ _ RUN), Mmul_assoc, <- MofZ_mul, WI, MofZ_id. apply Mmul_id_r. Qed.
  Hypothesis H1 : forall r, In r (holo_rots b) <-> lattice_isometry (lattice s) (conj W r Wi).
  Lemma fr_rigid : rigid (2 * dtol) (lattice std) (sites_of std) (fun r => In r (holo_rots b)).
  Proof using RUN RI H1.
    apply (rigid_moved (2 * dtol) (lattice std) Wi W (sites_of s) (sites_of std) (lattice_isometry (lattice s))); [exact WI|exact fr_moved| |rewrite fr_back; exact RI]. intros r Hr. now apply H1.
  Qed.
  Lemma fr_apart : sites_apart (4 * dtol) (lattice std) (sites_of std).
  Proof using RUN AP. apply apart_sites_apart. apply (like_apart _ _ W Wi (sites_of s)); [exact IW|exact LK|]. rewrite fr_back. exact AP. Qed.
  Lemma fr_big : (0 < Z.of_nat (List.length (species std)) <= 65535)%Z.
  Proof using RUN WF BIG. rewrite (like_length _ _ _ LK). assert (Q : List.length (sites_of s) = List.length (species s)) by (apply zip_length; exact WF). now rewrite Q. Qed.
  (** the operations of the crystal, carried to the standard cell *)
  Lemma fr_exact r t : exact_operation (sites_of std) r t <-> exact_operation (sites_of s) (conj W r Wi) (Mapp (MofZ W) t).
  Proof using RUN.
    split; intro EX; [exact (exact_moved Wi W (sites_of s) (sites_of std) WI fr_moved r t EX)|].
    rewrite <- (conj_conj W r Wi WI IW), <- (app_inv Wi W t IW). apply (exact_moved W Wi (sites_of std) (sites_of s) IW); [now apply (moved_sym Wi W); [exact WI|exact fr_moved]|exact EX].
  Qed.
  Context (ls : lattice_system) (order N : Z) (codes : list Z) (sym : string).
  Hypothesis LS : bravais_lattice_system b = Ok ls.
  Hypothesis (HT : In (ls, order, N, codes) sg_entries) (ES : am_get Z.eqb N SG_NUM_TO_SYMBOL = Some sym) (NC : ~ In N not_closed).
  Context (u ui : mat Z) (k : R).
  Hypothesis (UI : ZMmul u ui = ZMid).
  Hypothesis GAIN : forall d x y, 0 <= d -> nanos d x y -> nanos (k * d) (Mapp (MofZ W) x) (Mapp (MofZ W) y).
  Hypothesis NUM : forall r, In r (holo_rots b) -> i8_range (conj W r Wi).
  Hypothesis IFF : forall r t, (lattice_isometry (lattice s) r /\ exact_operation (sites_of s) r t) <->
    exists o, In o (group_ops sym codes) /\ r = conj u (fst o) ui /\ Vcongr t (Mapp (MofZ u) (in_twelfths (snd o))).
  Hypothesis K1 : forall o, In o (group_ops sym codes) -> exists o', In o' (group_ops sym codes) /\ conj Wi (conj u (fst o) ui) W = fst o' /\
    Vcongr (Mapp (MofZ Wi) (Mapp (MofZ u) (in_twelfths (snd o)))) (in_twelfths (snd o')).
  Hypothesis K2 : forall o, In o (group_ops sym codes) -> exists o', In o' (group_ops sym codes) /\ conj W (fst o) Wi = conj u (fst o') ui /\
    Vcongr (Mapp (MofZ W) (in_twelfths (snd o))) (Mapp (MofZ u) (in_twelfths (snd o'))).
  Let unit_op (o : zop) : bool := has_unit_entry (conj u (fst o) ui).
  Lemma frame_answered : exists ops, @get_space_group_info RNum P HO fuel path dtol s = Ok (N, sym, ops) /\ List.length ops = List.length (filter unit_op (group_ops sym codes)) /\
    (forall op, In op ops -> exists o, In o (group_ops sym codes) /\ rotation op = conj u (fst o) ui /\ has_unit_entry (rotation op) = true /\ nanos (k * (1 / 1000000000)) (translation op) (Mapp (MofZ u) (in_twelfths (snd o)))) /\
    (forall o, In o (group_ops sym codes) -> has_unit_entry (conj u (fst o) ui) = true ->
       exists op, In op ops /\ rotation op = conj u (fst o) ui /\ nanos (k * (1 / 1000000000)) (translation op) (Mapp (MofZ u) (in_twelfths (snd o)))).
  Proof using All.
    pose proof WI as WI0. pose proof IW as IW0. pose proof (zinv_comm _ _ UI) as IU.
    destruct (entry_facts _ _ _ _ HT) as (sym' & ES' & G & _). rewrite ES in ES'. injection ES' as <-. fold (group_ops sym codes) in G.
    assert (HR : forall o, In o (group_ops sym codes) -> In (fst o) (holo_rots b) /\ exact_operation (sites_of std) (fst o) (in_twelfths (snd o))).
    { intros o Ho. destruct (K2 o Ho) as (o' & Ho' & E1 & V1). destruct (proj2 (IFF (conj W (fst o) Wi) (Mapp (MofZ W) (in_twelfths (snd o))))) as [X1 X2]; [exists o'; auto|]. split; [now apply H1|now apply fr_exact]. }
    destruct (@standard_identified HO std dtol fuel (1%nat :: path) b HF) with (ls := ls) (order := order) (N := N) (codes := codes) (sym := sym)
      as (ops & Q1 & Q2 & Q3 & Q4 & Q5 & Q6); auto.
    { exact (lk_len _ _ _ LK). } { exact fr_big. } { exact (like_grouped _ _ _ LK). }
    { exact fr_apart. }
    { exact fr_rigid. }
    { intros r t Hr EX. apply fr_exact in EX. destruct (proj1 (IFF (conj W r Wi) (Mapp (MofZ W) t))) as (o & Ho & E1 & V1); [split; [now apply H1|exact EX]|].
      destruct (K1 o Ho) as (o' & Ho' & E2 & V2). exists o'. split; [exact Ho'|]. split.
      - rewrite <- E2, <- E1. symmetry. now apply conj_conj.
      - apply (PEnd11.Vcongr_app Wi) in V1. rewrite (app_inv Wi W t IW0) in V1. exact (PSymmOp.Vcongr_trans _ _ _ V1 V2). }
    assert (OR : forall op, In op ops -> exists o', In o' (group_ops sym codes) /\ conj W (rotation op) Wi = conj u (fst o') ui /\ nanos (k * (1 / 1000000000)) (Mapp (MofZ W) (translation op)) (Mapp (MofZ u) (in_twelfths (snd o')))).
    { intros op Hop. destruct (Q6 op Hop) as (o & Ho & E1 & N1). destruct (K2 o Ho) as (o' & Ho' & E2 & V2). exists o'. split; [exact Ho'|]. split; [now rewrite E1|].
      replace (k * (1 / 1000000000)) with (k * (1 / 1000000000) + 0) by ring. apply (nanos_trans _ _ _ (Mapp (MofZ W) (in_twelfths (snd o)))); [apply GAIN; [lra|assumption]|now apply nanos_congr]. }
    assert (OS : forall op, In op ops -> i8_range (conj W (rotation op) Wi)).
    { intros op Hop. destruct (Q6 op Hop) as (o & Ho & -> & _). apply NUM. now apply HR. }
    destruct (answer_given P HO dtol fuel path s p q std Tm Pm n b HP ltac:(lia) H0 (fr_stages _ _ _ _ _ _ _ _ _ _ _ _ _ _ _ RUN) ls ops ops Q1 Q2 LS
      (fr_p _ _ _ _ _ _ _ _ _ _ _ _ _ _ _ RUN) (fr_q _ _ _ _ _ _ _ _ _ _ _ _ _ _ _ RUN) Wi W N sym) as (ops' & O1 & O2); auto.
    { symmetry. exact fr_back. } { pose proof (fr_right _ _ _ _ _ _ _ _ _ _ _ _ _ _ _ RUN). lra. } { exact (fr_P _ _ _ _ _ _ _ _ _ _ _ _ _ _ _ RUN). } { exact (fr_T _ _ _ _ _ _ _ _ _ _ _ _ _ _ _ RUN). }
    { intros j Hj. destruct (FINE j Hj). lra. }
    set (unit := fun op : @symmop RNum => has_unit_entry (ZMmul (ZMmul W (rotation op)) Wi)) in O2.
    assert (FW : forall op', In op' ops' -> exists o, In o (group_ops sym codes) /\ rotation op' = conj u (fst o) ui /\ has_unit_entry (rotation op') = true /\ nanos (k * (1 / 1000000000)) (translation op') (Mapp (MofZ u) (in_twelfths (snd o)))).
    { intros op' Hop'. assert (X : exists op, In op (filter unit ops) /\ rotation op' = conj W (rotation op) Wi /\ (forall x, Vcongr (Mapp (MofZ W) (@op_apply RNum op x)) (@op_apply RNum op' (Mapp (MofZ W) x)))).
      { clear - O2 Hop'. induction O2 as [|x y l l' E F IH]; [destruct Hop'|]. destruct Hop' as [<-|Hop']; [exists x; split; [now left|exact E]|]. destruct (IH Hop') as (op & X1 & X2). exists op. split; [now right|exact X2]. }
      destruct X as (op & Hop & E1 & E2). apply filter_In in Hop. destruct Hop as [Hop UE]. destruct (OR op Hop) as (o' & Ho' & E3 & N3). exists o'. split; [exact Ho'|]. split; [congruence|]. split; [rewrite E1; exact UE|].
      specialize (E2 V0). rewrite Mapp_V0 in E2. assert (Z0 : forall o : @symmop RNum, @op_apply RNum o V0 = translation o).
      { intro o. rewrite op_apply_R. unfold act. rewrite Mapp_V0. apply PEnd2.Vadd_0. } rewrite !Z0 in E2.
      replace (k * (1 / 1000000000)) with (0 + k * (1 / 1000000000)) by ring. apply (nanos_trans _ _ _ (Mapp (MofZ W) (translation op))); [|exact N3]. apply nanos_congr. now apply PSymmOp.Vcongr_sym. }
    assert (UN : forall o o1, In o (group_ops sym codes) -> In o1 (group_ops sym codes) -> conj u (fst o) ui = conj u (fst o1) ui -> o = o1).
    { intros o o1 Ho Ho1 E. apply (same_rot_same _ (og_rotations _ G)); auto. apply (f_equal (fun r => conj ui r u)) in E. now rewrite !conj_conj in E. }
    assert (NR : NoDup (map (@rotation RNum) ops')).
    { assert (ER : map (@rotation RNum) ops' = map (fun r => conj W r Wi) (map (@rotation RNum) (filter unit ops))).
      { clear - O2. induction O2 as [|x y l l' [E _] F IH]; [reflexivity|]. cbn. rewrite E. f_equal. exact IH. }
      rewrite ER. apply PSearch3.NoDup_map_on; [|intros r1 r2 _ _ E; apply (f_equal (fun r => conj Wi r W)) in E; now rewrite !conj_conj in E].
      clear - Q4. induction ops as [|x l IH]; cbn [filter map]; [constructor|]. cbn [map] in Q4. inversion Q4 as [|y m A1 A2]; subst. destruct (unit x); [|now apply IH]. cbn [map]. constructor; [|now apply IH].
      intro X. apply A1. apply in_map_iff in X. destruct X as (z & E & X). apply filter_In in X. rewrite <- E. now apply in_map. }
    assert (INC : incl (map fst (group_ops sym codes)) (map (@rotation RNum) ops)).
    { apply NoDup_length_incl; [exact Q4| |].
      - rewrite !map_length. unfold group_ops. rewrite map_length. lia.
      - intros r Hr. apply in_map_iff in Hr. destruct Hr as (op & <- & Hop). destruct (Q6 op Hop) as (o1 & Ho1 & E & _). rewrite E. now apply in_map. }
    assert (BW : forall o, In o (group_ops sym codes) -> has_unit_entry (conj u (fst o) ui) = true ->
       exists op, In op ops' /\ rotation op = conj u (fst o) ui /\ nanos (k * (1 / 1000000000)) (translation op) (Mapp (MofZ u) (in_twelfths (snd o)))).
    { intros o Ho UE. destruct (K1 o Ho) as (o1 & Ho1 & E1 & _). specialize (INC _ (in_map fst _ _ Ho1)). apply in_map_iff in INC. destruct INC as (op & E2 & Hop).
      assert (ER : conj W (rotation op) Wi = conj u (fst o) ui). { rewrite E2, <- E1. now apply conj_conj. }
      assert (HF' : In op (filter unit ops)). { apply filter_In. split; [exact Hop|]. unfold unit. change (has_unit_entry (conj W (rotation op) Wi) = true). now rewrite ER. }
      assert (X : exists op', In op' ops' /\ rotation op' = conj W (rotation op) Wi).
      { clear - O2 HF'. induction O2 as [|x y l l' E F IH]; [destruct HF'|]. destruct HF' as [<-|H]; [exists y; split; [now left|exact (proj1 E)]|]. destruct (IH H) as (op' & X1 & X2). exists op'. split; [now right|exact X2]. }
      destruct X as (op' & Hop' & E3). exists op'. split; [exact Hop'|]. split; [congruence|].
      destruct (FW op' Hop') as (o2 & Ho2 & E4 & _ & N4). assert (o = o2) by (apply UN; auto; congruence). now subst o2. }
    exists ops'. split; [exact O1|]. split; [|split; [exact FW|exact BW]].
    assert (NG : NoDup (map (fun o => conj u (fst o) ui) (filter unit_op (group_ops sym codes)))).
    { rewrite <- (map_map fst (fun r => conj u r ui)). apply PSearch3.NoDup_map_on; [|intros r1 r2 _ _ E; apply (f_equal (fun r => conj ui r u)) in E; now rewrite !conj_conj in E].
      pose proof (og_rotations _ G) as ND. clear - ND. induction (group_ops sym codes) as [|x l IH]; cbn [filter map]; [constructor|]. cbn [map] in ND. inversion ND as [|y m A1 A2]; subst. destruct (unit_op x); [|now apply IH]. cbn [map]. constructor; [|now apply IH].
      intro X. apply A1. apply in_map_iff in X. destruct X as (z & E & X). apply filter_In in X. rewrite <- E. now apply in_map. }
    transitivity (List.length (map (fun o => conj u (fst o) ui) (filter unit_op (group_ops sym codes)))); [|exact (map_length _ _)].
    transitivity (List.length (map (@rotation RNum) ops')); [symmetry; exact (map_length _ _)|]. apply Nat.le_antisymm; apply NoDup_incl_length; try assumption.
    - intros r Hr. apply in_map_iff in Hr. destruct Hr as (op' & <- & Hop'). destruct (FW op' Hop') as (o & Ho & E & UE & _). rewrite E. apply (in_map (fun o => conj u (fst o) ui)). apply filter_In. split; [exact Ho|]. unfold unit_op. now rewrite <- E.
    - intros r Hr. apply in_map_iff in Hr. destruct Hr as (o & <- & Ho). apply filter_In in Ho. destruct Ho as [Ho UE]. destruct (BW o Ho UE) as (op & Hop & E & _). rewrite <- E. now apply in_map.
  Qed.
End Framed.
(** an integer matrix with small rows moves a small difference to a small one *)
Lemma nanos_rows (W : mat Z) (k : R) : (forall x y z, In (x, y, z) [(m11 W, m12 W, m13 W); (m21 W, m22 W, m23 W); (m31 W, m32 W, m33 W)] -> IZR (Z.abs x) + IZR (Z.abs y) + IZR (Z.abs z) <= k) ->
  forall d u v, 0 <= d -> nanos d u v -> nanos (k * d) (Mapp (MofZ W) u) (Mapp (MofZ W) v).
Proof.
  intros HK d u v Hd (n & H1 & H2 & H3). exists (ZMapp W n).
  assert (G : forall x y z : Z, IZR (Z.abs x) + IZR (Z.abs y) + IZR (Z.abs z) <= k -> Rabs (IZR x * (vx u - vx v - IZR (vx n)) + IZR y * (vy u - vy v - IZR (vy n)) + IZR z * (vz u - vz v - IZR (vz n))) <= k * d).
  { intros x y z H. rewrite !abs_IZR in H. eapply Rle_trans; [apply Rabs_triang|]. eapply Rle_trans; [apply Rplus_le_compat_r; apply Rabs_triang|]. rewrite !Rabs_mult.
    pose proof (Rmult_le_compat_l _ _ _ (Rabs_pos (IZR x)) H1). pose proof (Rmult_le_compat_l _ _ _ (Rabs_pos (IZR y)) H2). pose proof (Rmult_le_compat_l _ _ _ (Rabs_pos (IZR z)) H3).
    pose proof (Rmult_le_compat_r d _ _ Hd H). lra. }
  pose proof (G _ _ _ (HK (m11 W) (m12 W) (m13 W) ltac:(cbn; tauto))) as K1. pose proof (G _ _ _ (HK (m21 W) (m22 W) (m23 W) ltac:(cbn; tauto))) as K2. pose proof (G _ _ _ (HK (m31 W) (m32 W) (m33 W) ltac:(cbn; tauto))) as K3.
  clear - K1 K2 K3.
  destruct W as [w11 w12 w13 w21 w22 w23 w31 w32 w33], u as [u1 u2 u3], v as [v1 v2 v3], n as [n1 n2 n3]. unfold ZMapp, Mapp, MofZ, mmap. cbn [vx vy vz m11 m12 m13 m21 m22 m23 m31 m32 m33] in *. rewrite !plus_IZR, !mult_IZR.
  split; [|split]; match goal with |- Rabs ?e <= _ => match goal with H : Rabs ?f <= _ |- _ => replace e with f by ring; exact H end end.
Qed.
