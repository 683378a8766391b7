(** Hexagonal crystals: the answer *)
From Coq Require Import ZArith Reals String Ascii List Bool Lia Lra Psatz Permutation.
From Flocq Require Import Core.
From Verif Require Import Num Mat Utils DataCore DataPG DataSG SymmOp PointGroup SpaceGroup Structure Reduce Analyzer RInst Spec Spec2 Spec3 Spec5 Spec6 RFacts
  PUtils PSymmOp PStructure PStructure2 PStructure3 PNiggli PDelaunay PPrim PPrim2 PLattice PAnalyzer PAnalyzer2 PPointGroup PPointGroup2 PSpaceGroup PSpaceGroup2 PCode PTables PIdentify
  PSearch PSearch3 PSearch4 PSearch6 PSearch7 PEnd PEnd2 PEnd3 PEnd4 PEnd11 PEnd12 PEnd13 PEnd14 PEnd15 Prop5 PRun PRun2 PHex PHex2 PHex3 PHex4.
Import ListNotations.
Open Scope R_scope.

(** a crystal whose own operations are those of a group has no inner translation within the tolerance *)
Lemma no_inner_rigid (dtol : R) (s : @structure RNum) (rots : mat Z -> Prop) : 0 < dtol -> rots ZMid -> rigid (2 * dtol) (lattice s) (sites_of s) rots -> apart (4 * dtol) (lattice s) (sites_of s) ->
  (forall t, exact_operation (sites_of s) ZMid t -> exists n, t = VofZ n) -> no_inner_translation dtol s.
Proof.
  intros H0 R1 RI A ID i j x y e Hij Hx Hy Ex Ey ST.
  destruct (RI ZMid (Vsub x y) R1) as (t0 & n & EX & Q).
  { intros z f Hz. destruct (ST z f Hz) as (w & k & Hw & K). exists w, k. split; [exact Hw|]. unfold act. rewrite MofZ_id, Mapp_id. exact K. }
  destruct (ID t0 EX) as (m & ->).
  pose proof (apart_sites_apart _ _ _ A i j x y e (ZVadd (zneg m) n) Hij (zip_nth _ _ _ _ _ Hx Ex) (zip_nth _ _ _ _ _ Hy Ey)) as K.
  replace (Vadd (Vsub x y) (VofZ (ZVadd (zneg m) n))) with (Vadd (Vsub (Vsub x y) (VofZ m)) (VofZ n)) in K by (destruct m, n, x, y; unfold Vadd, Vsub, VofZ, ZVadd, zneg; cbn; rewrite !plus_IZR, !opp_IZR; apply (@vec_ext R); cbn; ring).
  lra.
Qed.
Section HexAnswer.
  Context (P : @Pinv RNum) (HO : HashOrd) (dtol a c d : R) (fuel : nat) (path : list nat) (s : @structure RNum) (u ui : mat Z).
  Hypothesis (HP : pinv_inverts P) (HF : (48 <= fuel)%nat) (WF : List.length (frac_coords s) = List.length (species s)).
  Hypothesis BIG : (0 < Z.of_nat (List.length (species s)) <= 65535)%Z.
  Hypothesis (Hd : 1 / 100000 <= dtol <= 1 / 24) (Ba : 1 <= a <= 1000) (Bc : 1 <= c <= 1000).
  Hypothesis (DU : ZMdet u = 1%Z \/ ZMdet u = (-1)%Z) (SU : small 1 u) (UI : ZMmul u ui = ZMid).
  Let A := a * a. Let C := c * c.
  Let L := lattice s.
  Hypothesis EL : gram (Mmul L (MofZ u)) = hexm A C.
  Let eps := 1 / 100000 * Rpower (Rabs (Mdet L)) (1 / 3).
  Hypothesis SEP : eps < Rabs (A - C).
  Hypothesis (SP : spread d (sites_of s)) (Da : 26 * dtol <= d * a) (Dc : 26 * dtol <= d * c).
  Hypothesis RI : rigid (2 * dtol) L (sites_of s) (lattice_isometry L).
  Context (order N : Z) (codes : list Z) (sym : string).
  Hypothesis (HT : In (Hexagonal, order, N, codes) sg_entries) (ES : am_get Z.eqb N SG_NUM_TO_SYMBOL = Some sym) (NC : ~ In N not_closed).
  Hypothesis HAND : 0 < Mdet L * IZR (ZMdet u) \/ ~ In N handed6.
  Hypothesis IFF : forall r t, (lattice_isometry L r /\ exact_operation (sites_of s) r t) <->
    exists o, In o (group_ops sym codes) /\ r = conj u (fst o) ui /\ Vcongr t (Mapp (MofZ u) (in_twelfths (snd o))).
  Lemma hex_answered : exists ops, @get_space_group_info RNum P HO fuel path dtol s = Ok (N, sym, ops) /\
    List.length ops = List.length (filter (fun o => has_unit_entry (conj u (fst o) ui)) (group_ops sym codes)) /\
    (forall op, In op ops -> exists o, In o (group_ops sym codes) /\ rotation op = conj u (fst o) ui /\ has_unit_entry (rotation op) = true /\ nanos (6 * (1 / 1000000000)) (translation op) (Mapp (MofZ u) (in_twelfths (snd o)))) /\
    (forall o, In o (group_ops sym codes) -> has_unit_entry (conj u (fst o) ui) = true ->
       exists op, In op ops /\ rotation op = conj u (fst o) ui /\ nanos (6 * (1 / 1000000000)) (translation op) (Mapp (MofZ u) (in_twelfths (snd o)))).
  Proof using All.
    pose proof (zinv_comm _ _ UI) as IU. assert (A1 : 1 <= A) by (unfold A; nra). assert (C1 : 1 <= C) by (unfold C; nra).
    destruct (entry_facts _ _ _ _ HT) as (sym' & ES' & G & _). rewrite ES in ES'. injection ES' as <-. fold (group_ops sym codes) in G.
    assert (ID : forall v w, ZMmul v w = ZMid -> conj v ZMid w = ZMid).
    { intros v w H. apply MofZ_eq_from_action. intro x. now rewrite conj_app, MofZ_id, Mapp_id, (app_inv v w x H), Mapp_id. }
    assert (I1 : lattice_isometry L ZMid) by (apply isometry_gram; now rewrite MofZ_id, Mmul_id_r).
    assert (UU : small 1 (ZMmul ZMid u)) by (replace (ZMmul ZMid u) with u; [exact SU|]; apply MofZ_inj; rewrite MofZ_mul, MofZ_id; symmetry; apply Mmul_id_l).
    pose proof (hx_apart P HO dtol a c d fuel path s u ui HP HF WF BIG Hd Ba Bc DU SU UI EL SEP SP Da Dc) as APX.
    assert (AP4 : apart (4 * dtol) L (sites_of s)).
    { pose proof (APX (4 * dtol) ZMid ZMid 1%Z eq_refl ltac:(lia) UU ltac:(lra) ltac:(lra)) as X. rewrite MofZ_id, Mmul_id_r in X. exact X. }
    assert (AP2 : apart (2 * dtol) L (sites_of s)) by (apply (apart_mono (4 * dtol)); [lra|exact AP4]).
    assert (NI : no_inner_translation dtol s).
    { apply (no_inner_rigid dtol s (lattice_isometry L)); [lra|exact I1|exact RI|exact AP4|].
      intros t EX. destruct (proj1 (IFF ZMid t)) as (o & Ho & Er & Vt); [split; [exact I1|exact EX]|]. destruct (og_identity _ G) as (e & He & [E1 (k & E2)]). cbn [fst snd] in E1, E2.
      assert (Eo : fst o = ZMid). { apply (f_equal (fun r => conj ui r u)) in Er. rewrite conj_conj in Er by assumption. rewrite <- Er. now apply ID. }
      assert (o = e) by (apply (same_rot_same _ (og_rotations _ G)); [exact Ho|exact He|congruence]). subst o.
      destruct Vt as (m & ->). exists (ZVadd (ZMapp u k) m). rewrite VofZ_add, MofZ_app. f_equal. f_equal. rewrite E2. unfold in_twelfths, Vadd, VofZ. cbn [vx vy vz]. apply (@vec_ext R); cbn [vx vy vz]; rewrite ?plus_IZR, ?mult_IZR; lra. }
    assert (WC : well_conditioned L).
    { pose proof (hx_conditioned P HO dtol a c d fuel path s u ui HP HF WF BIG Hd Ba Bc DU SU UI EL SEP SP Da Dc ZMid ZMid 1%Z eq_refl ltac:(lia) UU) as X. rewrite MofZ_id, Mmul_id_r in X. exact X. }
    pose proof (hx_eps P HO dtol a c d fuel path s u ui HP HF WF BIG Hd Ba Bc DU SU UI EL SEP SP Da Dc) as HE.
    destruct (p_stages P HO dtol fuel path s HP HF ltac:(lra) WF BIG WC
      (hx_roomy P HO dtol a c d fuel path s u ui HP HF WF BIG Hd Ba Bc DU SU UI EL SEP SP Da Dc) (hx_cols P HO dtol a c d fuel path s u ui HP HF WF BIG Hd Ba Bc DU SU UI EL SEP SP Da Dc)
      (hx_vol P HO dtol a c d fuel path s u ui HP HF WF BIG Hd Ba Bc DU SU UI EL SEP SP Da Dc) NI ltac:(cbv zeta in HE; lra) (hex_out ui)
      (hx_pick P HO dtol a c d fuel path s u ui HP HF WF BIG Hd Ba Bc DU SU UI EL SEP SP Da Dc) AP2) as (p & q & std & Tm & Pm & n & b & W & Wi & FR & OUT & EB). subst b.
    pose proof (fr_inv _ _ _ _ _ _ _ _ _ _ _ _ _ _ _ FR) as WI. pose proof (zinv_comm _ _ WI) as IW. pose proof (fr_std _ _ _ _ _ _ _ _ _ _ _ _ _ _ _ FR) as LW. fold L in LW. pose proof (fr_right _ _ _ _ _ _ _ _ _ _ _ _ _ _ _ FR) as DS.
    set (h := ZMmul ui W) in *. set (hi := ZMmul Wi u).
    assert (HHI : ZMmul h hi = ZMid) by (unfold h, hi; now apply Zcompose).
    assert (EW : W = ZMmul u h) by (unfold h; apply MofZ_eq_from_action; intro x; now rewrite !MofZ_mul, !Mapp_Mmul, (app_inv u ui _ UI)).
    assert (EWi : Wi = ZMmul hi ui) by (unfold hi; apply MofZ_eq_from_action; intro x; now rewrite !MofZ_mul, !Mapp_Mmul, (app_inv u ui _ UI)).
    destruct (hex_group h OUT) as (Sh & Rh & Hhi & Dh & CLh). rewrite (Zinv_unique h (zinv h) hi (zinv_r h Dh) HHI) in Hhi. destruct (hex_group hi Hhi) as (Shi & _ & _ & Dhi & CLhi).
    pose proof (hex_iso _ A C EL ltac:(lra) ltac:(lra)) as ISO. rewrite hexrots_eq in ISO.
    assert (HU : forall r, lattice_isometry (Mmul L (MofZ u)) r <-> lattice_isometry L (conj u r ui)).
    { intro r. rewrite !isometry_gram, !Mmul_assoc, <- !MofZ_mul. assert (EC : ZMmul u r = ZMmul (conj u r ui) u).
      { apply MofZ_eq_from_action. intro x. rewrite !MofZ_mul, !Mapp_Mmul, conj_app, (app_inv ui u _ IU). reflexivity. }
      rewrite EC, MofZ_mul, <- Mmul_assoc, (gram_app (Mmul L (MofZ (conj u r ui))) u), (gram_app L u). split; intro E; [|rewrite E; reflexivity].
      assert (X : Mmul (Mmul (Mtr (MofZ ui)) (Mmul (Mtr (MofZ u)) (Mmul (gram (Mmul L (MofZ (conj u r ui)))) (MofZ u)))) (MofZ ui) = Mmul (Mmul (Mtr (MofZ ui)) (Mmul (Mtr (MofZ u)) (Mmul (gram L) (MofZ u)))) (MofZ ui)) by now rewrite E.
      assert (Y : forall g, Mmul (Mmul (Mtr (MofZ ui)) (Mmul (Mtr (MofZ u)) (Mmul g (MofZ u)))) (MofZ ui) = g).
      { intro g. rewrite !Mmul_assoc, <- MofZ_mul, UI, MofZ_id, Mmul_id_r, <- Mmul_assoc, <- Mtr_mul, <- MofZ_mul, UI, MofZ_id. change (Mtr Mid) with (@Mid). apply Mmul_id_l. }
      now rewrite !Y in X. }
    assert (HOL : forall r, In r hexrots -> In (conj h r hi) hexrots) by (intros r Hr; apply (proj2 (proj2 (proj2 (proj2 (hex_group _ (CLh r Hr)))))); exact Hhi).
    assert (EC : forall r, conj W r Wi = conj u (conj h r hi) ui) by (intro r; apply MofZ_eq_from_action; intro x; rewrite !conj_app, EW, EWi, !MofZ_mul, !Mapp_Mmul; reflexivity).
    assert (H1 : forall r, In r (holo_rots hP) <-> lattice_isometry L (conj W r Wi)).
    { intro r. rewrite hexrots_eq, EC, <- HU, <- ISO. split; [apply HOL|]. intro Q. rewrite <- (conj_conj h r hi HHI (zinv_comm _ _ HHI)). apply (proj2 (proj2 (proj2 (proj2 (hex_group _ (CLhi _ Q)))))). exact OUT. }
    assert (GS : gram (lattice std) = hexm A C).
    { rewrite LW, EW, MofZ_mul, <- Mmul_assoc. rewrite <- EL. apply isometry_gram. now apply ISO. }
    assert (HDET : (ZMdet h = 1%Z \/ ~ In N handed6) /\ (ZMdet hi = 1%Z \/ ~ In N handed6)).
    { destruct HAND as [HL|HN]; [|auto]. assert (D1 : (ZMdet h * ZMdet hi = 1)%Z) by (rewrite <- ZMdet_mul, HHI; reflexivity).
      rewrite LW, EW, Mdet_mul, MofZ_det, ZMdet_mul, mult_IZR, <- Rmult_assoc in DS. assert (0 < ZMdet h)%Z by (apply lt_IZR; apply (Rmult_lt_reg_l (Mdet L * IZR (ZMdet u))); lra). split; left; lia. }
    assert (FINE : forall k, (k < 3)%nat -> 1 / 100000000 * Vnorm (Ccol (lattice std) k) <= dtol /\ 24 * dtol <= Vnorm (Ccol (lattice std) k) /\ 0 < Vnorm (Ccol (lattice std) k)).
    { intros k Hk. assert (E : exists x, (x = a \/ x = c) /\ Vnorm (Ccol (lattice std) k) = x).
      { assert (SQ : forall k, (k < 3)%nat -> Vnorm (Ccol (lattice std) k) * Vnorm (Ccol (lattice std) k) = A \/ Vnorm (Ccol (lattice std) k) * Vnorm (Ccol (lattice std) k) = C).
        { clear - GS. intros k Hk. rewrite Vnorm_sq. assert (X : forall m : mat R, Vdot (Ccol m k) (Ccol m k) = match k with 0%nat => m11 (gram m) | 1%nat => m22 (gram m) | _ => m33 (gram m) end).
          { intro m. destruct k as [|[|[|k]]]; [| | |lia]; unfold gram, Vdot, Ccol, Mmul, Mtr; cbn [vx vy vz m11 m12 m13 m21 m22 m23 m31 m32 m33]; reflexivity. }
          rewrite X, GS. unfold hexm. destruct k as [|[|k]]; cbn; auto. }
        pose proof (Vnorm_nonneg (Ccol (lattice std) k)) as V. destruct (SQ k Hk) as [E|E]; [exists a|exists c]; (split; [tauto|]); [unfold A in E|unfold C in E]; nra. }
      destruct E as (x & [-> | ->] & ->); repeat split; lra. }
    assert (LSY : bravais_lattice_system hP = Ok Hexagonal).
    { exact (proj2 (proj2 (proj2 (proj2 (proj2 char_rows))))). }
    assert (GAIN : forall d x y, 0 <= d -> nanos d x y -> nanos (6 * d) (Mapp (MofZ W) x) (Mapp (MofZ W) y)).
    { intros dd x y Hdd Hn. rewrite EW, MofZ_mul, !Mapp_Mmul. replace (6 * dd) with (3 * (2 * dd)) by ring. apply nanos_rows; [|lra|].
      + intros X Y Z0 Hin. rewrite <- !plus_IZR. apply (IZR_le _ 3). clear - SU Hin. destruct u as [p q r s' t u' v w x]. unfold small, entries_within in SU. cbn [m11 m12 m13 m21 m22 m23 m31 m32 m33 In] in SU, Hin.
        destruct Hin as [E|[E|[E|[]]]]; injection E as <- <- <-; lia.
      + apply nanos_rows; [|exact Hdd|exact Hn]. intros X Y Z0 Hin. rewrite <- !plus_IZR. apply (IZR_le _ 2). clear - Rh Hin. clearbody h. cbn [In] in Hin. destruct Hin as [E|[E|[E|[]]]]; injection E as <- <- <-; lia. }
    assert (NUM : forall r, In r (holo_rots hP) -> i8_range (conj W r Wi)).
    { intros r Hr. rewrite hexrots_eq in Hr. rewrite EC. pose proof (HOL r Hr) as Hr'. destruct (hex_group _ Hr') as (Sr & _). pose proof (small_inv u ui DU SU UI) as S2.
      assert (S3 : small (3 * (3 * 1 * 1) * 2) (conj u (conj h r hi) ui)) by (unfold conj at 1; apply small_mul; [lia|lia|apply small_mul; [lia|lia|exact SU|exact Sr]|exact S2]).
      clear - S3. revert S3. generalize (conj u (conj h r hi) ui). intro m. unfold small, i8_range, entries_within. cbn [Z.mul Pos.mul Z.opp]. lia. }
    assert (K1 : forall o, In o (group_ops sym codes) -> exists o', In o' (group_ops sym codes) /\ conj Wi (conj u (fst o) ui) W = fst o' /\ Vcongr (Mapp (MofZ Wi) (Mapp (MofZ u) (in_twelfths (snd o)))) (in_twelfths (snd o'))).
    { intros o Ho. destruct (hex_table order N codes sym h o HT ES NC OUT (proj1 HDET) Ho) as (o' & Ho' & S). apply same_op_V12 in S. unfold conj_opi in S. cbn [fst snd] in S. rewrite (Zinv_unique h (zinv h) hi (zinv_r h Dh) HHI) in S.
      exists o'. split; [exact Ho'|]. split.
      + rewrite <- (proj1 S). apply MofZ_eq_from_action. intro x. rewrite !conj_app. unfold h, hi. rewrite !MofZ_mul, !Mapp_Mmul. reflexivity.
      + rewrite <- Mapp_Mmul, <- MofZ_mul. fold hi. change (in_twelfths (snd o)) with (V12 (snd o)). rewrite MofZ_V12. exact (proj2 S). }
    assert (K2 : forall o, In o (group_ops sym codes) -> exists o', In o' (group_ops sym codes) /\ conj W (fst o) Wi = conj u (fst o') ui /\ Vcongr (Mapp (MofZ W) (in_twelfths (snd o))) (Mapp (MofZ u) (in_twelfths (snd o')))).
    { intros o Ho. destruct (hex_table order N codes sym hi o HT ES NC Hhi (proj2 HDET) Ho) as (o' & Ho' & S). apply same_op_V12 in S. unfold conj_opi in S. cbn [fst snd] in S. rewrite (Zinv_unique hi (zinv hi) h (zinv_r hi Dhi) (zinv_comm _ _ HHI)) in S.
      exists o'. split; [exact Ho'|]. split.
      + rewrite <- (proj1 S). apply MofZ_eq_from_action. intro x. rewrite !conj_app. unfold h, hi. rewrite !MofZ_mul, !Mapp_Mmul, (app_inv u ui _ UI), (app_inv u ui _ UI). reflexivity.
      + destruct S as [_ S]. apply (PEnd11.Vcongr_app u) in S. change (in_twelfths (ZMapp h (snd o))) with (V12 (ZMapp h (snd o))) in S. rewrite <- MofZ_V12, <- Mapp_Mmul, <- MofZ_mul, <- EW in S. exact S. }
    exact (frame_answered P HO dtol fuel path s HP HF ltac:(lra) WF BIG AP4 RI p q std Tm Pm n hP W Wi FR FINE H1 Hexagonal order N codes sym LSY HT ES NC u ui 6 UI GAIN NUM IFF K1 K2).
  Qed.
End HexAnswer.
