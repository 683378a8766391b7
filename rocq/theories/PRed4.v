(** Triclinic and primitive monoclinic crystals: the answer (analyzer.rs 36-162, 206-345) *)
From Coq Require Import ZArith Reals String Ascii List Bool Lia Lra Psatz Permutation.
From Flocq Require Import Core.
From Verif Require Import Num Mat Utils DataCore DataPG DataSG SymmOp PointGroup SpaceGroup Structure Reduce Analyzer RInst Spec Spec2 Spec3 Spec5 Spec6 Spec8 Spec10 RFacts
  PUtils PSymmOp PStructure PStructure2 PStructure3 PNiggli PDelaunay PPrim PPrim2 PLattice PAnalyzer PAnalyzer2 PPointGroup PPointGroup2 PSpaceGroup PSpaceGroup2 PCode PTables PIdentify
  PSearch PSearch3 PSearch4 PSearch6 PSearch7 PEnd PEnd2 PEnd3 PEnd4 PEnd11 PEnd12 PEnd13 PEnd14 PEnd15 PEnd16 Prop5 PRun PRun2 PHex PHex2 PHex3 PHex4 PHex5 PEnd17 PEnd18 PHex6 PHex7 PRed PRed2 PRed3.
Import ListNotations.
Open Scope R_scope.

Lemma iso_conj L u ui r : ZMmul u ui = ZMid -> lattice_isometry (Mmul L (MofZ u)) r <-> lattice_isometry L (conj u r ui).
Proof.
  intro UI. pose proof (zinv_comm _ _ UI) as IU. rewrite !isometry_gram, !Mmul_assoc, <- !MofZ_mul. assert (EC : ZMmul u r = ZMmul (conj u r ui) u).
  { apply MofZ_eq_from_action. intro x. rewrite !MofZ_mul, !Mapp_Mmul, conj_app, (app_inv ui u _ IU). reflexivity. }
  rewrite EC, MofZ_mul, <- Mmul_assoc, (gram_app (Mmul L (MofZ (conj u r ui))) u), (gram_app L u). split; intro E; [|rewrite E; reflexivity].
  assert (X : Mmul (Mmul (Mtr (MofZ ui)) (Mmul (Mtr (MofZ u)) (Mmul (gram (Mmul L (MofZ (conj u r ui)))) (MofZ u)))) (MofZ ui) = Mmul (Mmul (Mtr (MofZ ui)) (Mmul (Mtr (MofZ u)) (Mmul (gram L) (MofZ u)))) (MofZ ui)) by now rewrite E.
  assert (Y : forall g, Mmul (Mmul (Mtr (MofZ ui)) (Mmul (Mtr (MofZ u)) (Mmul g (MofZ u)))) (MofZ ui) = g).
  { intro g. rewrite !Mmul_assoc, <- MofZ_mul, UI, MofZ_id, Mmul_id_r, <- Mmul_assoc, <- Mtr_mul, <- MofZ_mul, UI, MofZ_id. change (Mtr Mid) with (@Mid). apply Mmul_id_l. }
  now rewrite !Y in X.
Qed.

(** ** The assumed rotations, and the tables *)
Definition low (b : bravais) (ls : lattice_system) : Prop := (b = aP /\ ls = Triclinic) \/ (b = mP /\ ls = Monoclinic).
Lemma aP_rots : holo_rots aP = [zdiag 1 1 1; zdiag (-1) (-1) (-1)]%Z. Proof. vm_compute. reflexivity. Qed.
Lemma mP_rots : holo_rots mP = [zdiag 1 1 1; zdiag (-1) 1 (-1); zdiag (-1) (-1) (-1); zdiag 1 (-1) 1]%Z. Proof. vm_compute. reflexivity. Qed.
Lemma low_signs b ls h : low b ls -> In h (holo_rots b) -> exists i j k, pm1 i /\ pm1 j /\ pm1 k /\ h = zdiag i j k.
Proof.
  assert (P1 : pm1 1) by now left. assert (P2 : pm1 (-1)) by now right. intros [[-> _]|[-> _]] H; [rewrite aP_rots in H|rewrite mP_rots in H]; cbn [In] in H; repeat (destruct H as [<-|H]; [eexists _, _, _; repeat split; try eassumption|]); destruct H.
Qed.
Lemma low_system b ls : low b ls -> bravais_lattice_system b = Ok ls. Proof. intros [[-> ->]|[-> ->]]; reflexivity. Qed.
Lemma signs_conj i j k i' j' k' : pm1 i -> pm1 j -> pm1 k -> conj (zdiag i j k) (zdiag i' j' k') (zdiag i j k) = zdiag i' j' k'.
Proof. intros [-> | ->] [-> | ->] [-> | ->]; unfold conj, ZMmul, zdiag; cbn [m11 m12 m13 m21 m22 m23 m31 m32 m33]; f_equal; ring. Qed.
Lemma low_conj b ls h r : low b ls -> In h (holo_rots b) -> In r (holo_rots b) -> conj h r h = r.
Proof. intros LB Hh Hr. destruct (low_signs _ _ _ LB Hh) as (i & j & k & Hi & Hj & Hk & ->). destruct (low_signs _ _ _ LB Hr) as (i' & j' & k' & _ & _ & _ & ->). now apply signs_conj. Qed.
Lemma low_sq b ls h : low b ls -> In h (holo_rots b) -> ZMmul h h = ZMid.
Proof. intros LB Hh. destruct (low_signs _ _ _ LB Hh) as (i & j & k & Hi & Hj & Hk & ->). now apply signs_sq. Qed.
Definition mem_z (r : mat Z) (l : list (mat Z)) : bool := ex_if (zmat_eqb r) l.
Lemma mem_z_in r l : In r l -> mem_z r l = true. Proof. intro H. unfold mem_z. rewrite ex_if_existsb. apply existsb_exists. exists r. split; [exact H|now apply zmat_eqb_spec]. Qed.
Definition halves (v : vec Z) : bool := (vx v mod 6 =? 0)%Z && (vy v mod 6 =? 0)%Z && (vz v mod 6 =? 0)%Z.
Definition low_halves (hr : list (mat Z)) (e : lattice_system * Z * Z * list Z) : bool :=
  let '(ls, _, N, codes) := e in
  match ls with
  | Triclinic | Monoclinic => match entry_ops N codes with Some l => if existsb (Z.eqb N) not_closed then false else forallb (fun o => if mem_z (fst o) hr then halves (snd o) else true) l | None => false end
  | _ => true
  end.
Lemma low_halves_checked : forallb (low_halves (holo_rots mP)) sg_entries = true. Proof. vm_compute. reflexivity. Qed.
Lemma low_entry b ls order N codes sym : low b ls -> In (ls, order, N, codes) sg_entries -> am_get Z.eqb N SG_NUM_TO_SYMBOL = Some sym ->
  ~ In N not_closed /\ forall o, In o (group_ops sym codes) -> In (fst o) (holo_rots b) -> halves (snd o) = true.
Proof.
  intros LB HT ES. pose proof (proj1 (forallb_forall _ _) low_halves_checked _ HT) as Q. unfold low_halves in Q.
  assert (EO : entry_ops N codes = Some (group_ops sym codes)) by (unfold entry_ops; rewrite ES; reflexivity). rewrite EO in Q.
  assert (Q' : (if existsb (Z.eqb N) not_closed then false else forallb (fun o => if mem_z (fst o) (holo_rots mP) then halves (snd o) else true) (group_ops sym codes)) = true) by (destruct LB as [[_ ->]|[_ ->]]; exact Q). clear Q.
  destruct (existsb (Z.eqb N) not_closed) eqn:X; [discriminate|]. split.
  - intro H. assert (Y : existsb (Z.eqb N) not_closed = true) by (apply existsb_exists; exists N; split; [exact H|apply Z.eqb_refl]). rewrite Y in X. discriminate X.
  - intros o Ho Hr. pose proof (proj1 (forallb_forall _ _) Q' o Ho) as K. cbv beta in K. rewrite mem_z_in in K; [exact K|]. destruct LB as [[-> _]|[-> _]]; [|exact Hr]. rewrite aP_rots in Hr. rewrite mP_rots. cbn [In] in Hr |- *. tauto.
Qed.
Lemma halves_signs i j k v : pm1 i -> pm1 j -> pm1 k -> halves v = true -> exists n, ZMapp (zdiag i j k) v = ZVadd v (V (12 * vx n) (12 * vy n) (12 * vz n))%Z.
Proof.
  intros Hi Hj Hk H. unfold halves in H. apply andb_true_iff in H. destruct H as [H Hz]. apply andb_true_iff in H. destruct H as [Hx Hy]. apply Z.eqb_eq in Hx, Hy, Hz. destruct v as [x y z]. cbn [vx vy vz] in *.
  assert (X : forall a t, pm1 a -> (t mod 6 = 0)%Z -> exists m, (a * t = t + 12 * m)%Z).
  { intros a t [-> | ->] Ht; [exists 0%Z; ring|]. exists (- (t / 6))%Z. pose proof (Z.div_mod t 6 ltac:(lia)). lia. }
  destruct (X i x Hi Hx) as (a & Ea). destruct (X j y Hj Hy) as (b & Eb). destruct (X k z Hk Hz) as (c & Ec). exists (V a b c). unfold ZMapp, zdiag, ZVadd. cbn [vx vy vz m11 m12 m13 m21 m22 m23 m31 m32 m33]. f_equal; lia.
Qed.
Lemma halves_congr b ls h v : low b ls -> In h (holo_rots b) -> halves v = true -> Vcongr (Mapp (MofZ h) (in_twelfths v)) (in_twelfths v).
Proof.
  intros LB Hh H. destruct (low_signs _ _ _ LB Hh) as (i & j & k & Hi & Hj & Hk & ->). destruct (halves_signs i j k v Hi Hj Hk H) as (n & E). change (in_twelfths v) with (V12 v) at 1. rewrite MofZ_V12, E. exists n.
  change (V12 (ZVadd v (V (12 * vx n) (12 * vy n) (12 * vz n))%Z)) with (in_twelfths (ZVadd v (V (12 * vx n) (12 * vy n) (12 * vz n))%Z)). destruct v as [x y z], n as [a c d]. unfold in_twelfths, Vadd, VofZ, ZVadd. cbn [vx vy vz]. apply (@vec_ext R); cbn [vx vy vz]; rewrite ?plus_IZR, ?mult_IZR; lra.
Qed.

Section Low.
  Context (P : @Pinv RNum) (HO : HashOrd) (dtol d : R) (fuel : nat) (path : list nat) (s : @structure RNum) (u ui : mat Z) (A B C D E F : R).
  Hypothesis (HP : pinv_inverts P) (HF : (48 <= fuel)%nat) (WF : List.length (frac_coords s) = List.length (species s)).
  Hypothesis BIG : (0 < Z.of_nat (List.length (species s)) <= 65535)%Z.
  Hypothesis (Hd : 1 / 100000 <= dtol <= 1 / 25) (BC : C <= 1000000).
  Hypothesis (DU : ZMdet u = 1%Z \/ ZMdet u = (-1)%Z) (SU : small 1 u) (UI : ZMmul u ui = ZMid).
  Let L := lattice s.
  Let eps := 1 / 100000 * Rpower (Rabs (Mdet L)) (1 / 3).
  Hypothesis (NF : not_flat L) (EL : gram (Mmul L (MofZ u)) = metric A B C D E F) (SR : strictly_reduced eps A B C D E F).
  Hypothesis (SP : spread d (sites_of s)) (Dd : 36 * dtol <= d).
  Context (n : Z) (b : bravais) (ls : lattice_system) (T0 : mat Z).
  Hypothesis CH : @character_of RNum eps A B C D E F = Ok n.
  Hypothesis (R1 : am_get Z.eqb n LATTICE_CHAR_TO_BRAVAIS = Some b) (R2 : am_get Z.eqb n LATTICE_CHAR_TO_CONV_TRANS = Some T0) (R7 : bravais_centering b = Ok CP) (DT : ZMdet (transpose T0) = 1%Z).
  Hypothesis MT : forall m, small 2 m -> small 2 (ZMmul (transpose T0) m).
  Hypothesis NI : no_inner_translation dtol s.
  Context (w wi : mat Z).
  Let t := transpose T0.
  Hypothesis (LB : low b ls) (TT : ZMmul t t = ZMid) (WW : ZMmul w wi = ZMid) (EU : u = ZMmul w t) (SW : small 1 w).
  Hypothesis ISO : forall r, In r (holo_rots b) <-> lattice_isometry (Mmul L (MofZ w)) r.
  Hypothesis GW : m11 (gram (Mmul L (MofZ w))) <= 1000000 /\ m22 (gram (Mmul L (MofZ w))) <= 1000000 /\ m33 (gram (Mmul L (MofZ w))) <= 1000000.
  Lemma low_frame : exists p q std Tm Pm W Wi h, frame P HO dtol fuel path s p q std Tm Pm n b W Wi /\ In h (holo_rots b) /\ W = ZMmul w h /\ Wi = ZMmul h wi /\
    (forall r, In r (holo_rots b) <-> lattice_isometry (lattice s) (conj W r Wi)) /\ (forall r, In r (holo_rots b) -> conj W r Wi = conj w r wi) /\
    (forall k, (k < 3)%nat -> 1 / 100000000 * Vnorm (Ccol (lattice std) k) <= dtol /\ 24 * dtol <= Vnorm (Ccol (lattice std) k) /\ 0 < Vnorm (Ccol (lattice std) k)) /\
    (forall k, (k < 3)%nat -> 9 / 1000000000 < dtol / Vnorm (Ccol (lattice std) k) <= 1 / 25).
  Proof using All.
    assert (Hd1 : 1 / 100000 <= dtol <= 1 / 24) by lra.
    destruct (red_stages P HO dtol d fuel path s u ui A B C D E F HP HF WF BIG Hd1 BC DU SU UI NF EL SR SP Dd n b T0 CH R1 R2 R7 DT MT NI) as (p & q & std & Tm & Pm & n' & b' & W & Wi & FR & -> & -> & i & j & k & Hi & Hj & Hk & KS & EW). fold t in EW.
    set (h := ZMmul (ZMmul t (zdiag i j k)) t). pose proof (zinv_comm _ _ WW) as WW'.
    assert (HI : lattice_isometry (Mmul L (MofZ u)) (zdiag i j k)).
    { apply (reduced_iso _ A B C D E F); [rewrite Mdet_mul, MofZ_det; pose proof (flat_det L NF) as Q; intro X; apply Rmult_integral in X; destruct X as [X|X]; [rewrite X, Rabs_R0 in Q; lra|destruct DU as [Y|Y]; rewrite Y in X; lra]|exact EL| |exists i, j, k; auto].
      exact (rd_reduced P HO dtol d fuel path s u ui A B C D E F HP HF WF BIG Hd1 BC DU SU UI NF EL SR SP Dd). }
    assert (Hh : In h (holo_rots b)).
    { apply ISO. apply (proj1 (isometry_gram _ _)) in HI. apply (proj2 (isometry_gram _ _)). rewrite EU in HI. rewrite Mmul_assoc, <- MofZ_mul. assert (E1 : ZMmul w h = ZMmul (ZMmul (ZMmul w t) (zdiag i j k)) t) by (unfold h; rewrite !Zassoc; reflexivity).
      rewrite E1, MofZ_mul, <- Mmul_assoc, <- rcongr_gram. rewrite Mmul_assoc, <- MofZ_mul in HI. rewrite HI, rcongr_gram, Mmul_assoc, <- MofZ_mul, Zassoc, TT. do 3 f_equal. apply MofZ_eq_from_action. intro x. rewrite !MofZ_mul, !Mapp_Mmul, MofZ_id, Mapp_id. reflexivity. }
    assert (EW' : W = ZMmul w h) by (rewrite EW, EU; unfold h; rewrite !Zassoc; reflexivity).
    pose proof (low_sq b ls h LB Hh) as HH. assert (EWi : Wi = ZMmul h wi) by (apply (Zinv_unique W); [exact (fr_inv _ _ _ _ _ _ _ _ _ _ _ _ _ _ _ FR)|rewrite EW'; now apply Zcompose]).
    assert (CJ : forall r, In r (holo_rots b) -> conj W r Wi = conj w r wi).
    { intros r Hr. rewrite <- (low_conj b ls h r LB Hh Hr) at 2. apply MofZ_eq_from_action. intro x. rewrite !conj_app, EW', EWi, !MofZ_mul, !Mapp_Mmul. reflexivity. }
    assert (GS : gram (lattice std) = gram (Mmul L (MofZ w))).
    { rewrite (fr_std _ _ _ _ _ _ _ _ _ _ _ _ _ _ _ FR), EW', MofZ_mul, <- Mmul_assoc. fold L. apply (proj1 (isometry_gram _ _)). now apply ISO. }
    assert (BND : forall k, (k < 3)%nat -> 1 <= Vnorm (Ccol (lattice std) k) <= 1000).
    { intros m Hm. split.
      - destruct (Ccol_app (lattice std) m Hm) as (e & He & ->). rewrite (fr_std _ _ _ _ _ _ _ _ _ _ _ _ _ _ _ FR), Mapp_Mmul, <- MofZ_app. apply (flat_vector (lattice s) NF). intro X. apply (f_equal (ZMapp Wi)) in X.
        rewrite (Zapp_inv Wi W _ (zinv_comm _ _ (fr_inv _ _ _ _ _ _ _ _ _ _ _ _ _ _ _ FR))) in X. assert (Y : ZMapp Wi (V 0%Z 0%Z 0%Z) = V 0%Z 0%Z 0%Z) by (unfold ZMapp; cbn [vx vy vz]; f_equal; ring). rewrite Y in X. unfold units3 in He. cbn [In] in He. rewrite X in He. destruct He as [Q|[Q|[Q|[]]]]; discriminate Q.
      - rewrite <- (sqrt_square 1000) by lra. unfold Vnorm. apply sqrt_le_1_alt. clear - GS GW Hm. assert (X : forall m0 : mat R, Vdot (Ccol m0 m) (Ccol m0 m) = match m with 0%nat => m11 (gram m0) | 1%nat => m22 (gram m0) | _ => m33 (gram m0) end).
        { intro m0. destruct m as [|[|[|m]]]; [| | |lia]; unfold gram, Vdot, Ccol, Mmul, Mtr; cbn [vx vy vz m11 m12 m13 m21 m22 m23 m31 m32 m33]; reflexivity. }
        rewrite X, GS. destruct m as [|[|m]]; lra. }
    exists p, q, std, Tm, Pm, W, Wi, h. split; [exact FR|]. split; [exact Hh|]. split; [exact EW'|]. split; [exact EWi|]. split; [|split; [exact CJ|split]].
    - intro r. fold L. split; intro Hr.
      + rewrite (CJ r Hr). apply iso_conj; [exact WW|]. now apply ISO.
      + assert (E1 : conj W r Wi = conj w (conj h r h) wi) by (apply MofZ_eq_from_action; intro x; rewrite !conj_app, EW', EWi, !MofZ_mul, !Mapp_Mmul; reflexivity).
        rewrite E1 in Hr. apply iso_conj in Hr; [|exact WW]. apply ISO in Hr. pose proof (low_conj b ls h _ LB Hh Hr) as X. rewrite (conj_conj h r h HH HH) in X. rewrite X. exact Hr.
    - intros m Hm. destruct (BND m Hm). repeat split; lra.
    - intros m Hm. destruct (BND m Hm) as (Q1 & Q2). split; apply (Rmult_lt_reg_r (Vnorm (Ccol (lattice std) m))) || apply (Rmult_le_reg_r (Vnorm (Ccol (lattice std) m))); try lra;
        replace (dtol / Vnorm (Ccol (lattice std) m) * Vnorm (Ccol (lattice std) m)) with dtol by (field; lra); lra.
  Qed.
  Hypothesis RI : rigid (2 * dtol) L (sites_of s) (lattice_isometry L).
  Let AP4 : apart (4 * dtol) L (sites_of s).
  Proof using All. assert (Hd1 : 1 / 100000 <= dtol <= 1 / 24) by lra. exact (rd_apart4 P HO dtol d fuel path s u ui A B C D E F HP HF WF BIG Hd1 BC DU SU UI NF EL SR SP Dd n b T0 CH R1 R2 R7 DT MT NI). Qed.
  Context (order N : Z) (codes : list Z) (sym : string).
  Hypothesis (HT : In (ls, order, N, codes) sg_entries) (ES : am_get Z.eqb N SG_NUM_TO_SYMBOL = Some sym).
  Lemma low_answered : (forall r x, (lattice_isometry L r /\ exact_operation (sites_of s) r x) <-> exists o, In o (group_ops sym codes) /\ r = conj w (fst o) wi /\ Vcongr x (Mapp (MofZ w) (in_twelfths (snd o)))) ->
    exists ops, @get_space_group_info RNum P HO fuel path dtol s = Ok (N, sym, ops) /\
    List.length ops = List.length (filter (fun o => has_unit_entry (conj w (fst o) wi)) (group_ops sym codes)) /\
    (forall op, In op ops -> exists o, In o (group_ops sym codes) /\ rotation op = conj w (fst o) wi /\ has_unit_entry (rotation op) = true /\ nanos (3 * (1 / 1000000000)) (translation op) (Mapp (MofZ w) (in_twelfths (snd o)))) /\
    (forall o, In o (group_ops sym codes) -> has_unit_entry (conj w (fst o) wi) = true ->
       exists op, In op ops /\ rotation op = conj w (fst o) wi /\ nanos (3 * (1 / 1000000000)) (translation op) (Mapp (MofZ w) (in_twelfths (snd o)))).
  Proof using All.
    intro IFF. destruct low_frame as (p & q & std & Tm & Pm & W & Wi & h & FR & Hh & EW & EWi & H1 & CJ & FINE & _). destruct (low_entry b ls order N codes sym LB HT ES) as (NC & HV).
    pose proof (low_sq b ls h LB Hh) as HH. pose proof (zinv_comm _ _ WW) as WW'.
    assert (HR : forall o, In o (group_ops sym codes) -> In (fst o) (holo_rots b)).
    { intros o Ho. apply ISO. apply (iso_conj L w wi _ WW). apply (proj2 (IFF (conj w (fst o) wi) (Mapp (MofZ w) (in_twelfths (snd o))))). exists o. split; [exact Ho|]. split; [reflexivity|apply Vcongr_refl]. }
    destruct (low_signs b ls h LB Hh) as (i & j & k & Hi & Hj & Hk & Eh).
    assert (GAIN : forall d x y, 0 <= d -> nanos d x y -> nanos (3 * d) (Mapp (MofZ W) x) (Mapp (MofZ W) y)).
    { intros dd x y Hdd Hn. rewrite EW, MofZ_mul, !Mapp_Mmul. replace (3 * dd) with (3 * (1 * dd)) by ring. apply nanos_rows; [|lra|].
      + intros X Y Z0 Hin. rewrite <- !plus_IZR. apply (IZR_le _ 3). clear - SW Hin. destruct w as [a1 a2 a3 a4 a5 a6 a7 a8 a9]. unfold small, entries_within in SW. cbn [m11 m12 m13 m21 m22 m23 m31 m32 m33 In] in SW, Hin.
        destruct Hin as [E0|[E0|[E0|[]]]]; injection E0 as <- <- <-; lia.
      + rewrite Eh. apply nanos_rows; [|exact Hdd|exact Hn]. intros X Y Z0 Hin. rewrite <- !plus_IZR. apply (IZR_le _ 1). clear - Hi Hj Hk Hin. unfold zdiag in Hin. cbn [m11 m12 m13 m21 m22 m23 m31 m32 m33 In] in Hin.
        destruct Hin as [E0|[E0|[E0|[]]]]; injection E0 as <- <- <-; destruct Hi as [-> | ->], Hj as [-> | ->], Hk as [-> | ->]; cbn; lia. }
    assert (NUM : forall r, In r (holo_rots b) -> i8_range (conj W r Wi)).
    { intros r Hr. rewrite (CJ r Hr). destruct (low_signs b ls r LB Hr) as (i' & j' & k' & Hi' & Hj' & Hk' & ->).
      assert (DW : (ZMdet w * ZMdet wi = 1)%Z) by (rewrite <- ZMdet_mul, WW; reflexivity). pose proof (small_inv w wi (Z.eq_mul_1 _ _ DW) SW WW) as S2.
      assert (Sr : small 1 (zdiag i' j' k')) by (clear - Hi' Hj' Hk'; unfold small, entries_within, zdiag; cbn [m11 m12 m13 m21 m22 m23 m31 m32 m33]; destruct Hi' as [-> | ->], Hj' as [-> | ->], Hk' as [-> | ->]; lia).
      assert (S3 : small (3 * (3 * 1 * 1) * 2) (conj w (zdiag i' j' k') wi)) by (unfold conj at 1; apply small_mul; [lia|lia|apply small_mul; [lia|lia|exact SW|exact Sr]|exact S2]).
      clear - S3. revert S3. generalize (conj w (zdiag i' j' k') wi). intro m. unfold small, i8_range, entries_within. cbn [Z.mul Pos.mul Z.opp]. lia. }
    assert (K1 : forall o, In o (group_ops sym codes) -> exists o', In o' (group_ops sym codes) /\ conj Wi (conj w (fst o) wi) W = fst o' /\ Vcongr (Mapp (MofZ Wi) (Mapp (MofZ w) (in_twelfths (snd o)))) (in_twelfths (snd o'))).
    { intros o Ho. pose proof (HR o Ho) as Hr. exists o. split; [exact Ho|]. split.
      + rewrite <- (CJ _ Hr). apply conj_conj; [exact (fr_inv _ _ _ _ _ _ _ _ _ _ _ _ _ _ _ FR)|exact (zinv_comm _ _ (fr_inv _ _ _ _ _ _ _ _ _ _ _ _ _ _ _ FR))].
      + rewrite EWi, MofZ_mul, Mapp_Mmul, (app_inv wi w _ WW'). exact (halves_congr b ls h (snd o) LB Hh (HV o Ho Hr)). }
    assert (K2 : forall o, In o (group_ops sym codes) -> exists o', In o' (group_ops sym codes) /\ conj W (fst o) Wi = conj w (fst o') wi /\ Vcongr (Mapp (MofZ W) (in_twelfths (snd o))) (Mapp (MofZ w) (in_twelfths (snd o')))).
    { intros o Ho. pose proof (HR o Ho) as Hr. exists o. split; [exact Ho|]. split; [exact (CJ _ Hr)|]. rewrite EW, MofZ_mul, Mapp_Mmul. apply PEnd11.Vcongr_app. exact (halves_congr b ls h (snd o) LB Hh (HV o Ho Hr)). }
    exact (frame_answered P HO dtol fuel path s HP HF ltac:(lra) WF BIG AP4 RI p q std Tm Pm n b W Wi FR FINE H1 ls order N codes sym (low_system b ls LB) HT ES NC w wi 3 WW GAIN NUM IFF K1 K2).
  Qed.
  (** an answer, when the operations are those of the entry along other axes [v] *)
  Lemma low_meaning v vi N' sym' ops' : ZMmul v vi = ZMid ->
    (forall r x, (lattice_isometry L r /\ exact_operation (sites_of s) r x) <-> exists o, In o (group_ops sym codes) /\ r = conj v (fst o) vi /\ Vcongr x (Mapp (MofZ v) (in_twelfths (snd o)))) ->
    @get_space_group_info RNum P HO fuel path dtol s = Ok (N', sym', ops') ->
    exists h codes', In h (holo_rots b) /\ In (ls, order, N', codes') sg_entries /\ am_get Z.eqb N' SG_NUM_TO_SYMBOL = Some sym' /\
      let ki := ZMmul (ZMmul h wi) v in let k := ZMmul vi (ZMmul w h) in let moved o := (conj ki (fst o) k, ZMapp ki (snd o)) in
      (forall o, In o (group_ops sym codes) -> exists c, In c (group_ops sym' codes') /\ same_op (moved o) c) /\
      (forall c, In c (group_ops sym' codes') -> exists o, In o (group_ops sym codes) /\ same_op (moved o) c).
  Proof using All.
    intros VV IFF EI. destruct low_frame as (p & q & std & Tm & Pm & W & Wi & h & FR & Hh & EW & EWi & H1 & CJ & FINE & TOL).
    assert (SMR : forall r, In r (holo_rots b) -> small_rot r = true /\ i8_range r).
    { intros r Hr. destruct (low_signs b ls r LB Hr) as (i & j & k & Hi & Hj & Hk & ->). destruct Hi as [-> | ->], Hj as [-> | ->], Hk as [-> | ->]; (split; [reflexivity|]); unfold i8_range, entries_within, zdiag; cbn [m11 m12 m13 m21 m22 m23 m31 m32 m33]; lia. }
    destruct (frame_meaning P HO dtol fuel path s HF ltac:(lra) WF BIG AP4 RI p q std Tm Pm n b W Wi FR FINE TOL H1 SMR ls order N codes sym (low_system b ls LB) HT ES v vi VV IFF N' sym' ops' EI) as (_ & codes' & HT' & ES' & CA & CB).
    exists h, codes'. split; [exact Hh|]. split; [exact HT'|]. split; [exact ES'|]. cbv zeta. rewrite <- EW, <- EWi. split.
    - intros o Ho. apply CA. unfold std_ops. apply in_map_iff. exists o. split; [reflexivity|exact Ho].
    - intros c Hc. destruct (CB c Hc) as (a & Ha & S). unfold std_ops in Ha. apply in_map_iff in Ha. destruct Ha as (o & <- & Ho). exists o. split; [exact Ho|exact S].
  Qed.
End Low.
