(** Crystals of the groups Fd-3, F4_132, Fd-3m, Fd-3c in the standard primitive cell: the axes chosen depend on the handedness of the cell *)
From Coq Require Import ZArith Reals String Ascii List Bool Lia Lra Psatz Permutation.
From Flocq Require Import Core.
From Verif Require Import Num Mat Utils DataCore DataPG DataSG SymmOp PointGroup SpaceGroup Structure Reduce Analyzer RInst Spec Spec2 Spec3 Spec5 Spec6 Spec8 Spec10 Spec11 RFacts
  PUtils PSymmOp PStructure PStructure2 PStructure3 PNiggli PDelaunay PPrim PPrim2 PLattice PAnalyzer PAnalyzer2 PPointGroup PPointGroup2 PSpaceGroup PSpaceGroup2 PCode PTables PIdentify
  PSearch PSearch3 PSearch4 PSearch6 PSearch7 PEnd PEnd2 PEnd3 PEnd4 PEnd11 PEnd12 PEnd13 PEnd14 PEnd15 PEnd16 PEnd17 PEnd18 Prop4 Prop5 PRun PRun2 PHex PHex2 PHex3 PHex4 PHex5 PHex6 PHex7 PRed4 PRed5 PPrim5 PNiggli2 PNiggli3 PNiggli4 PEnd8 PEnd9 PEnd10 PAxes PCen PCen2 PCen3.
Import ListNotations.
Open Scope R_scope.

(** the axes: a cyclic permutation of the axes of a right-handed cell, and its negative for a left-handed one *)
Definition dW (sg : Z) : mat Z := (M 0 0 sg sg 0 0 0 sg 0)%Z.
Definition dZ (sg : Z) : mat Z := (M 1 0 0 0 1 0 0 0 sg)%Z.
Definition dY (sg : Z) : vec Z * vec Z * vec Z := (e1, e2, V 0%Z 0%Z sg).
Lemma d_short sg : (sg = 1 \/ sg = -1)%Z -> zshort (km true) sg [e1; e2; e3] = Some (e1, e2, e3) /\ zshort (km true) sg zcombos = Some (dY sg).
Proof. intros [-> | ->]; split; vm_compute; reflexivity. Qed.
Lemma d_loop sg : (sg = 1 \/ sg = -1)%Z -> zc1b (kform (km true) (dZ sg)) = false /\ zc2b (kform (km true) (dZ sg)) = false /\ zpost_f (zmid_f (kform (km true) (dZ sg))) = (false, km true).
Proof. intros [-> | ->]; repeat split; vm_compute; reflexivity. Qed.
Lemma d_axes sg i j k : (sg = 1 \/ sg = -1)%Z -> pm1 i -> pm1 j -> pm1 k -> (i * j * k = 1)%Z -> kform (km true) (ZMmul (ZMmul (dZ sg) (zdiag i j k)) kU) = km true ->
  ZMmul (ZMmul (dZ sg) (zdiag i j k)) kU = dW sg.
Proof. intros [-> | ->] [-> | ->] [-> | ->] [-> | ->] Hp E; try discriminate Hp; try (vm_compute in E; discriminate E); vm_compute; reflexivity. Qed.

(** ** The tables *)
Definition dtable_check (e : lattice_system * Z * Z * list Z) : bool :=
  let '(_, _, N, codes) := e in
  if existsb (Z.eqb N) diamond_groups then match entry_ops N codes with Some l => forallb (fun w => forallb (fun o => ex_if (zop_eq (conj_opi w o)) l) l) [kU; zinv kU] | None => false end else true.
Lemma dtable_checked : forallb dtable_check sg_entries = true.
Proof. vm_compute. reflexivity. Qed.
Lemma dtable order N codes sym w o : In (Cubic, order, N, codes) sg_entries -> am_get Z.eqb N SG_NUM_TO_SYMBOL = Some sym -> In N diamond_groups ->
  In w [kU; zinv kU] -> In o (group_ops sym codes) -> exists o', In o' (group_ops sym codes) /\ same_op (conj_opi w o) o'.
Proof.
  intros HT ES HN Hw Ho. pose proof (proj1 (forallb_forall _ _) dtable_checked _ HT) as Q. unfold dtable_check in Q. replace (existsb (Z.eqb N) diamond_groups) with true in Q by (symmetry; apply existsb_exists; exists N; split; [exact HN|apply Z.eqb_refl]).
  assert (EO : entry_ops N codes = Some (group_ops sym codes)) by (unfold entry_ops; rewrite ES; reflexivity). rewrite EO in Q.
  pose proof (proj1 (forallb_forall _ _) Q w Hw) as K. cbn beta in K. pose proof (proj1 (forallb_forall _ _) K o Ho) as K'. cbn beta in K'. rewrite ex_if_existsb in K'. apply existsb_exists in K'. destruct K' as (o' & Ho' & E). exists o'. split; [exact Ho'|apply same_op_eq; exact E].
Qed.
Definition dleft_check (e : lattice_system * Z * Z * list Z) : bool :=
  let '(_, _, N, codes) := e in
  if existsb (Z.eqb N) diamond_groups then
    match entry_ops N codes with
    | Some l => let l' := map (conj_opi (dW (-1))) l in
        forallb (fun e' => let '(_, _, N', codes') := e' in if (N =? N')%Z then match entry_ops N' codes' with Some m => negb (all_if (fun a => ex_if (zop_eq a) m) l') | None => false end else true) sg_entries
    | None => false
    end
  else true.
Lemma dleft_checked : forallb dleft_check sg_entries = true.
Proof. vm_compute. reflexivity. Qed.
Lemma dleft order N codes codes' sym : In (Cubic, order, N, codes) sg_entries -> In (Cubic, order, N, codes') sg_entries -> am_get Z.eqb N SG_NUM_TO_SYMBOL = Some sym -> In N diamond_groups ->
  ~ (forall a, In a (map (conj_opi (dW (-1))) (group_ops sym codes)) -> exists c, In c (group_ops sym codes') /\ same_op a c).
Proof.
  intros HT HT' ES HN C. pose proof (proj1 (forallb_forall _ _) dleft_checked _ HT) as Q. unfold dleft_check in Q. replace (existsb (Z.eqb N) diamond_groups) with true in Q by (symmetry; apply existsb_exists; exists N; split; [exact HN|apply Z.eqb_refl]).
  assert (EO : forall c, entry_ops N c = Some (group_ops sym c)) by (intro c; unfold entry_ops; rewrite ES; reflexivity). rewrite EO in Q. cbv zeta in Q.
  pose proof (proj1 (forallb_forall _ _) Q _ HT') as K. cbv beta iota in K. rewrite Z.eqb_refl, EO in K. clear Q. apply negb_true_iff in K. rewrite all_if_forallb in K. apply not_true_iff_false in K. apply K. clear K.
  apply forallb_forall. intros a Ha. rewrite ex_if_existsb. apply existsb_exists. destruct (C a Ha) as (c & Hc & S). exists c. split; [exact Hc|]. apply same_op_eq. exact S.
Qed.
Lemma dopen N : In N diamond_groups -> ~ In N not_closed.
Proof. cbn. intros H Q. repeat (destruct H as [<-|H]; [revert Q; lia|]). exact H. Qed.
Lemma dall N : In N diamond_groups -> In N (kall true). Proof. intro H. apply in_or_app. right. exact H. Qed.

Lemma ok_pair {A B} (x x' : A) (y y' : B) : Ok (x, y) = Ok (x', y') -> x = x' /\ y = y'. Proof. intro H. injection H as -> ->. split; reflexivity. Qed.
Section Diamond.
  Context (P : @Pinv RNum) (HO : HashOrd) (dtol a d : R) (fuel : nat) (path : list nat) (s : @structure RNum).
  Hypothesis (HP : pinv_inverts P) (HF : (48 <= fuel)%nat) (WF : List.length (frac_coords s) = List.length (species s)).
  Hypothesis BIG : (0 < Z.of_nat (List.length (species s)) <= 65535)%Z.
  Hypothesis (Hd : 1 / 100000 <= dtol <= 1 / 25) (Ba : 2 <= a <= 1000).
  Let L := lattice s.
  Let u := a * a / 4.
  Let g0 := km true.
  Hypothesis EG : gram L = zmet u g0.
  Hypothesis (SP : spread d (sites_of s)) (Da : 36 * dtol <= d * a).
  Hypothesis RI : rigid (2 * dtol) L (sites_of s) (lattice_isometry L).
  Context (order N : Z) (codes : list Z) (sym : string).
  Hypothesis (HT : In (Cubic, order, N, codes) sg_entries) (ES : am_get Z.eqb N SG_NUM_TO_SYMBOL = Some sym) (HN : In N diamond_groups).
  Hypothesis IFF : forall r t, (lattice_isometry L r /\ exact_operation (sites_of s) r t) <->
    exists o, In o (group_ops sym codes) /\ r = fst o /\ Vcongr t (in_twelfths (snd o)).
  Context (sg : Z).
  Hypothesis (Hs : (sg = 1 \/ sg = -1)%Z) (DS : Mdet L = IZR sg * Rabs (Mdet L)).
  Let Hd1 : 1 / 100000 <= dtol <= 1 / 24. Proof using Hd. lra. Qed.
  Let NI := k_primitive true P HO dtol a d fuel path s HP HF WF BIG Hd Ba EG SP Da RI order N codes sym HT ES (dall N HN) IFF.
  Let eps := 1 / 100000 * Rpower (Rabs (Mdet L)) (1 / 3).
  Definition dout (W : mat Z) (n : Z) (b : bravais) : Prop := W = dW sg /\ b = kb true.
  Lemma d_frame : exists p q std Tm Pm n W Wi, frame P HO dtol fuel path s p q std Tm Pm n (kb true) W Wi /\ kform g0 W = g0 /\ W = dW sg.
  Proof using All.
    destruct (ku a Ba) as (U1 & US). destruct (kdet true P HO dtol a d fuel path s HP HF WF BIG Hd1 Ba EG SP Da) as (_ & _ & D2). destruct (keps true P HO dtol a d fuel path s HP HF WF BIG Hd1 Ba EG SP Da) as (E0 & E1). fold L u in D2, E0, E1, U1. fold eps in E0, E1.
    pose proof (kwell true P HO dtol a d fuel path s HP HF WF BIG Hd1 Ba EG SP Da) as KW. pose proof (kdet0 true P HO dtol a d fuel path s HP HF WF BIG Hd1 Ba EG SP Da) as DN.
    assert (CN : forall k, (k < 3)%nat -> a / 2 <= Vnorm (Ccol L k) <= a) by (intros k Hk; exact (kcol true P HO dtol a d fuel path s HP HF WF BIG Hd1 Ba EG SP Da L k EG Hk)).
    assert (CD : forall k, (k < 3)%nat -> dtol * Vnorm (Ccol L k) < Rabs (Mdet L)).
    { intros k Hk. pose proof (CN k Hk). assert (dtol * Vnorm (Ccol L k) <= 1 / 24 * a) by (apply Rmult_le_compat; lra). assert (a <= 2 * u) by (unfold u; nra). lra. }
    assert (CE : forall k, In k [e1; e2; e3] -> dtol * Vnorm (col L k) < Rabs (Mdet L)).
    { intros k Hk. assert (E : exists i, (i < 3)%nat /\ col L k = Ccol L i).
      { cbn in Hk. destruct Hk as [<-|[<-|[<-|[]]]]; [exists 0%nat|exists 1%nat|exists 2%nat]; (split; [lia|]); unfold col, Mapp, VofZ, Ccol, e1, e2, e3; cbn; apply (@vec_ext R); cbn; ring. }
      destruct E as (i & Hi & ->). apply CD. exact Hi. }
    destruct (c_stages P HO dtol fuel path s HP HF ltac:(lra) WF BIG KW (kroomy true P HO dtol a d fuel path s HP HF WF BIG Hd1 Ba EG SP Da) CD ltac:(fold L; lra) NI E1 (fun W n b => kout true W n b /\ W = dW sg)) as (p & q & std & Tm & Pm & n & b & W & Wi & FR & (OUT & ->) & OW).
    2:{ exists p, q, std, Tm, Pm, n, W, Wi. split; [exact FR|]. split; [exact OUT|exact OW]. }
    intros y1 y2 y3 J1 J2 J3 S3 F3 F4 (p & F1 & F2). fold L in F2.
    destruct (kpick_out true P HO dtol a d fuel path s HP HF WF BIG Hd1 Ba EG SP Da y1 y2 y3 J1 J2 J3 S3 F3 F4) as (T & n & b & T0 & Pm & U & NL & EC & R2 & R1 & EU & DU & DT0 & W1 & W2 & OUT & APS).
    destruct (d_short sg Hs) as (Q1 & Q2). unfold dY in Q2.
    assert (Z1E : zcols y1 y2 y3 = dZ sg).
    { assert (EP := prim_exact P HO (0%nat :: path) dtol s p e1 e2 (V 0%Z 0%Z sg) (eq_sym WF) ltac:(lra) BIG ltac:(intros k Hk; pose proof (CN k Hk) as CK; fold L; split; lra) (HP _ KW) NI
        (short_Z L u g0 dtol sg ltac:(lra) EG ltac:(lra) ltac:(lra) CE (Logic.conj Hs DS) _ _ _ _ Q1) (short_Z L u g0 dtol sg ltac:(lra) EG ltac:(lra) ltac:(lra) CE (Logic.conj Hs DS) _ _ _ _ Q2) F1).
      fold L in EP. rewrite F2 in EP. change (zcols e1 e2 (V 0%Z 0%Z sg)) with (dZ sg) in EP. apply MofZ_inj. destruct (Madj_inverse _ DN) as [_ I]. fold L in I.
      rewrite <- (Mmul_id_l (MofZ (zcols y1 y2 y3))), <- (Mmul_id_l (MofZ (dZ sg))), <- I, !Mmul_assoc, EP. reflexivity. }
    exists T, n, b, T0, Pm, U. cbv zeta. cbv zeta in NL, W1, W2, OUT, APS, EC. rewrite Z1E in *. clear y1 y2 y3 J1 J2 J3 S3 F4 Z1E F2.
    do 9 (split; [assumption|]). split; [|exact APS]. split; [exact OUT|].
    destruct (d_loop sg Hs) as (A1 & A2 & A3). destruct (loop_signs u eps 99 _ _ Mid ltac:(lra) ltac:(lra) E1 A1 A2 A3) as (i & j & k & Hi & Hj & Hk & Hp & NL2).
    assert (G1 : gram (Mmul L (MofZ (dZ sg))) = zmet u (kform g0 (dZ sg))) by exact (gram_mul u g0 L (dZ sg) EG).
    fold L eps in NL. fold L eps in EC. rewrite G1 in NL. unfold g0 in NL. rewrite NL2 in NL. apply ok_pair in NL. destruct NL as (GQ & NL). rewrite <- GQ in EC.
    assert (TE : zdiag i j k = T) by (apply MofZ_inj; rewrite <- NL; symmetry; exact (Mmul_id_l (MofZ (zdiag i j k)))). subst T. clear NL NL2.
    destruct (kprim true) as (Pm' & EPm & EU').
    assert (UE : U = kU).
    { destruct (kinds true) as (K1 & _). assert (EN : n = kn true).
      { unfold zmet in EC. cbn [m11 m12 m13 m21 m22 m23 m31 m32 m33] in EC. pose proof (kchar true u eps ltac:(lra) E0) as KC. rewrite KC in EC. injection EC as <-. reflexivity. }
      subst n. rewrite K1 in R2. injection R2 as <-. rewrite EPm in R1. injection R1 as <- _. apply MofZ_inj. rewrite <- EU, <- EU'. reflexivity. }
    subst U. apply d_axes; try assumption. exact (proj1 OUT).
  Qed.
  Let FALL := dall N HN.
  Let KGOOD := k_good true P HO dtol a d fuel path s HP HF WF BIG Hd Ba EG SP Da RI order N codes sym HT ES FALL IFF.
  Let AP4 := k_apart4 true P HO dtol a d fuel path s HP HF WF BIG Hd Ba EG SP Da RI order N codes sym HT ES FALL IFF.
  Let IFF1 := k_iff1 s codes sym IFF.
  Lemma d_answered : sg = 1%Z -> exists ops, @get_space_group_info RNum P HO fuel path dtol s = Ok (N, sym, ops) /\
    List.length ops = List.length (group_ops sym codes) /\
    (forall op, In op ops -> exists o, In o (group_ops sym codes) /\ rotation op = fst o /\ nanos (3 * (1 / 1000000000)) (translation op) (in_twelfths (snd o))) /\
    (forall o, In o (group_ops sym codes) -> exists op, In op ops /\ rotation op = fst o /\ nanos (3 * (1 / 1000000000)) (translation op) (in_twelfths (snd o))).
  Proof using All.
    intro S1. destruct d_frame as (p & q & std & Tm & Pm & n & W & Wi & FR & KW & EW). pose proof (KGOOD p q std Tm Pm n W Wi FR KW) as KG.
    pose proof (fr_inv _ _ _ _ _ _ _ _ _ _ _ _ _ _ _ FR) as WI. pose proof (zinv_comm _ _ WI) as IW. rewrite S1 in EW. change (dW 1) with kU in EW.
    assert (C1 : forall r, conj ZMid r ZMid = r) by (intro r; apply MofZ_eq_from_action; intro x; rewrite conj_app, !MofZ_id, !Mapp_id; reflexivity).
    destruct (ksmall true W KW) as (SW & DW). pose proof (kg_back _ _ _ _ _ _ KG) as KBW. destruct (ksmall true Wi KBW) as (_ & DWi).
    assert (EWi : Wi = zinv kU) by (rewrite <- EW; symmetry; exact (Zinv_unique W (zinv W) Wi (zinv_r W DW) WI)).
    assert (GAIN : forall e x y, 0 <= e -> nanos e x y -> nanos (3 * e) (Mapp (MofZ W) x) (Mapp (MofZ W) y)).
    { intros e x y He Hn. apply nanos_rows; [|exact He|exact Hn].
      intros X Y Z0 Hin. rewrite <- !plus_IZR. apply (IZR_le _ 3). clear - SW Hin. destruct W as [p q r s' t u' v w x]. unfold small, entries_within in SW. cbn [m11 m12 m13 m21 m22 m23 m31 m32 m33 In] in SW, Hin.
      destruct Hin as [E|[E|[E|[]]]]; injection E as <- <- <-; lia. }
    assert (K1 : forall o, In o (group_ops sym codes) -> exists o', In o' (group_ops sym codes) /\ conj Wi (conj ZMid (fst o) ZMid) W = fst o' /\ Vcongr (Mapp (MofZ Wi) (Mapp (MofZ ZMid) (in_twelfths (snd o)))) (in_twelfths (snd o'))).
    { intros o Ho. destruct (dtable order N codes sym W o HT ES HN ltac:(left; symmetry; exact EW) Ho) as (o' & Ho' & S). apply same_op_V12 in S. unfold conj_opi in S. cbn [fst snd] in S. rewrite (Zinv_unique W (zinv W) Wi (zinv_r W DW) WI) in S.
      exists o'. split; [exact Ho'|]. rewrite C1, MofZ_id, Mapp_id. split; [exact (proj1 S)|]. change (in_twelfths (snd o)) with (V12 (snd o)). rewrite MofZ_V12. exact (proj2 S). }
    assert (K2 : forall o, In o (group_ops sym codes) -> exists o', In o' (group_ops sym codes) /\ conj W (fst o) Wi = conj ZMid (fst o') ZMid /\ Vcongr (Mapp (MofZ W) (in_twelfths (snd o))) (Mapp (MofZ ZMid) (in_twelfths (snd o')))).
    { intros o Ho. destruct (dtable order N codes sym Wi o HT ES HN ltac:(right; left; symmetry; exact EWi) Ho) as (o' & Ho' & S). apply same_op_V12 in S. unfold conj_opi in S. cbn [fst snd] in S. rewrite (Zinv_unique Wi (zinv Wi) W (zinv_r Wi DWi) IW) in S.
      exists o'. split; [exact Ho'|]. rewrite C1, MofZ_id, Mapp_id. split; [exact (proj1 S)|]. change (in_twelfths (snd o)) with (V12 (snd o)). rewrite MofZ_V12. exact (proj2 S). }
    destruct (kinds true) as (_ & LSY & _).
    destruct (frame_answered P HO dtol fuel path s HP HF ltac:(lra) WF BIG AP4 RI p q std Tm Pm n (kb true) W Wi FR (kg_fine _ _ _ _ _ _ KG) (kg_iso _ _ _ _ _ _ KG) Cubic order N codes sym LSY HT ES (dopen N HN) ZMid ZMid 3 eq_refl GAIN (kg_num _ _ _ _ _ _ KG) IFF1 K1 K2) as (ops & O1 & O2 & O3 & O4).
    assert (UE : forall o, In o (group_ops sym codes) -> has_unit_entry (fst o) = true).
    { intros o Ho. destruct (proj2 (IFF (fst o) (in_twelfths (snd o)))) as [X _]; [exists o; split; [exact Ho|split; [reflexivity|apply Vcongr_refl]]|]. apply (kiso true P HO dtol a d fuel path s HP HF WF BIG Hd1 Ba EG SP Da) in X. destruct (ksmall true (fst o) X) as (Sr & _).
      clear - Sr. unfold small, entries_within in Sr. unfold has_unit_entry. cbn [existsb]. rewrite (proj2 (Z.leb_le (Z.abs (m11 (fst o))) 1)); [reflexivity|lia]. }
    exists ops. split; [exact O1|]. split; [|split].
    - rewrite O2. f_equal. apply filter_all. intros o Ho. rewrite C1. exact (UE o Ho).
    - intros op Hop. destruct (O3 op Hop) as (o & Ho & E & _ & Nn). rewrite C1 in E. rewrite MofZ_id, Mapp_id in Nn. exists o. split; [exact Ho|]. split; [exact E|exact Nn].
    - intros o Ho. destruct (O4 o Ho) as (op & Hop & E & Nn); [rewrite C1; exact (UE o Ho)|]. rewrite C1 in E. rewrite MofZ_id, Mapp_id in Nn. exists op. split; [exact Hop|]. split; [exact E|exact Nn].
  Qed.
  Lemma d_unanswered N' sym' ops' : sg = (-1)%Z -> @get_space_group_info RNum P HO fuel path dtol s <> Ok (N', sym', ops').
  Proof using All.
    intros S1 EI. destruct d_frame as (p & q & std & Tm & Pm & n & W & Wi & FR & KW & EW). pose proof (KGOOD p q std Tm Pm n W Wi FR KW) as KG. rewrite S1 in EW.
    pose proof (fr_inv _ _ _ _ _ _ _ _ _ _ _ _ _ _ _ FR) as WI. destruct (ksmall true W KW) as (SW & DW). destruct (kinds true) as (_ & LSY & _).
    destruct (frame_meaning P HO dtol fuel path s HF ltac:(lra) WF BIG AP4 RI p q std Tm Pm n (kb true) W Wi FR (kg_fine _ _ _ _ _ _ KG) (kg_tol _ _ _ _ _ _ KG) (kg_iso _ _ _ _ _ _ KG) (kg_small _ _ _ _ _ _ KG) Cubic order N codes sym LSY HT ES ZMid ZMid eq_refl IFF1 N' sym' ops' EI) as (ZC & codes' & HT' & ES' & CA & CB).
    assert (SO : std_ops W Wi codes sym ZMid ZMid = map (conj_opi W) (group_ops sym codes)).
    { unfold std_ops. apply map_ext. intro o. unfold conj_opi. rewrite (Zinv_unique W (zinv W) Wi (zinv_r W DW) WI). rewrite Z1r, Z1l. reflexivity. }
    rewrite SO in CA. pose proof (konly_elsewhere true order N codes sym W HT ES FALL KW N' codes' sym' HT' ES' CA) as EN. subst N'. rewrite ES in ES'. injection ES' as <-. rewrite EW in CA.
    exact (dleft order N codes codes' sym HT HT' ES HN CA).
  Qed.
End Diamond.
