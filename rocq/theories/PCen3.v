(** Cubic crystals in the primitive cell of a face-centred or body-centred lattice: the answer *)
From Coq Require Import ZArith Reals String Ascii List Bool Lia Lra Psatz Permutation.
From Flocq Require Import Core.
From Verif Require Import Num Mat Utils DataCore DataPG DataSG SymmOp PointGroup SpaceGroup Structure Reduce Analyzer RInst Spec Spec2 Spec3 Spec5 Spec6 Spec8 Spec10 Spec11 RFacts
  PUtils PSymmOp PStructure PStructure2 PStructure3 PNiggli PDelaunay PPrim PPrim2 PLattice PAnalyzer PAnalyzer2 PPointGroup PPointGroup2 PSpaceGroup PSpaceGroup2 PCode PTables PIdentify
  PSearch PSearch3 PSearch4 PSearch6 PSearch7 PEnd PEnd2 PEnd3 PEnd4 PEnd11 PEnd12 PEnd13 PEnd14 PEnd15 PEnd16 Prop5 PRun PRun2 PHex PHex2 PHex3 PHex4 PHex5 PHex6 PHex7 PRed4 PRed5 PPrim5 PNiggli2 PNiggli3 PNiggli4 PEnd8 PEnd9 PEnd10 PCen PCen2.
Import ListNotations.
Open Scope R_scope.

(** ** The other tabulated groups *)
Definition kall (f : bool) : list Z := if f then face_centred_groups ++ diamond_groups else body_centred_groups ++ open_body_centred_groups.
Lemma kgroups_all f N : In N (kgroups f) -> In N (kall f). Proof. intro H. destruct f; apply in_or_app; left; exact H. Qed.
Definition kopen_check (f : bool) (e : lattice_system * Z * Z * list Z) : bool :=
  let '(_, _, N, codes) := e in
  if existsb (Z.eqb N) open_body_centred_groups then match entry_ops N codes with Some l => forallb (fun w => bad_pair (map (conj_opi w) l)) (krots f) | None => false end else true.
Lemma kopen_checked : forallb (kopen_check false) sg_entries = true.
Proof. vm_compute. reflexivity. Qed.
Definition kelse_check (f : bool) (e : lattice_system * Z * Z * list Z) : bool :=
  let '(_, order, N, codes) := e in
  if existsb (Z.eqb N) (kall f) then
    match entry_ops N codes with
    | Some l =>
        let others := filter (fun e' => let '(ls', order', N', _) := e' in if lattice_system_eqb ls' Cubic then if (order' =? order)%Z then negb (N =? N')%Z else false else false) sg_entries in
        let tables := map (fun e' => let '(_, _, N', codes') := e' in match entry_ops N' codes' with Some l' => l' | None => [] end) others in
        forallb (fun w => let l' := map (conj_opi w) l in forallb (fun m => negb (all_if (fun a => ex_if (zop_eq a) m) l')) tables) (krots f)
    | None => false
    end
  else true.
Lemma kelse_checked : forallb (fun f => forallb (kelse_check f) sg_entries) [true; false] = true.
Proof. vm_compute. reflexivity. Qed.
Section Elsewhere.
  Context (f : bool) (order N : Z) (codes : list Z) (sym : string) (k : mat Z).
  Hypothesis (HT : In (Cubic, order, N, codes) sg_entries) (ES : am_get Z.eqb N SG_NUM_TO_SYMBOL = Some sym) (HN : In N (kall f)).
  Hypothesis Hk : kform (km f) k = km f.
  Let EO : entry_ops N codes = Some (group_ops sym codes). Proof using ES. unfold entry_ops. now rewrite ES. Qed.
  Lemma kclosed_elsewhere : zclosed (map (conj_opi k) (group_ops sym codes)) = true -> ~ In N open_body_centred_groups.
  Proof using All.
    intros ZC NC. apply krots_iff in Hk. assert (f = false). { destruct f; [exfalso|reflexivity]. clear - HN NC. revert HN. unfold open_body_centred_groups in NC. cbn in NC |- *. lia. } subst f.
    pose proof (proj1 (forallb_forall _ _) kopen_checked _ HT) as Q. unfold kopen_check in Q.
    replace (existsb (Z.eqb N) open_body_centred_groups) with true in Q by (symmetry; apply existsb_exists; exists N; split; [exact NC|apply Z.eqb_refl]).
    rewrite EO in Q. pose proof (proj1 (forallb_forall _ _) Q k Hk) as K. cbn beta in K. clear Q. unfold bad_pair in K.
    rewrite ex_if_existsb in K. apply existsb_exists in K. destruct K as (a & Ha & K). rewrite ex_if_existsb in K. apply existsb_exists in K. destruct K as (b & Hb & K). cbv zeta in K. apply negb_true_iff in K.
    unfold zclosed in ZC. pose proof (proj1 (forallb_forall _ _) ZC a Ha) as Z1. pose proof (proj1 (forallb_forall _ _) Z1 b Hb) as Z2. cbv zeta in Z2. congruence.
  Qed.
  Lemma konly_elsewhere N' codes' sym' : In (Cubic, order, N', codes') sg_entries -> am_get Z.eqb N' SG_NUM_TO_SYMBOL = Some sym' ->
    (forall a, In a (map (conj_opi k) (group_ops sym codes)) -> exists c, In c (group_ops sym' codes') /\ same_op a c) -> N' = N.
  Proof using All.
    intros HT' ES' C1. apply krots_iff in Hk. assert (Hf : In f [true; false]) by (destruct f; cbn; tauto). pose proof (proj1 (forallb_forall _ _) kelse_checked f Hf) as Q0. cbv beta in Q0. pose proof (proj1 (forallb_forall _ _) Q0 _ HT) as Q. clear Q0. unfold kelse_check in Q.
    replace (existsb (Z.eqb N) (kall f)) with true in Q by (symmetry; apply existsb_exists; exists N; split; [exact HN|apply Z.eqb_refl]). rewrite EO in Q. cbv zeta in Q.
    pose proof (proj1 (forallb_forall _ _) Q k Hk) as K. cbn beta in K. clear Q.
    destruct (Z.eq_dec N N') as [->|NE]; [reflexivity|exfalso].
    pose proof (proj1 (forallb_forall _ _) K (group_ops sym' codes')) as K2. cbn beta in K2. clear K.
    match type of K2 with ?X -> _ => assert (IM : X) end.
    { clear K2. apply in_map_iff. exists (Cubic, order, N', codes'). split; [unfold entry_ops; rewrite ES'; reflexivity|]. apply filter_In. split; [exact HT'|].
      rewrite (proj2 (lattice_system_eqb_spec Cubic Cubic) eq_refl), Z.eqb_refl, (proj2 (Z.eqb_neq N N') NE). reflexivity. }
    specialize (K2 IM). clear IM. apply negb_true_iff in K2; rewrite all_if_forallb in K2; apply not_true_iff_false in K2; apply K2; clear K2.
    apply forallb_forall; intros a Ha; rewrite ex_if_existsb; apply existsb_exists; destruct (C1 a Ha) as (c & Hc & S); exists c; split; [exact Hc|]; apply same_op_eq; exact S.
  Qed.
End Elsewhere.

(** ** The standard cell *)
Section KAnswer.
  Context (f : bool) (P : @Pinv RNum) (HO : HashOrd) (dtol a d : R) (fuel : nat) (path : list nat) (s : @structure RNum).
  Hypothesis (HP : pinv_inverts P) (HF : (48 <= fuel)%nat) (WF : List.length (frac_coords s) = List.length (species s)).
  Hypothesis BIG : (0 < Z.of_nat (List.length (species s)) <= 65535)%Z.
  Hypothesis (Hd : 1 / 100000 <= dtol <= 1 / 25) (Ba : 2 <= a <= 1000).
  Let L := lattice s.
  Let u := a * a / 4.
  Let g0 := km f.
  Hypothesis EG : gram L = zmet u g0.
  Hypothesis (SP : spread d (sites_of s)) (Da : 36 * dtol <= d * a).
  Hypothesis RI : rigid (2 * dtol) L (sites_of s) (lattice_isometry L).
  Context (order N : Z) (codes : list Z) (sym : string).
  Hypothesis (HT : In (Cubic, order, N, codes) sg_entries) (ES : am_get Z.eqb N SG_NUM_TO_SYMBOL = Some sym) (HN : In N (kall f)).
  Hypothesis IFF : forall r t, (lattice_isometry L r /\ exact_operation (sites_of s) r t) <->
    exists o, In o (group_ops sym codes) /\ r = fst o /\ Vcongr t (in_twelfths (snd o)).
  Let Hd1 : 1 / 100000 <= dtol <= 1 / 24. Proof using Hd. lra. Qed.
  Let ISO := kiso f P HO dtol a d fuel path s HP HF WF BIG Hd1 Ba EG SP Da.
  Let MUL := kmul f P HO dtol a d fuel path s HP HF WF BIG Hd1 Ba EG SP Da.
  Let BACK := kback f P HO dtol a d fuel path s HP HF WF BIG Hd1 Ba EG SP Da.
  Lemma k_apart4 : apart (4 * dtol) L (sites_of s).
  Proof using All.
    pose proof (kapart f P HO dtol a d fuel path s HP HF WF BIG Hd1 Ba EG SP Da (4 * dtol) 1 Mid Mid (Mmul_id_l _) ltac:(intro v; rewrite Mapp_id; lra) ltac:(lra) ltac:(lra)) as X. rewrite Mmul_id_r in X. exact X.
  Qed.
  Lemma k_id : lattice_isometry L ZMid. Proof using All. apply (proj2 (isometry_gram _ _)). now rewrite MofZ_id, Mmul_id_r. Qed.
  Lemma k_trans t : exact_operation (sites_of s) ZMid t -> exists n, t = VofZ n.
  Proof using All.
    intro EX. destruct (proj1 (IFF ZMid t)) as (o & Ho & Er & Vt); [split; [exact k_id|exact EX]|]. destruct (entry_facts _ _ _ _ HT) as (sym' & ES' & G & _). rewrite ES in ES'. injection ES' as <-. fold (group_ops sym codes) in G.
    destruct (og_identity _ G) as (e & He & [E1 (k & E2)]). cbn [fst snd] in E1, E2.
    assert (o = e) by (apply (same_rot_same _ (og_rotations _ G)); [exact Ho|exact He|congruence]). subst o.
    destruct Vt as (m & ->). exists (ZVadd k m). rewrite VofZ_add. f_equal. rewrite E2. unfold in_twelfths, Vadd, VofZ. cbn [vx vy vz]. apply (@vec_ext R); cbn [vx vy vz]; rewrite ?plus_IZR, ?mult_IZR; lra.
  Qed.
  Lemma k_primitive : no_inner_translation dtol s.
  Proof using All. apply (no_inner_rigid dtol s (lattice_isometry L)); [lra|exact k_id|exact RI|exact k_apart4|exact k_trans]. Qed.
  Lemma k_frame : exists p q std Tm Pm n W Wi, frame P HO dtol fuel path s p q std Tm Pm n (kb f) W Wi /\ kform g0 W = g0.
  Proof using All.
    destruct (ku a Ba) as (U1 & US). destruct (kdet f P HO dtol a d fuel path s HP HF WF BIG Hd1 Ba EG SP Da) as (_ & _ & D2). destruct (keps f P HO dtol a d fuel path s HP HF WF BIG Hd1 Ba EG SP Da) as (_ & E1).
    destruct (c_stages P HO dtol fuel path s HP HF ltac:(lra) WF BIG (kwell f P HO dtol a d fuel path s HP HF WF BIG Hd1 Ba EG SP Da) (kroomy f P HO dtol a d fuel path s HP HF WF BIG Hd1 Ba EG SP Da)) with (out := kout f) as (p & q & std & Tm & Pm & n & b & W & Wi & FR & OUT & ->).
    - intros k Hk. pose proof (kcol f P HO dtol a d fuel path s HP HF WF BIG Hd1 Ba EG SP Da L k EG Hk) as C. fold L. fold u in D2. fold L in D2. assert (dtol * Vnorm (Ccol L k) <= 1 / 24 * a) by (apply Rmult_le_compat; lra). assert (a <= 2 * u) by (unfold u; nra). fold u in U1. lra.
    - fold L u in D2. fold L. fold u in U1. lra.
    - exact k_primitive.
    - exact E1.
    - intros y1 y2 y3 J1 J2 J3 S3 F3 F4 _. exact (kpick_out f P HO dtol a d fuel path s HP HF WF BIG Hd1 Ba EG SP Da y1 y2 y3 J1 J2 J3 S3 F3 F4).
    - exists p, q, std, Tm, Pm, n, W, Wi. split; [exact FR|exact OUT].
  Qed.
  Record kgood (std : @structure RNum) (W Wi : mat Z) : Prop := {
    kg_iso : forall r, In r (holo_rots (kb f)) <-> lattice_isometry L (conj W r Wi);
    kg_fine : forall k, (k < 3)%nat -> 1 / 100000000 * Vnorm (Ccol (lattice std) k) <= dtol /\ 24 * dtol <= Vnorm (Ccol (lattice std) k) /\ 0 < Vnorm (Ccol (lattice std) k);
    kg_tol : forall k, (k < 3)%nat -> 9 / 1000000000 < dtol / Vnorm (Ccol (lattice std) k) <= 1 / 25;
    kg_small : forall r, In r (holo_rots (kb f)) -> small_rot r = true /\ i8_range r;
    kg_num : forall r, In r (holo_rots (kb f)) -> i8_range (conj W r Wi);
    kg_back : kform g0 Wi = g0 }.
  Lemma k_good_cell std W Wi : ZMmul W Wi = ZMid -> lattice std = Mmul L (MofZ W) -> kform g0 W = g0 -> kgood std W Wi.
  Proof using All.
    intros WI LW KW. pose proof (zinv_comm _ _ WI) as IW.
    pose proof (BACK W Wi WI KW) as KWi.
    assert (GS : gram (lattice std) = zmet u g0) by (rewrite LW, (gram_mul u g0 L W EG), KW; reflexivity).
    assert (COL := kcol f P HO dtol a d fuel path s HP HF WF BIG Hd1 Ba EG SP Da (lattice std)). fold u g0 in COL.
    assert (CJ : forall r, kform g0 r = g0 -> kform g0 (conj W r Wi) = g0) by (intros r Hr; unfold conj; apply MUL; [apply MUL; [exact KW|exact Hr]|exact KWi]).
    assert (CJ' : forall r, kform g0 r = g0 -> kform g0 (conj Wi r W) = g0) by (intros r Hr; unfold conj; apply MUL; [apply MUL; [exact KWi|exact Hr]|exact KW]).
    assert (SM : forall r, kform g0 r = g0 -> small_rot r = true /\ i8_range r).
    { intros r Hr. destruct (ksmall f r Hr) as (Sr & _). clear - Sr. unfold small, entries_within in Sr. unfold small_rot, i8_range, entries_within. cbn [forallb]. rewrite !andb_true_iff, !Z.leb_le. lia. }
    apply Build_kgood.
    - intro r. apply (iff_trans (kholo f r)). apply iff_sym. apply (iff_trans (ISO (conj W r Wi))). fold g0. split; [|exact (CJ r)]. intro Q. rewrite <- (conj_conj W r Wi WI IW). apply CJ'. exact Q.
    - intros k Hk. pose proof (COL k GS Hk) as C. split; [lra|]. split; lra.
    - intros k Hk. pose proof (COL k GS Hk) as C. split; apply (Rmult_lt_reg_r (Vnorm (Ccol (lattice std) k))) || apply (Rmult_le_reg_r (Vnorm (Ccol (lattice std) k))); try lra;
        replace (dtol / Vnorm (Ccol (lattice std) k) * Vnorm (Ccol (lattice std) k)) with dtol by (field; lra); lra.
    - intros r Hr. apply SM. exact (proj1 (kholo f r) Hr).
    - intros r Hr. apply SM. apply CJ. exact (proj1 (kholo f r) Hr).
    - exact KWi.
  Qed.
  Lemma k_good p q std Tm Pm n W Wi : frame P HO dtol fuel path s p q std Tm Pm n (kb f) W Wi -> kform g0 W = g0 -> kgood std W Wi.
  Proof using All. intros FR KW. exact (k_good_cell std W Wi (fr_inv _ _ _ _ _ _ _ _ _ _ _ _ _ _ _ FR) (fr_std _ _ _ _ _ _ _ _ _ _ _ _ _ _ _ FR) KW). Qed.
  Lemma k_iff1 : forall r t, (lattice_isometry L r /\ exact_operation (sites_of s) r t) <->
    exists o, In o (group_ops sym codes) /\ r = conj ZMid (fst o) ZMid /\ Vcongr t (Mapp (MofZ ZMid) (in_twelfths (snd o))).
  Proof using IFF.
    assert (C1 : forall r, conj ZMid r ZMid = r) by (intro r; apply MofZ_eq_from_action; intro x; rewrite conj_app, !MofZ_id, !Mapp_id; reflexivity).
    intros r t. rewrite IFF. split; intros (o & Ho & E1 & E2); exists o; (split; [exact Ho|]); rewrite C1, MofZ_id, Mapp_id in *; split; assumption.
  Qed.
  Lemma k_answered : In N (kgroups f) -> exists ops, @get_space_group_info RNum P HO fuel path dtol s = Ok (N, sym, ops) /\
    List.length ops = List.length (group_ops sym codes) /\
    (forall op, In op ops -> exists o, In o (group_ops sym codes) /\ rotation op = fst o /\ nanos (3 * (1 / 1000000000)) (translation op) (in_twelfths (snd o))) /\
    (forall o, In o (group_ops sym codes) -> exists op, In op ops /\ rotation op = fst o /\ nanos (3 * (1 / 1000000000)) (translation op) (in_twelfths (snd o))).
  Proof using All.
    intro NG. destruct k_frame as (p & q & std & Tm & Pm & n & W & Wi & FR & KW). pose proof (k_good p q std Tm Pm n W Wi FR KW) as KG.
    pose proof (fr_inv _ _ _ _ _ _ _ _ _ _ _ _ _ _ _ FR) as WI. pose proof (zinv_comm _ _ WI) as IW.
    assert (C1 : forall r, conj ZMid r ZMid = r) by (intro r; apply MofZ_eq_from_action; intro x; rewrite conj_app, !MofZ_id, !Mapp_id; reflexivity).
    destruct (ksmall f W KW) as (SW & DW). destruct (ksmall f Wi (kg_back _ _ _ KG)) as (_ & DWi).
    assert (GAIN : forall e x y, 0 <= e -> nanos e x y -> nanos (3 * e) (Mapp (MofZ W) x) (Mapp (MofZ W) y)).
    { intros e x y He Hn. apply nanos_rows; [|exact He|exact Hn].
      intros X Y Z0 Hin. rewrite <- !plus_IZR. apply (IZR_le _ 3). clear - SW Hin. destruct W as [p q r s' t u' v w x]. unfold small, entries_within in SW. cbn [m11 m12 m13 m21 m22 m23 m31 m32 m33 In] in SW, Hin.
      destruct Hin as [E|[E|[E|[]]]]; injection E as <- <- <-; lia. }
    assert (K1 : forall o, In o (group_ops sym codes) -> exists o', In o' (group_ops sym codes) /\ conj Wi (conj ZMid (fst o) ZMid) W = fst o' /\ Vcongr (Mapp (MofZ Wi) (Mapp (MofZ ZMid) (in_twelfths (snd o)))) (in_twelfths (snd o'))).
    { intros o Ho. destruct (ktable f order N codes sym W o HT ES NG KW Ho) as (o' & Ho' & S). apply same_op_V12 in S. unfold conj_opi in S. cbn [fst snd] in S. rewrite (Zinv_unique W (zinv W) Wi (zinv_r W DW) WI) in S.
      exists o'. split; [exact Ho'|]. rewrite C1, MofZ_id, Mapp_id. split; [exact (proj1 S)|]. change (in_twelfths (snd o)) with (V12 (snd o)). rewrite MofZ_V12. exact (proj2 S). }
    assert (K2 : forall o, In o (group_ops sym codes) -> exists o', In o' (group_ops sym codes) /\ conj W (fst o) Wi = conj ZMid (fst o') ZMid /\ Vcongr (Mapp (MofZ W) (in_twelfths (snd o))) (Mapp (MofZ ZMid) (in_twelfths (snd o')))).
    { intros o Ho. destruct (ktable f order N codes sym Wi o HT ES NG (kg_back _ _ _ KG) Ho) as (o' & Ho' & S). apply same_op_V12 in S. unfold conj_opi in S. cbn [fst snd] in S. rewrite (Zinv_unique Wi (zinv Wi) W (zinv_r Wi DWi) IW) in S.
      exists o'. split; [exact Ho'|]. rewrite C1, MofZ_id, Mapp_id. split; [exact (proj1 S)|]. change (in_twelfths (snd o)) with (V12 (snd o)). rewrite MofZ_V12. exact (proj2 S). }
    destruct (kinds f) as (_ & LSY & _).
    destruct (frame_answered P HO dtol fuel path s HP HF ltac:(lra) WF BIG k_apart4 RI p q std Tm Pm n (kb f) W Wi FR (kg_fine _ _ _ KG) (kg_iso _ _ _ KG) Cubic order N codes sym LSY HT ES (kopen f N NG) ZMid ZMid 3 eq_refl GAIN (kg_num _ _ _ KG) k_iff1 K1 K2) as (ops & O1 & O2 & O3 & O4).
    assert (UE : forall o, In o (group_ops sym codes) -> has_unit_entry (fst o) = true).
    { intros o Ho. destruct (proj2 (IFF (fst o) (in_twelfths (snd o)))) as [X _]; [exists o; split; [exact Ho|split; [reflexivity|apply Vcongr_refl]]|]. apply ISO in X. destruct (ksmall f (fst o) X) as (Sr & _).
      clear - Sr. unfold small, entries_within in Sr. unfold has_unit_entry. cbn [existsb]. rewrite (proj2 (Z.leb_le (Z.abs (m11 (fst o))) 1)); [reflexivity|lia]. }
    exists ops. split; [exact O1|]. split; [|split].
    - rewrite O2. f_equal. apply filter_all. intros o Ho. rewrite C1. exact (UE o Ho).
    - intros op Hop. destruct (O3 op Hop) as (o & Ho & E & _ & Nn). rewrite C1 in E. rewrite MofZ_id, Mapp_id in Nn. exists o. split; [exact Ho|]. split; [exact E|exact Nn].
    - intros o Ho. destruct (O4 o Ho) as (op & Hop & E & Nn); [rewrite C1; exact (UE o Ho)|]. rewrite C1 in E. rewrite MofZ_id, Mapp_id in Nn. exists op. split; [exact Hop|]. split; [exact E|exact Nn].
  Qed.
  Lemma k_meaning N' sym' ops' : @get_space_group_info RNum P HO fuel path dtol s = Ok (N', sym', ops') -> ~ In N open_body_centred_groups /\ N' = N /\ sym' = sym.
  Proof using All.
    intro EI. destruct k_frame as (p & q & std & Tm & Pm & n & W & Wi & FR & KW). pose proof (k_good p q std Tm Pm n W Wi FR KW) as KG.
    pose proof (fr_inv _ _ _ _ _ _ _ _ _ _ _ _ _ _ _ FR) as WI. destruct (ksmall f W KW) as (SW & DW). destruct (kinds f) as (_ & LSY & _).
    destruct (frame_meaning P HO dtol fuel path s HF ltac:(lra) WF BIG k_apart4 RI p q std Tm Pm n (kb f) W Wi FR (kg_fine _ _ _ KG) (kg_tol _ _ _ KG) (kg_iso _ _ _ KG) (kg_small _ _ _ KG) Cubic order N codes sym LSY HT ES ZMid ZMid eq_refl k_iff1 N' sym' ops' EI) as (ZC & codes' & HT' & ES' & CA & CB).
    assert (SO : std_ops W Wi codes sym ZMid ZMid = map (conj_opi W) (group_ops sym codes)).
    { unfold std_ops. apply map_ext. intro o. unfold conj_opi. rewrite (Zinv_unique W (zinv W) Wi (zinv_r W DW) WI). rewrite Z1r, Z1l. reflexivity. }
    rewrite SO in ZC, CA. split; [exact (kclosed_elsewhere f order N codes sym W HT ES HN KW ZC)|]. pose proof (konly_elsewhere f order N codes sym W HT ES HN KW N' codes' sym' HT' ES' CA) as EN. split; [exact EN|]. rewrite EN, ES in ES'. now injection ES'.
  Qed.
End KAnswer.
