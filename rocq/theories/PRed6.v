(** Triclinic and primitive monoclinic crystals: which are answered (analyzer.rs 36-162, 206-345) *)
From Coq Require Import ZArith Reals String Ascii List Bool Lia Lra Psatz Permutation.
From Flocq Require Import Core.
From Verif Require Import Num Mat Utils DataCore DataPG DataSG SymmOp PointGroup SpaceGroup Structure Reduce Analyzer RInst Spec Spec2 Spec3 Spec5 Spec6 Spec8 Spec10 RFacts
  PUtils PSymmOp PStructure PStructure2 PStructure3 PNiggli PDelaunay PPrim PPrim2 PLattice PAnalyzer PAnalyzer2 PPointGroup PPointGroup2 PSpaceGroup PSpaceGroup2 PCode PTables PIdentify
  PSearch PSearch3 PSearch4 PSearch6 PSearch7 PEnd PEnd2 PEnd3 PEnd4 PEnd11 PEnd12 PEnd13 PEnd14 PEnd15 PEnd16 Prop5 PRun PRun2 PHex PHex2 PHex3 PHex4 PHex5 PEnd17 PEnd18 PHex6 PHex7 PRed PRed2 PRed3 PRed4 PRed5.
From Verif Require PEnd19 PEnd20.
Import ListNotations.
Open Scope R_scope.

(** ** Any ready cell *)
Section Run.
  Context (P : @Pinv RNum) (HO : HashOrd) (dtol d : R) (fuel : nat) (path : list nat) (s : @structure RNum) (w wi : mat Z).
  Let L := lattice s.
  Let eps := 1 / 100000 * Rpower (Rabs (Mdet L)) (1 / 3).
  Context (b : bravais) (ls : lattice_system) (n : Z) (T0 u : mat Z) (A B C D E F : R).
  Hypothesis (HP : pinv_inverts P) (HF : (48 <= fuel)%nat) (WF : List.length (frac_coords s) = List.length (species s)).
  Hypothesis BIG : (0 < Z.of_nat (List.length (species s)) <= 65535)%Z.
  Hypothesis (Hd : 1 / 100000 <= dtol <= 1 / 25) (NA : near_axes w) (WW : ZMmul w wi = ZMid) (NF : not_flat L).
  Hypothesis (SP : spread d (sites_of s)) (Dd : 36 * dtol <= d) (LB : low b ls) (RY : ready eps L w b n T0 u A B C D E F).
  Hypothesis RI : rigid (2 * dtol) L (sites_of s) (lattice_isometry L).
  Context (order N : Z) (codes : list Z) (sym : string).
  Hypothesis (HT : In (ls, order, N, codes) sg_entries) (ES : am_get Z.eqb N SG_NUM_TO_SYMBOL = Some sym).
  Let UU : ZMmul u (ZMmul (transpose T0) wi) = ZMid.
  Proof using WW RY. rewrite (re_u _ _ _ _ _ _ _ _ _ _ _ _ _ RY). apply Zcompose; [exact WW|exact (re_tt _ _ _ _ _ _ _ _ _ _ _ _ _ RY)]. Qed.
  Let NI v vi : ZMmul v vi = ZMid ->
    (forall r x, (lattice_isometry L r /\ exact_operation (sites_of s) r x) <-> exists o, In o (group_ops sym codes) /\ r = conj v (fst o) vi /\ Vcongr x (Mapp (MofZ v) (in_twelfths (snd o)))) ->
    no_inner_translation dtol s.
  Proof using All.
    intros UI IFF. pose proof (zinv_comm _ _ UI) as IU. assert (Hd1 : 1 / 100000 <= dtol <= 1 / 24) by lra.
    assert (I1 : lattice_isometry L ZMid) by (apply (proj2 (isometry_gram _ _)); now rewrite MofZ_id, Mmul_id_r).
    destruct (entry_facts _ _ _ _ HT) as (sym0 & ES0 & G & _). rewrite ES in ES0. injection ES0 as <-. fold (group_ops sym codes) in G.
    assert (ID : forall v w, ZMmul v w = ZMid -> conj v ZMid w = ZMid).
    { intros v0 w0 H. apply MofZ_eq_from_action. intro x. now rewrite conj_app, MofZ_id, Mapp_id, (app_inv v0 w0 x H), Mapp_id. }
    destruct RY. pose proof (rd_apart P HO dtol d fuel path s u (ZMmul (transpose T0) wi) A B C D E F HP HF WF BIG Hd1 re_C re_det re_small UU NF re_gram re_red SP Dd (4 * dtol) ZMid ZMid 1%Z eq_refl ltac:(lia) (smallb_spec 1 ZMid eq_refl) ltac:(lra) ltac:(lra)) as X.
    rewrite MofZ_id, Mmul_id_r in X. apply (no_inner_rigid dtol s (lattice_isometry L)); [lra|exact I1|exact RI|exact X|].
    intros t EX. destruct (proj1 (IFF ZMid t)) as (o & Ho & Er & Vt); [split; [exact I1|exact EX]|]. destruct (og_identity _ G) as (e & He & [E1 (k & E2)]). cbn [fst snd] in E1, E2.
    assert (Eo : fst o = ZMid). { apply (f_equal (fun r => conj vi r v)) in Er. rewrite conj_conj in Er by assumption. rewrite <- Er. now apply ID. }
    assert (o = e) by (apply (same_rot_same _ (og_rotations _ G)); [exact Ho|exact He|congruence]). subst o.
    destruct Vt as (m & ->). exists (ZVadd (ZMapp v k) m). rewrite VofZ_add, MofZ_app. f_equal. f_equal. rewrite E2. unfold in_twelfths, Vadd, VofZ. cbn [vx vy vz]. apply (@vec_ext R); cbn [vx vy vz]; rewrite ?plus_IZR, ?mult_IZR; lra.
  Qed.
  Lemma ready_answered : (forall r x, (lattice_isometry L r /\ exact_operation (sites_of s) r x) <-> exists o, In o (group_ops sym codes) /\ r = conj w (fst o) wi /\ Vcongr x (Mapp (MofZ w) (in_twelfths (snd o)))) ->
    exists ops, @get_space_group_info RNum P HO fuel path dtol s = Ok (N, sym, ops) /\
    List.length ops = List.length (filter (fun o => has_unit_entry (conj w (fst o) wi)) (group_ops sym codes)) /\
    (forall op, In op ops -> exists o, In o (group_ops sym codes) /\ rotation op = conj w (fst o) wi /\ has_unit_entry (rotation op) = true /\ nanos (3 * (1 / 1000000000)) (translation op) (Mapp (MofZ w) (in_twelfths (snd o)))) /\
    (forall o, In o (group_ops sym codes) -> has_unit_entry (conj w (fst o) wi) = true ->
       exists op, In op ops /\ rotation op = conj w (fst o) wi /\ nanos (3 * (1 / 1000000000)) (translation op) (Mapp (MofZ w) (in_twelfths (snd o)))).
  Proof using All.
    intro IFF. pose proof (NI w wi WW IFF) as NI0. destruct RY.
    exact (low_answered P HO dtol d fuel path s u (ZMmul (transpose T0) wi) A B C D E F HP HF WF BIG Hd re_C re_det re_small UU NF re_gram re_red SP Dd n b ls T0 re_char re_b re_T re_cp re_d re_mt NI0 w wi LB re_tt WW re_u (proj1 NA) re_iso re_w RI order N codes sym HT ES IFF).
  Qed.
  Lemma ready_meaning v vi N' sym' ops' : ZMmul v vi = ZMid ->
    (forall r x, (lattice_isometry L r /\ exact_operation (sites_of s) r x) <-> exists o, In o (group_ops sym codes) /\ r = conj v (fst o) vi /\ Vcongr x (Mapp (MofZ v) (in_twelfths (snd o)))) ->
    @get_space_group_info RNum P HO fuel path dtol s = Ok (N', sym', ops') ->
    exists h codes', In h (holo_rots b) /\ In (ls, order, N', codes') sg_entries /\ am_get Z.eqb N' SG_NUM_TO_SYMBOL = Some sym' /\
      let ki := ZMmul (ZMmul h wi) v in let k := ZMmul vi (ZMmul w h) in let moved o := (conj ki (fst o) k, ZMapp ki (snd o)) in
      (forall o, In o (group_ops sym codes) -> exists c, In c (group_ops sym' codes') /\ same_op (moved o) c) /\
      (forall c, In c (group_ops sym' codes') -> exists o, In o (group_ops sym codes) /\ same_op (moved o) c).
  Proof using All.
    intros VV IFF EI. pose proof (NI v vi VV IFF) as NI0. destruct RY.
    exact (low_meaning P HO dtol d fuel path s u (ZMmul (transpose T0) wi) A B C D E F HP HF WF BIG Hd re_C re_det re_small UU NF re_gram re_red SP Dd n b ls T0 re_char re_b re_T re_cp re_d re_mt NI0 w wi LB re_tt WW re_u (proj1 NA) re_iso re_w RI order N codes sym HT ES v vi N' sym' ops' VV IFF EI).
  Qed.
End Run.

(** ** The monoclinic tables *)
Definition gliding : list Z := [7; 13; 14]%Z.
Definition mono_row (hr : list (mat Z)) (e : lattice_system * Z * Z * list Z) : bool :=
  let '(ls, _, N, codes) := e in
  match ls with
  | Monoclinic => match entry_ops N codes with
      | Some l => let g := existsb (Z.eqb N) gliding in
          if forallb (fun o => if mem_z (fst o) hr then if (vx (snd o) =? 0)%Z then if g then true else (vz (snd o) =? 0)%Z else false else true) l
          then if g then ex_if (fun o => if mem_z (fst o) hr then (vz (snd o) =? 6)%Z else false) l else true else false
      | None => false end
  | _ => true
  end.
Lemma mono_rows_checked : forallb (mono_row (holo_rots mP)) sg_entries = true. Proof. vm_compute. reflexivity. Qed.
Lemma in_mem_z r l : mem_z r l = true -> In r l. Proof. intro H. unfold mem_z in H. rewrite ex_if_existsb in H. apply existsb_exists in H. destruct H as (x & Hx & E). apply zmat_eqb_spec in E. now rewrite E. Qed.
Section MonoEntry.
  Context (order N : Z) (codes : list Z) (sym : string).
  Hypothesis (HT : In (Monoclinic, order, N, codes) sg_entries) (ES : am_get Z.eqb N SG_NUM_TO_SYMBOL = Some sym).
  Lemma mono_ops o : In o (group_ops sym codes) -> In (fst o) (holo_rots mP) -> vx (snd o) = 0%Z /\ (In N gliding \/ vz (snd o) = 0%Z).
  Proof using All.
    intros Ho Hr. pose proof (proj1 (forallb_forall _ _) mono_rows_checked _ HT) as Q. unfold mono_row in Q. assert (EO : entry_ops N codes = Some (group_ops sym codes)) by (unfold entry_ops; rewrite ES; reflexivity). rewrite EO in Q. cbv zeta in Q.
    destruct (forallb _ (group_ops sym codes)) eqn:X in Q; [|discriminate Q]. pose proof (proj1 (forallb_forall _ _) X o Ho) as K. cbv beta in K. rewrite (mem_z_in _ _ Hr) in K. destruct (Z.eqb_spec (vx (snd o)) 0) as [E0|E0]; [|discriminate K]. split; [exact E0|].
    destruct (existsb (Z.eqb N) gliding) eqn:G; [left|right; exact (proj1 (Z.eqb_eq _ _) K)]. clear K X Q. apply existsb_exists in G. destruct G as (y & Hy & E). apply Z.eqb_eq in E. rewrite E. exact Hy.
  Qed.
  Lemma mono_glide : In N gliding -> exists o, In o (group_ops sym codes) /\ In (fst o) (holo_rots mP) /\ vz (snd o) = 6%Z.
  Proof using All.
    intro HG. pose proof (proj1 (forallb_forall _ _) mono_rows_checked _ HT) as Q. unfold mono_row in Q. assert (EO : entry_ops N codes = Some (group_ops sym codes)) by (unfold entry_ops; rewrite ES; reflexivity). rewrite EO in Q. cbv zeta in Q.
    assert (G : existsb (Z.eqb N) gliding = true) by (apply existsb_exists; exists N; split; [exact HG|apply Z.eqb_refl]). rewrite G in Q.
    match type of Q with (if ?X then _ else _) = true => destruct X; [|discriminate Q] end.
    rewrite ex_if_existsb in Q. apply existsb_exists in Q. destruct Q as (o & Ho & K). destruct (mem_z (fst o) (holo_rots mP)) eqn:M0; [|discriminate K]. exists o. split; [exact Ho|]. split; [exact (in_mem_z _ _ M0)|exact (proj1 (Z.eqb_eq _ _) K)].
  Qed.
End MonoEntry.
Lemma axis_commutes g gi h : same_second_axis g -> ZMmul g gi = ZMid -> In h (holo_rots mP) -> conj g h gi = h.
Proof.
  intros (H1 & H2 & H3 & H4 & _) GI Hh. destruct (mP_in h Hh) as (i & j & Hi & Hj & ->). unfold conj. assert (X : ZMmul g (zdiag i j i) = ZMmul (zdiag i j i) g).
  { clear - H1 H2 H3 H4. destruct g as [x1 x2 x3 x4 x5 x6 x7 x8 x9]. cbn [m12 m21 m23 m32] in *. subst. unfold ZMmul, zdiag. cbn [m11 m12 m13 m21 m22 m23 m31 m32 m33]. f_equal; ring. }
  rewrite X, Zassoc, GI. apply Z1r.
Qed.
Lemma axis_congr g v : same_second_axis g -> halves v = true -> vx v = 0%Z -> Z.Even (m13 g) \/ vz v = 0%Z -> Vcongr (Mapp (MofZ g) (in_twelfths v)) (in_twelfths v).
Proof.
  intros (H1 & H2 & H3 & H4 & HD) HV HX HZ. change (in_twelfths v) with (V12 v) at 1. rewrite MofZ_V12. destruct g as [x1 x2 x3 x4 x5 x6 x7 x8 x9]. cbn [m12 m13 m21 m23 m32] in *. subst x2 x4 x6 x8. destruct v as [x y z]. cbn [vx vz] in *. subst x.
  unfold halves in HV. cbn [vx vy vz] in HV. apply andb_true_iff in HV. destruct HV as [HV Hz]. apply andb_true_iff in HV. destruct HV as [_ Hy]. apply Z.eqb_eq in Hy, Hz.
  pose proof (Z.div_mod y 6 ltac:(lia)) as Ey. pose proof (Z.div_mod z 6 ltac:(lia)) as Ez. rewrite Hy, Z.add_0_r in Ey. rewrite Hz, Z.add_0_r in Ez. set (yy := (y / 6)%Z) in *. set (zz := (z / 6)%Z) in *. clearbody yy zz. subst y z. clear Hy Hz.
  assert (ED : (x5 * (x1 * x9 - x3 * x7) = 1 \/ x5 * (x1 * x9 - x3 * x7) = -1)%Z) by (unfold ZMdet in HD; cbn [m11 m12 m13 m21 m22 m23 m31 m32 m33] in HD; clear - HD; lia). clear HD.
  assert (S : exists a b c, (x3 * (6 * zz) = 12 * a /\ x5 * (6 * yy) = 6 * yy + 12 * b /\ x9 * (6 * zz) = 6 * zz + 12 * c)%Z).
  { assert (X5 : (x5 = 1 \/ x5 = -1)%Z). { apply (Z.eq_mul_1 x5 ((x1 * x9 - x3 * x7) * (x5 * (x1 * x9 - x3 * x7)))). destruct ED as [Q|Q]; rewrite Z.mul_assoc, Q; reflexivity. }
    assert (Y5 : exists b, (x5 * (6 * yy) = 6 * yy + 12 * b)%Z) by (destruct X5 as [-> | ->]; [exists 0%Z; ring|exists (- yy)%Z; ring]). destruct Y5 as (bb & Eb).
    destruct HZ as [(e & ->)|Z0].
    - assert (OD : exists f, x9 = (2 * f + 1)%Z).
      { destruct (Z.Even_or_Odd x9) as [(f & ->)|(f & Hf)]; [exfalso|exists f; exact Hf]. assert (Y : exists q, (x5 * (x1 * (2 * f) - 2 * e * x7) = 2 * q)%Z) by (exists (x5 * (x1 * f - e * x7))%Z; ring). destruct Y as (q & Eq). rewrite Eq in ED. clear - ED. lia. }
      destruct OD as (f & ->). exists (e * zz)%Z, bb, (f * zz)%Z. split; [ring|]. split; [exact Eb|ring].
    - assert (zz = 0)%Z as -> by (clear - Z0; lia). exists 0%Z, bb, 0%Z. split; [ring|]. split; [exact Eb|ring]. }
  destruct S as (ka & kb & kc & E1 & E2 & E3). exists (V ka kb kc). unfold ZMapp, V12, in_twelfths, Vadd, VofZ. cbn [vx vy vz m11 m12 m13 m21 m22 m23 m31 m32 m33].
  replace (x1 * 0 + 0 * (6 * yy) + x3 * (6 * zz))%Z with (12 * ka)%Z by (rewrite <- E1; ring). replace (0 * 0 + x5 * (6 * yy) + 0 * (6 * zz))%Z with (6 * yy + 12 * kb)%Z by (rewrite <- E2; ring). replace (x7 * 0 + 0 * (6 * yy) + x9 * (6 * zz))%Z with (6 * zz + 12 * kc)%Z by (rewrite <- E3; ring).
  apply (@vec_ext R); cbn [vx vy vz]; rewrite ?plus_IZR, ?mult_IZR; lra.
Qed.

Section Mono.
  Context (P : @Pinv RNum) (HO : HashOrd) (dtol d : R) (fuel : nat) (path : list nat) (s : @structure RNum) (w wi g gi : mat Z) (A B C E : R).
  Let L := lattice s.
  Let eps := 1 / 100000 * Rpower (Rabs (Mdet L)) (1 / 3).
  Hypothesis (HP : pinv_inverts P) (HF : (48 <= fuel)%nat) (WF : List.length (frac_coords s) = List.length (species s)).
  Hypothesis BIG : (0 < Z.of_nat (List.length (species s)) <= 65535)%Z.
  Hypothesis (Hd : 1 / 100000 <= dtol <= 1 / 25) (NA : near_axes w) (WW : ZMmul w wi = ZMid) (NF : not_flat L).
  Hypothesis (MC : monoclinic_cell eps A B C E (Mmul L (MofZ w))) (HB : B <= 1000000) (HC : C <= 1000000).
  Hypothesis (SP : spread d (sites_of s)) (Dd : 36 * dtol <= d).
  Hypothesis RI : rigid (2 * dtol) L (sites_of s) (lattice_isometry L).
  Context (order N : Z) (codes : list Z) (sym : string).
  Hypothesis (HT : In (Monoclinic, order, N, codes) sg_entries) (ES : am_get Z.eqb N SG_NUM_TO_SYMBOL = Some sym).
  Hypothesis (GS : same_second_axis g) (GG : ZMmul g gi = ZMid).
  Let v := ZMmul w g. Let vi := ZMmul gi wi.
  Hypothesis IFF : forall r x, (lattice_isometry L r /\ exact_operation (sites_of s) r x) <-> exists o, In o (group_ops sym codes) /\ r = conj v (fst o) vi /\ Vcongr x (Mapp (MofZ v) (in_twelfths (snd o))).
  Let LB : low mP Monoclinic := or_intror (Logic.conj eq_refl eq_refl).
  Let NZ : Mdet L <> 0.
  Proof using NF. pose proof (flat_det L NF) as Q. intro X. rewrite X, Rabs_R0 in Q. lra. Qed.
  Let E0 : 0 < eps. Proof using. unfold eps. apply Rmult_lt_0_compat; [lra|]. unfold Rpower. apply exp_pos. Qed.
  Let VV : ZMmul v vi = ZMid. Proof using WW GG. now apply Zcompose. Qed.
  Let HR o : In o (group_ops sym codes) -> In (fst o) (holo_rots mP) /\ conj v (fst o) vi = conj w (fst o) wi.
  Proof using All.
    intro Ho. destruct (monoclinic_ready eps L w E0 NZ NA A B C E MC HB HC) as (n & T0 & u & A' & B' & C' & D' & E' & F' & RY & _).
    assert (EC : conj v (fst o) vi = conj w (conj g (fst o) gi) wi) by (apply MofZ_eq_from_action; intro x; unfold v, vi; rewrite !conj_app, !MofZ_mul, !Mapp_Mmul; reflexivity).
    assert (X : In (conj g (fst o) gi) (holo_rots mP)).
    { apply (re_iso _ _ _ _ _ _ _ _ _ _ _ _ _ RY). apply (iso_conj L w wi _ WW). rewrite <- EC. apply (proj2 (IFF (conj v (fst o) vi) (Mapp (MofZ v) (in_twelfths (snd o))))). exists o. split; [exact Ho|]. split; [reflexivity|apply Vcongr_refl]. }
    assert (GS' : same_second_axis gi).
    { clear - GS GG. destruct GS as (H1 & H2 & H3 & H4 & HD). pose proof (zinv_comm _ _ GG) as GI. assert (EI : gi = zinv g) by (apply (Zinv_unique g); [exact GG|now apply zinv_r]).
      assert (DI : (ZMdet g * ZMdet gi = 1)%Z) by (rewrite <- ZMdet_mul, GG; reflexivity). repeat split; [| | | |destruct HD as [Q|Q]; rewrite Q in DI; lia]; rewrite EI; unfold zinv; destruct (ZMdet g =? 1)%Z;
        destruct g as [x1 x2 x3 x4 x5 x6 x7 x8 x9]; cbn [m12 m21 m23 m32] in *; subst; unfold zadj, mmap; cbn [m11 m12 m13 m21 m22 m23 m31 m32 m33]; ring. }
    pose proof (axis_commutes gi g _ GS' (zinv_comm _ _ GG) X) as Y. rewrite (conj_conj g (fst o) gi GG (zinv_comm _ _ GG)) in Y. rewrite <- Y in X. split; [exact X|]. rewrite EC, <- Y. reflexivity.
  Qed.
  Lemma mono_answered : (~ In N gliding \/ Z.Even (m13 g)) ->
    exists ops, @get_space_group_info RNum P HO fuel path dtol s = Ok (N, sym, ops) /\
    List.length ops = List.length (filter (fun o => has_unit_entry (conj v (fst o) vi)) (group_ops sym codes)) /\
    (forall op, In op ops -> exists o, In o (group_ops sym codes) /\ rotation op = conj v (fst o) vi /\ has_unit_entry (rotation op) = true /\ nanos (3 * (1 / 1000000000)) (translation op) (Mapp (MofZ v) (in_twelfths (snd o)))) /\
    (forall o, In o (group_ops sym codes) -> has_unit_entry (conj v (fst o) vi) = true ->
       exists op, In op ops /\ rotation op = conj v (fst o) vi /\ nanos (3 * (1 / 1000000000)) (translation op) (Mapp (MofZ v) (in_twelfths (snd o)))).
  Proof using All.
    intro EV. destruct (monoclinic_ready eps L w E0 NZ NA A B C E MC HB HC) as (n & T0 & u & A' & B' & C' & D' & E' & F' & RY & _).
    assert (TR : forall o, In o (group_ops sym codes) -> Vcongr (Mapp (MofZ v) (in_twelfths (snd o))) (Mapp (MofZ w) (in_twelfths (snd o)))).
    { intros o Ho. destruct (HR o Ho) as [Hr _]. destruct (mono_ops order N codes sym HT ES o Ho Hr) as [VX VZ]. unfold v. rewrite MofZ_mul, Mapp_Mmul. apply PEnd11.Vcongr_app. apply axis_congr; [exact GS|exact (proj2 (low_entry mP Monoclinic order N codes sym LB HT ES) o Ho Hr)|exact VX|]. clear - EV VZ. tauto. }
    destruct (ready_answered P HO dtol d fuel path s w wi mP Monoclinic n T0 u A' B' C' D' E' F' HP HF WF BIG Hd NA WW NF SP Dd LB RY RI order N codes sym HT ES) as (ops & O1 & O2 & O3 & O4).
    - intros r x. fold L. rewrite (IFF r x). split; intros (o & Ho & Er & Vx); exists o; (split; [exact Ho|]); (split; [now rewrite Er; destruct (HR o Ho) as [_ ->]|]).
      + exact (PSymmOp.Vcongr_trans _ _ _ Vx (TR o Ho)).
      + exact (PSymmOp.Vcongr_trans _ _ _ Vx (PSymmOp.Vcongr_sym _ _ (TR o Ho))).
    - exists ops. split; [exact O1|]. split; [rewrite O2; f_equal; apply filter_ext_in; intros o Ho; destruct (HR o Ho) as [_ ->]; reflexivity|]. split.
      + intros op Hop. destruct (O3 op Hop) as (o & Ho & Er & UE & Nn). exists o. split; [exact Ho|]. split; [rewrite Er; destruct (HR o Ho) as [_ ->]; reflexivity|]. split; [exact UE|]. exact (nanos_congr_r _ _ _ _ Nn (TR o Ho)).
      + intros o Ho UE. rewrite (proj2 (HR o Ho)) in UE |- *. destruct (O4 o Ho UE) as (op & Hop & Er & Nn). exists op. split; [exact Hop|]. split; [exact Er|]. exact (nanos_congr_r _ _ _ _ Nn (TR o Ho)).
  Qed.
  Lemma mono_unanswered ans : In N gliding -> @get_space_group_info RNum P HO fuel path dtol s = Ok ans -> Z.Even (m13 g).
  Proof using All.
    intros HG EI. destruct ans as [[N' sym'] ops']. destruct (monoclinic_ready eps L w E0 NZ NA A B C E MC HB HC) as (n & T0 & u & A' & B' & C' & D' & E' & F' & RY & _).
    destruct (ready_meaning P HO dtol d fuel path s w wi mP Monoclinic n T0 u A' B' C' D' E' F' HP HF WF BIG Hd NA WW NF SP Dd LB RY RI order N codes sym HT ES v vi N' sym' ops' VV IFF EI) as (h & codes' & Hh & HT' & ES' & CA & _).
    cbv zeta in CA. destruct (mono_glide order N codes sym HT ES HG) as (o & Ho & Hr & VZ). destruct (CA o Ho) as (c & Hc & [S1 (m & S2)]). cbn [fst snd] in S1, S2.
    assert (EK : ZMmul (ZMmul h wi) v = ZMmul h g) by (unfold v; rewrite !Zassoc; f_equal; rewrite <- Zassoc, (zinv_comm _ _ WW); apply Z1l). rewrite EK in S1, S2.
    assert (EK' : ZMmul vi (ZMmul w h) = ZMmul gi h) by (unfold vi; rewrite !Zassoc; f_equal; rewrite <- Zassoc, (zinv_comm _ _ WW); apply Z1l). rewrite EK' in S1.
    assert (FC : fst c = fst o).
    { rewrite <- S1. assert (X : conj (ZMmul h g) (fst o) (ZMmul gi h) = conj h (conj g (fst o) gi) h) by (apply MofZ_eq_from_action; intro x; rewrite !conj_app, !MofZ_mul, !Mapp_Mmul; reflexivity). rewrite X, (axis_commutes g gi _ GS GG Hr). exact (low_conj mP Monoclinic h (fst o) LB Hh Hr). }
    rewrite <- FC in Hr. destruct (mono_ops order N' codes' sym' HT' ES' c Hc Hr) as [VX _]. rewrite FC in Hr. destruct (mono_ops order N codes sym HT ES o Ho Hr) as [VX' _].
    destruct (mP_in h Hh) as (i & j & Hi & Hj & Eh). apply (f_equal vx) in S2. rewrite Eh in S2. destruct GS as (G1 & _). clear - S2 VX VX' VZ Hi G1.
    destruct (snd o) as [x y z], (snd c) as [x' y' z'], g as [x1 x2 x3 x4 x5 x6 x7 x8 x9]. cbn [vx vz m12 m13] in *. subst. unfold ZMapp, ZMmul, zdiag in S2. cbn [vx vy vz m11 m12 m13 m21 m22 m23 m31 m32 m33] in S2.
    destruct Hi as [-> | ->]; [exists (vx m)|exists (- vx m)%Z]; lia.
  Qed.
End Mono.

(** ** Triclinic crystals *)
Section Tri.
  Context (P : @Pinv RNum) (HO : HashOrd) (dtol d : R) (fuel : nat) (path : list nat) (s : @structure RNum) (w wi : mat Z) (A B C D E F : R).
  Let L := lattice s.
  Let eps := 1 / 100000 * Rpower (Rabs (Mdet L)) (1 / 3).
  Hypothesis (HP : pinv_inverts P) (HF : (48 <= fuel)%nat) (WF : List.length (frac_coords s) = List.length (species s)).
  Hypothesis BIG : (0 < Z.of_nat (List.length (species s)) <= 65535)%Z.
  Hypothesis (Hd : 1 / 100000 <= dtol <= 1 / 25) (NA : near_axes w) (WW : ZMmul w wi = ZMid) (NF : not_flat L).
  Hypothesis (EG : gram (Mmul L (MofZ w)) = metric A B C D E F) (SR : strictly_reduced eps A B C D E F) (NT : no_two_zero D E F) (HC : C <= 1000000).
  Hypothesis (SP : spread d (sites_of s)) (Dd : 36 * dtol <= d).
  Hypothesis RI : rigid (2 * dtol) L (sites_of s) (lattice_isometry L).
  Hypothesis PR : forall t, exact_operation (sites_of s) ZMid t -> exists n, t = VofZ n.
  Let NZ : Mdet L <> 0.
  Proof using NF. pose proof (flat_det L NF) as Q. intro X. rewrite X, Rabs_R0 in Q. lra. Qed.
  Let E0 : 0 < eps. Proof using. unfold eps. apply Rmult_lt_0_compat; [lra|]. unfold Rpower. apply exp_pos. Qed.
  Let HA : 0 < A.
  Proof using NF EG NA. assert (X : 1 <= A); [|lra]. replace A with (m11 (gram (Mmul L (MofZ w)))) by (rewrite EG; reflexivity).
    pose proof (flat_vector L NF (ZMapp w (V 1 0 0)%Z)) as Q. rewrite MofZ_app in Q. assert (N0 : ZMapp w (V 1 0 0)%Z <> (V 0 0 0)%Z).
    { intro X. destruct (near_small w NA) as (_ & _ & UI). apply (f_equal (ZMapp (zinv w))) in X. rewrite (Zapp_inv (zinv w) w _ (zinv_comm _ _ UI)) in X. assert (Y : ZMapp (zinv w) (V 0%Z 0%Z 0%Z) = V 0%Z 0%Z 0%Z) by (unfold ZMapp; cbn [vx vy vz]; f_equal; ring). rewrite Y in X. discriminate X. }
    specialize (Q N0). rewrite <- Mapp_Mmul in Q. pose proof (Vnorm_sq (Mapp (Mmul L (MofZ w)) (VofZ (V 1 0 0)%Z))) as S. assert (T : Vdot (Mapp (Mmul L (MofZ w)) (VofZ (V 1 0 0)%Z)) (Mapp (Mmul L (MofZ w)) (VofZ (V 1 0 0)%Z)) = m11 (gram (Mmul L (MofZ w)))).
    { generalize (Mmul L (MofZ w)). intro m. destruct m as [x1 x2 x3 x4 x5 x6 x7 x8 x9]. unfold gram, Vdot, Mapp, VofZ, Mmul, Mtr. cbn [vx vy vz m11 m12 m13 m21 m22 m23 m31 m32 m33]. ring. }
    rewrite T in S. rewrite <- S. nra. Qed.
  Let LB : low aP Triclinic := or_introl (Logic.conj eq_refl eq_refl).
  Let ID i : conj w (zdiag i i i) wi = zdiag i i i.
  Proof using WW.
    assert (X : ZMmul w (zdiag i i i) = ZMmul (zdiag i i i) w) by (clear; destruct w as [x1 x2 x3 x4 x5 x6 x7 x8 x9]; unfold ZMmul, zdiag; cbn [m11 m12 m13 m21 m22 m23 m31 m32 m33]; f_equal; ring).
    unfold conj. rewrite X, Zassoc, WW. apply Z1r.
  Qed.
  Lemma tri_iso r : lattice_isometry L r <-> r = zdiag 1 1 1 \/ r = zdiag (-1) (-1) (-1).
  Proof using All.
    destruct (triclinic_ready eps L w E0 NZ NA A B C D E F EG SR NT HA HC) as (n & T0 & RY). pose proof (re_iso _ _ _ _ _ _ _ _ _ _ _ _ _ RY) as ISO. split.
    - intro Hr. assert (X : In (conj wi r w) (holo_rots aP)) by (apply ISO; apply (iso_conj L w wi _ WW); rewrite (conj_conj wi r w (zinv_comm _ _ WW) WW); exact Hr).
      destruct (aP_in _ X) as (i & Hi & Q). apply (f_equal (fun m => conj w m wi)) in Q. rewrite (conj_conj wi r w (zinv_comm _ _ WW) WW), ID in Q. rewrite Q. destruct Hi as [-> | ->]; [now left|now right].
    - intro Hr. assert (X : exists i, pm1 i /\ r = zdiag i i i) by (destruct Hr as [-> | ->]; [exists 1%Z; split; [now left|reflexivity]|exists (-1)%Z; split; [now right|reflexivity]]). destruct X as (i & Hi & ->). rewrite <- ID. apply (proj1 (iso_conj L w wi _ WW)). exact (proj1 (ISO _) (in_aP i Hi)).
  Qed.
  Let MZ : Mapp (MofZ w) (in_twelfths (V 0 0 0)%Z) = V0. Proof using. unfold in_twelfths, Mapp, MofZ. cbn [vx vy vz m11 m12 m13 m21 m22 m23 m31 m32 m33]. apply (@vec_ext R); cbn [vx vy vz]; unfold V0; cbn [vx vy vz]; lra. Qed.
  Let PR0 : forall t, exact_operation (sites_of s) ZMid t -> Vcongr t V0.
  Proof using PR. intros t H. destruct (PR t H) as (m & ->). exists m. apply (@vec_ext R); unfold Vadd, V0; cbn [vx vy vz]; lra. Qed.
  Let EXID t : Vcongr t V0 -> exact_operation (sites_of s) ZMid t.
  Proof using. intros (m & ->) x e Hx. exists x. split; [exact Hx|]. exists m. unfold act. rewrite MofZ_id, Mapp_id. apply (@vec_ext R); unfold Vadd, V0; cbn [vx vy vz]; lra. Qed.
  Lemma tri_P1 : (forall t, ~ exact_operation (sites_of s) (zdiag (-1) (-1) (-1)) t) ->
    exists op, @get_space_group_info RNum P HO fuel path dtol s = Ok (1%Z, "P1"%string, [op]) /\ rotation op = ZMid /\ nanos (3 * (1 / 1000000000)) (translation op) V0.
  Proof using All.
    intro NI. destruct (triclinic_ready eps L w E0 NZ NA A B C D E F EG SR NT HA HC) as (n & T0 & RY).
    destruct (ready_answered P HO dtol d fuel path s w wi aP Triclinic n T0 w A B C D E F HP HF WF BIG Hd NA WW NF SP Dd LB RY RI 1 1 [16484]%Z "P1") as (ops & O1 & O2 & O3 & O4); [vm_compute; tauto|reflexivity| |].
    - change (group_ops "P1" [16484]%Z) with [(zdiag 1 1 1, V 0 0 0)]%Z. intros r x. fold L. rewrite tri_iso. split.
      + intros [[-> | ->] EX]; [|exfalso; exact (NI x EX)]. eexists. split; [left; reflexivity|]. cbn [fst snd]. rewrite ID, MZ. split; [reflexivity|exact (PR0 x EX)].
      + intros (o & [<-|[]] & -> & VC). cbn [fst snd] in *. rewrite ID. rewrite MZ in VC. split; [now left|]. now apply EXID.
    - change (group_ops "P1" [16484]%Z) with [(zdiag 1 1 1, V 0 0 0)]%Z in *. cbn [filter fst] in O2. rewrite ID in O2. change (has_unit_entry (zdiag 1 1 1)) with true in O2. cbn [List.length] in O2.
      destruct ops as [|op [|op' ops]]; cbn [List.length] in O2; try discriminate O2. exists op. split; [exact O1|]. destruct (O3 op (or_introl eq_refl)) as (o & [<-|[]] & Er & _ & Nn). cbn [fst snd] in Er, Nn. rewrite ID in Er. rewrite MZ in Nn. split; [exact Er|exact Nn].
  Qed.
  Lemma tri_Pm1 : exact_operation (sites_of s) (zdiag (-1) (-1) (-1)) V0 ->
    exists ops, @get_space_group_info RNum P HO fuel path dtol s = Ok (2%Z, "P-1"%string, ops) /\ List.length ops = 2%nat /\
      (forall op, In op ops -> (rotation op = zdiag 1 1 1 \/ rotation op = zdiag (-1) (-1) (-1)) /\ nanos (3 * (1 / 1000000000)) (translation op) V0) /\
      (forall r, r = zdiag 1 1 1 \/ r = zdiag (-1) (-1) (-1) -> exists op, In op ops /\ rotation op = r).
  Proof using All.
    intro NI. destruct (triclinic_ready eps L w E0 NZ NA A B C D E F EG SR NT HA HC) as (n & T0 & RY).
    destruct (ready_answered P HO dtol d fuel path s w wi aP Triclinic n T0 w A B C D E F HP HF WF BIG Hd NA WW NF SP Dd LB RY RI 2 2 [16484; 3198]%Z "P-1") as (ops & O1 & O2 & O3 & O4); [vm_compute; tauto|reflexivity| |].
    - change (group_ops "P-1" [16484; 3198]%Z) with [(zdiag 1 1 1, V 0 0 0); (zdiag (-1) (-1) (-1), V 0 0 0)]%Z. intros r x. fold L. rewrite tri_iso. split.
      + intros [[-> | ->] EX]; eexists; [split; [left; reflexivity|]|split; [right; left; reflexivity|]]; cbn [fst snd]; rewrite ID, MZ; (split; [reflexivity|]); [exact (PR0 x EX)|].
        apply (PEnd19.exact_unique (sites_of s) (zdiag (-1) (-1) (-1))); [exact PR0|vm_compute; tauto|exact EX|exact NI].
      + intros (o & [<-|[<-|[]]] & -> & VC); cbn [fst snd] in *; rewrite ID; rewrite MZ in VC; (split; [tauto|]); [now apply EXID|]. exact (PEnd20.exact_congr _ _ _ _ NI VC).
    - change (group_ops "P-1" [16484; 3198]%Z) with [(zdiag 1 1 1, V 0 0 0); (zdiag (-1) (-1) (-1), V 0 0 0)]%Z in *. cbn [filter fst] in O2. rewrite !ID in O2. change (has_unit_entry (zdiag 1 1 1)) with true in O2. change (has_unit_entry (zdiag (-1) (-1) (-1))) with true in O2. cbn [List.length] in O2.
      exists ops. split; [exact O1|]. split; [exact O2|]. split.
      + intros op Hop. destruct (O3 op Hop) as (o & Ho & Er & _ & Nn). destruct Ho as [<-|[<-|[]]]; cbn [fst snd] in Er, Nn; rewrite ID in Er; rewrite MZ in Nn; (split; [|exact Nn]); [left; exact Er|right; exact Er].
      + intros r [-> | ->]; [destruct (O4 (zdiag 1 1 1, V 0 0 0)%Z (or_introl eq_refl)) as (op & Hop & Er & _)|destruct (O4 (zdiag (-1) (-1) (-1), V 0 0 0)%Z (or_intror (or_introl eq_refl))) as (op & Hop & Er & _)]; cbn [fst] in *; try (rewrite ID; reflexivity); rewrite ID in Er; exists op; (split; [exact Hop|exact Er]).
  Qed.
End Tri.
