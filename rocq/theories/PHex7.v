(** Hexagonal crystals: what an answer says (analyzer.rs 36-162, 206-345; space_group.rs 25-64) *)
From Coq Require Import ZArith Reals String Ascii List Bool Lia Lra Psatz Permutation.
From Flocq Require Import Core.
From Verif Require Import Num Mat Utils DataCore DataPG DataSG SymmOp PointGroup SpaceGroup Structure Reduce Analyzer RInst Spec Spec2 Spec3 Spec5 Spec6 RFacts
  PUtils PSymmOp PStructure PStructure2 PStructure3 PNiggli PDelaunay PPrim PPrim2 PLattice PAnalyzer PAnalyzer2 PPointGroup PPointGroup2 PSpaceGroup PSpaceGroup2 PCode PTables PIdentify
  PSearch PSearch3 PSearch4 PSearch6 PSearch7 PEnd PEnd2 PEnd3 PEnd4 PEnd11 PEnd12 PEnd13 PEnd14 PEnd15 PEnd16 Prop5 PRun PRun2 PHex PHex2 PHex3 PHex4 PHex5 PEnd17 PEnd18 PHex6.
Import ListNotations.
Open Scope R_scope.

(** ** The answer of a run whose standard cell keeps the rotations [holo_rots b] *)
Section FramedMeaning.
  Context (P : @Pinv RNum) (HO : HashOrd) (dtol : R) (fuel : nat) (path : list nat) (s : @structure RNum).
  Hypothesis (HF : (48 <= fuel)%nat) (H0 : 0 < dtol) (WF : List.length (frac_coords s) = List.length (species s)).
  Hypothesis BIG : (0 < Z.of_nat (List.length (species s)) <= 65535)%Z.
  Hypothesis AP : apart (4 * dtol) (lattice s) (sites_of s).
  Hypothesis RI : rigid (2 * dtol) (lattice s) (sites_of s) (lattice_isometry (lattice s)).
  Context (p q std : @structure RNum) (Tm Pm : mat R) (n : Z) (b : bravais) (W Wi : mat Z).
  Hypothesis RUN : frame P HO dtol fuel path s p q std Tm Pm n b W Wi.
  Hypothesis FINE : forall k, (k < 3)%nat -> 1 / 100000000 * Vnorm (Ccol (lattice std) k) <= dtol /\ 24 * dtol <= Vnorm (Ccol (lattice std) k) /\ 0 < Vnorm (Ccol (lattice std) k).
  Hypothesis TOL : forall k, (k < 3)%nat -> 9 / 1000000000 < dtol / Vnorm (Ccol (lattice std) k) <= 1 / 25.
  Hypothesis H1 : forall r, In r (holo_rots b) <-> lattice_isometry (lattice s) (conj W r Wi).
  Hypothesis SM : forall r, In r (holo_rots b) -> small_rot r = true /\ i8_range r.
  Context (ls : lattice_system) (order N : Z) (codes : list Z) (sym : string).
  Hypothesis LS : bravais_lattice_system b = Ok ls.
  Hypothesis (HT : In (ls, order, N, codes) sg_entries) (ES : am_get Z.eqb N SG_NUM_TO_SYMBOL = Some sym).
  Context (u ui : mat Z).
  Hypothesis (UI : ZMmul u ui = ZMid).
  Hypothesis IFF : forall r t, (lattice_isometry (lattice s) r /\ exact_operation (sites_of s) r t) <->
    exists o, In o (group_ops sym codes) /\ r = conj u (fst o) ui /\ Vcongr t (Mapp (MofZ u) (in_twelfths (snd o))).
  Context (N' : Z) (sym' : string) (ops' : list (@symmop RNum)).
  Hypothesis EI : @get_space_group_info RNum P HO fuel path dtol s = Ok (N', sym', ops').
  Let k := ZMmul ui W. Let ki := ZMmul Wi u.
  (** the operations along the standard axes *)
  Definition std_ops : list zop := map (fun o => (conj ki (fst o) k, ZMapp ki (snd o))) (group_ops sym codes).
  Lemma frame_meaning : zclosed std_ops = true /\ exists codes', In (ls, order, N', codes') sg_entries /\ am_get Z.eqb N' SG_NUM_TO_SYMBOL = Some sym' /\
    (forall a, In a std_ops -> exists c, In c (group_ops sym' codes') /\ same_op a c) /\ (forall c, In c (group_ops sym' codes') -> exists a, In a std_ops /\ same_op a c).
  Proof using All.
    pose proof (fr_inv _ _ _ _ _ _ _ _ _ _ _ _ _ _ _ RUN) as WI. pose proof (zinv_comm _ _ WI) as IW. pose proof (zinv_comm _ _ UI) as IU. pose proof (fr_like _ _ _ _ _ _ _ _ _ _ _ _ _ _ _ RUN) as LK.
    destruct (entry_facts _ _ _ _ HT) as (sym0 & ES0 & G & EO & BO & _). rewrite ES in ES0. injection ES0 as <-. fold (group_ops sym codes) in G.
    assert (KKI : ZMmul k ki = ZMid). { apply MofZ_eq_from_action. intro x. unfold k, ki. rewrite !MofZ_mul, !Mapp_Mmul, (app_inv W Wi _ WI), (app_inv ui u _ IU), MofZ_id, Mapp_id. reflexivity. }
    pose proof (zinv_comm _ _ KKI) as IKK.
    assert (CK : forall r, conj ki r k = conj Wi (conj u r ui) W) by (intro r; apply MofZ_eq_from_action; intro x; unfold k, ki; rewrite !conj_app, !MofZ_mul, !Mapp_Mmul; reflexivity).
    assert (CW : forall r, conj W (conj ki r k) Wi = conj u r ui) by (intro r; rewrite CK; now apply conj_conj).
    assert (TW : forall x, Mapp (MofZ W) (Mapp (MofZ ki) x) = Mapp (MofZ u) x) by (intro x; unfold ki; rewrite MofZ_mul, Mapp_Mmul, (app_inv W Wi _ WI); reflexivity).
    assert (T12 : forall o : zop, in_twelfths (ZMapp ki (snd o)) = Mapp (MofZ ki) (in_twelfths (snd o))) by (intro o; symmetry; apply MofZ_V12).
    assert (LH : forall o, In o (group_ops sym codes) -> In (conj ki (fst o) k) (holo_rots b) /\ exact_operation (sites_of std) (conj ki (fst o) k) (Mapp (MofZ ki) (in_twelfths (snd o)))).
    { intros o Ho. destruct (proj2 (IFF (conj u (fst o) ui) (Mapp (MofZ u) (in_twelfths (snd o))))) as [X1 X2]; [exists o; split; [exact Ho|split; [reflexivity|apply Vcongr_refl]]|].
      split; [apply H1; now rewrite CW|]. apply (fr_exact _ _ _ _ _ _ _ _ _ _ _ _ _ _ _ RUN). now rewrite CW, TW. }
    assert (LL : forall x, In x std_ops -> exists o, In o (group_ops sym codes) /\ x = (conj ki (fst o) k, ZMapp ki (snd o))).
    { intros x Hx. unfold std_ops in Hx. apply in_map_iff in Hx. destruct Hx as (o & <- & Ho). exists o. split; [exact Ho|reflexivity]. }
    assert (LI : forall o, In o (group_ops sym codes) -> In (conj ki (fst o) k, ZMapp ki (snd o)) std_ops) by (intros o Ho; unfold std_ops; apply (in_map (fun o => (conj ki (fst o) k, ZMapp ki (snd o)))); exact Ho).
    assert (LN : NoDup (map fst std_ops)).
    { assert (EM : map fst std_ops = map (fun r => conj ki r k) (map fst (group_ops sym codes))) by (unfold std_ops; rewrite !map_map; reflexivity). rewrite EM.
      apply PSearch3.NoDup_map_on; [exact (og_rotations _ G)|]. intros r1 r2 _ _ E. apply (f_equal (fun r => conj k r ki)) in E. now rewrite !conj_conj in E. }
    destruct (@standard_searched HO std dtol fuel (1%nat :: path) b HF) with (l := std_ops) as (gens & Q1 & Q2 & FWD & BWD); auto.
    { exact (lk_len _ _ _ LK). } { exact (fr_big _ _ _ _ _ _ WF BIG _ _ _ _ _ _ _ _ _ RUN). } { exact (like_grouped _ _ _ LK). }
    { exact (fr_apart _ _ _ _ _ _ AP _ _ _ _ _ _ _ _ _ RUN). }
    { exact (fr_rigid _ _ _ _ _ _ RI _ _ _ _ _ _ _ _ _ RUN H1). }
    { intros x Hx. destruct (LL x Hx) as (o & Ho & ->). cbn [fst snd]. rewrite T12. now apply LH. }
    { intros r t Hr EX. apply (fr_exact _ _ _ _ _ _ _ _ _ _ _ _ _ _ _ RUN) in EX. apply H1 in Hr. destruct (proj1 (IFF _ _) (Logic.conj Hr EX)) as (o & Ho & E1 & V1).
      exists (conj ki (fst o) k, ZMapp ki (snd o)). split; [now apply LI|]. cbn [fst snd]. split.
      - rewrite CK, <- E1. symmetry. now apply conj_conj.
      - rewrite T12. apply (PEnd11.Vcongr_app Wi) in V1. rewrite (app_inv Wi W t IW) in V1. unfold ki. now rewrite MofZ_mul, Mapp_Mmul. }
    apply info_stages in EI.
    destruct EI as (p0 & q0 & std0 & Tm0 & Pm0 & ch0 & b0' & gens0 & sg & ls0 & m1 & m2 & i1 & i2 & S0 & _ & J1 & J2 & J3 & J4 & _).
    pose proof (fr_stages _ _ _ _ _ _ _ _ _ _ _ _ _ _ _ RUN) as STG.
    destruct STG as [A1 A2 A3 A4 (c1 & A5 & A6)]. destruct S0 as [S1 S2 S3 S4 (c2 & S5 & S6)]. rewrite A1 in S1. injection S1 as <-. rewrite A2 in S2. injection S2 as <-. rewrite A3 in S3. injection S3 as <- <-.
    rewrite A4 in S4. injection S4 as <- <-. rewrite A5 in S5. injection S5 as <-. rewrite A6 in S6. injection S6 as <-.
    rewrite Q1 in J1. injection J1 as <-. rewrite LS in J3. injection J3 as <-.
    assert (LLEN : List.length std_ops = List.length codes) by (unfold std_ops, group_ops; now rewrite !map_length).
    destruct (contains_exactly HO (2%nat :: path) (@frac_tols_of RNum (lattice std) dtol) std_ops gens sg fuel ls N' sym') as (ZC & codes' & HT' & ES' & C1 & C2); auto; try (clear - HF; lia).
    { intros i Hi. destruct i as [|[|[|i]]]; [| | |lia]; [exact (TOL 0%nat Hi)|exact (TOL 1%nat Hi)|exact (TOL 2%nat Hi)]. }
    { intros x Hx. destruct (LL x Hx) as (o & Ho & ->). cbn [fst]. exact (proj1 (SM _ (proj1 (LH o Ho)))). }
    { rewrite LLEN. clear - EO BO. lia. }
    { intros x y Hx Hy. destruct (LL x Hx) as (o & Ho & ->). destruct (LL y Hy) as (o2 & Ho2 & ->). destruct (og_closed _ G o o2 Ho Ho2) as (o3 & Ho3 & E3 & _). exists (conj ki (fst o3) k, ZMapp ki (snd o3)). split; [now apply LI|]. cbn [fst].
      assert (EP : ZMmul (conj ki (fst o) k) (conj ki (fst o2) k) = conj ki (fst o3) k).
      { apply MofZ_eq_from_action. intro z. unfold compose in E3. cbn [fst] in E3. rewrite E3, MofZ_mul, Mapp_Mmul, !conj_app, (app_inv k ki _ KKI), MofZ_mul, Mapp_Mmul. reflexivity. }
      rewrite i8_mmul_eq; [exact EP|]. rewrite EP. exact (proj2 (SM _ (proj1 (LH o3 Ho3)))). }
    split; [exact ZC|]. exists codes'. rewrite LLEN, <- EO in HT'. split; [exact HT'|]. split; [exact ES'|]. split; [exact C1|exact C2].
  Qed.
End FramedMeaning.

(** ** Tabulated groups along other hexagonal axes *)
Definition hex_open (hr : list (mat Z)) (e : lattice_system * Z * Z * list Z) : bool :=
  let '(ls, _, N, codes) := e in
  match ls with
  | Hexagonal => if existsb (Z.eqb N) not_closed then match entry_ops N codes with Some l => forallb (fun w => bad_pair (map (conj_opi w) l)) hr | None => false end else true
  | _ => true
  end.
Lemma hex_open_checked : forallb (hex_open hexrots) sg_entries = true.
Proof. vm_compute. reflexivity. Qed.
Definition hex_elsewhere (hr : list (mat Z)) (e : lattice_system * Z * Z * list Z) : bool :=
  let '(ls, order, N, codes) := e in
  if existsb (Z.eqb N) not_closed then true else
  match ls with
  | Hexagonal =>
    match entry_ops N codes with
    | Some l =>
        let others := filter (fun e' => let '(ls', order', N', _) := e' in if lattice_system_eqb ls ls' then if (order =? order')%Z then negb (N =? N')%Z else false else false) sg_entries in
        let tables := map (fun e' => let '(_, _, N', codes') := e' in (N', match entry_ops N' codes' with Some l' => l' | None => [] end)) others in
        forallb (fun w => let l' := map (conj_opi w) l in
          forallb (fun m => if if (ZMdet w =? 1)%Z then false else if existsb (Z.eqb N) handed6 then existsb (Z.eqb (fst m)) handed6 else false then true else negb (all_if (fun a => ex_if (zop_eq a) (snd m)) l')) tables) hr
    | None => false
    end
  | _ => true
  end.
Lemma hex_elsewhere_checked : forallb (hex_elsewhere hexrots) sg_entries = true.
Proof. vm_compute. reflexivity. Qed.
Section HexElsewhere.
  Context (order N : Z) (codes : list Z) (sym : string) (k : mat Z).
  Hypothesis (HT : In (Hexagonal, order, N, codes) sg_entries) (ES : am_get Z.eqb N SG_NUM_TO_SYMBOL = Some sym).
  Hypothesis Hk : In k hexrots.
  Let EO : entry_ops N codes = Some (group_ops sym codes). Proof using ES. unfold entry_ops. now rewrite ES. Qed.
  Lemma hex_closed_elsewhere : zclosed (map (conj_opi k) (group_ops sym codes)) = true -> ~ In N not_closed.
  Proof using All.
    intros ZC NC. pose proof (proj1 (forallb_forall _ _) hex_open_checked _ HT) as Q. unfold hex_open in Q.
    replace (existsb (Z.eqb N) not_closed) with true in Q by (symmetry; apply existsb_exists; exists N; split; [exact NC|apply Z.eqb_refl]).
    rewrite EO in Q. pose proof (proj1 (forallb_forall _ _) Q k Hk) as K. cbn beta in K. clear Q. unfold bad_pair in K.
    rewrite ex_if_existsb in K. apply existsb_exists in K. destruct K as (a & Ha & K). rewrite ex_if_existsb in K. apply existsb_exists in K. destruct K as (b & Hb & K). cbv zeta in K. apply negb_true_iff in K.
    unfold zclosed in ZC. pose proof (proj1 (forallb_forall _ _) ZC a Ha) as Z1. pose proof (proj1 (forallb_forall _ _) Z1 b Hb) as Z2. cbv zeta in Z2. congruence.
  Qed.
  Lemma hex_only_elsewhere N' codes' sym' : ~ In N not_closed -> In (Hexagonal, order, N', codes') sg_entries -> am_get Z.eqb N' SG_NUM_TO_SYMBOL = Some sym' ->
    (forall a, In a (map (conj_opi k) (group_ops sym codes)) -> exists c, In c (group_ops sym' codes') /\ same_op a c) -> N' = N \/ (ZMdet k <> 1%Z /\ In N handed6 /\ In N' handed6).
  Proof using All.
    intros NC HT' ES' C1. pose proof (proj1 (forallb_forall _ _) hex_elsewhere_checked _ HT) as Q. unfold hex_elsewhere in Q. rewrite (not_in_handed _ _ NC), EO in Q. cbv zeta in Q.
    pose proof (proj1 (forallb_forall _ _) Q k Hk) as K. cbn beta in K. clear Q.
    destruct (Z.eq_dec N N') as [->|NE]; [now left|]. right.
    pose proof (proj1 (forallb_forall _ _) K (N', group_ops sym' codes')) as K2. cbn beta in K2. clear K.
    match type of K2 with ?X -> _ => assert (IM : X) end.
    { clear K2. apply in_map_iff. exists (Hexagonal, order, N', codes'). split; [unfold entry_ops; rewrite ES'; reflexivity|]. apply filter_In. split; [exact HT'|].
      rewrite (proj2 (lattice_system_eqb_spec Hexagonal Hexagonal) eq_refl), Z.eqb_refl, (proj2 (Z.eqb_neq N N') NE). reflexivity. }
    specialize (K2 IM). clear IM. cbn [fst snd] in K2.
    destruct (Z.eqb_spec (ZMdet k) 1) as [_|ND]; [|destruct (existsb (Z.eqb N) handed6) eqn:E1; [destruct (existsb (Z.eqb N') handed6) eqn:E2|]].
    2: { split; [exact ND|]. clear K2. apply existsb_exists in E1, E2. destruct E1 as (x & Hx & Ex). destruct E2 as (y & Hy & Ey). apply Z.eqb_eq in Ex, Ey. subst x y. split; assumption. }
    all: exfalso; apply negb_true_iff in K2; rewrite all_if_forallb in K2; apply not_true_iff_false in K2; apply K2; clear K2.
    all: apply forallb_forall; intros a Ha; rewrite ex_if_existsb; apply existsb_exists; destruct (C1 a Ha) as (c & Hc & S); exists c; split; [exact Hc|]; apply same_op_eq; exact S.
  Qed.
End HexElsewhere.

(** ** The standard cell of a hexagonal crystal *)
Section HexFrame.
  Context (P : @Pinv RNum) (HO : HashOrd) (dtol a c d : R) (fuel : nat) (path : list nat) (s : @structure RNum) (u ui : mat Z).
  Hypothesis (HP : pinv_inverts P) (HF : (48 <= fuel)%nat) (WF : List.length (frac_coords s) = List.length (species s)).
  Hypothesis BIG : (0 < Z.of_nat (List.length (species s)) <= 65535)%Z.
  Hypothesis (Hd : 1 / 100000 <= dtol <= 1 / 25) (Ba : 1 <= a <= 1000) (Bc : 1 <= c <= 1000).
  Hypothesis (DU : ZMdet u = 1%Z \/ ZMdet u = (-1)%Z) (SU : small 1 u) (UI : ZMmul u ui = ZMid).
  Let A := a * a. Let C := c * c.
  Let L := lattice s.
  Hypothesis EL : gram (Mmul L (MofZ u)) = hexm A C.
  Let eps := 1 / 100000 * Rpower (Rabs (Mdet L)) (1 / 3).
  Hypothesis SEP : eps < Rabs (A - C).
  Hypothesis (SP : spread d (sites_of s)) (Da : 26 * dtol <= d * a) (Dc : 26 * dtol <= d * c).
  Hypothesis RI : rigid (2 * dtol) L (sites_of s) (lattice_isometry L).
  Context (order N : Z) (codes : list Z) (sym : string).
  Hypothesis (HT : In (Hexagonal, order, N, codes) sg_entries) (ES : am_get Z.eqb N SG_NUM_TO_SYMBOL = Some sym).
  Hypothesis IFF : forall r t, (lattice_isometry L r /\ exact_operation (sites_of s) r t) <->
    exists o, In o (group_ops sym codes) /\ r = conj u (fst o) ui /\ Vcongr t (Mapp (MofZ u) (in_twelfths (snd o))).
  Context (N' : Z) (sym' : string) (ops' : list (@symmop RNum)).
  Hypothesis EI : @get_space_group_info RNum P HO fuel path dtol s = Ok (N', sym', ops').
  Lemma hex_meaning : ~ In N not_closed /\ (N' = N \/ (In N handed6 /\ In N' handed6 /\ Mdet L * IZR (ZMdet u) < 0)).
  Proof using All.
    assert (Hd0 := Hd). assert (Hd1 : 1 / 100000 <= dtol <= 1 / 24) by (clear - Hd0; lra).
    pose proof (zinv_comm _ _ UI) as IU. assert (A1 : 1 <= A) by (unfold A; nra). assert (C1 : 1 <= C) by (unfold C; nra).
    destruct (entry_facts _ _ _ _ HT) as (sym0 & ES0 & G & _). rewrite ES in ES0. injection ES0 as <-. fold (group_ops sym codes) in G.
    assert (ID : forall v w, ZMmul v w = ZMid -> conj v ZMid w = ZMid).
    { intros v w H. apply MofZ_eq_from_action. intro x. now rewrite conj_app, MofZ_id, Mapp_id, (app_inv v w x H), Mapp_id. }
    assert (I1 : lattice_isometry L ZMid) by (apply isometry_gram; now rewrite MofZ_id, Mmul_id_r).
    assert (UU : small 1 (ZMmul ZMid u)) by (replace (ZMmul ZMid u) with u; [exact SU|]; apply MofZ_inj; rewrite MofZ_mul, MofZ_id; symmetry; apply Mmul_id_l).
    pose proof (hx_apart P HO dtol a c d fuel path s u ui HP HF WF BIG Hd1 Ba Bc DU SU UI EL SEP SP Da Dc) as APX.
    assert (AP4 : apart (4 * dtol) L (sites_of s)).
    { pose proof (APX (4 * dtol) ZMid ZMid 1%Z eq_refl ltac:(lia) UU ltac:(lra) ltac:(lra)) as X. rewrite MofZ_id, Mmul_id_r in X. exact X. }
    assert (AP2 : apart (2 * dtol) L (sites_of s)) by (apply (apart_mono (4 * dtol)); [lra|exact AP4]).
    assert (NI : no_inner_translation dtol s).
    { apply (no_inner_rigid dtol s (lattice_isometry L)); [lra|exact I1|exact RI|exact AP4|].
      intros t EX. destruct (proj1 (IFF ZMid t)) as (o & Ho & Er & Vt); [split; [exact I1|exact EX]|]. destruct (og_identity _ G) as (e & He & [E1 (k & E2)]). cbn [fst snd] in E1, E2.
      assert (Eo : fst o = ZMid). { apply (f_equal (fun r => conj ui r u)) in Er. rewrite conj_conj in Er by assumption. rewrite <- Er. now apply ID. }
      assert (o = e) by (apply (same_rot_same _ (og_rotations _ G)); [exact Ho|exact He|congruence]). subst o.
      destruct Vt as (m & ->). exists (ZVadd (ZMapp u k) m). rewrite VofZ_add, MofZ_app. f_equal. f_equal. rewrite E2. unfold in_twelfths, Vadd, VofZ. cbn [vx vy vz]. apply (@vec_ext R); cbn [vx vy vz]; rewrite ?plus_IZR, ?mult_IZR; lra. }
    assert (WC : well_conditioned L).
    { pose proof (hx_conditioned P HO dtol a c d fuel path s u ui HP HF WF BIG Hd1 Ba Bc DU SU UI EL SEP SP Da Dc ZMid ZMid 1%Z eq_refl ltac:(lia) UU) as X. rewrite MofZ_id, Mmul_id_r in X. exact X. }
    pose proof (hx_eps P HO dtol a c d fuel path s u ui HP HF WF BIG Hd1 Ba Bc DU SU UI EL SEP SP Da Dc) as HE.
    destruct (p_stages P HO dtol fuel path s HP HF ltac:(lra) WF BIG WC
      (hx_roomy P HO dtol a c d fuel path s u ui HP HF WF BIG Hd1 Ba Bc DU SU UI EL SEP SP Da Dc) (hx_cols P HO dtol a c d fuel path s u ui HP HF WF BIG Hd1 Ba Bc DU SU UI EL SEP SP Da Dc)
      (hx_vol P HO dtol a c d fuel path s u ui HP HF WF BIG Hd1 Ba Bc DU SU UI EL SEP SP Da Dc) NI ltac:(cbv zeta in HE; lra) (hex_out ui)
      (hx_pick P HO dtol a c d fuel path s u ui HP HF WF BIG Hd1 Ba Bc DU SU UI EL SEP SP Da Dc) AP2) as (p & q & std & Tm & Pm & n & b & W & Wi & FR & OUT & EB). subst b.
    pose proof (fr_inv _ _ _ _ _ _ _ _ _ _ _ _ _ _ _ FR) as WI. pose proof (zinv_comm _ _ WI) as IW. pose proof (fr_std _ _ _ _ _ _ _ _ _ _ _ _ _ _ _ FR) as LW. fold L in LW. pose proof (fr_right _ _ _ _ _ _ _ _ _ _ _ _ _ _ _ FR) as DS.
    set (h := ZMmul ui W) in *. set (hi := ZMmul Wi u).
    assert (HHI : ZMmul h hi = ZMid) by (unfold h, hi; now apply Zcompose).
    assert (EW : W = ZMmul u h) by (unfold h; apply MofZ_eq_from_action; intro x; now rewrite !MofZ_mul, !Mapp_Mmul, (app_inv u ui _ UI)).
    assert (EWi : Wi = ZMmul hi ui) by (unfold hi; apply MofZ_eq_from_action; intro x; now rewrite !MofZ_mul, !Mapp_Mmul, (app_inv u ui _ UI)).
    destruct (hex_group h OUT) as (Sh & Rh & Hhi & Dh & CLh). rewrite (Zinv_unique h (zinv h) hi (zinv_r h Dh) HHI) in Hhi. destruct (hex_group hi Hhi) as (Shi & _ & _ & Dhi & CLhi).
    pose proof (hex_iso _ A C EL ltac:(lra) ltac:(lra)) as ISO. rewrite hexrots_eq in ISO.
    assert (HU : forall r, lattice_isometry (Mmul L (MofZ u)) r <-> lattice_isometry L (conj u r ui)).
    { intro r. rewrite !isometry_gram, !Mmul_assoc, <- !MofZ_mul. assert (EC : ZMmul u r = ZMmul (conj u r ui) u).
      { apply MofZ_eq_from_action. intro x. rewrite !MofZ_mul, !Mapp_Mmul, conj_app, (app_inv ui u _ IU). reflexivity. }
      rewrite EC, MofZ_mul, <- Mmul_assoc, (gram_app (Mmul L (MofZ (conj u r ui))) u), (gram_app L u). split; intro E; [|rewrite E; reflexivity].
      assert (X : Mmul (Mmul (Mtr (MofZ ui)) (Mmul (Mtr (MofZ u)) (Mmul (gram (Mmul L (MofZ (conj u r ui)))) (MofZ u)))) (MofZ ui) = Mmul (Mmul (Mtr (MofZ ui)) (Mmul (Mtr (MofZ u)) (Mmul (gram L) (MofZ u)))) (MofZ ui)) by now rewrite E.
      assert (Y : forall g, Mmul (Mmul (Mtr (MofZ ui)) (Mmul (Mtr (MofZ u)) (Mmul g (MofZ u)))) (MofZ ui) = g).
      { intro g. rewrite !Mmul_assoc, <- MofZ_mul, UI, MofZ_id, Mmul_id_r, <- Mmul_assoc, <- Mtr_mul, <- MofZ_mul, UI, MofZ_id. change (Mtr Mid) with (@Mid). apply Mmul_id_l. }
      now rewrite !Y in X. }
    assert (HOL : forall r, In r hexrots -> In (conj h r hi) hexrots) by (intros r Hr; apply (proj2 (proj2 (proj2 (proj2 (hex_group _ (CLh r Hr)))))); exact Hhi).
    assert (EC : forall r, conj W r Wi = conj u (conj h r hi) ui) by (intro r; apply MofZ_eq_from_action; intro x; rewrite !conj_app, EW, EWi, !MofZ_mul, !Mapp_Mmul; reflexivity).
    assert (H1 : forall r, In r (holo_rots hP) <-> lattice_isometry L (conj W r Wi)).
    { intro r. rewrite hexrots_eq, EC, <- HU, <- ISO. split; [apply HOL|]. intro Q. rewrite <- (conj_conj h r hi HHI (zinv_comm _ _ HHI)). apply (proj2 (proj2 (proj2 (proj2 (hex_group _ (CLhi _ Q)))))). exact OUT. }
    assert (GS : gram (lattice std) = hexm A C).
    { rewrite LW, EW, MofZ_mul, <- Mmul_assoc. rewrite <- EL. apply isometry_gram. now apply ISO. }
    assert (FINE : forall k, (k < 3)%nat -> 1 / 100000000 * Vnorm (Ccol (lattice std) k) <= dtol /\ 24 * dtol <= Vnorm (Ccol (lattice std) k) /\ 0 < Vnorm (Ccol (lattice std) k)).
    { intros k Hk. assert (E : exists x, (x = a \/ x = c) /\ Vnorm (Ccol (lattice std) k) = x).
      { assert (SQ : forall k, (k < 3)%nat -> Vnorm (Ccol (lattice std) k) * Vnorm (Ccol (lattice std) k) = A \/ Vnorm (Ccol (lattice std) k) * Vnorm (Ccol (lattice std) k) = C).
        { clear - GS. intros k Hk. rewrite Vnorm_sq. assert (X : forall m : mat R, Vdot (Ccol m k) (Ccol m k) = match k with 0%nat => m11 (gram m) | 1%nat => m22 (gram m) | _ => m33 (gram m) end).
          { intro m. destruct k as [|[|[|k]]]; [| | |lia]; unfold gram, Vdot, Ccol, Mmul, Mtr; cbn [vx vy vz m11 m12 m13 m21 m22 m23 m31 m32 m33]; reflexivity. }
          rewrite X, GS. unfold hexm. destruct k as [|[|k]]; cbn; auto. }
        pose proof (Vnorm_nonneg (Ccol (lattice std) k)) as V. destruct (SQ k Hk) as [E|E]; [exists a|exists c]; (split; [tauto|]); [unfold A in E|unfold C in E]; nra. }
      destruct E as (x & [-> | ->] & ->); repeat split; lra. }
    assert (BND : forall k, (k < 3)%nat -> 1 <= Vnorm (Ccol (lattice std) k) <= 1000).
    { clear - GS Ba Bc. intros k Hk. rewrite <- (sqrt_square 1000), <- sqrt_1 by lra. unfold Vnorm. assert (X : forall m : mat R, Vdot (Ccol m k) (Ccol m k) = match k with 0%nat => m11 (gram m) | 1%nat => m22 (gram m) | _ => m33 (gram m) end).
      { intro m. destruct k as [|[|[|k]]]; [| | |lia]; unfold gram, Vdot, Ccol, Mmul, Mtr; cbn [vx vy vz m11 m12 m13 m21 m22 m23 m31 m32 m33]; reflexivity. }
      rewrite X, GS. assert (Q1 : 1 <= A <= 1000 * 1000) by (unfold A; nra). assert (Q2 : 1 <= C <= 1000 * 1000) by (unfold C; nra). unfold hexm. destruct k as [|[|k]]; cbn [m11 m22 m33]; split; apply sqrt_le_1_alt; lra. }
    assert (TOL : forall k, (k < 3)%nat -> 9 / 1000000000 < dtol / Vnorm (Ccol (lattice std) k) <= 1 / 25).
    { intros k Hk. destruct (BND k Hk) as (Q1 & Q2). split; apply (Rmult_lt_reg_r (Vnorm (Ccol (lattice std) k))) || apply (Rmult_le_reg_r (Vnorm (Ccol (lattice std) k))); try lra;
        replace (dtol / Vnorm (Ccol (lattice std) k) * Vnorm (Ccol (lattice std) k)) with dtol by (field; lra); lra. }
    assert (LSY : bravais_lattice_system hP = Ok Hexagonal).
    { exact (proj2 (proj2 (proj2 (proj2 (proj2 char_rows))))). }
    assert (SMR : forall r, In r (holo_rots hP) -> small_rot r = true /\ i8_range r).
    { intros r Hr. rewrite hexrots_eq in Hr. destruct (hex_group _ Hr) as (Sr & _). clear - Sr. unfold small, entries_within in Sr. unfold small_rot, i8_range, entries_within. cbn [forallb]. rewrite !andb_true_iff, !Z.leb_le. lia. }
    destruct (frame_meaning P HO dtol fuel path s HF ltac:(lra) WF BIG AP4 RI p q std Tm Pm n hP W Wi FR FINE TOL H1 SMR Hexagonal order N codes sym LSY HT ES u ui UI IFF N' sym' ops' EI) as (ZC & codes' & HT' & ES' & CA & CB).
    assert (SO : std_ops W Wi codes sym u ui = map (conj_opi h) (group_ops sym codes)).
    { unfold std_ops. apply map_ext. intro o. unfold conj_opi. rewrite (Zinv_unique h (zinv h) hi (zinv_r h Dh) HHI). reflexivity. }
    rewrite SO in ZC, CA. pose proof (hex_closed_elsewhere order N codes sym h HT ES OUT ZC) as NC. split; [exact NC|].
    destruct (hex_only_elsewhere order N codes sym h HT ES OUT N' codes' sym' NC HT' ES' CA) as [->|(ND & I2 & I3)]; [now left|right]. split; [exact I2|]. split; [exact I3|].
    rewrite LW, EW, Mdet_mul, MofZ_det, ZMdet_mul, mult_IZR, <- Rmult_assoc in DS. destruct Dh as [Q|Q]; [contradiction|]. rewrite Q in DS. lra.
  Qed.
End HexFrame.

(** ** Low quartz, SiO2, in units of 1/1200 of the hexagonal axes *)
Definition quartz : list (vec Z * string) :=
  [(V 564 0 400, "Si"); (V 0 564 800, "Si"); (V 636 636 0, "Si"); (V 496 320 257, "O"); (V 880 176 657, "O"); (V 1024 704 1057, "O"); (V 320 496 943, "O"); (V 176 880 543, "O"); (V 704 1024 143, "O")]%Z%string.
Lemma quartz_checked : checked_entry 152 Hexagonal 6 "P3_121" (hex_check 1200 100 (turned ZMid quartz) ZMid "P3_121") = true.
Proof. vm_compute. reflexivity. Qed.
