(** Crystals in a rectangular cell: what an answer says (space_group.rs 25-64, analyzer.rs 60-162, 206-345) *)
From Coq Require Import ZArith Reals String Ascii List Bool Lia Lra Psatz Permutation.
From Flocq Require Import Core.
From Verif Require Import Num Mat Utils DataCore DataPG DataSG SymmOp PointGroup SpaceGroup Structure Reduce Analyzer RInst Spec Spec2 Spec3 Spec5 Spec6 RFacts
  PUtils PSymmOp PStructure PStructure2 PStructure3 PNiggli PDelaunay PPrim PPrim2 PLattice PAnalyzer PAnalyzer2 PPointGroup PPointGroup2 PSpaceGroup PSpaceGroup2 PCode PTables PIdentify
  PSearch PSearch3 PSearch4 PSearch5 PSearch6 PSearch7 PEnd PEnd2 PEnd3 PEnd4 PEnd11 PEnd12 PEnd13 PEnd14 PEnd15 Prop5.
Import ListNotations.
Open Scope R_scope.

(** ** The operations found in the standard cell, closed or not *)
Section Searched.
  Context {H : HashOrd} (s : @structure RNum) (dtol : R) (fuel : nat) (path : list nat) (b : bravais).
  Hypothesis HF : (48 <= fuel)%nat.
  Hypothesis WF : List.length (frac_coords s) = List.length (species s).
  Hypothesis BIG : (0 < Z.of_nat (List.length (species s)) <= 65535)%Z.
  Hypothesis GR : grouped (species s).
  Hypothesis fine : forall k, (k < 3)%nat -> 1 / 100000000 * Vnorm (Ccol (lattice s) k) <= dtol /\ 24 * dtol <= Vnorm (Ccol (lattice s) k) /\
                                              0 < Vnorm (Ccol (lattice s) k).
  Let sites : list (vec R * string) := combine (frac_coords s) (species s).
  Hypothesis SEP : sites_apart (4 * dtol) (lattice s) sites.
  Hypothesis RIG : rigid (2 * dtol) (lattice s) sites (fun r => In r (holo_rots b)).
  Context (l : list zop).
  Hypothesis LN : NoDup (map fst l).
  Hypothesis HAS : forall o, In o l -> In (fst o) (holo_rots b) /\ exact_operation sites (fst o) (in_twelfths (snd o)).
  Hypothesis ONLY : forall r t, In r (holo_rots b) -> exact_operation sites r t ->
    exists o, In o l /\ r = fst o /\ Vcongr t (in_twelfths (snd o)).
  Lemma standard_searched : exists ops, @get_primitive_space_group_ops RNum H fuel path dtol s b = Ok ops /\
    List.length ops = List.length l /\
    (forall op, In op ops -> exists o, In o l /\ rotation op = fst o /\ nanos (1 / 1000000000) (translation op) (V12 (snd o))) /\
    (forall o, In o l -> exists op, In op ops /\ rotation op = fst o /\ nanos (1 / 1000000000) (translation op) (V12 (snd o))).
  Proof using All.
    destruct (search_exact s dtol fuel path b HF WF BIG GR) as (n & c & P & Pi & pg & ops & En & Ec & EP & HI & Epg & E & Q).
    - intros k Hk. destruct (fine k Hk) as (A & B & C). lra.
    - exact SEP.
    - intros k Hk. destruct (fine k Hk) as (A & B & C). lra.
    - intros k Hk. destruct (fine k Hk) as (A & B & C). lra.
    - pose proof (holo_rots_spec fuel (0%nat :: path) b n c P Pi pg HF En Ec EP HI Epg) as HR. cbv zeta in Q.
      destruct Q as (Q1 & Q2 & Q3 & Q4).
      { intros r t Hr. apply HR in Hr. now apply RIG. }
      assert (FWD : forall op, In op ops -> exists o, In o l /\ rotation op = fst o /\ nanos (1 / 1000000000) (translation op) (V12 (snd o))).
      { intros op Hop. destruct (Q2 op Hop) as (Hr & t & EX & N1). apply HR in Hr. destruct (ONLY _ _ Hr EX) as (o & Ho & Eo & Vo). exists o. split; [exact Ho|]. split; [exact Eo|].
        replace (1 / 1000000000) with (1 / 1000000000 + 0) by ring. apply (nanos_trans _ _ _ t); [exact N1|]. now apply nanos_congr. }
      assert (BWD : forall o, In o l -> exists op, In op ops /\ rotation op = fst o /\ nanos (1 / 1000000000) (translation op) (V12 (snd o))).
      { intros o Ho. destruct (HAS o Ho) as [Hr EX]. apply HR in Hr. exact (Q3 _ _ Hr EX). }
      assert (ND : NoDup (map (@rotation RNum) ops)).
      { apply NoDup_map_on; [exact Q1|]. intros a a' Ha Ha' Er. destruct (FWD a Ha) as (o & Ho & Eo & No). destruct (FWD a' Ha') as (o' & Ho' & Eo' & No').
        assert (o = o') by (apply (same_rot_same _ LN); [exact Ho|exact Ho'|congruence]). subst o'.
        destruct (HAS o Ho) as [_ EX]. apply (Q4 a a' (in_twelfths (snd o))); auto. now rewrite Eo. }
      exists ops. split; [exact E|]. split; [|split; [exact FWD|exact BWD]].
      apply Nat.le_antisymm.
      + rewrite <- (map_length (@rotation RNum)). replace (List.length l) with (List.length (map fst l)) by apply map_length.
        apply NoDup_incl_length; [exact ND|]. intros r Hr. apply in_map_iff in Hr. destruct Hr as (op & <- & Hop). destruct (FWD op Hop) as (o & Ho & Eo & _). rewrite Eo. now apply in_map.
      + rewrite <- (map_length (@rotation RNum) ops). replace (List.length l) with (List.length (map fst l)) by apply map_length.
        apply NoDup_incl_length; [exact LN|]. intros r Hr. apply in_map_iff in Hr. destruct Hr as (o & <- & Ho). destruct (BWD o Ho) as (op & Hop & Eo & _). rewrite <- Eo. now apply in_map.
  Qed.
End Searched.

(** ** A tabulated group that takes the place of the operations found contains them and their products *)
Lemma twelfths_congr u v : (forall x y, In (x, y) [(vx u, vx v); (vy u, vy v); (vz u, vz v)] -> exists z : Z, Rabs (IZR x / 12 - IZR y / 12 - IZR z) < 1 / 12) -> congr12 u v.
Proof.
  intro H. apply congr12_eq12. unfold eq12.
  assert (G : forall x y, In (x, y) [(vx u, vx v); (vy u, vy v); (vz u, vz v)] -> ((x - y) mod 12 = 0)%Z).
  { intros x y Q. destruct (H x y Q) as (z & Hz). apply Rabs_def2 in Hz. assert (E : IZR (x - y - 12 * z) = 12 * (IZR x / 12 - IZR y / 12 - IZR z)) by (rewrite !minus_IZR, mult_IZR; field).
    assert (Q2 : (-1 < x - y - 12 * z < 1)%Z) by (split; apply lt_IZR; rewrite E; lra). replace (x - y)%Z with (z * 12)%Z by lia. apply Z_mod_mult. }
  rewrite !G; [reflexivity|cbn; auto..].
Qed.
Section Contains.
  Context (HO : HashOrd) (path : list nat) (tols : vec R) (l : list zop) (gens sg : list sop) (fuel : nat) (ls : lattice_system) (n : Z) (sym : string).
  Hypothesis T : forall k, (k < 3)%nat -> 9 / 1000000000 < vnth tols k <= 1 / 25.
  Hypothesis SM : forall c, In c l -> small_rot (fst c) = true.
  Hypothesis FWD : forall op, In op gens -> exists o, In o l /\ rotation op = fst o /\ nanos (1 / 1000000000) (translation op) (V12 (snd o)).
  Hypothesis BWD : forall o, In o l -> exists op, In op gens /\ rotation op = fst o /\ nanos (1 / 1000000000) (translation op) (V12 (snd o)).
  Hypothesis EG : @from_generators RNum fuel gens tols = Ok sg.
  Hypothesis EI : @identify_space_group RNum HO path sg ls tols = Ok (Some (n, sym)).
  Lemma tols_3 : (9 / 1000000000 < vx tols <= 1 / 25) /\ (9 / 1000000000 < vy tols <= 1 / 25) /\ (9 / 1000000000 < vz tols <= 1 / 25).
  Proof using T. clear - T. split; [exact (T 0%nat ltac:(lia))|]. split; [exact (T 1%nat ltac:(lia))|exact (T 2%nat ltac:(lia))]. Qed.
  Lemma contains : exists order codes, In (ls, order, n, codes) sg_entries /\ am_get Z.eqb n SG_NUM_TO_SYMBOL = Some sym /\ (Z.of_nat (List.length sg) mod 256 = order)%Z /\
    (forall a, In a l -> exists c, In c (group_ops sym codes) /\ same_op a c) /\
    (forall a b, In a l -> In b l -> exists c, In c (group_ops sym codes) /\ same_op (zop_mul a b) c).
  Proof using All.
    destruct tols_3 as (T1 & T2 & T3).
    assert (TK : tols_ok tols) by (repeat split; lra).
    destruct (identify_some _ _ _ _ _ _ EI) as (buckets & groups & codes & E1 & E2 & E3 & ES & IN).
    apply am_get_in in E1. destruct E1 as (ls' & Q1 & E1). apply lattice_system_eqb_spec in Q1. subst ls'.
    apply am_get_in in E2. destruct E2 as (order & Q2 & E2). apply Z.eqb_eq in Q2.
    exists order, codes. assert (HT : In (ls, order, n, codes) sg_entries) by (apply sg_entries_In; eauto). split; [exact HT|]. split; [exact ES|]. split; [exact Q2|].
    assert (AF : forall op, In op sg -> exists c, In c (group_ops sym codes) /\ rotation op = fst c /\ near3 tols (translation op) (in_twelfths (snd c))).
    { intros op Hop. destruct (IN op Hop) as (code & c & Hc & Ec & Eq). rewrite candidate_code in Ec by (apply (codes_range _ _ _ _ _ _ _ E1 E2 E3 Hc)).
      injection Ec as <-. exists (code_op (has_char "A"%char sym) code). split; [now apply in_map|]. apply is_approx_eq_spec in Eq; [exact Eq|exact TK]. }
    destruct (from_generators_spec _ TK _ _ _ EG) as [GR CB]. pose proof (grown_gens _ _ _ GR) as GI.
    assert (CL : forall u v o c, nanos (8 / 1000000000) u (V12 o) -> near3 tols v u -> near3 tols v (in_twelfths c) -> congr12 o c).
    { intros u v o c (m & M1 & M2 & M3) (A1 & A2 & A3) (B1 & B2 & B3). apply twelfths_congr.
      assert (G : forall t x y z w q, t <= 1 / 25 -> Rabs (x - IZR w / 12 - IZR q) <= 8 / 1000000000 -> near1 t y x -> near1 t y (IZR z / 12) -> exists k, Rabs (IZR w / 12 - IZR z / 12 - IZR k) < 1 / 12).
      { intros t x y z w q Ht X [i Hi] [j Hj]. exists (- q - i + j)%Z. rewrite plus_IZR, minus_IZR, opp_IZR.
        replace (IZR w / 12 - IZR z / 12 - (- IZR q - IZR i + IZR j)) with (- (x - IZR w / 12 - IZR q) + (- (y - x - IZR i) + (y - IZR z / 12 - IZR j))) by ring.
        eapply Rle_lt_trans; [apply Rabs_triang|]. rewrite Rabs_Ropp. assert (Q := Rabs_triang (- (y - x - IZR i)) (y - IZR z / 12 - IZR j)). rewrite Rabs_Ropp in Q. lra. }
      intros x y [Q|[Q|[Q|[]]]]; injection Q as <- <-; [apply (G (vx tols) (vx u) (vx v) _ _ (vx m))|apply (G (vy tols) (vy u) (vy v) _ _ (vy m))|apply (G (vz tols) (vz u) (vz v) _ _ (vz m))]; auto; lra. }
    split.
    - intros a Ha. destruct (BWD a Ha) as (op & Hop & Ra & Na). destruct (AF op (GI op Hop)) as (c & Hc & Rc & Nc). exists c. split; [exact Hc|]. split; [congruence|].
      apply (CL (translation op) (translation op)); [destruct Na as (m & M1 & M2 & M3); exists m; repeat split; lra|now apply near3_refl|exact Nc].
    - intros a b Ha Hb. destruct (BWD a Ha) as (oa & Hoa & Ra & Na). destruct (BWD b Hb) as (ob & Hob & Rb & Nb).
      destruct (CB ob (GI ob Hob)) as [[]|CC]. destruct (CC oa Hoa) as (x & Hx & Rx & Nx). destruct (AF x Hx) as (c & Hc & Rc & Nc). exists c. split; [exact Hc|]. split.
      + rewrite <- Rc, Rx. unfold op_mul, zop_mul. cbn [rotation fst]. now rewrite Ra, Rb.
      + apply (CL (translation (@op_mul RNum oa ob)) (translation x)); [|exact Nx|exact Nc].
        unfold op_mul. cbn [translation]. rewrite mcast_R, mvmul_R, vadd_R, Rb.
        replace (V12 (snd (zop_mul a b))) with (Vadd (Mapp (MofZ (fst b)) (V12 (snd a))) (V12 (snd b))).
        * destruct (product_nano (fst b) _ _ _ _ (SM b Hb) Na Nb) as (m & M1 & M2 & M3). exists m. repeat split; lra.
        * unfold zop_mul. cbn [snd]. rewrite MofZ_V12. unfold V12, Vadd, ZVadd. cbn [vx vy vz]. rewrite !plus_IZR. f_equal; field.
  Qed.
  Hypothesis LEN : List.length gens = List.length l.
  Hypothesis SH : (List.length l <= 48)%nat.
  Hypothesis RC : forall a b, In a l -> In b l -> exists c, In c l /\ i8_mmul (fst a) (fst b) = fst c.
  Hypothesis LN : NoDup (map fst l).
  Hypothesis FU : (1 <= fuel)%nat.
  Lemma contains_exactly : zclosed l = true /\ exists codes, In (ls, Z.of_nat (List.length l), n, codes) sg_entries /\ am_get Z.eqb n SG_NUM_TO_SYMBOL = Some sym /\
    (forall a, In a l -> exists c, In c (group_ops sym codes) /\ same_op a c) /\
    (forall c, In c (group_ops sym codes) -> exists a, In a l /\ same_op a c).
  Proof using All.
    destruct contains as (order & codes & HT & ES & EO & C1 & C2). destruct (entry_facts _ _ _ _ HT) as (sym' & ES' & G & EL & _). rewrite ES in ES'. injection ES' as <-. fold (group_ops sym codes) in G.
    assert (ZC : zclosed l = true).
    { apply forallb_forall. intros a Ha. apply forallb_forall. intros b Hb. cbv zeta. rewrite ex_if_existsb. apply existsb_exists. destruct (RC a b Ha Hb) as (s & Hs & Er). exists s. split; [exact Hs|].
      apply same_op_eq. destruct (C1 s Hs) as (c & Hc & F1 & F2). destruct (C2 a b Ha Hb) as (c' & Hc' & F3 & F4).
      assert (c = c') by (apply (same_rot_same _ (og_rotations _ G)); auto; rewrite <- F1, <- F3; unfold zop_mul; cbn [fst]; congruence). subst c'. split; [unfold zop_mul; cbn [fst]; congruence|].
      destruct F2 as (m1 & ->). destruct F4 as (m2 & ->). exists (V (vx m1 - vx m2) (vy m1 - vy m2) (vz m1 - vz m2))%Z. cbn [vx vy vz]. f_equal; ring. }
    split; [exact ZC|]. destruct tols_3 as (T1 & T2 & T3).
    assert (ESG : sg = gens). { destruct fuel as [|f]; [lia|]. rewrite (closed_unchanged l ZC SM tols gens ltac:(lra) ltac:(lra) ltac:(lra) FWD BWD f) in EG. now injection EG. }
    rewrite ESG, LEN, Z.mod_small in EO by (split; [apply Nat2Z.is_nonneg|change 256%Z with (Z.of_nat 256); apply inj_lt; apply Nat.le_lt_trans with (1 := SH); lia]). subst order. exists codes. split; [exact HT|]. split; [exact ES|]. split; [exact C1|].
    assert (INC : incl (map fst (group_ops sym codes)) (map fst l)).
    { apply NoDup_length_incl; [exact LN| |].
      - unfold group_ops. rewrite !map_length. apply Nat2Z.inj in EL. exact (Nat.eq_le_incl _ _ (eq_sym EL)).
      - intros r Hr. apply in_map_iff in Hr. destruct Hr as (a & <- & Ha). destruct (C1 a Ha) as (c & Hc & E & _). rewrite E. now apply in_map. }
    intros c Hc. specialize (INC _ (in_map fst _ _ Hc)). apply in_map_iff in INC. destruct INC as (a & E & Ha). exists a. split; [exact Ha|]. destruct (C1 a Ha) as (c' & Hc' & S).
    assert (c' = c) by (apply (same_rot_same _ (og_rotations _ G)); auto; destruct S; congruence). now subst c'.
  Qed.
End Contains.

(** ** Tabulated groups named along other axes *)
Definition inside (b : bravais) (l : list zop) : bool := let hr := holo_rots b in forallb (fun o => mem_rot (fst o) hr) l.
Definition within_list (l m : list zop) : bool := forallb (fun a => ex_if (zop_eq a) m) l.
(** forallb that stops at the first failure under vm_compute *)
Fixpoint all_if {A} (f : A -> bool) (l : list A) : bool := match l with [] => true | x :: t => if f x then all_if f t else false end.
Lemma all_if_forallb {A} (f : A -> bool) l : all_if f l = forallb f l.
Proof. induction l as [|x t IH]; [reflexivity|]. cbn [all_if forallb]. rewrite IH. now destruct (f x). Qed.
Definition bad_pair (l : list zop) : bool := ex_if (fun a => ex_if (fun b => let c := zop_mul a b in negb (ex_if (fun s => zop_eq s c) l)) l) l.
Definition stays_open (e : lattice_system * Z * Z * list Z) : bool :=
  let '(ls, _, N, codes) := e in
  if existsb (Z.eqb N) not_closed then
    if boxed ls then
      match entry_ops N codes with
      | Some l => if inside (box_bravais ls) l then forallb (fun k => bad_pair (map (conj_op k) l)) signed else true
      | None => false
      end
    else true
  else true.
Lemma stays_open_checked : forallb stays_open sg_entries = true.
Proof. vm_compute. reflexivity. Qed.
Definition elsewhere (e : lattice_system * Z * Z * list Z) : bool :=
  let '(ls, order, N, codes) := e in
  if existsb (Z.eqb N) not_closed then true else
  if boxed ls then
    match entry_ops N codes with
    | Some l =>
        if inside (box_bravais ls) l then
          let others := filter (fun e' => let '(ls', order', N', _) := e' in if lattice_system_eqb ls ls' then if (order =? order')%Z then negb ((N =? N')%Z || (existsb (Z.eqb N) handed && existsb (Z.eqb N') handed)) else false else false) sg_entries in
          let tables := map (fun e' => let '(_, _, N', codes') := e' in match entry_ops N' codes' with Some l' => l' | None => [] end) others in
          forallb (fun k => let l' := map (conj_op k) l in forallb (fun m => negb (all_if (fun a => ex_if (zop_eq a) m) l')) tables) signed
        else true
    | None => false
    end
  else true.
Lemma elsewhere_checked : forallb elsewhere sg_entries = true.
Proof. vm_compute. reflexivity. Qed.

Lemma inside_ops b l : (forall o, In o l -> In (fst o) (holo_rots b)) -> inside b l = true.
Proof. intro H. unfold inside. cbv zeta. apply forallb_forall. intros o Ho. unfold mem_rot. rewrite ex_if_existsb. apply existsb_exists. exists (fst o). split; [now apply H|now apply zmat_eqb_spec]. Qed.
Lemma small_unit r : unit_rot r = true -> small_rot r = true.
Proof. intro H. apply unit_rot_spec in H. unfold small_rot. cbn [forallb]. rewrite !andb_true_iff, !Z.leb_le. lia. Qed.
Lemma box_columns L a b c i : gram L = diag (a * a) (b * b) (c * c) -> 1 <= a -> 1 <= b -> 1 <= c -> (i < 3)%nat -> 1 <= Vnorm (Ccol L i).
Proof.
  intros E Ha Hb Hc Hi. rewrite <- sqrt_1 at 1. unfold Vnorm. apply sqrt_le_1_alt.
  assert (X : m11 (gram L) = a * a /\ m22 (gram L) = b * b /\ m33 (gram L) = c * c) by (rewrite E; repeat split; reflexivity). destruct X as (X1 & X2 & X3).
  assert (M : forall x, 1 <= x -> 1 <= x * x) by (intros; nra). pose proof (M a Ha). pose proof (M b Hb). pose proof (M c Hc). clear M E.
  destruct L as [l1 l2 l3 l4 l5 l6 l7 l8 l9]. unfold gram, Mmul, Mtr in X1, X2, X3. cbn [m11 m12 m13 m21 m22 m23 m31 m32 m33] in X1, X2, X3. unfold Vdot, Ccol. destruct i as [|[|[|i]]]; [| | |lia]; cbn [vx vy vz m11 m12 m13 m21 m22 m23 m31 m32 m33]; lra.
Qed.
(** a tabulated group that keeps the box along some axes keeps it along its own *)
Lemma kept_inside_checked : forallb (fun e => let '(ls, _, N, codes) := e in if boxed ls then match entry_ops N codes with
  | Some l => let hr := holo_rots (box_bravais ls) in if all_if (fun o => mem_rot (fst o) hr) l then true else forallb (fun k => negb (all_if (fun o => mem_rot (conj (transpose k) (fst o) k) hr) l)) signed
  | None => false end else true) sg_entries = true.
Proof. vm_compute. reflexivity. Qed.
Section Elsewhere.
  Context (ls : lattice_system) (order N : Z) (codes : list Z) (sym : string) (k : mat Z).
  Hypothesis (HB : boxed ls = true) (HT : In (ls, order, N, codes) sg_entries) (ES : am_get Z.eqb N SG_NUM_TO_SYMBOL = Some sym).
  Hypothesis HR : forall o, In o (group_ops sym codes) -> In (fst o) (holo_rots (box_bravais ls)).
  Hypothesis Hk : In k signed.
  Let EO : entry_ops N codes = Some (group_ops sym codes). Proof using ES. unfold entry_ops. now rewrite ES. Qed.
  Lemma closed_elsewhere : zclosed (map (conj_op k) (group_ops sym codes)) = true -> ~ In N not_closed.
  Proof using All.
    intros ZC NC. pose proof (proj1 (forallb_forall _ _) stays_open_checked _ HT) as Q. unfold stays_open in Q.
    replace (existsb (Z.eqb N) not_closed) with true in Q by (symmetry; apply existsb_exists; exists N; split; [exact NC|apply Z.eqb_refl]).
    rewrite HB, EO, (inside_ops _ _ HR) in Q. pose proof (proj1 (forallb_forall _ _) Q k Hk) as K. cbn beta in K. clear Q. unfold bad_pair in K.
    rewrite ex_if_existsb in K. apply existsb_exists in K. destruct K as (a & Ha & K). rewrite ex_if_existsb in K. apply existsb_exists in K. destruct K as (b & Hb & K). cbv zeta in K. apply negb_true_iff in K.
    unfold zclosed in ZC. pose proof (proj1 (forallb_forall _ _) ZC a Ha) as Z1. pose proof (proj1 (forallb_forall _ _) Z1 b Hb) as Z2. cbv zeta in Z2. congruence.
  Qed.
  Lemma only_elsewhere N' codes' sym' : ~ In N not_closed -> In (ls, order, N', codes') sg_entries -> am_get Z.eqb N' SG_NUM_TO_SYMBOL = Some sym' ->
    (forall a, In a (map (conj_op k) (group_ops sym codes)) -> exists c, In c (group_ops sym' codes') /\ same_op a c) -> N' = N \/ (In N handed /\ In N' handed).
  Proof using All.
    intros NC HT' ES' C1. pose proof (proj1 (forallb_forall _ _) elsewhere_checked _ HT) as Q. unfold elsewhere in Q. rewrite (not_in_handed _ _ NC), HB, EO, (inside_ops _ _ HR) in Q. cbv zeta in Q.
    pose proof (proj1 (forallb_forall _ _) Q k Hk) as K. cbn beta in K. clear Q.
    destruct (Z.eq_dec N N') as [->|NE]; [now left|]. destruct (existsb (Z.eqb N) handed && existsb (Z.eqb N') handed) eqn:EH.
    { right. clear K. apply andb_true_iff in EH. destruct EH as [E1 E2]. apply existsb_exists in E1, E2. destruct E1 as (x & Hx & Ex). destruct E2 as (y & Hy & Ey). apply Z.eqb_eq in Ex, Ey. subst x y. split; assumption. }
    exfalso. pose proof (proj1 (forallb_forall _ _) K (group_ops sym' codes')) as K2. cbn beta in K2. clear K. apply not_eq_sym in NE as NE'. 
    match type of K2 with ?X -> _ => assert (IM : X) end.
    { clear K2. apply in_map_iff. exists (ls, order, N', codes'). split; [unfold entry_ops; rewrite ES'; reflexivity|]. apply filter_In. split; [exact HT'|].
      rewrite (proj2 (lattice_system_eqb_spec ls ls) eq_refl), Z.eqb_refl, EH, (proj2 (Z.eqb_neq N N') NE). reflexivity. }
    specialize (K2 IM). clear IM. apply negb_true_iff in K2. rewrite all_if_forallb in K2. apply not_true_iff_false in K2. apply K2. clear K2.
    apply forallb_forall. intros a Ha. rewrite ex_if_existsb. apply existsb_exists. destruct (C1 a Ha) as (c & Hc & S). exists c. split; [exact Hc|]. apply same_op_eq. exact S.
  Qed.
End Elsewhere.

(** ** What an answer says *)
Section Meaning.
  Context (P : @Pinv RNum) (HO : HashOrd) (dtol a b c d : R) (fuel : nat) (path : list nat) (s : @structure RNum) (u ui v vi : mat Z).
  Hypothesis (HP : pinv_inverts P) (HF : (48 <= fuel)%nat) (WF : List.length (frac_coords s) = List.length (species s)).
  Hypothesis BIG : (0 < Z.of_nat (List.length (species s)) <= 65535)%Z.
  Hypothesis (Hu : In u signed) (UI : ZMmul u ui = ZMid) (EL : gram (Mmul (lattice s) (MofZ u)) = diag (a * a) (b * b) (c * c)).
  Hypothesis (Ba : 1 <= a <= 1000) (Bb : 1 <= b <= 1000) (Bc : 1 <= c <= 1000) (Hd : 1 / 100000 <= dtol <= 1 / 25).
  Hypothesis (SP : spread d (sites_of s)) (Da : 4 * dtol <= d * a) (Db : 4 * dtol <= d * b) (Dc : 4 * dtol <= d * c).
  Context (ls : lattice_system) (order N : Z) (codes : list Z) (sym : string).
  Hypothesis SE : standard_edges ls (1 / 100000 * Rpower (a * b * c) (1 / 3)) a b c.
  Hypothesis RI : rigid (2 * dtol) (lattice s) (sites_of s) (lattice_isometry (lattice s)).
  Hypothesis (HT : In (ls, order, N, codes) sg_entries) (ES : am_get Z.eqb N SG_NUM_TO_SYMBOL = Some sym).
  Hypothesis (Hv : In v signed) (VI : ZMmul v vi = ZMid).
  Hypothesis IFF : forall r t, (lattice_isometry (lattice s) r /\ exact_operation (sites_of s) r t) <->
    exists o, In o (group_ops sym codes) /\ r = conj v (fst o) vi /\ Vcongr t (Mapp (MofZ v) (in_twelfths (snd o))).
  Hypothesis RH : 0 < Mdet (lattice s) * IZR (ZMdet u).
  Context (N' : Z) (sym' : string) (ops' : list (@symmop RNum)).
  Hypothesis EI : @get_space_group_info RNum P HO fuel path dtol s = Ok (N', sym', ops').
  Lemma box_meaning : ~ In N not_closed /\ (N' = N \/ (In N handed /\ In N' handed)) /\
    exists codes', In (ls, order, N', codes') sg_entries /\ am_get Z.eqb N' SG_NUM_TO_SYMBOL = Some sym' /\
      (forall o, In o (group_ops sym codes) -> exists o', In o' (group_ops sym' codes') /\ conj v (fst o) vi = conj u (fst o') ui /\ Vcongr (Mapp (MofZ v) (in_twelfths (snd o))) (Mapp (MofZ u) (in_twelfths (snd o')))) /\
      (forall o', In o' (group_ops sym' codes') -> exists o, In o (group_ops sym codes) /\ conj v (fst o) vi = conj u (fst o') ui /\ Vcongr (Mapp (MofZ v) (in_twelfths (snd o))) (Mapp (MofZ u) (in_twelfths (snd o')))).
  Proof using All.
    assert (Hd' : 1 / 100000 <= dtol <= 1 / 24) by (clear - Hd; lra).
    pose proof (box_eps a b c Ba Bb Bc) as BE. pose proof (zinv_comm _ _ UI) as IU. pose proof (zinv_comm _ _ VI) as IV.
    assert (HB : boxed ls = true) by (unfold standard_edges in SE; destruct ls; try (exfalso; exact SE); reflexivity).
    destruct (own_edges dtol a b c d s u ui Hu UI EL Ba Bb Bc Da Db Dc) as (a0 & b0 & c0 & EL0 & PM & Ba0 & Bb0 & Bc0 & Da0 & Db0 & Dc0 & EV).
    destruct (entry_facts _ _ _ _ HT) as (sym0 & ES0 & G & EO & BO & _). rewrite ES in ES0. injection ES0 as <-. fold (group_ops sym codes) in G.
    assert (ID : forall x y, ZMmul x y = ZMid -> conj x ZMid y = ZMid).
    { intros x y H. apply MofZ_eq_from_action. intro z. now rewrite conj_app, MofZ_id, Mapp_id, (app_inv x y z H), Mapp_id. }
    assert (I1 : lattice_isometry (lattice s) ZMid) by (apply isometry_gram; now rewrite MofZ_id, Mmul_id_r).
    assert (NI : no_inner_translation dtol s).
    { apply (no_inner P HO dtol a0 b0 c0 fuel path s HP HF WF BIG EL0 Ba0 Bb0 Bc0 Hd' d SP Da0 Db0 Dc0 (lattice_isometry (lattice s))); [exact I1|exact RI|].
      intros t EX. destruct (proj1 (IFF ZMid t)) as (o & Ho & Er & Vt); [split; [exact I1|exact EX]|]. destruct (og_identity _ G) as (e & He & [E1 (k & E2)]). cbn [fst snd] in E1, E2.
      assert (Eo : fst o = ZMid). { apply (f_equal (fun r => conj vi r v)) in Er. rewrite conj_conj in Er by assumption. rewrite <- Er. now apply ID. }
      assert (o = e) by (apply (same_rot_same _ (og_rotations _ G)); [exact Ho|exact He|congruence]). subst o.
      destruct Vt as (m & ->). exists (ZVadd (ZMapp v k) m). rewrite VofZ_add, MofZ_app. f_equal. f_equal. rewrite E2. unfold in_twelfths, Vadd, VofZ. cbn [vx vy vz]. apply (@vec_ext R); cbn [vx vy vz]; rewrite ?plus_IZR, ?mult_IZR; lra. }
    destruct (many_stages P HO dtol a0 b0 c0 fuel path s HP HF WF BIG EL0 Ba0 Bb0 Bc0 Hd' NI) as (p & q & std & Tm & Pm & n & b' & A & B & C & Z1 & T0 & W & Wi & RUN).
    { intros W HW. apply (apart_mono (4 * dtol)); [lra|]. exact (std_apart P HO dtol a0 b0 c0 fuel path s HP HF WF BIG EL0 Ba0 Bb0 Bc0 Hd' d SP Da0 Db0 Dc0 W HW). }
    assert (PM1 : Permutation [a0 * a0; b0 * b0; c0 * c0] [a * a; b * b; c * c]) by (apply Permutation_sym; exact (Permutation_map (fun x => x * x) PM)).
    assert (SE0 := SE). rewrite <- EV in SE0.
    destruct (run_standard P HO dtol a0 b0 c0 fuel path s Ba0 Bb0 Bc0 _ _ _ _ _ _ _ _ _ _ _ _ _ _ RUN ls a b c PM1 SE0) as (EB & GS & _ & LS). subst b'.
    pose proof (run_W _ _ _ _ _ _ _ _ _ _ _ _ _ _ _ _ _ _ _ _ _ _ _ RUN) as HW. pose proof (run_inv _ _ _ _ _ _ _ _ _ _ _ _ _ _ _ _ _ _ _ _ _ _ _ RUN) as WI. pose proof (zinv_comm _ _ WI) as IW.
    pose proof (run_std _ _ _ _ _ _ _ _ _ _ _ _ _ _ _ _ _ _ _ _ _ _ _ RUN) as LW. pose proof (run_det _ _ _ _ _ _ _ _ _ _ _ _ _ _ _ _ _ _ _ _ _ _ _ RUN) as DS.
    rewrite LW in GS. pose proof (std_holo ls _ a b c (lattice s) W Wi ltac:(lra) ltac:(lra) ltac:(lra) (proj1 BE) SE GS WI) as H1.
    (* the group along the standard axes *)
    set (k := ZMmul vi W). set (ki := ZMmul Wi v).
    assert (KKI : ZMmul k ki = ZMid). { apply MofZ_eq_from_action. intro x. unfold k, ki. rewrite !MofZ_mul, !Mapp_Mmul, (app_inv W Wi _ WI), (app_inv vi v _ IV), MofZ_id, Mapp_id. reflexivity. }
    assert (Hk : In k signed) by (apply signed_mul; [exact (signed_inv _ _ Hv VI)|exact HW]).
    pose proof (signed_transpose k ki Hk KKI) as TK. pose proof (zinv_comm _ _ KKI) as IKK.
    set (l := map (conj_op k) (group_ops sym codes)).
    assert (CK : forall r, conj ki r k = conj Wi (conj v r vi) W) by (intro r; apply MofZ_eq_from_action; intro x; unfold k, ki; rewrite !conj_app, !MofZ_mul, !Mapp_Mmul; reflexivity).
    assert (CW : forall r, conj W (conj ki r k) Wi = conj v r vi) by (intro r; rewrite CK; now apply conj_conj).
    assert (TW : forall x, Mapp (MofZ W) (Mapp (MofZ ki) x) = Mapp (MofZ v) x) by (intro x; unfold ki; rewrite MofZ_mul, Mapp_Mmul, (app_inv W Wi _ WI); reflexivity).
    assert (CO : forall o, conj_op k o = (conj ki (fst o) k, ZMapp ki (snd o))) by (intro o; unfold conj_op; now rewrite <- TK).
    assert (T12 : forall o : zop, in_twelfths (ZMapp ki (snd o)) = Mapp (MofZ ki) (in_twelfths (snd o))) by (intro o; symmetry; apply MofZ_V12).
    assert (LH : forall o, In o (group_ops sym codes) -> In (conj ki (fst o) k) (holo_rots (box_bravais ls)) /\ exact_operation (sites_of std) (conj ki (fst o) k) (Mapp (MofZ ki) (in_twelfths (snd o)))).
    { intros o Ho. destruct (proj2 (IFF (conj v (fst o) vi) (Mapp (MofZ v) (in_twelfths (snd o))))) as [X1 X2]; [exists o; split; [exact Ho|split; [reflexivity|apply Vcongr_refl]]|].
      split; [apply H1; now rewrite CW|]. apply (run_exact P HO dtol a0 b0 c0 fuel path s _ _ _ _ _ _ _ _ _ _ _ _ _ _ RUN). now rewrite CW, TW. }
    assert (LL : forall x, In x l -> exists o, In o (group_ops sym codes) /\ x = (conj ki (fst o) k, ZMapp ki (snd o))).
    { intros x Hx. apply in_map_iff in Hx. destruct Hx as (o & <- & Ho). exists o. split; [exact Ho|apply CO]. }
    assert (LI : forall o, In o (group_ops sym codes) -> In (conj ki (fst o) k, ZMapp ki (snd o)) l) by (intros o Ho; rewrite <- CO; now apply in_map).
    assert (LN : NoDup (map fst l)).
    { assert (EM : map fst l = map (fun r => conj ki r k) (map fst (group_ops sym codes))) by (unfold l; rewrite !map_map; apply map_ext; intro o; rewrite CO; reflexivity). rewrite EM.
      apply PSearch3.NoDup_map_on; [exact (og_rotations _ G)|]. intros r1 r2 _ _ E. apply (f_equal (fun r => conj k r ki)) in E. now rewrite !conj_conj in E. }
    assert (SI : incl (holo_rots (box_bravais ls)) signed). { intros r Hr. destruct (holo_closed ls r HB Hr) as (_ & X & _). exact X. }
    assert (RIG : rigid (2 * dtol) (lattice std) (sites_of std) (fun r => In r (holo_rots (box_bravais ls)))).
    { exact (run_rigid P HO dtol a0 b0 c0 fuel path s RI _ _ _ _ _ _ _ _ _ _ _ _ _ _ RUN H1). }
    destruct (@standard_searched HO std dtol fuel (1%nat :: path) (box_bravais ls) HF) with (l := l) as (gens & Q1 & Q2 & FWD & BWD); auto.
    { exact (run_len _ _ _ _ _ _ _ _ _ _ _ _ _ _ _ _ _ _ _ _ _ _ _ RUN). } { exact (run_big _ _ _ _ _ _ _ _ s WF BIG _ _ _ _ _ _ _ _ _ _ _ _ _ _ RUN). } { exact (run_grouped _ _ _ _ _ _ _ _ _ _ _ _ _ _ _ _ _ _ _ _ _ _ _ RUN). }
    { intros i Hi. exact (run_fine' P HO dtol a0 b0 c0 fuel path s EL0 Ba0 Bb0 Bc0 Hd' _ _ _ _ _ _ _ _ _ _ _ _ _ _ RUN i Hi). }
    { exact (run_apart P HO dtol a0 b0 c0 fuel path s HP HF WF BIG EL0 Ba0 Bb0 Bc0 Hd' d SP Da0 Db0 Dc0 _ _ _ _ _ _ _ _ _ _ _ _ _ _ RUN). }
    { intros x Hx. destruct (LL x Hx) as (o & Ho & ->). cbn [fst snd]. rewrite T12. now apply LH. }
    { intros r t Hr EX. apply (run_exact P HO dtol a0 b0 c0 fuel path s _ _ _ _ _ _ _ _ _ _ _ _ _ _ RUN) in EX. apply H1 in Hr. destruct (proj1 (IFF _ _) (Logic.conj Hr EX)) as (o & Ho & E1 & V1).
      exists (conj ki (fst o) k, ZMapp ki (snd o)). split; [now apply LI|]. cbn [fst snd]. split.
      - rewrite CK, <- E1. symmetry. now apply conj_conj.
      - rewrite T12. apply (PEnd11.Vcongr_app Wi) in V1. rewrite (app_inv Wi W t IW) in V1. unfold ki. now rewrite MofZ_mul, Mapp_Mmul. }
    apply info_stages in EI.
    destruct EI as (p0 & q0 & std0 & Tm0 & Pm0 & ch0 & b0' & gens0 & sg & ls0 & m1 & m2 & i1 & i2 & S0 & _ & J1 & J2 & J3 & J4 & _).
    pose proof (rn_stages _ _ _ _ _ _ _ _ _ _ _ _ _ _ _ _ _ _ _ _ _ _ _ RUN) as STG.
    destruct STG as [A1 A2 A3 A4 (c1 & A5 & A6)]. destruct S0 as [S1 S2 S3 S4 (c2 & S5 & S6)]. rewrite A1 in S1. injection S1 as <-. rewrite A2 in S2. injection S2 as <-. rewrite A3 in S3. injection S3 as <- <-.
    rewrite A4 in S4. injection S4 as <- <-. rewrite A5 in S5. injection S5 as <-. rewrite A6 in S6. injection S6 as <-.
    rewrite Q1 in J1. injection J1 as <-. rewrite LS in J3. injection J3 as <-.
    assert (LLEN : List.length l = List.length codes) by (unfold l, group_ops; now rewrite !map_length).
    destruct (contains_exactly HO (2%nat :: path) (@frac_tols_of RNum (lattice std) dtol) l gens sg fuel ls N' sym') as (ZC & codes' & HT' & ES' & C1 & C2); auto; try (clear - HF; lia).
    { intros i Hi. assert (F : 1 <= Vnorm (Ccol (lattice std) i) <= 1000).
      { rewrite LW. split; [exact (box_columns _ a b c i GS (proj1 Ba) (proj1 Bb) (proj1 Bc) Hi)|exact (many_col a0 b0 c0 s EL0 Ba0 Bb0 Bc0 W i HW Hi)]. }
      assert (GG : forall m, 1 <= m <= 1000 -> 9 / 1000000000 < dtol / m <= 1 / 25).
      { intros m Hm. split; [apply (Rmult_lt_reg_r m); [lra|]; replace (dtol / m * m) with dtol by (field; lra); lra|apply (Rmult_le_reg_r m); [lra|]; replace (dtol / m * m) with dtol by (field; lra); lra]. }
      destruct i as [|[|[|i]]]; [| | |lia]; [change (9 / 1000000000 < dtol / Vnorm (Ccol (lattice std) 0) <= 1 / 25)|change (9 / 1000000000 < dtol / Vnorm (Ccol (lattice std) 1) <= 1 / 25)|change (9 / 1000000000 < dtol / Vnorm (Ccol (lattice std) 2) <= 1 / 25)]; now apply GG. }
    { intros x Hx. destruct (LL x Hx) as (o & Ho & ->). cbn [fst]. apply small_unit. destruct (signed_facts _ (SI _ (proj1 (LH o Ho)))) as (_ & X & _). exact X. }
    { rewrite LLEN. clear - EO BO. lia. }
    { intros x y Hx Hy. destruct (LL x Hx) as (o & Ho & ->). destruct (LL y Hy) as (o2 & Ho2 & ->). destruct (og_closed _ G o o2 Ho Ho2) as (o3 & Ho3 & E3 & _). exists (conj ki (fst o3) k, ZMapp ki (snd o3)). split; [now apply LI|]. cbn [fst].
      assert (EP : ZMmul (conj ki (fst o) k) (conj ki (fst o2) k) = conj ki (fst o3) k).
      { apply MofZ_eq_from_action. intro z. unfold compose in E3. cbn [fst] in E3. rewrite E3, MofZ_mul, Mapp_Mmul, !conj_app, (app_inv k ki _ KKI), MofZ_mul, Mapp_Mmul. reflexivity. }
      rewrite i8_mmul_eq; [exact EP|]. rewrite EP. apply unit_rot_i8. destruct (signed_facts _ (SI _ (proj1 (LH o3 Ho3)))) as (_ & X & _). exact X. }
    assert (HRN : forall o, In o (group_ops sym codes) -> In (fst o) (holo_rots (box_bravais ls))).
    { clear - LH TK HT ES HB Hk. pose proof (proj1 (forallb_forall _ _) kept_inside_checked _ HT) as Q. cbv beta iota in Q. rewrite HB in Q.
      assert (EO : entry_ops N codes = Some (group_ops sym codes)) by (unfold entry_ops; rewrite ES; reflexivity). rewrite EO in Q. cbv zeta in Q.
      destruct (all_if (fun o => mem_rot (fst o) (holo_rots (box_bravais ls))) (group_ops sym codes)) eqn:EA.
      - intros o Ho. apply mem_rot_In. rewrite all_if_forallb in EA. exact (proj1 (forallb_forall _ _) EA o Ho).
      - exfalso. pose proof (proj1 (forallb_forall _ _) Q k Hk) as K. cbn beta in K. clear Q EA. apply negb_true_iff in K. rewrite all_if_forallb in K. apply not_true_iff_false in K. apply K. clear K.
        apply forallb_forall. intros o Ho. unfold mem_rot. rewrite ex_if_existsb. apply existsb_exists. exists (conj ki (fst o) k). split; [now apply LH|]. apply zmat_eqb_spec. now rewrite TK. }
    pose proof (closed_elsewhere ls order N codes sym k HB HT ES HRN Hk ZC) as NC. split; [exact NC|].
    rewrite LLEN, <- EO in HT'. pose proof (only_elsewhere ls order N codes sym k HB HT ES HRN Hk N' codes' sym' NC HT' ES' C1) as ON. split; [exact ON|].
    exists codes'. split; [exact HT'|]. split; [exact ES'|].
    (* from the standard axes to those of [u] *)
    set (h := ZMmul ui W). set (hi := ZMmul Wi u).
    assert (HHI : ZMmul h hi = ZMid). { apply MofZ_eq_from_action. intro x. unfold h, hi. rewrite !MofZ_mul, !Mapp_Mmul, (app_inv W Wi _ WI), (app_inv ui u _ IU), MofZ_id, Mapp_id. reflexivity. }
    assert (Hh : In h (holo_rots (box_bravais ls))).
    { apply (iso_holo (Mmul (lattice s) (MofZ u)) ls _ a b c EL ltac:(lra) ltac:(lra) ltac:(lra) (proj1 BE) SE). apply isometry_gram. unfold h. rewrite Mmul_assoc, <- MofZ_mul.
      replace (ZMmul u (ZMmul ui W)) with W; [now rewrite GS, EL|]. apply MofZ_eq_from_action. intro x. now rewrite !MofZ_mul, !Mapp_Mmul, (app_inv u ui _ UI). }
    destruct (holo_closed ls h HB Hh) as (Hh' & Sh & _). pose proof (signed_transpose h hi Sh HHI) as TH. rewrite <- TH in Hh'.
    assert (TH' : transpose hi = h) by (rewrite TH; now destruct h).
    assert (HDET : ZMdet h = 1%Z /\ ZMdet hi = 1%Z).
    { assert (D1 : (ZMdet h * ZMdet hi = 1)%Z) by (rewrite <- ZMdet_mul, HHI; reflexivity).
      assert (D2 : (ZMdet W = ZMdet u * ZMdet h)%Z). { unfold h. rewrite ZMdet_mul, Z.mul_assoc, <- ZMdet_mul, UI. change (ZMdet ZMid) with 1%Z. ring. }
      rewrite LW, Mdet_mul, MofZ_det, D2, mult_IZR, <- Rmult_assoc in DS. assert (0 < ZMdet h)%Z by (apply lt_IZR; apply (Rmult_lt_reg_l (Mdet (lattice s) * IZR (ZMdet u))); lra). apply Z.mul_eq_1 in D1 as D3. split; lia. }
    assert (NC' : ~ In N' not_closed). { destruct ON as [->|[_ Q]]; [exact NC|]. clear - Q. unfold handed, not_closed in *. cbn [In] in *. lia. }
    assert (HRN' : forall o, In o (group_ops sym' codes') -> In (fst o) (holo_rots (box_bravais ls))).
    { intros o Ho. destruct (C2 o Ho) as (x & Hx & E & _). rewrite <- E. destruct (LL x Hx) as (o1 & Ho1 & ->). cbn [fst]. now apply LH. }
    assert (UW : ZMmul u h = W) by (apply MofZ_eq_from_action; intro x; unfold h; now rewrite !MofZ_mul, !Mapp_Mmul, (app_inv u ui _ UI)).
    (* an operation along the standard axes, and the same along u *)
    assert (ST : forall o o1 o', same_op (conj ki (fst o) k, ZMapp ki (snd o)) o1 -> same_op (conj_op hi o1) o' ->
      conj v (fst o) vi = conj u (fst o') ui /\ Vcongr (Mapp (MofZ v) (in_twelfths (snd o))) (Mapp (MofZ u) (in_twelfths (snd o')))).
    { intros o o1 o' X1 X2. apply same_op_V12 in X1, X2. unfold conj_op in X2. cbn [fst snd] in X1, X2. rewrite TH' in X2. destruct X1 as [R1 V1]. destruct X2 as [R2 V2]. split.
      - rewrite <- R2, <- R1. apply MofZ_eq_from_action. intro x. rewrite !conj_app. unfold h, hi, k, ki. rewrite !MofZ_mul, !Mapp_Mmul, !(app_inv u ui _ UI), !(app_inv W Wi _ WI). reflexivity.
      - rewrite T12 in V1. apply (PEnd11.Vcongr_app W) in V1. rewrite TW in V1. apply (PSymmOp.Vcongr_trans _ _ _ V1). apply (PEnd11.Vcongr_app u) in V2.
        change (in_twelfths (ZMapp h (snd o1))) with (V12 (ZMapp h (snd o1))) in V2. rewrite <- MofZ_V12, <- Mapp_Mmul, <- MofZ_mul, UW in V2. exact V2. }
    assert (INV : forall o1, In o1 (group_ops sym' codes') -> exists o', In o' (group_ops sym' codes') /\ same_op (conj_op hi o1) o').
    { intros o1 Ho1. exact (table_invariant ls order N' codes' sym' hi o1 HB HT' ES' NC' HRN' Hh' (or_introl (proj2 HDET)) Ho1). }
    split.
    - intros o Ho. destruct (C1 _ (LI o Ho)) as (o1 & Ho1 & X1). destruct (INV o1 Ho1) as (o' & Ho' & X2). exists o'. split; [exact Ho'|]. exact (ST o o1 o' X1 X2).
    - intros o' Ho'. destruct (table_invariant ls order N' codes' sym' h o' HB HT' ES' NC' HRN' Hh (or_introl (proj1 HDET)) Ho') as (o1 & Ho1 & X2).
      destruct (C2 o1 Ho1) as (x & Hx & X1). destruct (LL x Hx) as (o & Ho & ->). exists o. split; [exact Ho|]. destruct (INV o1 Ho1) as (o2 & Ho2 & X3). destruct (ST o o1 o2 X1 X3) as (Y1 & Y2).
      assert (o2 = o').
      { destruct (entry_facts _ _ _ _ HT') as (sym2 & ES2 & G2 & _). rewrite ES' in ES2. injection ES2 as <-. fold (group_ops sym' codes') in G2. apply (same_rot_same _ (og_rotations _ G2)); auto.
        rewrite <- (proj1 X3). unfold conj_op at 1. cbn [fst]. rewrite <- (proj1 X2). unfold conj_op. cbn [fst]. rewrite TH', <- TH. apply conj_conj; [exact (zinv_comm _ _ HHI)|exact HHI]. }
      subst o2. split; [exact Y1|exact Y2].
  Qed.
End Meaning.
