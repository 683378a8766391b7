(** A crystal showing a tabulated group in its tabulated setting is identified as that group (analyzer.rs 36-82, 164-283). *)
From Coq Require Import ZArith Reals String Ascii List Bool Lia Lra Permutation.
From Verif Require Import Num Mat Utils DataCore DataPG DataSG SymmOp PointGroup SpaceGroup Structure Reduce Analyzer RInst Spec Spec2 Spec3 RFacts
  PUtils PSymmOp PPointGroup PPointGroup2 PSpaceGroup PSpaceGroup2 PAnalyzer2 PCode PTables PIdentify PStructure PSearch PSearch2 PSearch3 PSearch4 PSearch5.
Import ListNotations.
Open Scope R_scope.

Lemma V12_inj s t : V12 s = V12 t -> s = t.
Proof. destruct s as [a b c], t as [a' b' c']. unfold V12. cbn. intro E. injection E as E1 E2 E3. f_equal; apply eq_IZR; lra. Qed.
Lemma zcands_codes isa codes l : (forall c, In c codes -> (0 <= c)%Z) -> zcands isa codes = Some l -> l = map (code_op isa) codes.
Proof.
  intros HC E. apply zcands_R in E. rewrite candidates in E by exact HC. injection E as E. revert E. generalize (map (code_op isa) codes). intro l'.
  revert l. induction l' as [|[r t] l' IH]; intros [|[r2 t2] l] E; try discriminate; [reflexivity|]. cbn [map] in E. injection E as E1 E2 E3 E4 E5. f_equal; [|now apply IH].
  f_equal; [symmetry; exact E1|]. apply V12_inj. unfold V12. cbn [vx vy vz snd] in *. now rewrite E2, E3, E4.
Qed.
Definition small_rot (r : mat Z) : bool :=
  forallb (fun x => Z.abs x <=? 2)%Z [m11 r; m12 r; m13 r; m21 r; m22 r; m23 r; m31 r; m32 r; m33 r].
Definition small_check (e : lattice_system * Z * Z * list Z) : bool :=
  let '(_, _, n, codes) := e in
  match entry_ops n codes with Some l => forallb (fun o => small_rot (fst o)) l | None => false end.
Lemma small_checked : forallb small_check sg_entries = true.
Proof. vm_compute. reflexivity. Qed.
Lemma table_small ls order n codes sym c : In (ls, order, n, codes) sg_entries -> am_get Z.eqb n SG_NUM_TO_SYMBOL = Some sym ->
  In c (group_ops sym codes) -> small_rot (fst c) = true.
Proof.
  intros HI ES Hc. pose proof (proj1 (forallb_forall _ _) small_checked _ HI) as Q. unfold small_check, entry_ops in Q. rewrite ES in Q.
  exact (proj1 (forallb_forall _ _) Q c Hc).
Qed.

(** ** Rounding of translations through a product *)
Lemma row_nano (r1 r2 r3 : Z) (u1 u2 u3 w x1 x2 x3 y : R) (n1 n2 n3 n : Z) : (Z.abs r1 <= 2)%Z -> (Z.abs r2 <= 2)%Z -> (Z.abs r3 <= 2)%Z ->
  Rabs (u1 - x1 - IZR n1) <= 1 / 1000000000 -> Rabs (u2 - x2 - IZR n2) <= 1 / 1000000000 -> Rabs (u3 - x3 - IZR n3) <= 1 / 1000000000 ->
  Rabs (w - y - IZR n) <= 1 / 1000000000 ->
  Rabs (IZR r1 * u1 + IZR r2 * u2 + IZR r3 * u3 + w - (IZR r1 * x1 + IZR r2 * x2 + IZR r3 * x3 + y) - IZR (r1 * n1 + r2 * n2 + r3 * n3 + n)) <= 7 / 1000000000.
Proof.
  intros B1 B2 B3 H1 H2 H3 H4. rewrite !plus_IZR, !mult_IZR.
  assert (G : forall r d, (Z.abs r <= 2)%Z -> Rabs d <= 1 / 1000000000 -> Rabs (IZR r * d) <= 2 / 1000000000).
  { intros r d Hr Hd. rewrite Rabs_mult, <- abs_IZR. apply IZR_le in Hr. pose proof (Rabs_pos d). pose proof (IZR_le 0 (Z.abs r) ltac:(lia)). nra. }
  pose proof (G _ _ B1 H1) as G1. pose proof (G _ _ B2 H2) as G2. pose proof (G _ _ B3 H3) as G3.
  replace (IZR r1 * u1 + IZR r2 * u2 + IZR r3 * u3 + w - (IZR r1 * x1 + IZR r2 * x2 + IZR r3 * x3 + y) - (IZR r1 * IZR n1 + IZR r2 * IZR n2 + IZR r3 * IZR n3 + IZR n))
    with (IZR r1 * (u1 - x1 - IZR n1) + IZR r2 * (u2 - x2 - IZR n2) + IZR r3 * (u3 - x3 - IZR n3) + (w - y - IZR n)) by ring.
  eapply Rle_trans; [apply Rabs_triang|]. eapply Rle_trans; [apply Rplus_le_compat_r, Rabs_triang|].
  eapply Rle_trans; [apply Rplus_le_compat_r, Rplus_le_compat_r, Rabs_triang|]. lra.
Qed.
Definition nanos (d : R) (u v : vec R) : Prop := exists n : vec Z,
  Rabs (vx u - vx v - IZR (vx n)) <= d /\ Rabs (vy u - vy v - IZR (vy n)) <= d /\ Rabs (vz u - vz v - IZR (vz n)) <= d.
Lemma nanos_sym d u v : nanos d u v -> nanos d v u.
Proof.
  assert (G : forall x y n, Rabs (x - y - IZR n) <= d -> Rabs (y - x - IZR (- n)) <= d).
  { intros x y n Q. rewrite opp_IZR. replace (y - x - - IZR n) with (- (x - y - IZR n)) by ring. now rewrite Rabs_Ropp. }
  intros (n & X & Y & Z). exists (zneg n). unfold zneg. cbn [vx vy vz]. auto.
Qed.
Lemma nanos_trans d d' u v w : nanos d u v -> nanos d' v w -> nanos (d + d') u w.
Proof.
  assert (G : forall x y z n m, Rabs (x - y - IZR n) <= d -> Rabs (y - z - IZR m) <= d' -> Rabs (x - z - IZR (n + m)) <= d + d').
  { intros x y z n m A B. rewrite plus_IZR. replace (x - z - (IZR n + IZR m)) with ((x - y - IZR n) + (y - z - IZR m)) by ring. eapply Rle_trans; [apply Rabs_triang|lra]. }
  intros (n & X & Y & Z) (m & X' & Y' & Z'). exists (ZVadd n m). unfold ZVadd. cbn [vx vy vz].
  split; [|split]; eapply G; eassumption.
Qed.
Lemma nanos_near d t u v : d < vx t -> d < vy t -> d < vz t -> nanos d u v -> near3 t u v.
Proof. intros A B C (n & X & Y & Z). repeat split; eexists; eapply Rle_lt_trans; eauto. Qed.
Lemma nanos_congr u v : Vcongr u v -> nanos 0 u v.
Proof.
  intros (n & ->). exists n. unfold Vadd, VofZ. cbn [vx vy vz].
  repeat split; (rewrite (Rabs_right 0) || idtac); match goal with |- Rabs ?e <= 0 => replace e with 0 by ring end; rewrite Rabs_R0; lra.
Qed.
Lemma small_rot_spec r : small_rot r = true -> (Z.abs (m11 r) <= 2 /\ Z.abs (m12 r) <= 2 /\ Z.abs (m13 r) <= 2 /\ Z.abs (m21 r) <= 2 /\
  Z.abs (m22 r) <= 2 /\ Z.abs (m23 r) <= 2 /\ Z.abs (m31 r) <= 2 /\ Z.abs (m32 r) <= 2 /\ Z.abs (m33 r) <= 2)%Z.
Proof. unfold small_rot. cbn [forallb]. rewrite !andb_true_iff, !Z.leb_le. tauto. Qed.
Lemma product_nano r u w x y : small_rot r = true -> nanos (1 / 1000000000) u x -> nanos (1 / 1000000000) w y ->
  nanos (7 / 1000000000) (Vadd (Mapp (MofZ r) u) w) (Vadd (Mapp (MofZ r) x) y).
Proof.
  intros S (n & X & Y & Z) (m & X' & Y' & Z'). apply small_rot_spec in S. destruct S as (S1 & S2 & S3 & S4 & S5 & S6 & S7 & S8 & S9).
  exists (ZVadd (ZMapp r n) m). destruct r as [a b c d e f g h i]. unfold Vadd, Mapp, MofZ, ZVadd, ZMapp, mmap in *.
  cbn [vx vy vz m11 m12 m13 m21 m22 m23 m31 m32 m33] in *.
  split; [|split]; apply row_nano; assumption.
Qed.

Section Table.
  Context (l : list zop).
  Hypothesis LC : zclosed l = true.
  Hypothesis LS : forall c, In c l -> small_rot (fst c) = true.
  Context (tols : vec R) (ops : list sop).
  Hypothesis T1 : 9 / 1000000000 < vx tols <= / 2.
  Hypothesis T2 : 9 / 1000000000 < vy tols <= / 2.
  Hypothesis T3 : 9 / 1000000000 < vz tols <= / 2.
  Hypothesis FWD : forall op, In op ops -> exists c, In c (l) /\ rotation op = fst c /\ nanos (1 / 1000000000) (translation op) (V12 (snd c)).
  Hypothesis BWD : forall c, In c (l) -> exists op, In op ops /\ rotation op = fst c /\ nanos (1 / 1000000000) (translation op) (V12 (snd c)).
  Lemma closed_unchanged fuel : @from_generators RNum (S fuel) ops tols = Ok ops.
  Proof.
    assert (Ht : tols_ok tols) by (repeat split; lra).
    unfold from_generators. destruct ops as [|x0 l0] eqn:EO; [reflexivity|]. rewrite <- EO in *. cbn [sg_rounds].
    rewrite (fold_unchanged tols); auto.
    - rewrite EO. destruct fuel; reflexivity.
    - intros [a b] Hp. apply In_iproduct in Hp. destruct Hp as [Ha Hb]. cbn [fst snd].
      destruct (FWD a Ha) as (ca & Hca & Ra & Na). destruct (FWD b Hb) as (cb & Hcb & Rb & Nb).
      unfold zclosed in LC. pose proof (proj1 (forallb_forall _ _) LC ca Hca) as Q. cbn beta in Q.
      pose proof (proj1 (forallb_forall _ _) Q cb Hcb) as Q2. cbv beta zeta in Q2. rewrite ex_if_existsb in Q2. apply existsb_exists in Q2.
      destruct Q2 as (cs & Hcs & E). destruct (BWD cs Hcs) as (op & Hop & Ro & No). exists op. split; [exact Hop|].
      rewrite zop_eq_and, andb_true_iff in E. destruct E as [E1 E2]. apply zmat_eqb_spec in E1. split.
      + rewrite Ro, E1. unfold op_mul, zop_mul. cbn [rotation fst]. now rewrite Ra, Rb.
      + apply (nanos_near (8 / 1000000000)); [lra..|]. replace (8 / 1000000000) with (1 / 1000000000 + 7 / 1000000000) by lra.
        apply (nanos_trans _ _ _ (V12 (snd cs))); [exact No|].
        replace (7 / 1000000000) with (0 + 7 / 1000000000) by lra.
        apply (nanos_trans _ _ _ (V12 (snd (zop_mul ca cb)))).
        * apply nanos_congr. apply congr12_eq12 in E2. destruct E2 as [m E2]. rewrite E2. exists m. unfold V12, Vadd, VofZ. cbn [vx vy vz].
          rewrite !plus_IZR, !mult_IZR. f_equal; field.
        * apply nanos_sym. unfold op_mul. cbn [translation]. rewrite mcast_R, mvmul_R, vadd_R, Rb.
          replace (V12 (snd (zop_mul ca cb))) with (Vadd (Mapp (MofZ (fst cb)) (V12 (snd ca))) (V12 (snd cb))).
          -- apply product_nano; [exact (LS cb Hcb)|exact Na|exact Nb].
          -- unfold zop_mul. cbn [snd]. rewrite MofZ_V12. unfold V12, Vadd, ZVadd. cbn [vx vy vz]. rewrite !plus_IZR. f_equal; field.
  Qed.
End Table.
Lemma table_closed ls order N codes sym : In (ls, order, N, codes) sg_entries -> am_get Z.eqb N SG_NUM_TO_SYMBOL = Some sym -> ~ In N not_closed ->
  zclosed (group_ops sym codes) = true.
Proof.
  intros HT ES NC. destruct (table_entry _ _ _ _ HT) as (sym' & l & ES' & EL & EC). rewrite ES in ES'. injection ES' as <-. apply EC in NC.
  replace (group_ops sym codes) with l; [exact NC|].
  apply zcands_codes; [|exact EL]. intros c Hc. destruct (proj1 (sg_entries_In _ _ _ _) HT) as (bk & gr & H1 & H2 & H3).
  apply (codes_range _ _ _ _ _ _ _ H1 H2 H3 Hc).
Qed.

(** ** The rotations searched *)
Definition holo_rots (b : bravais) : list (mat Z) :=
  match prim_block b with Some (n, (blk, _)) => map (zconj blk) (pg_table n) | None => [] end.
Lemma holo_rots_spec {H : HashOrd} fuel path b n c P Pi pg : (48 <= fuel)%nat ->
  am_get bravais_eqb b BRAVAIS_TO_HOLOHEDRY_NUM = Some n -> bravais_centering b = Ok c -> @prim_trans_of RNum c = Some P -> inverse_of P Pi ->
  pg_from_number fuel path n = Ok pg ->
  forall r, (exists h, In h (pg_operations pg) /\ Mmul (Mmul Pi (MofZ h)) P = MofZ r) <-> In r (holo_rots b).
Proof.
  intros HF En Ec EP HI Epg r. pose proof (proj1 (forallb_forall _ _) holo_all b (all_bravais_In b)) as C.
  unfold holo_check in C. unfold holo_rots. destruct (prim_block b) as [[n' [blk d]]|] eqn:EB; [|discriminate].
  rewrite !andb_true_iff, !Z.leb_le in C. destruct C as (((((C1 & C2) & C3) & C4) & C5) & C6).
  destruct (prim_trans_block _ _ _ _ EB) as (En' & c' & Ec' & EP'). rewrite En in En'. injection En' as <-. rewrite Ec in Ec'. injection Ec' as <-.
  rewrite EP in EP'. injection EP' as EP'.
  destruct (pg_from_number_spec fuel path n HF ltac:(lia)) as (s & g & ops & o & E1 & _ & _ & Pm & _). rewrite Epg in E1. injection E1 as ->. cbn [pg_operations].
  assert (CR : forall h, In h ops -> conj_rel P Pi h (zconj blk h)).
  { intros h Hh. pose proof (proj1 (forallb_forall _ _) C5 h) as Q. unfold conjb in Q. rewrite andb_true_iff, zmat_eqb_spec in Q.
    destruct Q as [Q _]; [exact (Permutation_in _ (Permutation_sym Pm) Hh)|]. rewrite EP' in *. now apply conj_from_block. }
  rewrite in_map_iff. split.
  - intros (h & Hh & E). exists h. split; [|exact (Permutation_in _ (Permutation_sym Pm) Hh)]. apply MofZ_inj. rewrite <- E. symmetry. exact (CR h Hh).
  - intros (h & E & Hh). exists h. pose proof (Permutation_in _ Pm Hh) as Hh'. split; [exact Hh'|]. subst r. exact (CR h Hh').
Qed.

Section Standard.
  Context {H : HashOrd} (s : @structure RNum) (dtol : R) (fuel : nat) (path : list nat) (b : bravais).
  Hypothesis HF : (48 <= fuel)%nat.
  Hypothesis WF : List.length (frac_coords s) = List.length (species s).
  Hypothesis BIG : (0 < Z.of_nat (List.length (species s)) <= 65535)%Z.
  Hypothesis GR : grouped (species s).
  Hypothesis fine : forall k, (k < 3)%nat -> 1 / 100000000 * Vnorm (Ccol (lattice s) k) <= dtol /\ 24 * dtol <= Vnorm (Ccol (lattice s) k) /\
                                              0 < Vnorm (Ccol (lattice s) k).
  Let sites : list (vec R * string) := combine (frac_coords s) (species s).
  Hypothesis SEP : sites_apart (4 * dtol) (lattice s) sites.
  Hypothesis RIG : rigid (2 * dtol) (lattice s) sites (fun r => In r (holo_rots b)).
  Context (l : list zop).
  Hypothesis LN : NoDup (map fst l).
  Hypothesis LC : zclosed l = true.
  Hypothesis LS : forall c, In c l -> small_rot (fst c) = true.
  Hypothesis HAS : forall o, In o l -> In (fst o) (holo_rots b) /\ exact_operation sites (fst o) (in_twelfths (snd o)).
  Hypothesis ONLY : forall r t, In r (holo_rots b) -> exact_operation sites r t ->
    exists o, In o l /\ r = fst o /\ Vcongr t (in_twelfths (snd o)).
  Notation ft := (@frac_tols_of RNum (lattice s) dtol).
  Lemma dtol_pos : 0 < dtol.
  Proof using fine. clear - fine. destruct (fine 0 ltac:(lia)) as (A & B & C). lra. Qed.
  Lemma ft_24 : forall k, (k < 3)%nat -> 9 / 1000000000 < vnth ft k <= 1 / 24.
  Proof using fine. clear - fine.
    assert (G : forall n, 0 < n -> 1 / 100000000 * n <= dtol -> 24 * dtol <= n -> 9 / 1000000000 < dtol / n <= 1 / 24).
    { intros n Hn A B. split.
      - apply (Rmult_lt_reg_r n); [exact Hn|]. replace (dtol / n * n) with dtol by (field; lra). lra.
      - apply (Rmult_le_reg_r n); [exact Hn|]. replace (dtol / n * n) with dtol by (field; lra). lra. }
    intros k Hk. destruct k as [|[|[|k]]]; [| | |lia].
    - change (9 / 1000000000 < dtol / Vnorm (Ccol (lattice s) 0) <= 1 / 24). destruct (fine 0 Hk) as (A & B & C). now apply G.
    - change (9 / 1000000000 < dtol / Vnorm (Ccol (lattice s) 1) <= 1 / 24). destruct (fine 1 Hk) as (A & B & C). now apply G.
    - change (9 / 1000000000 < dtol / Vnorm (Ccol (lattice s) 2) <= 1 / 24). destruct (fine 2 Hk) as (A & B & C). now apply G.
  Qed.
  Lemma ft_half k : (k < 3)%nat -> 9 / 1000000000 < vnth ft k <= / 2.
  Proof using fine. intro Hk. destruct (ft_24 k Hk) as [A B]. split; [exact A|]. eapply Rle_trans; [exact B|lra]. Qed.
  Lemma ft_id k : (k < 3)%nat -> 0 < vnth ft k <= 1 / 24.
  Proof using fine. intro Hk. destruct (ft_24 k Hk) as [A B]. split; [|exact B]. eapply Rlt_trans; [|exact A]. lra. Qed.
  Lemma ft_nano k : (k < 3)%nat -> 1 / 1000000000 < vnth ft k.
  Proof using fine. intro Hk. destruct (ft_24 k Hk) as [A B]. eapply Rlt_trans; [|exact A]. lra. Qed.
  Lemma standard_found : exists ops, @get_primitive_space_group_ops RNum H fuel path dtol s b = Ok ops /\ @from_generators RNum fuel ops ft = Ok ops /\
    List.length ops = List.length l /\ NoDup (map (@rotation RNum) ops) /\
    (forall op, In op ops -> exists o, In o l /\ rotation op = fst o /\ nanos (1 / 1000000000) (translation op) (V12 (snd o))) /\
    (forall o, In o l -> exists op, In op ops /\ rotation op = fst o /\ nanos (1 / 1000000000) (translation op) (V12 (snd o))).
  Proof.
    pose proof dtol_pos as DP.
    destruct (search_exact s dtol fuel path b HF WF BIG GR) as (n & c & P & Pi & pg & ops & En & Ec & EP & HI & Epg & E & Q).
    - intros k Hk. destruct (fine k Hk) as (A & B & C). lra.
    - exact SEP.
    - intros k Hk. destruct (fine k Hk) as (A & B & C). lra.
    - intros k Hk. destruct (fine k Hk) as (A & B & C). lra.
    - pose proof (holo_rots_spec fuel (0%nat :: path) b n c P Pi pg HF En Ec EP HI Epg) as HR. cbv zeta in Q.
      destruct Q as (Q1 & Q2 & Q3 & Q4).
      { intros r t Hr. apply HR in Hr. now apply RIG. }
      assert (FWD : forall op, In op ops -> exists o, In o l /\ rotation op = fst o /\ nanos (1 / 1000000000) (translation op) (V12 (snd o))).
      { intros op Hop. destruct (Q2 op Hop) as (Hr & t & EX & N1). apply HR in Hr. destruct (ONLY _ _ Hr EX) as (o & Ho & Eo & Vo). exists o. split; [exact Ho|]. split; [exact Eo|].
        replace (1 / 1000000000) with (1 / 1000000000 + 0) by ring. apply (nanos_trans _ _ _ t); [exact N1|]. now apply nanos_congr. }
      assert (BWD : forall o, In o l -> exists op, In op ops /\ rotation op = fst o /\ nanos (1 / 1000000000) (translation op) (V12 (snd o))).
      { intros o Ho. destruct (HAS o Ho) as [Hr EX]. apply HR in Hr. exact (Q3 _ _ Hr EX). }
      assert (ND : NoDup (map (@rotation RNum) ops)).
      { apply NoDup_map_on; [exact Q1|]. intros a a' Ha Ha' Er. destruct (FWD a Ha) as (o & Ho & Eo & No). destruct (FWD a' Ha') as (o' & Ho' & Eo' & No').
        assert (o = o') by (apply (same_rot_same _ LN); [exact Ho|exact Ho'|congruence]). subst o'.
        destruct (HAS o Ho) as [_ EX]. apply (Q4 a a' (in_twelfths (snd o))); auto. now rewrite Eo. }
      exists ops. split; [exact E|]. split; [|split; [|split; [exact ND|split; [exact FWD|exact BWD]]]].
      { pose proof (ft_half 0 ltac:(lia)) as F0. pose proof (ft_half 1 ltac:(lia)) as F1. pose proof (ft_half 2 ltac:(lia)) as F2.
        clear - HF LC LS FWD BWD F0 F1 F2. destruct fuel as [|f]; [lia|]. apply (closed_unchanged l); auto. }
      apply Nat.le_antisymm.
      + rewrite <- (map_length (@rotation RNum)). replace (List.length l) with (List.length (map fst l)) by apply map_length.
        apply NoDup_incl_length; [exact ND|]. intros r Hr. apply in_map_iff in Hr. destruct Hr as (op & <- & Hop). destruct (FWD op Hop) as (o & Ho & Eo & _). rewrite Eo. now apply in_map.
      + rewrite <- (map_length (@rotation RNum) ops). replace (List.length l) with (List.length (map fst l)) by apply map_length.
        apply NoDup_incl_length; [exact LN|]. intros r Hr. apply in_map_iff in Hr. destruct Hr as (o & <- & Ho). destruct (BWD o Ho) as (op & Hop & Eo & _). rewrite <- Eo. now apply in_map.
  Qed.
End Standard.

Section Identified.
  Context {H : HashOrd} (s : @structure RNum) (dtol : R) (fuel : nat) (path : list nat) (b : bravais).
  Hypothesis HF : (48 <= fuel)%nat.
  Hypothesis WF : List.length (frac_coords s) = List.length (species s).
  Hypothesis BIG : (0 < Z.of_nat (List.length (species s)) <= 65535)%Z.
  Hypothesis GR : grouped (species s).
  Hypothesis fine : forall k, (k < 3)%nat -> 1 / 100000000 * Vnorm (Ccol (lattice s) k) <= dtol /\ 24 * dtol <= Vnorm (Ccol (lattice s) k) /\
                                              0 < Vnorm (Ccol (lattice s) k).
  Let sites : list (vec R * string) := combine (frac_coords s) (species s).
  Hypothesis SEP : sites_apart (4 * dtol) (lattice s) sites.
  Hypothesis RIG : rigid (2 * dtol) (lattice s) sites (fun r => In r (holo_rots b)).
  Context (ls : lattice_system) (order N : Z) (codes : list Z) (sym : string).
  Hypothesis HT : In (ls, order, N, codes) sg_entries.
  Hypothesis ES : am_get Z.eqb N SG_NUM_TO_SYMBOL = Some sym.
  Hypothesis NC : ~ In N not_closed.
  Hypothesis HAS : forall o, In o (group_ops sym codes) -> In (fst o) (holo_rots b) /\ exact_operation sites (fst o) (in_twelfths (snd o)).
  Hypothesis ONLY : forall r t, In r (holo_rots b) -> exact_operation sites r t ->
    exists o, In o (group_ops sym codes) /\ r = fst o /\ Vcongr t (in_twelfths (snd o)).
  Notation ft := (@frac_tols_of RNum (lattice s) dtol).
  Lemma standard_identified : exists ops, @get_primitive_space_group_ops RNum H fuel path dtol s b = Ok ops /\
    @from_generators RNum fuel ops ft = Ok ops /\ List.length ops = List.length codes /\ NoDup (map (@rotation RNum) ops) /\
    (forall path', @identify_space_group RNum H path' ops ls ft = Ok (Some (N, sym))) /\
    (forall op, In op ops -> exists o, In o (group_ops sym codes) /\ rotation op = fst o /\ nanos (1 / 1000000000) (translation op) (V12 (snd o))).
  Proof.
    destruct (entry_facts _ _ _ _ HT) as (sym' & ES' & G & _ & _ & _). rewrite ES in ES'. injection ES' as <-. fold (group_ops sym codes) in G.
    destruct (standard_found s dtol fuel path b HF WF BIG GR fine SEP RIG (group_ops sym codes)) as (ops & E & EF & EL & ND & FWD & BWD); auto.
    - exact (og_rotations _ G).
    - exact (table_closed _ _ _ _ _ HT ES NC).
    - intros c Hc. exact (table_small _ _ _ _ _ _ HT ES Hc).
    - exists ops. split; [exact E|]. split; [exact EF|]. assert (EL' : List.length ops = List.length codes) by (rewrite EL; unfold group_ops; apply map_length).
      split; [exact EL'|]. split; [exact ND|]. split; [|exact FWD].
      intro path'. apply (identify_complete H path' ft ops ls order N codes sym); auto;
        [exact (ft_id s dtol fine 0 ltac:(lia))|exact (ft_id s dtol fine 1 ltac:(lia))|exact (ft_id s dtol fine 2 ltac:(lia))|].
      intros op Hop. destruct (FWD op Hop) as (o & Ho & Eo & No). exists o. split; [exact Ho|]. split; [exact Eo|].
      apply (nanos_near (1 / 1000000000)); [exact (ft_nano s dtol fine 0 ltac:(lia))|exact (ft_nano s dtol fine 1 ltac:(lia))|exact (ft_nano s dtol fine 2 ltac:(lia))|exact No].
  Qed.
End Identified.
