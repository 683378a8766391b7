(** Any crystal in a rectangular cell: what an answer means, from whichever origin the crystal is drawn (analyzer.rs 36-162) *)
From Coq Require Import ZArith Reals String Ascii List Bool Lia Lra Psatz Permutation.
From Flocq Require Import Core.
From Verif Require Import Num Mat Utils DataCore DataPG DataSG SymmOp PointGroup SpaceGroup Structure Reduce Analyzer RInst Spec Spec2 Spec3 Spec5 Spec6 RFacts
  PUtils PSymmOp PStructure PStructure2 PStructure3 PNiggli PDelaunay PPrim PPrim2 PLattice PAnalyzer PAnalyzer2 PPointGroup PPointGroup2 PSpaceGroup PSpaceGroup2 PCode PTables PIdentify
  PSearch PSearch3 PSearch4 PSearch5 PSearch6 PSearch7 PEnd PEnd2 PEnd3 PEnd4 PEnd11 PEnd12 PEnd13 PEnd14 PEnd15 PEnd16 PEnd17 PEnd19 Prop5.
Import ListNotations.
Open Scope R_scope.

(** ** The tabulated operations close up when the list is not grown *)
Section Closing.
  Context (l : list zop) (tols T : vec R) (gens sg : list sop) (p : vec R) (fuel : nat).
  Hypothesis TT : (vx T <= vx tols <= / 40) /\ (vy T <= vy tols <= / 40) /\ (vz T <= vz tols <= / 40).
  Hypothesis T0 : 0 < vx tols /\ 0 < vy tols /\ 0 < vz tols.
  Hypothesis LN : NoDup (map fst l).
  Hypothesis GS : forall op, In op gens -> In (rotation op) signed.
  Hypothesis GM : forall a b, In a gens -> In b gens -> exists s, In s gens /\ rotation s = ZMmul (rotation a) (rotation b).
  Hypothesis FWD : forall op, In op gens -> exists o, In o l /\ rotation op = fst o /\ nanos (1 / 1000000000) (translation op) (Vadd (V12 (snd o)) (Vsub p (Mapp (MofZ (fst o)) p))).
  Hypothesis SMALL : forall op, In op gens -> bounded T (Vsub p (Mapp (MofZ (rotation op)) p)).
  Hypothesis EG : @from_generators RNum fuel gens tols = Ok sg.
  Hypothesis AF : forall op, In op sg -> exists c, In c l /\ rotation op = fst c /\ near3 tols (translation op) (in_twelfths (snd c)).
  Lemma closing a b s oa ob os : In a gens -> In b gens -> In s gens -> In oa l -> In ob l -> In os l -> rotation a = fst oa -> rotation b = fst ob -> rotation s = fst os ->
    fst os = ZMmul (fst oa) (fst ob) -> congr12 (snd os) (snd (zop_mul oa ob)).
  Proof using All.
    intros Ha Hb Hs Hoa Hob Hos Ra Rb Rs Em. assert (TK : tols_ok tols) by (repeat split; lra).
    destruct (from_generators_spec _ TK _ _ _ EG) as [GW CB]. destruct (CB b (grown_gens _ _ _ GW _ Hb)) as [[]|CC]. destruct (CC a Ha) as (x & Hx & Rx & Nx). destruct (AF x Hx) as (c & Hc & Rc & Nc).
    assert (I8 : i8_range (ZMmul (rotation a) (rotation b))) by (rewrite Ra, Rb, <- Em, <- Rs; apply unit_rot_i8; destruct (signed_facts _ (GS s Hs)) as (_ & X & _); exact X).
    rewrite (op_mul_R a b I8) in Rx, Nx. cbn [rotation translation] in Rx, Nx.
    assert (c = os) by (apply (same_rot_same _ LN); [exact Hc|exact Hos|congruence]). subst c.
    destruct (FWD a Ha) as (ca & Hca & Ra' & Na). destruct (FWD b Hb) as (cb & Hcb & Rb' & Nb).
    assert (ca = oa) by (apply (same_rot_same _ LN); [exact Hca|exact Hoa|congruence]). subst ca. assert (cb = ob) by (apply (same_rot_same _ LN); [exact Hcb|exact Hob|congruence]). subst cb.
    destruct (GM b a Hb Ha) as (y & Hy & Ry). pose proof (SMALL y Hy) as BD.
    pose proof (product_nano (rotation b) _ _ _ _ (signed_small _ (GS b Hb)) Na Nb) as PN.
    assert (EQ : Vadd (Mapp (MofZ (rotation b)) (Vadd (V12 (snd oa)) (Vsub p (Mapp (MofZ (fst oa)) p)))) (Vadd (V12 (snd ob)) (Vsub p (Mapp (MofZ (fst ob)) p))) =
      Vadd (V12 (snd (zop_mul oa ob))) (Vsub p (Mapp (MofZ (rotation y)) p))).
    { rewrite V12_mul, <- Rb, <- Ra, Ry, MofZ_mul, Mapp_Mmul, Mapp_add, Mapp_sub.
      generalize (Mapp (MofZ (rotation b)) (V12 (snd oa))) (V12 (snd ob)) (Mapp (MofZ (rotation b)) p) (Mapp (MofZ (rotation b)) (Mapp (MofZ (rotation a)) p)). intros x1 x2 x3 x4. unfold Vadd, Vsub. cbn [vx vy vz]. f_equal; ring. }
    rewrite EQ in PN. clear EQ. revert PN Nx. generalize (Vadd (Mapp (MofZ (rotation b)) (translation a)) (translation b)). intros q PN Nx. clear Na Nb.
    revert PN BD. generalize (Vsub p (Mapp (MofZ (rotation y)) p)) (snd (zop_mul oa ob)). intros m z (k & K1 & K2 & K3) (B1 & B2 & B3). destruct Nx as (N1 & N2 & N3). destruct Nc as (M1 & M2 & M3).
    unfold Vadd, V12, in_twelfths in *. cbn [vx vy vz] in *. apply twelfths_congr.
    assert (G : forall (u v : Z) xx qq mm t tl i, t <= tl <= / 40 -> Rabs mm <= t -> Rabs (qq - (IZR v / 12 + mm) - IZR i) <= 7 / 1000000000 -> near1 tl xx qq -> near1 tl xx (IZR u / 12) -> exists h, Rabs (IZR u / 12 - IZR v / 12 - IZR h) < 1 / 12).
    { intros u v xx qq mm t tl i X1 X2 X3 (j & X4) (j' & X5). exists (j + i - j')%Z. rewrite minus_IZR, plus_IZR.
      replace (IZR u / 12 - IZR v / 12 - (IZR j + IZR i - IZR j')) with (- (xx - IZR u / 12 - IZR j') + ((xx - qq - IZR j) + ((qq - (IZR v / 12 + mm) - IZR i) + mm))) by ring.
      eapply Rle_lt_trans; [apply Rabs_triang|]. rewrite Rabs_Ropp. pose proof (Rabs_triang (xx - qq - IZR j) ((qq - (IZR v / 12 + mm) - IZR i) + mm)). pose proof (Rabs_triang (qq - (IZR v / 12 + mm) - IZR i) mm). lra. }
    intros u v [Q|[Q|[Q|[]]]]; [apply (f_equal (fun h => (fst h, snd h))) in Q; cbn [fst snd] in Q; injection Q as <- <-; exact (G _ _ _ _ _ _ _ _ (proj1 TT) B1 K1 N1 M1)
      |injection Q as <- <-; exact (G _ _ _ _ _ _ _ _ (proj1 (proj2 TT)) B2 K2 N2 M2)|injection Q as <- <-; exact (G _ _ _ _ _ _ _ _ (proj2 (proj2 TT)) B3 K3 N3 M3)].
  Qed.
End Closing.

Lemma closed_table ls order N codes sym : In (ls, order, N, codes) sg_entries -> am_get Z.eqb N SG_NUM_TO_SYMBOL = Some sym -> zclosed (group_ops sym codes) = true -> ~ In N not_closed.
Proof.
  intros HT ES ZC. destruct (table_entry _ _ _ _ HT) as (sym' & l & ES' & EL & EC). rewrite ES in ES'. injection ES' as <-. apply EC. replace l with (group_ops sym codes); [exact ZC|]. symmetry.
  apply zcands_codes; [|exact EL]. intros c Hc. destruct (proj1 (sg_entries_In _ _ _ _) HT) as (bk & gr & H1 & H2 & H3). apply (codes_range _ _ _ _ _ _ _ H1 H2 H3 Hc).
Qed.
Lemma exact_congr S r t t' : exact_operation S r t -> Vcongr t' t -> exact_operation S r t'.
Proof.
  intros E (k & ->) x e Hx. destruct (E x e Hx) as (y & Hy & n & A). exists y. split; [exact Hy|]. exists (ZVadd n k).
  unfold act in *. rewrite VofZ_add, <- !Vadd_assoc, A. now rewrite Vadd_assoc.
Qed.

(** ** The isometries of a box keep the tolerances *)
Lemma holo_zeros_checked : forallb (fun r => if (m13 r =? 0)%Z then if (m23 r =? 0)%Z then if (m31 r =? 0)%Z then (m32 r =? 0)%Z else false else false else false) (holo_rots tP) = true /\
  forallb (fun r => if (m12 r =? 0)%Z then if (m13 r =? 0)%Z then if (m21 r =? 0)%Z then if (m23 r =? 0)%Z then if (m31 r =? 0)%Z then (m32 r =? 0)%Z else false else false else false else false else false) (holo_rots oP) = true.
Proof. split; vm_compute; reflexivity. Qed.
Lemma holo_bounded ls eps a b c (f : R -> R) r m : standard_edges ls eps a b c -> In r (holo_rots (box_bravais ls)) -> bounded (V (f a) (f b) (f c)) m -> bounded (V (f a) (f b) (f c)) (Mapp (MofZ r) m).
Proof.
  intros SE Hr (B1 & B2 & B3). assert (HB : boxed ls = true) by (unfold standard_edges in SE; destruct ls; try (exfalso; exact SE); reflexivity).
  destruct (holo_closed ls r HB Hr) as (_ & Sr & _). destruct (signed_rows r Sr) as (R1 & R2 & R3). cbn [vx vy vz] in *.
  assert (G : forall x y z t, In (V x y z) units6 -> (x <> 0%Z -> Rabs (vx m) <= t) -> (y <> 0%Z -> Rabs (vy m) <= t) -> (z <> 0%Z -> Rabs (vz m) <= t) -> Rabs (IZR x * vx m + IZR y * vy m + IZR z * vz m) <= t).
  { intros x y z t Hu X Y Z. unfold units6 in Hu. cbn [In] in Hu.
    destruct Hu as [E|[E|[E|[E|[E|[E|[]]]]]]]; injection E as <- <- <-;
      match goal with |- Rabs ?e <= t => first
        [ replace e with (vx m) by ring; apply X; discriminate | replace e with (vy m) by ring; apply Y; discriminate | replace e with (vz m) by ring; apply Z; discriminate
        | replace e with (- (vx m)) by ring; rewrite Rabs_Ropp; apply X; discriminate | replace e with (- (vy m)) by ring; rewrite Rabs_Ropp; apply Y; discriminate
        | replace e with (- (vz m)) by ring; rewrite Rabs_Ropp; apply Z; discriminate ] end. }
  unfold bounded, Mapp, MofZ, mmap. cbn [vx vy vz m11 m12 m13 m21 m22 m23 m31 m32 m33].
  destruct holo_zeros_checked as [QT QO]. unfold standard_edges in SE. destruct ls; try (exfalso; exact SE).
  - clear QT. pose proof (proj1 (forallb_forall _ _) QO r Hr) as K. cbn beta in K. clear QO Hr Sr.
    repeat match type of K with (if (?e =? 0)%Z then _ else _) = true => destruct (e =? 0)%Z eqn:?EZ; [|discriminate K] end.
    repeat match goal with H : (_ =? 0)%Z = true |- _ => apply Z.eqb_eq in H end.
    split; [|split]; apply G; try assumption; intro Q; (congruence || assumption).
  - clear QO. pose proof (proj1 (forallb_forall _ _) QT r Hr) as K. cbn beta in K. clear QT Hr Sr. destruct SE as [-> _].
    repeat match type of K with (if (?e =? 0)%Z then _ else _) = true => destruct (e =? 0)%Z eqn:?EZ; [|discriminate K] end.
    repeat match goal with H : (_ =? 0)%Z = true |- _ => apply Z.eqb_eq in H end.
    split; [|split]; apply G; try assumption; intro Q; (congruence || assumption).
  - clear QO QT Hr Sr. destruct SE as [-> ->]. split; [|split]; apply G; try assumption; intro Q; assumption.
Qed.

(** ** The run up to the search *)
Section Boxed.
  Context (P : @Pinv RNum) (HO : HashOrd) (dtol a b c d : R) (fuel : nat) (path : list nat) (s : @structure RNum) (u ui : mat Z).
  Hypothesis (HP : pinv_inverts P) (HF : (48 <= fuel)%nat) (WF : List.length (frac_coords s) = List.length (species s)).
  Hypothesis BIG : (0 < Z.of_nat (List.length (species s)) <= 65535)%Z.
  Hypothesis (Hu : In u signed) (UI : ZMmul u ui = ZMid) (EL : gram (Mmul (lattice s) (MofZ u)) = diag (a * a) (b * b) (c * c)).
  Hypothesis (Ba : 1 <= a <= 1000) (Bb : 1 <= b <= 1000) (Bc : 1 <= c <= 1000) (Hd : 1 / 100000 <= dtol <= 1 / 24).
  Hypothesis (SP : spread d (sites_of s)) (Da : 4 * dtol <= d * a) (Db : 4 * dtol <= d * b) (Dc : 4 * dtol <= d * c).
  Context (ls : lattice_system).
  Hypothesis SE : standard_edges ls (1 / 100000 * Rpower (a * b * c) (1 / 3)) a b c.
  Hypothesis RI : rigid (2 * dtol) (lattice s) (sites_of s) (lattice_isometry (lattice s)).
  Hypothesis PR : forall t, exact_operation (sites_of s) ZMid t -> Vcongr t V0.
  Let HB : boxed ls = true. Proof using SE. unfold standard_edges in SE. destruct ls; try (exfalso; exact SE); reflexivity. Qed.
  Definition box_tols : vec R := V (dtol / a) (dtol / b) (dtol / c).
  (** what is known of the run when the operations have been searched for *)
  Record searched (p q std : @structure RNum) (Tm Pm : mat R) (n : Z) (W Wi : mat Z) (gens : list sop) : Prop := {
    se_stages : @stages RNum P HO fuel path dtol s p q std Tm Pm n (box_bravais ls);
    se_p : well_conditioned (lattice p); se_q : well_conditioned (lattice q); se_P : Mdet Pm <> 0; se_T : Mdet Tm <> 0;
    se_W : In W signed; se_inv : ZMmul W Wi = ZMid; se_back : Mmul (lattice std) (MofZ Wi) = lattice s; se_std : lattice std = Mmul (lattice s) (MofZ W); se_det : 0 < Mdet (lattice std);
    se_ls : bravais_lattice_system (box_bravais ls) = Ok ls; se_gram : gram (lattice std) = diag (a * a) (b * b) (c * c);
    se_holo : forall r, In r (holo_rots (box_bravais ls)) <-> lattice_isometry (lattice s) (conj W r Wi);
    se_exact : forall r t, exact_operation (sites_of std) r t <-> exact_operation (sites_of s) (conj W r Wi) (Mapp (MofZ W) t);
    se_tols : @frac_tols_of RNum (lattice std) dtol = box_tols;
    se_fine : forall k, (k < 3)%nat -> 0 < Vnorm (Ccol (lattice std) k) /\ 2 * dtol <= Vnorm (Ccol (lattice std) k);
    se_search : @get_primitive_space_group_ops RNum HO fuel (1%nat :: path) dtol std (box_bravais ls) = Ok gens;
    se_nodup : NoDup (map (@rotation RNum) gens);
    se_fwd : forall op, In op gens -> In (rotation op) (holo_rots (box_bravais ls)) /\ exists t, exact_operation (sites_of std) (rotation op) t /\ nanos (1 / 1000000000) (translation op) t;
    se_bwd : forall r t, In r (holo_rots (box_bravais ls)) -> exact_operation (sites_of std) r t -> exists op, In op gens /\ rotation op = r /\ nanos (1 / 1000000000) (translation op) t }.
  Lemma holo_signed : incl (holo_rots (box_bravais ls)) signed.
  Proof using SE. intros r Hr. destruct (holo_closed ls r HB Hr) as (_ & X & _). exact X. Qed.
  Lemma holo_mul r q : In r (holo_rots (box_bravais ls)) -> In q (holo_rots (box_bravais ls)) -> In (ZMmul r q) (holo_rots (box_bravais ls)).
  Proof using SE. intros Hr Hq. destruct (holo_closed ls r HB Hr) as (_ & _ & X). exact (X q Hq). Qed.
  Lemma holo_one : In ZMid (holo_rots (box_bravais ls)).
  Proof using SE.
    assert (Q : forallb (fun x => mem_rot ZMid (holo_rots x)) [cP; tP; oP] = true) by (vm_compute; reflexivity). apply mem_rot_In. apply (proj1 (forallb_forall _ _) Q). destruct ls; cbn; auto.
  Qed.
  Lemma box_searched : exists p q std Tm Pm n W Wi gens, searched p q std Tm Pm n W Wi gens.
  Proof using All.
    pose proof (box_eps a b c Ba Bb Bc) as BE. pose proof (zinv_comm _ _ UI) as IU.
    destruct (own_edges dtol a b c d s u ui Hu UI EL Ba Bb Bc Da Db Dc) as (a0 & b0 & c0 & EL0 & PM & Ba0 & Bb0 & Bc0 & Da0 & Db0 & Dc0 & EV).
    assert (I1 : lattice_isometry (lattice s) ZMid) by (apply isometry_gram; now rewrite MofZ_id, Mmul_id_r).
    assert (NI : no_inner_translation dtol s).
    { apply (no_inner P HO dtol a0 b0 c0 fuel path s HP HF WF BIG EL0 Ba0 Bb0 Bc0 Hd d SP Da0 Db0 Dc0 (lattice_isometry (lattice s))); [exact I1|exact RI|].
      intros t EX. destruct (PR t EX) as (n & ->). exists n. apply PEnd2.Vadd_0. }
    destruct (many_stages P HO dtol a0 b0 c0 fuel path s HP HF WF BIG EL0 Ba0 Bb0 Bc0 Hd NI) as (p & q & std & Tm & Pm & n & b' & A & B & C & Z1 & T0 & W & Wi & RUN).
    { intros W HW. apply (apart_mono (4 * dtol)); [lra|]. exact (std_apart P HO dtol a0 b0 c0 fuel path s HP HF WF BIG EL0 Ba0 Bb0 Bc0 Hd d SP Da0 Db0 Dc0 W HW). }
    assert (PM1 : Permutation [a0 * a0; b0 * b0; c0 * c0] [a * a; b * b; c * c]) by (apply Permutation_sym; exact (Permutation_map (fun x => x * x) PM)).
    assert (SE0 := SE). rewrite <- EV in SE0.
    destruct (run_standard P HO dtol a0 b0 c0 fuel path s Ba0 Bb0 Bc0 _ _ _ _ _ _ _ _ _ _ _ _ _ _ RUN ls a b c PM1 SE0) as (EB & GS & _ & LS). subst b'.
    pose proof (run_W _ _ _ _ _ _ _ _ _ _ _ _ _ _ _ _ _ _ _ _ _ _ _ RUN) as HW. pose proof (run_inv _ _ _ _ _ _ _ _ _ _ _ _ _ _ _ _ _ _ _ _ _ _ _ RUN) as WI. pose proof (zinv_comm _ _ WI) as IW.
    pose proof (run_std _ _ _ _ _ _ _ _ _ _ _ _ _ _ _ _ _ _ _ _ _ _ _ RUN) as LW. pose proof (run_det _ _ _ _ _ _ _ _ _ _ _ _ _ _ _ _ _ _ _ _ _ _ _ RUN) as DS.
    assert (GS' := GS). rewrite LW in GS'. pose proof (std_holo ls _ a b c (lattice s) W Wi ltac:(lra) ltac:(lra) ltac:(lra) (proj1 BE) SE GS' WI) as H1.
    assert (EXA : forall r t, exact_operation (sites_of std) r t <-> exact_operation (sites_of s) (conj W r Wi) (Mapp (MofZ W) t)) by (intros r t; exact (run_exact P HO dtol a0 b0 c0 fuel path s _ _ _ _ _ _ _ _ _ _ _ _ _ _ RUN r t)).
    assert (ID : conj W ZMid Wi = ZMid) by (apply MofZ_eq_from_action; intro x; now rewrite conj_app, MofZ_id, Mapp_id, (app_inv W Wi x WI), Mapp_id).
    assert (FI : forall k, (k < 3)%nat -> 1 / 100000000 * Vnorm (Ccol (lattice std) k) <= dtol /\ 24 * dtol <= Vnorm (Ccol (lattice std) k) /\ 0 < Vnorm (Ccol (lattice std) k)) by (intros i Hi; exact (run_fine' P HO dtol a0 b0 c0 fuel path s EL0 Ba0 Bb0 Bc0 Hd _ _ _ _ _ _ _ _ _ _ _ _ _ _ RUN i Hi)).
    destruct (@primitive_searched HO std dtol fuel (1%nat :: path) (box_bravais ls) HF) as (gens & Q1 & Q2 & FWD & BWD).
    - exact (run_len _ _ _ _ _ _ _ _ _ _ _ _ _ _ _ _ _ _ _ _ _ _ _ RUN).
    - exact (run_big _ _ _ _ _ _ _ _ s WF BIG _ _ _ _ _ _ _ _ _ _ _ _ _ _ RUN).
    - exact (run_grouped _ _ _ _ _ _ _ _ _ _ _ _ _ _ _ _ _ _ _ _ _ _ _ RUN).
    - exact FI.
    - exact (run_apart P HO dtol a0 b0 c0 fuel path s HP HF WF BIG EL0 Ba0 Bb0 Bc0 Hd d SP Da0 Db0 Dc0 _ _ _ _ _ _ _ _ _ _ _ _ _ _ RUN).
    - exact (run_rigid P HO dtol a0 b0 c0 fuel path s RI _ _ _ _ _ _ _ _ _ _ _ _ _ _ RUN H1).
    - exact holo_signed.
    - exact holo_mul.
    - intros v Hv. apply EXA in Hv. rewrite ID in Hv. apply PR in Hv. apply (PEnd11.Vcongr_app Wi) in Hv. now rewrite (app_inv Wi W v IW), Mapp_V0 in Hv.
    - exists p, q, std, Tm, Pm, n, W, Wi, gens. constructor; try assumption.
      + exact (rn_stages _ _ _ _ _ _ _ _ _ _ _ _ _ _ _ _ _ _ _ _ _ _ _ RUN).
      + exact (rn_p _ _ _ _ _ _ _ _ _ _ _ _ _ _ _ _ _ _ _ _ _ _ _ RUN).
      + exact (rn_q _ _ _ _ _ _ _ _ _ _ _ _ _ _ _ _ _ _ _ _ _ _ _ RUN).
      + exact (rn_P _ _ _ _ _ _ _ _ _ _ _ _ _ _ _ _ _ _ _ _ _ _ _ RUN).
      + exact (rn_T _ _ _ _ _ _ _ _ _ _ _ _ _ _ _ _ _ _ _ _ _ _ _ RUN).
      + exact (run_back _ _ _ _ _ _ _ _ _ _ _ _ _ _ _ _ _ _ _ _ _ _ _ RUN).
      + assert (NN : forall k x, Vnorm (Ccol (diag a b c) k) = x -> Vnorm (Ccol (lattice std) k) = x) by (intros k x <-; apply gram_col; now rewrite gram_diag_eq).
        unfold box_tols. change (@frac_tols_of RNum (lattice std) dtol) with (V (dtol / Vnorm (Ccol (lattice std) 0)) (dtol / Vnorm (Ccol (lattice std) 1)) (dtol / Vnorm (Ccol (lattice std) 2))).
        f_equal; f_equal; apply NN; unfold Vnorm, Vdot, Ccol, diag; cbn [vx vy vz m11 m12 m13 m21 m22 m23 m31 m32 m33].
        * transitivity (sqrt (a * a)); [f_equal; ring|apply sqrt_square; lra].
        * transitivity (sqrt (b * b)); [f_equal; ring|apply sqrt_square; lra].
        * transitivity (sqrt (c * c)); [f_equal; ring|apply sqrt_square; lra].
      + intros k Hk. destruct (FI k Hk) as (_ & X1 & X2). split; [exact X2|]. clear - X1 Hd. lra.
  Qed.

  (** ** From the operations found in the standard cell to the answer *)
  Lemma box_reported p q std Tm Pm n W Wi gens N sym : searched p q std Tm Pm n W Wi gens -> @from_generators RNum fuel gens box_tols = Ok gens ->
    @identify_space_group RNum HO (2%nat :: path) gens ls box_tols = Ok (Some (N, sym)) ->
    exists ops, @get_space_group_info RNum P HO fuel path dtol s = Ok (N, sym, ops) /\ List.length ops = List.length gens /\
      (forall op, In op ops -> lattice_isometry (lattice s) (rotation op) /\ exists t, exact_operation (sites_of s) (rotation op) t /\ nanos (1 / 1000000000) (translation op) t) /\
      (forall r t, lattice_isometry (lattice s) r -> exact_operation (sites_of s) r t -> exists op, In op ops /\ rotation op = r /\ nanos (1 / 1000000000) (translation op) t).
  Proof using All.
    intros [STG Cp Cq DP DT HW WI LB LW DS LS GS H1 EXA TO FI Q1 ND FWD BWD] Q2 Q7. pose proof (zinv_comm _ _ WI) as IW. rewrite <- TO in Q2, Q7.
    assert (OS : forall op, In op gens -> In (conj W (rotation op) Wi) signed).
    { intros op Hop. unfold conj. apply signed_mul; [apply signed_mul; [exact HW|]|exact (signed_inv _ _ HW WI)]. apply holo_signed. exact (proj1 (FWD op Hop)). }
    destruct (answer_given P HO dtol fuel path s p q std Tm Pm n (box_bravais ls) HP ltac:(clear - HF; lia) ltac:(clear - Hd; lra) STG ls gens gens Q1 Q2 LS Cp Cq Wi W N sym) as (ops' & O1 & O2);
      [symmetry; exact LB|exact IW|clear - DS; lra|exact DP|exact DT|exact Q7|exact FI| |exact ND|].
    { intros op Hop. apply OS in Hop. destruct (signed_facts _ Hop) as (_ & U & _). fold (conj W (rotation op) Wi). exact (unit_rot_i8 _ U). }
    assert (FE : filter (fun op => has_unit_entry (ZMmul (ZMmul W (rotation op)) Wi)) gens = gens).
    { apply filter_every. intros op Hop. apply OS in Hop. now destruct (signed_facts _ Hop) as (_ & _ & U). }
    rewrite FE in O2. clear FE.
    assert (TR : forall op op', In op gens -> rotation op' = conj W (rotation op) Wi -> (forall x, Vcongr (Mapp (MofZ W) (@op_apply RNum op x)) (@op_apply RNum op' (Mapp (MofZ W) x))) ->
      forall t, nanos (1 / 1000000000) (translation op) t -> nanos (1 / 1000000000) (translation op') (Mapp (MofZ W) t)).
    { intros op op' Hop E1 E2 t N1. specialize (E2 V0). rewrite Mapp_V0 in E2. assert (Z0 : forall o : @symmop RNum, @op_apply RNum o V0 = translation o).
      { intro o. rewrite op_apply_R. unfold act. rewrite Mapp_V0. apply PEnd2.Vadd_0. } rewrite !Z0 in E2.
      replace (1 / 1000000000) with (0 + 1 / 1000000000) by ring. apply (nanos_trans _ _ _ (Mapp (MofZ W) (translation op))); [|exact (nanos_signed _ _ _ _ HW N1)]. apply nanos_congr. now apply PSymmOp.Vcongr_sym. }
    exists ops'. split; [exact O1|]. split; [symmetry; exact (F2_length _ _ _ O2)|]. split.
    - intros op' Hop'. assert (X : exists op, In op gens /\ rotation op' = conj W (rotation op) Wi /\ (forall x, Vcongr (Mapp (MofZ W) (@op_apply RNum op x)) (@op_apply RNum op' (Mapp (MofZ W) x)))).
      { clear - O2 Hop'. induction O2 as [|x y l l' E F IH]; [destruct Hop'|]. destruct Hop' as [<-|Hop']; [exists x; split; [now left|exact E]|]. destruct (IH Hop') as (op & X1 & X2). exists op. split; [now right|exact X2]. }
      destruct X as (op & Hop & E1 & E2). destruct (FWD op Hop) as (Hr & t & EX & N1). rewrite E1. split; [now apply H1|]. exists (Mapp (MofZ W) t). split; [now apply EXA|]. exact (TR op op' Hop E1 E2 t N1).
    - intros r t Hr EX. assert (ER : r = conj W (conj Wi r W) Wi) by (symmetry; now apply conj_conj). assert (Et : t = Mapp (MofZ W) (Mapp (MofZ Wi) t)) by (symmetry; now apply app_inv).
      destruct (BWD (conj Wi r W) (Mapp (MofZ Wi) t)) as (op & Hop & E & N1); [apply H1; rewrite <- ER; exact Hr|apply EXA; rewrite <- ER, <- Et; exact EX|].
      assert (X : exists op', In op' ops' /\ rotation op' = conj W (rotation op) Wi /\ (forall x, Vcongr (Mapp (MofZ W) (@op_apply RNum op x)) (@op_apply RNum op' (Mapp (MofZ W) x)))).
      { clear - O2 Hop. induction O2 as [|x y l l' E F IH]; [destruct Hop|]. destruct Hop as [<-|Hop]; [exists y; split; [now left|exact E]|]. destruct (IH Hop) as (op' & X1 & X2). exists op'. split; [now right|exact X2]. }
      destruct X as (op' & Hop' & E1 & E2). exists op'. split; [exact Hop'|]. split; [rewrite E1, E; symmetry; exact ER|]. rewrite Et. exact (TR op op' Hop E1 E2 _ N1).
  Qed.

  (** the rotations found form a group *)
  Lemma found_mul p q std Tm Pm n W Wi gens : searched p q std Tm Pm n W Wi gens -> forall x y, In x gens -> In y gens -> exists z, In z gens /\ rotation z = ZMmul (rotation x) (rotation y).
  Proof using SE.
    intros SR x y Hx Hy. destruct (se_fwd _ _ _ _ _ _ _ _ _ SR x Hx) as (R1 & t1 & E1 & _). destruct (se_fwd _ _ _ _ _ _ _ _ _ SR y Hy) as (R2 & t2 & E2 & _).
    destruct (se_bwd _ _ _ _ _ _ _ _ _ SR _ _ (holo_mul _ _ R1 R2) (exact_compose _ _ _ _ _ E1 E2)) as (z & Hz & E & _). exists z. split; [exact Hz|exact E].
  Qed.
  Lemma found_inv p q std Tm Pm n W Wi gens : searched p q std Tm Pm n W Wi gens -> forall x, In x gens -> exists z, In z gens /\ rotation z = transpose (rotation x).
  Proof using SE.
    intros SR x Hx. destruct (se_fwd _ _ _ _ _ _ _ _ _ SR x Hx) as (R1 & t1 & E1 & _). destruct (exact_pow _ _ _ 11 E1) as (t2 & E2). rewrite (signed_pow _ (holo_signed _ R1)) in E2.
    destruct (holo_closed ls (rotation x) HB R1) as (R2 & _). destruct (se_bwd _ _ _ _ _ _ _ _ _ SR _ _ R2 E2) as (z & Hz & E & _). exists z. split; [exact Hz|exact E].
  Qed.
  Lemma found_short p q std Tm Pm n W Wi gens : searched p q std Tm Pm n W Wi gens -> (List.length gens <= 48)%nat.
  Proof using SE.
    intro SR. assert (Q : forallb (fun x => Nat.leb (List.length (holo_rots x)) 48) [cP; tP; oP] = true) by (vm_compute; reflexivity).
    assert (L : (List.length (holo_rots (box_bravais ls)) <= 48)%nat) by (apply Nat.leb_le, (proj1 (forallb_forall _ _) Q); clear - SE; destruct ls; cbn; auto). clear Q.
    apply Nat.le_trans with (2 := L). rewrite <- (map_length (@rotation RNum) gens). apply NoDup_incl_length; [exact (se_nodup _ _ _ _ _ _ _ _ _ SR)|].
    intros r Hr. apply in_map_iff in Hr. destruct Hr as (x & <- & Hx). exact (proj1 (se_fwd _ _ _ _ _ _ _ _ _ SR x Hx)).
  Qed.
  Definition box_narrow : vec R := V (dtol / a - 1 / 100000000) (dtol / b - 1 / 100000000) (dtol / c - 1 / 100000000).
  Lemma edge_tol m : 1 <= m <= 1000 -> 9 / 1000000000 < dtol / m <= 1 / 24.
  Proof using Hd.
    intro Hm. split; [apply (Rmult_lt_reg_r m); [lra|]; replace (dtol / m * m) with dtol by (field; lra); lra|apply (Rmult_le_reg_r m); [lra|]; replace (dtol / m * m) with dtol by (field; lra); lra].
  Qed.
  Lemma narrow_near x y m : nanos (1 / 1000000000) x (Vadd y m) -> bounded box_narrow m -> near3 box_tols x y.
  Proof using.
    intros (n & N1 & N2 & N3) (B1 & B2 & B3). unfold box_narrow, box_tols, Vadd in *. cbn [vx vy vz] in *.
    assert (G : forall p q z k t, Rabs (p - (q + z) - IZR k) <= 1 / 1000000000 -> Rabs z <= t - 1 / 100000000 -> near1 t p q).
    { intros p q z k t X Y. exists k. replace (p - q - IZR k) with ((p - (q + z) - IZR k) + z) by ring. eapply Rle_lt_trans; [apply Rabs_triang|]. lra. }
    split; [|split]; [exact (G _ _ _ _ _ N1 B1)|exact (G _ _ _ _ _ N2 B2)|exact (G _ _ _ _ _ N3 B3)].
  Qed.
  (** a list of operations near tabulated ones from another origin is not grown *)
  Lemma box_unchanged p q std Tm Pm n W Wi gens l o : searched p q std Tm Pm n W Wi gens ->
    (forall op, In op gens -> exists cc, In cc l /\ rotation op = fst cc /\ nanos (1 / 1000000000) (translation op) (Vadd (V12 (snd cc)) (Vsub o (Mapp (MofZ (fst cc)) o)))) ->
    (forall op, In op gens -> bounded box_narrow (Vsub o (Mapp (MofZ (rotation op)) o))) ->
    (forall x y z ox oy oz, In x gens -> In y gens -> In z gens -> In ox l -> In oy l -> In oz l -> rotation x = fst ox -> rotation y = fst oy -> rotation z = fst oz ->
      fst oz = ZMmul (fst ox) (fst oy) -> congr12 (snd oz) (snd (zop_mul ox oy))) ->
    @from_generators RNum fuel gens box_tols = Ok gens.
  Proof using SE Ba Bb Bc Hd HF.
    intros SR FWD SM ZC. destruct fuel as [|f] eqn:EF; [exfalso; clear - HF EF; lia|].
    pose proof (edge_tol a Ba) as Ta. pose proof (edge_tol b Bb) as Tb. pose proof (edge_tol c Bc) as Tc.
    apply (offset_unchanged l box_tols box_narrow gens o).
    - unfold box_tols, box_narrow. cbn [vx vy vz]. clear - Ta Tb Tc. lra.
    - unfold box_tols. cbn [vx vy vz]. clear - Ta Tb Tc. lra.
    - intros op Hop. apply holo_signed. exact (proj1 (se_fwd _ _ _ _ _ _ _ _ _ SR op Hop)).
    - exact (found_mul _ _ _ _ _ _ _ _ _ SR).
    - exact (found_inv _ _ _ _ _ _ _ _ _ SR).
    - exact FWD.
    - exact SM.
    - intros op m Hop Bm. exact (holo_bounded ls _ a b c (fun x => dtol / x - 1 / 100000000) _ m SE (proj1 (se_fwd _ _ _ _ _ _ _ _ _ SR op Hop)) Bm).
    - exact ZC.
  Qed.
  (** ** A tabulated group drawn from another origin *)
  Context (order N : Z) (codes : list Z) (sym : string) (o : vec R).
  Lemma box_offset : In (ls, order, N, codes) sg_entries -> am_get Z.eqb N SG_NUM_TO_SYMBOL = Some sym -> ~ In N not_closed ->
    (0 < Mdet (lattice s) * IZR (ZMdet u) \/ ~ In N handed) ->
    (forall r t, (lattice_isometry (lattice s) r /\ exact_operation (sites_of s) r t) <->
      exists cc, In cc (group_ops sym codes) /\ r = conj u (fst cc) ui /\ Vcongr t (Mapp (MofZ u) (Vadd (V12 (snd cc)) (Vsub o (Mapp (MofZ (fst cc)) o))))) ->
    (forall cc, In cc (group_ops sym codes) -> bounded box_narrow (Vsub o (Mapp (MofZ (fst cc)) o))) ->
    exists ops, @get_space_group_info RNum P HO fuel path dtol s = Ok (N, sym, ops) /\ List.length ops = List.length codes /\
      (forall op, In op ops -> lattice_isometry (lattice s) (rotation op) /\ exists t, exact_operation (sites_of s) (rotation op) t /\ nanos (1 / 1000000000) (translation op) t) /\
      (forall r t, lattice_isometry (lattice s) r -> exact_operation (sites_of s) r t -> exists op, In op ops /\ rotation op = r /\ nanos (1 / 1000000000) (translation op) t).
  Proof using All.
    intros HT ES NC HAND IFF SM. pose proof (zinv_comm _ _ UI) as IU. pose proof (box_eps a b c Ba Bb Bc) as BE.
    destruct box_searched as (p & q & std & Tm & Pm & n & W & Wi & gens & SR). pose proof SR as SR'. destruct SR' as [STG _ _ _ _ HW WI _ LW DS LS GS H1 EXA TO _ Q1 ND FWD BWD]. pose proof (zinv_comm _ _ WI) as IW.
    destruct (entry_facts _ _ _ _ HT) as (sym' & ES' & G & _). rewrite ES in ES'. injection ES' as <-. fold (group_ops sym codes) in G.
    rewrite LW in GS. pose proof (std_holo ls _ a b c (lattice s) u ui ltac:(lra) ltac:(lra) ltac:(lra) (proj1 BE) SE EL UI) as HU.
    set (h := ZMmul ui W). set (hi := ZMmul Wi u).
    assert (HHI : ZMmul h hi = ZMid). { apply MofZ_eq_from_action. intro x. unfold h, hi. rewrite !MofZ_mul, !Mapp_Mmul, (app_inv W Wi _ WI), (app_inv ui u _ IU), MofZ_id, Mapp_id. reflexivity. }
    assert (Hh : In h (holo_rots (box_bravais ls))).
    { apply (iso_holo (Mmul (lattice s) (MofZ u)) ls _ a b c EL ltac:(lra) ltac:(lra) ltac:(lra) (proj1 BE) SE). apply isometry_gram. unfold h. rewrite Mmul_assoc, <- MofZ_mul.
      replace (ZMmul u (ZMmul ui W)) with W; [now rewrite GS, EL|]. apply MofZ_eq_from_action. intro x. now rewrite !MofZ_mul, !Mapp_Mmul, (app_inv u ui _ UI). }
    destruct (holo_closed ls h HB Hh) as (Hh' & Sh & _). pose proof (signed_transpose h hi Sh HHI) as TH. rewrite <- TH in Hh'. pose proof (zinv_comm _ _ HHI) as IHH.
    assert (HR : forall cc, In cc (group_ops sym codes) -> In (fst cc) (holo_rots (box_bravais ls))).
    { intros cc Ho. apply HU. destruct (proj2 (IFF (conj u (fst cc) ui) (Mapp (MofZ u) (Vadd (V12 (snd cc)) (Vsub o (Mapp (MofZ (fst cc)) o)))))) as [X _]; [exists cc; split; [exact Ho|split; [reflexivity|apply Vcongr_refl]]|exact X]. }
    assert (HDET : ZMdet h = 1%Z \/ ~ In N handed).
    { destruct HAND as [HL|HN]; [left|right; exact HN]. assert (D1 : (ZMdet h * ZMdet hi = 1)%Z) by (rewrite <- ZMdet_mul, HHI; reflexivity).
      assert (D2 : (ZMdet W = ZMdet u * ZMdet h)%Z). { unfold h. rewrite ZMdet_mul, Z.mul_assoc, <- ZMdet_mul, UI. change (ZMdet ZMid) with 1%Z. ring. }
      rewrite LW, Mdet_mul, MofZ_det, D2, mult_IZR, <- Rmult_assoc in DS. assert (0 < ZMdet h)%Z by (apply lt_IZR; apply (Rmult_lt_reg_l (Mdet (lattice s) * IZR (ZMdet u))); [exact HL|]; clear - DS; lra). apply Z.mul_eq_1 in D1 as D3. lia. }
    set (oo := Mapp (MofZ hi) o).
    assert (CH : forall r, conj hi r h = conj Wi (conj u r ui) W) by (intro r; apply MofZ_eq_from_action; intro x; unfold h, hi; rewrite !conj_app, !MofZ_mul, !Mapp_Mmul; reflexivity).
    assert (SH : forall r, Mapp (MofZ hi) (Vsub o (Mapp (MofZ r) o)) = Vsub oo (Mapp (MofZ (conj hi r h)) oo)).
    { intro r. unfold oo. rewrite Mapp_sub, conj_app, (app_inv h hi o HHI). reflexivity. }
    assert (NEAR : forall op, In op gens -> exists cc, In cc (group_ops sym codes) /\ rotation op = fst cc /\ nanos (1 / 1000000000) (translation op) (Vadd (V12 (snd cc)) (Vsub oo (Mapp (MofZ (fst cc)) oo))) /\
      bounded box_narrow (Vsub oo (Mapp (MofZ (fst cc)) oo))).
    { intros op Hop. destruct (FWD op Hop) as (Hr & t & EX & N1). apply EXA in EX. apply H1 in Hr. destruct (proj1 (IFF _ _) (Logic.conj Hr EX)) as (cc & Hc & E1 & V1).
      destruct (table_invariant ls order N codes sym h cc HB HT ES NC HR Hh HDET Hc) as (c' & Hc' & S). apply same_op_V12 in S. unfold conj_op in S. cbn [fst snd] in S. rewrite <- TH in S. destruct S as [S1 S2].
      assert (ER : rotation op = fst c') by (rewrite <- S1, CH, <- E1; symmetry; now apply conj_conj).
      exists c'. split; [exact Hc'|]. split; [exact ER|]. rewrite <- S1, <- SH. split.
      - replace (1 / 1000000000) with (1 / 1000000000 + 0) by ring. apply (nanos_trans _ _ _ _ _ N1). apply nanos_congr. apply (PEnd11.Vcongr_app Wi) in V1. rewrite (app_inv Wi W t IW) in V1.
        apply (PSymmOp.Vcongr_trans _ _ _ V1). rewrite <- Mapp_Mmul, <- MofZ_mul. fold hi. rewrite Mapp_add. apply Vcongr_add; [|apply Vcongr_refl]. rewrite MofZ_V12. exact S2.
      - exact (holo_bounded ls _ a b c (fun x => dtol / x - 1 / 100000000) hi _ SE Hh' (SM cc Hc)). }
    assert (LEN : List.length gens = List.length codes).
    { assert (EG : List.length (group_ops sym codes) = List.length codes) by (unfold group_ops; apply map_length). rewrite <- EG. clear EG. apply Nat.le_antisymm.
      - rewrite <- (map_length (@rotation RNum) gens), <- (map_length fst (group_ops sym codes)). apply NoDup_incl_length; [exact ND|]. intros r Hr. apply in_map_iff in Hr. destruct Hr as (op & <- & Hop).
        destruct (NEAR op Hop) as (cc & Hc & -> & _). now apply in_map.
      - rewrite <- (map_length (@rotation RNum) gens), <- (map_length (fun cc => conj hi (fst cc) h) (group_ops sym codes)). apply NoDup_incl_length.
        + rewrite <- (map_map fst (fun r => conj hi r h)). apply PSearch3.NoDup_map_on; [exact (og_rotations _ G)|]. intros r1 r2 _ _ E. apply (f_equal (fun r => conj h r hi)) in E. now rewrite !conj_conj in E.
        + intros r Hr. apply in_map_iff in Hr. destruct Hr as (cc & <- & Hc). destruct (proj2 (IFF (conj u (fst cc) ui) (Mapp (MofZ u) (Vadd (V12 (snd cc)) (Vsub o (Mapp (MofZ (fst cc)) o)))))) as [X1 X2]; [exists cc; split; [exact Hc|split; [reflexivity|apply Vcongr_refl]]|].
          assert (EC : conj W (conj hi (fst cc) h) Wi = conj u (fst cc) ui) by (rewrite CH; now apply conj_conj).
          destruct (BWD (conj hi (fst cc) h) (Mapp (MofZ Wi) (Mapp (MofZ u) (Vadd (V12 (snd cc)) (Vsub o (Mapp (MofZ (fst cc)) o)))))) as (op & Hop & E & _).
          * apply H1. rewrite EC. exact X1.
          * apply EXA. rewrite EC, (app_inv W Wi _ WI). exact X2.
          * rewrite <- E. now apply in_map. }
    assert (SIG : forall cc, In cc (group_ops sym codes) -> In (fst cc) signed) by (intros cc Hc; exact (holo_signed _ (HR cc Hc))).
    assert (EG : @from_generators RNum fuel gens box_tols = Ok gens).
    { apply (box_unchanged _ _ _ _ _ _ _ _ gens (group_ops sym codes) oo SR).
      - intros op Hop. destruct (NEAR op Hop) as (cc & A & B & C & _). exists cc. split; [exact A|]. split; [exact B|exact C].
      - intros op Hop. destruct (NEAR op Hop) as (cc & _ & -> & _ & D). exact D.
      - intros x y z ox oy oz _ _ Hz Hox Hoy Hoz _ _ Rz Em. pose proof (table_closed _ _ _ _ _ HT ES NC) as ZC. unfold zclosed in ZC.
        pose proof (proj1 (forallb_forall _ _) ZC ox Hox) as K1. cbn beta in K1. pose proof (proj1 (forallb_forall _ _) K1 oy Hoy) as K2. cbv beta zeta in K2. clear ZC K1. rewrite ex_if_existsb in K2. apply existsb_exists in K2. destruct K2 as (z' & Hz' & E).
        apply same_op_eq in E. destruct E as [E1 E2]. assert (z' = oz); [|subst z'; exact E2]. apply (same_rot_same _ (og_rotations _ G)); [exact Hz'|exact Hoz|]. rewrite E1, Em. unfold zop_mul. cbn [fst]. apply i8_mmul_eq.
        rewrite <- Em. apply unit_rot_i8. destruct (signed_facts _ (SIG oz Hoz)) as (_ & X & _). exact X. }
    pose proof (edge_tol a Ba) as Ta. pose proof (edge_tol b Bb) as Tb. pose proof (edge_tol c Bc) as Tc.
    destruct (box_reported _ _ _ _ _ _ _ _ gens N sym SR EG) as (ops & O1 & O2 & O3 & O4).
    - apply (identify_complete HO (2%nat :: path) box_tols gens ls order N codes sym); [unfold box_tols; cbn [vx vy vz]; clear - Ta; lra|unfold box_tols; cbn [vx vy vz]; clear - Tb; lra|unfold box_tols; cbn [vx vy vz]; clear - Tc; lra|exact HT|exact ES|exact ND|exact LEN|].
      intros op Hop. destruct (NEAR op Hop) as (cc & A & B & C & D). exists cc. split; [exact A|]. split; [exact B|]. exact (narrow_near _ _ _ C D).
    - exists ops. split; [exact O1|]. split; [rewrite O2; exact LEN|]. split; [exact O3|exact O4].
  Qed.

  (** ** From an answer to an origin *)
  Context (ops : list sop).
  Definition box_wider : vec R := V (dtol / a + 1 / 1000000000) (dtol / b + 1 / 1000000000) (dtol / c + 1 / 1000000000).
  Lemma box_tol_k k : (k < 3)%nat -> 9 / 1000000000 < vnth box_tols k <= 1 / 24.
  Proof using Ba Bb Bc Hd. intro Hk. destruct k as [|[|[|k]]]; [exact (edge_tol a Ba)|exact (edge_tol b Bb)|exact (edge_tol c Bc)|exfalso; clear - Hk; lia]. Qed.
  Hypothesis EI : @get_space_group_info RNum P HO fuel path dtol s = Ok (N, sym, ops).
  Lemma box_core : exists p q std Tm Pm n W Wi gens sg order codes o, searched p q std Tm Pm n W Wi gens /\ @from_generators RNum fuel gens box_tols = Ok sg /\
    @identify_space_group RNum HO (2%nat :: path) sg ls box_tols = Ok (Some (N, sym)) /\
    In (ls, order, N, codes) sg_entries /\ am_get Z.eqb N SG_NUM_TO_SYMBOL = Some sym /\ (Z.of_nat (List.length sg) mod 256 = order)%Z /\
    (forall op, In op sg -> exists c, In c (group_ops sym codes) /\ rotation op = fst c /\ near3 box_tols (translation op) (in_twelfths (snd c))) /\
    (forall r t, In r (holo_rots (box_bravais ls)) -> exact_operation (sites_of std) r t -> exists c, In c (group_ops sym codes) /\ fst c = r /\
      Vcongr t (Vadd (V12 (snd c)) (Vsub o (Mapp (MofZ r) o))) /\ bounded box_wider (Vsub o (Mapp (MofZ r) o))).
  Proof using P HO dtol a b c d fuel path s u ui HP HF WF BIG Hu UI EL Ba Bb Bc Hd SP Da Db Dc ls SE RI PR N sym ops EI.
    destruct box_searched as (p & q & std & Tm & Pm & n & W & Wi & gens & SR). pose proof SR as SR'. destruct SR' as [STG _ _ _ _ HW WI _ LW _ LS GS H1 EXA TO _ Q1 ND FWD BWD].
    apply info_stages in EI. destruct EI as (p0 & q0 & std0 & Tm0 & Pm0 & ch0 & b0' & gens0 & sg & ls0 & m1 & m2 & i1 & i2 & S0 & _ & J1 & J2 & J3 & J4 & _).
    destruct STG as [A1 A2 A3 A4 (c1 & A5 & A6)]. destruct S0 as [S1 S2 S3 S4 (c2 & S5 & S6)]. rewrite A1 in S1. injection S1 as <-. rewrite A2 in S2. injection S2 as <-. rewrite A3 in S3. injection S3 as <- <-.
    rewrite A4 in S4. injection S4 as <- <-. rewrite A5 in S5. injection S5 as <-. rewrite A6 in S6. injection S6 as <-.
    rewrite Q1 in J1. injection J1 as <-. rewrite LS in J3. injection J3 as <-.
    assert (TL : forall k, (k < 3)%nat -> 9 / 1000000000 < vnth (@frac_tols_of RNum (lattice std) dtol) k <= 1 / 24) by (rewrite TO; exact box_tol_k).
    destruct (@identified_codes HO std dtol sg ls N sym (2%nat :: path) TL J4) as (ord & cds & HT & ES & EO & AF).
    pose proof (zinv_comm _ _ WI) as IW.
    assert (ID : conj W ZMid Wi = ZMid) by (apply MofZ_eq_from_action; intro x; now rewrite conj_app, MofZ_id, Mapp_id, (app_inv W Wi x WI), Mapp_id).
    assert (PRS : forall v, exact_operation (sites_of std) ZMid v -> Vcongr v V0).
    { intros v Hv. apply EXA in Hv. rewrite ID in Hv. apply PR in Hv. apply (PEnd11.Vcongr_app Wi) in Hv. now rewrite (app_inv Wi W v IW), Mapp_V0 in Hv. }
    destruct (origin_found std dtol fuel (box_bravais ls) holo_signed holo_mul PRS gens sg ls N sym ND FWD BWD TL J2 ord cds HT ES AF holo_one) as (oo & Ho).
    rewrite TO in J2, J4, AF.
    exists p, q, std, Tm, Pm, n, W, Wi, gens, sg, ord, cds, oo. repeat (split; [assumption|]).
    intros r t Hr EX. destruct (Ho r t (Logic.conj Hr EX)) as (cc & X1 & X2 & X3 & X4). exists cc. split; [exact X1|]. split; [exact X2|]. split; [exact X3|].
    unfold wider in X4. rewrite TO in X4. exact X4.
  Qed.
  (** the crystal's operations lie near tabulated ones, from some origin *)
  Lemma box_sound : exists order codes W Wi o, In (ls, order, N, codes) sg_entries /\ am_get Z.eqb N SG_NUM_TO_SYMBOL = Some sym /\ In W signed /\ ZMmul W Wi = ZMid /\
    gram (Mmul (lattice s) (MofZ W)) = diag (a * a) (b * b) (c * c) /\ 0 < Mdet (Mmul (lattice s) (MofZ W)) /\
    (forall r t, lattice_isometry (lattice s) r -> exact_operation (sites_of s) r t -> exists cc, In cc (group_ops sym codes) /\ r = conj W (fst cc) Wi /\
      Vcongr t (Mapp (MofZ W) (Vadd (V12 (snd cc)) (Vsub o (Mapp (MofZ (fst cc)) o)))) /\ bounded box_wider (Vsub o (Mapp (MofZ (fst cc)) o))).
  Proof using P HO dtol a b c d fuel path s u ui HP HF WF BIG Hu UI EL Ba Bb Bc Hd SP Da Db Dc ls SE RI PR N sym ops EI.
    destruct box_core as (p & q & std & Tm & Pm & n & W & Wi & gens & sg & ord & cds & oo & SR & EG & _ & HT & ES & EO & AF & NEAR). destruct SR as [_ _ _ _ _ HW WI _ LW DS _ GS H1 EXA _ _ _ _ _ _]. pose proof (zinv_comm _ _ WI) as IW.
    rewrite LW in GS, DS. exists ord, cds, W, Wi, oo. repeat (split; [assumption|]). intros r t Hr EX.
    assert (ER : r = conj W (conj Wi r W) Wi) by (symmetry; now apply conj_conj). assert (Et : t = Mapp (MofZ W) (Mapp (MofZ Wi) t)) by (symmetry; now apply app_inv).
    destruct (NEAR (conj Wi r W) (Mapp (MofZ Wi) t)) as (cc & A & B & C & D); [apply H1; rewrite <- ER; exact Hr|apply EXA; rewrite <- ER, <- Et; exact EX|].
    exists cc. split; [exact A|]. split; [rewrite B; exact ER|]. rewrite B. split; [|exact D]. rewrite Et at 1. apply PEnd11.Vcongr_app. exact C.
  Qed.
  (** when no translation is off a twelfth by the tolerance itself, they are the tabulated ones *)
  Lemma box_exact : dtol <= 1 / 40 ->
    (forall W r t (z : Z), In W signed -> gram (Mmul (lattice s) (MofZ W)) = diag (a * a) (b * b) (c * c) -> lattice_isometry (lattice s) r -> exact_operation (sites_of s) r (Mapp (MofZ W) t) ->
      1 / 100000000 < Rabs (Rabs (vx t - IZR z / 12) - dtol / a) /\ 1 / 100000000 < Rabs (Rabs (vy t - IZR z / 12) - dtol / b) /\ 1 / 100000000 < Rabs (Rabs (vz t - IZR z / 12) - dtol / c)) ->
    exists order codes W Wi o, In (ls, order, N, codes) sg_entries /\ am_get Z.eqb N SG_NUM_TO_SYMBOL = Some sym /\ ~ In N not_closed /\ In W signed /\ ZMmul W Wi = ZMid /\
    gram (Mmul (lattice s) (MofZ W)) = diag (a * a) (b * b) (c * c) /\ 0 < Mdet (Mmul (lattice s) (MofZ W)) /\ List.length ops = List.length codes /\
    (forall r t, (lattice_isometry (lattice s) r /\ exact_operation (sites_of s) r t) <-> exists cc, In cc (group_ops sym codes) /\ r = conj W (fst cc) Wi /\
      Vcongr t (Mapp (MofZ W) (Vadd (V12 (snd cc)) (Vsub o (Mapp (MofZ (fst cc)) o))))) /\
    (forall cc, In cc (group_ops sym codes) -> bounded box_narrow (Vsub o (Mapp (MofZ (fst cc)) o))) /\
    (forall op, In op ops -> lattice_isometry (lattice s) (rotation op) /\ exists t, exact_operation (sites_of s) (rotation op) t /\ nanos (1 / 1000000000) (translation op) t) /\
    (forall r t, lattice_isometry (lattice s) r -> exact_operation (sites_of s) r t -> exists op, In op ops /\ rotation op = r /\ nanos (1 / 1000000000) (translation op) t).
  Proof using P HO dtol a b c d fuel path s u ui HP HF WF BIG Hu UI EL Ba Bb Bc Hd SP Da Db Dc ls SE RI PR N sym ops EI.
    intros D40 CLR. destruct box_core as (p & q & std & Tm & Pm & n & W & Wi & gens & sg & ord & cds & oo & SR & EG & EID & HT & ES & EO & AF & NEAR).
    pose proof SR as SR'. destruct SR' as [_ _ _ _ _ HW WI _ LW DS _ GS H1 EXA _ _ _ ND FWD BWD]. pose proof (zinv_comm _ _ WI) as IW. rewrite LW in GS, DS.
    destruct (entry_facts _ _ _ _ HT) as (sym' & ES' & G & EL1 & _). rewrite ES in ES'. injection ES' as <-. fold (group_ops sym cds) in G.
    assert (NAR : forall r t, In r (holo_rots (box_bravais ls)) -> exact_operation (sites_of std) r t -> exists cc, In cc (group_ops sym cds) /\ fst cc = r /\
      Vcongr t (Vadd (V12 (snd cc)) (Vsub oo (Mapp (MofZ r) oo))) /\ bounded box_narrow (Vsub oo (Mapp (MofZ r) oo))).
    { intros r t Hr EX. destruct (NEAR r t Hr EX) as (cc & A & B & C & D). exists cc. split; [exact A|]. split; [exact B|]. split; [exact C|].
      apply EXA in EX. apply H1 in Hr. destruct C as (k & C). revert C D. generalize (Vsub oo (Mapp (MofZ r) oo)). intros m C (D1 & D2 & D3). unfold box_wider in D1, D2, D3. cbn [vx vy vz] in D1, D2, D3.
      assert (KEY : forall (x y : R) (z : Z) (e : R) (i j : Z), x = IZR i / 12 + y + IZR j -> Rabs y <= e + 1 / 1000000000 -> z = (i + 12 * j)%Z -> 1 / 100000000 < Rabs (Rabs (x - IZR z / 12) - e) -> Rabs y <= e - 1 / 100000000).
      { intros x y z e i j -> Y -> Q. replace (IZR i / 12 + y + IZR j - IZR (i + 12 * j) / 12) with y in Q by (rewrite plus_IZR, mult_IZR; field). unfold Rabs at 1 in Q. destruct (Rcase_abs (Rabs y - e)); lra. }
      unfold bounded, box_narrow. cbn [vx vy vz]. split; [|split].
      - destruct (CLR W _ t (vx (snd cc) + 12 * vx k)%Z HW GS Hr EX) as (X & _ & _). apply (KEY (vx t) _ _ _ (vx (snd cc)) (vx k) ltac:(rewrite C; reflexivity) D1 eq_refl X).
      - destruct (CLR W _ t (vy (snd cc) + 12 * vy k)%Z HW GS Hr EX) as (_ & X & _). apply (KEY (vy t) _ _ _ (vy (snd cc)) (vy k) ltac:(rewrite C; reflexivity) D2 eq_refl X).
      - destruct (CLR W _ t (vz (snd cc) + 12 * vz k)%Z HW GS Hr EX) as (_ & _ & X). apply (KEY (vz t) _ _ _ (vz (snd cc)) (vz k) ltac:(rewrite C; reflexivity) D3 eq_refl X). }
    assert (FW : forall op, In op gens -> exists cc, In cc (group_ops sym cds) /\ rotation op = fst cc /\ nanos (1 / 1000000000) (translation op) (Vadd (V12 (snd cc)) (Vsub oo (Mapp (MofZ (fst cc)) oo))) /\
      bounded box_narrow (Vsub oo (Mapp (MofZ (fst cc)) oo))).
    { intros op Hop. destruct (FWD op Hop) as (Hr & t & EX & N1). destruct (NAR _ _ Hr EX) as (cc & A & B & C & D). exists cc. rewrite B. split; [exact A|]. split; [reflexivity|]. split; [|exact D].
      replace (1 / 1000000000) with (1 / 1000000000 + 0) by ring. apply (nanos_trans _ _ _ _ _ N1). apply nanos_congr. exact C. }
    assert (FW1 : forall op, In op gens -> exists cc, In cc (group_ops sym cds) /\ rotation op = fst cc /\ nanos (1 / 1000000000) (translation op) (Vadd (V12 (snd cc)) (Vsub oo (Mapp (MofZ (fst cc)) oo)))).
    { intros op Hop. destruct (FW op Hop) as (cc & A & B & C & _). exists cc. split; [exact A|]. split; [exact B|exact C]. }
    assert (FW2 : forall op, In op gens -> bounded box_narrow (Vsub oo (Mapp (MofZ (rotation op)) oo))) by (intros op Hop; destruct (FW op Hop) as (cc & _ & -> & _ & D); exact D).
    pose proof (edge_tol a Ba) as Ta. pose proof (edge_tol b Bb) as Tb. pose proof (edge_tol c Bc) as Tc.
    assert (T40 : forall m, 1 <= m <= 1000 -> dtol / m <= / 40).
    { clear - D40 Hd. intros m Hm. apply (Rmult_le_reg_r m); [lra|]. replace (dtol / m * m) with dtol by (field; lra). lra. }
    assert (ZC : forall x y z ox oy oz, In x gens -> In y gens -> In z gens -> In ox (group_ops sym cds) -> In oy (group_ops sym cds) -> In oz (group_ops sym cds) -> rotation x = fst ox -> rotation y = fst oy -> rotation z = fst oz ->
      fst oz = ZMmul (fst ox) (fst oy) -> congr12 (snd oz) (snd (zop_mul ox oy))).
    { apply (closing (group_ops sym cds) box_tols box_narrow gens sg oo fuel).
      - pose proof (T40 a Ba). pose proof (T40 b Bb). pose proof (T40 c Bc). unfold box_tols, box_narrow. cbn [vx vy vz]. lra.
      - unfold box_tols. cbn [vx vy vz]. clear - Ta Tb Tc. lra.
      - exact (og_rotations _ G).
      - intros op Hop. apply holo_signed. exact (proj1 (FWD op Hop)).
      - exact (found_mul _ _ _ _ _ _ _ _ _ SR).
      - exact FW1.
      - exact FW2.
      - exact EG.
      - exact AF. }
    assert (ESG : sg = gens). { pose proof (box_unchanged _ _ _ _ _ _ _ _ gens (group_ops sym cds) oo SR FW1 FW2 ZC) as Q. rewrite EG in Q. injection Q as Q. exact Q. }
    rewrite ESG in EID, EO. clear ESG AF EG sg.
    assert (LEN : List.length gens = List.length cds).
    { pose proof (found_short _ _ _ _ _ _ _ _ _ SR) as SH. rewrite Z.mod_small in EO by (split; [apply Nat2Z.is_nonneg|change 256%Z with (Z.of_nat 256); apply inj_lt; apply Nat.le_lt_trans with (1 := SH); clear; lia]).
      rewrite <- EO in EL1. apply Nat2Z.inj in EL1. exact EL1. }
    assert (INC : incl (map fst (group_ops sym cds)) (map (@rotation RNum) gens)).
    { apply NoDup_length_incl; [exact ND| |].
      - unfold group_ops. rewrite !map_length, LEN. apply Nat.le_refl.
      - intros r Hr. apply in_map_iff in Hr. destruct Hr as (op & <- & Hop). destruct (FW op Hop) as (cc & A & -> & _). now apply in_map. }
    assert (ALL : forall cc, In cc (group_ops sym cds) -> exists op, In op gens /\ rotation op = fst cc).
    { intros cc Hc. specialize (INC _ (in_map fst _ _ Hc)). apply in_map_iff in INC. destruct INC as (op & E & Hop). exists op. split; [exact Hop|exact E]. }
    assert (NC : ~ In N not_closed).
    { apply (closed_table ls ord N cds sym HT ES). apply forallb_forall. intros x Hx. apply forallb_forall. intros y Hy. cbv zeta. rewrite ex_if_existsb. apply existsb_exists.
      destruct (ALL x Hx) as (gx & Hgx & Rx). destruct (ALL y Hy) as (gy & Hgy & Ry). destruct (found_mul _ _ _ _ _ _ _ _ _ SR gx gy Hgx Hgy) as (gz & Hgz & Rz). destruct (FW gz Hgz) as (z & Hz & Rz' & _).
      exists z. split; [exact Hz|]. apply same_op_eq. assert (Em : fst z = ZMmul (fst x) (fst y)) by congruence. split; [|exact (ZC gx gy gz x y z Hgx Hgy Hgz Hx Hy Hz Rx Ry Rz' Em)].
      rewrite Em. unfold zop_mul. cbn [fst]. symmetry. apply i8_mmul_eq. rewrite <- Rx, <- Ry, <- Rz. apply unit_rot_i8. destruct (signed_facts _ (holo_signed _ (proj1 (FWD gz Hgz)))) as (_ & X & _). exact X. }
    destruct (box_reported _ _ _ _ _ _ _ _ gens N sym SR (box_unchanged _ _ _ _ _ _ _ _ gens (group_ops sym cds) oo SR FW1 FW2 ZC) EID) as (ops' & O1 & O2 & O3 & O4).
    rewrite EI in O1. injection O1 as <-.
    exists ord, cds, W, Wi, oo. repeat (split; [assumption|]). split; [congruence|]. split; [|split; [|split; [exact O3|exact O4]]].
    - intros r t. split.
      + intros [Hr EX]. assert (ER : r = conj W (conj Wi r W) Wi) by (symmetry; now apply conj_conj). assert (Et : t = Mapp (MofZ W) (Mapp (MofZ Wi) t)) by (symmetry; now apply app_inv).
        destruct (NAR (conj Wi r W) (Mapp (MofZ Wi) t)) as (cc & A & B & C & D); [apply H1; rewrite <- ER; exact Hr|apply EXA; rewrite <- ER, <- Et; exact EX|].
        exists cc. split; [exact A|]. split; [rewrite B; exact ER|]. rewrite B. rewrite Et at 1. apply PEnd11.Vcongr_app. exact C.
      + intros (cc & Hc & -> & C). destruct (ALL cc Hc) as (op & Hop & E). destruct (FWD op Hop) as (Hr & t' & EX & N1). rewrite E in Hr, EX. split; [now apply H1|].
        destruct (NAR _ _ Hr EX) as (cc' & A & B & C' & _). assert (cc' = cc) by (apply (same_rot_same _ (og_rotations _ G)); assumption). subst cc'.
        apply EXA in EX. apply (exact_congr _ _ _ _ EX). apply (PSymmOp.Vcongr_trans _ _ _ C). apply PEnd11.Vcongr_app. apply PSymmOp.Vcongr_sym. exact C'.
    - intros cc Hc. destruct (ALL cc Hc) as (op & Hop & E). destruct (FW op Hop) as (cc' & A & B & _ & D). assert (cc' = cc) by (apply (same_rot_same _ (og_rotations _ G)); [exact A|exact Hc|congruence]). subst cc'. exact D.
  Qed.
End Boxed.
