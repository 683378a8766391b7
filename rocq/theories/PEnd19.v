(** Crystals in a rectangular cell, with the origin anywhere: the displacements of the operations from the tabulated ones (spacegroup.rs 25-64, analyzer.rs 87-162) *)
From Coq Require Import ZArith Reals String Ascii List Bool Lia Lra Psatz Permutation.
From Flocq Require Import Core.
From Verif Require Import Num Mat Utils DataCore DataPG DataSG SymmOp PointGroup SpaceGroup Structure Reduce Analyzer RInst Spec Spec2 Spec3 Spec5 Spec6 RFacts
  PUtils PSymmOp PStructure PStructure2 PStructure3 PNiggli PDelaunay PPrim PPrim2 PLattice PAnalyzer PAnalyzer2 PPointGroup PPointGroup2 PSpaceGroup PSpaceGroup2 PCode PTables PIdentify
  PSearch PSearch3 PSearch4 PSearch5 PSearch6 PSearch7 PEnd PEnd2 PEnd3 PEnd4 PEnd11 PEnd12 PEnd13 PEnd14 PEnd15 PEnd16 Prop5.
Import ListNotations.
Open Scope R_scope.

(** ** Vectors bounded along each axis *)
Definition bounded (T m : vec R) : Prop := Rabs (vx m) <= vx T /\ Rabs (vy m) <= vy T /\ Rabs (vz m) <= vz T.
Lemma small_integer (z : Z) : Rabs (IZR z) < 1 -> z = 0%Z.
Proof. intro H. apply Rabs_def2 in H. destruct H as [A B]. apply lt_IZR in A. assert (C : (-1 < z)%Z) by (apply lt_IZR; lra). lia. Qed.
Lemma Vcongr_small u v : Vcongr u v -> Rabs (vx u - vx v) < 1 -> Rabs (vy u - vy v) < 1 -> Rabs (vz u - vz v) < 1 -> u = v.
Proof.
  intros (n & ->) A B C. unfold Vadd, VofZ in *. cbn [vx vy vz] in *.
  assert (G : forall x (z : Z), Rabs (x + IZR z - x) < 1 -> x + IZR z = x). { intros x z H. replace (x + IZR z - x) with (IZR z) in H by ring. apply small_integer in H. subst z. lra. }
  apply G in A, B, C. rewrite A, B, C. now destruct v.
Qed.
Lemma signed_rows r : In r signed -> In (V (m11 r) (m12 r) (m13 r)) units6 /\ In (V (m21 r) (m22 r) (m23 r)) units6 /\ In (V (m31 r) (m32 r) (m33 r)) units6.
Proof.
  intro HW.
  assert (Q : forallb (fun w => if (m11 w * m11 w + m12 w * m12 w + m13 w * m13 w =? 1)%Z then if (m21 w * m21 w + m22 w * m22 w + m23 w * m23 w =? 1)%Z then (m31 w * m31 w + m32 w * m32 w + m33 w * m33 w =? 1)%Z else false else false) signed = true) by (vm_compute; reflexivity).
  pose proof (proj1 (forallb_forall _ _) Q r HW) as K. cbn beta in K. clear Q HW.
  destruct (m11 r * m11 r + m12 r * m12 r + m13 r * m13 r =? 1)%Z eqn:K1; [|discriminate]. destruct (m21 r * m21 r + m22 r * m22 r + m23 r * m23 r =? 1)%Z eqn:K2; [|discriminate].
  apply Z.eqb_eq, unit_in in K. apply Z.eqb_eq, unit_in in K1. apply Z.eqb_eq, unit_in in K2. repeat split; assumption.
Qed.
(** a signed permutation of axes keeps a common bound *)
Lemma signed_bounded r T m : In r signed -> bounded (V T T T) m -> bounded (V T T T) (Mapp (MofZ r) m).
Proof.
  intros Hr (A & B & C). cbn [vx vy vz] in *. destruct (signed_rows r Hr) as (R1 & R2 & R3). clear Hr.
  assert (G : forall x y z : Z, In (V x y z) units6 -> Rabs (IZR x * vx m + IZR y * vy m + IZR z * vz m) <= T).
  { intros x y z Hu. unfold units6 in Hu. cbn [In] in Hu.
    destruct Hu as [E|[E|[E|[E|[E|[E|[]]]]]]]; injection E as <- <- <-;
      match goal with |- Rabs ?e <= T => first
        [ replace e with (vx m) by ring; exact A | replace e with (vy m) by ring; exact B | replace e with (vz m) by ring; exact C
        | replace e with (- vx m) by ring; rewrite Rabs_Ropp; exact A | replace e with (- vy m) by ring; rewrite Rabs_Ropp; exact B
        | replace e with (- vz m) by ring; rewrite Rabs_Ropp; exact C ] end. }
  unfold bounded, Mapp, MofZ, mmap. cbn [vx vy vz m11 m12 m13 m21 m22 m23 m31 m32 m33]. repeat split; now apply G.
Qed.

Lemma signed_unit r : In r signed -> ZMmul (transpose r) r = ZMid.
Proof.
  intro Hr. assert (Q : forallb (fun w => zmat_eqb (ZMmul (transpose w) w) ZMid) signed = true) by (vm_compute; reflexivity). apply zmat_eqb_spec. exact (proj1 (forallb_forall _ _) Q r Hr).
Qed.
(** sums of vectors *)
Definition Vsum (l : list (vec R)) : vec R := fold_right Vadd V0 l.
Lemma Vsum_perm l l' : Permutation l l' -> Vsum l = Vsum l'.
Proof.
  induction 1 as [|x l l' H IH|x y l|l l' l'' H1 IH1 H2 IH2]; cbn [Vsum fold_right] in *.
  - reflexivity.
  - unfold Vsum in IH. now rewrite IH.
  - unfold Vadd. cbn [vx vy vz]. f_equal; ring.
  - now rewrite IH1.
Qed.

(** ** Displacements of exact operations from tabulated ones *)
Section Displaced.
  Context (G : mat Z -> vec R -> Prop) (l : list zop) (T : vec R) (K : R).
  Hypothesis GU : forall r t t', G r t -> G r t' -> Vcongr t t'.
  Hypothesis GC : forall r t r' t', G r t -> G r' t' -> G (ZMmul r r') (Vadd (Mapp (MofZ r) t') t).
  Hypothesis GS : forall r t, G r t -> In r signed.
  Hypothesis LG : operation_group l.
  Hypothesis TK : vx T <= K /\ vy T <= K /\ vz T <= K.
  Hypothesis K1 : 3 * K < 1.
  Definition displaced (r : mat Z) (m : vec R) : Prop := exists t c, G r t /\ In c l /\ fst c = r /\ Vcongr t (Vadd (V12 (snd c)) m) /\ bounded T m.
  Lemma bounded_K m : bounded T m -> Rabs (vx m) <= K /\ Rabs (vy m) <= K /\ Rabs (vz m) <= K.
  Proof using TK. intros (A & B & C). lra. Qed.
  Lemma displaced_unique r m m' : displaced r m -> displaced r m' -> m = m'.
  Proof using All.
    intros (t & c & H1 & H2 & H3 & H4 & H5) (t' & c' & H1' & H2' & H3' & H4' & H5'). assert (c = c') by (apply (same_rot_same _ (og_rotations _ LG)); auto; congruence). subst c'.
    pose proof (GU _ _ _ H1 H1') as E. destruct H4 as (n & ->), H4' as (n' & ->), E as (k & E).
    apply bounded_K in H5, H5'. destruct H5 as (A & B & C), H5' as (A' & B' & C').
    apply Vcongr_small.
    - exists (V (vx n' + vx k - vx n) (vy n' + vy k - vy n) (vz n' + vz k - vz n))%Z. unfold Vadd, VofZ in *. cbn [vx vy vz] in *. injection E as E1 E2 E3. destruct m as [x y z]. cbn [vx vy vz] in *.
      rewrite !minus_IZR, !plus_IZR. f_equal; lra.
    - apply Rabs_le_inv in A, A'. apply Rabs_def1; lra.
    - apply Rabs_le_inv in B, B'. apply Rabs_def1; lra.
    - apply Rabs_le_inv in C, C'. apply Rabs_def1; lra.
  Qed.
  Hypothesis NEAR : forall r t, G r t -> exists c m, In c l /\ fst c = r /\ Vcongr t (Vadd (V12 (snd c)) m) /\ bounded T m.
  Lemma displaced_compose r m r' m' : displaced r m -> displaced r' m' -> displaced (ZMmul r r') (Vadd (Mapp (MofZ r) m') m).
  Proof using All.
    intros (t & c & H1 & H2 & H3 & H4 & H5) (t' & c' & H1' & H2' & H3' & H4' & H5'). pose proof (GC _ _ _ _ H1 H1') as H. destruct (NEAR _ _ H) as (d & e & D1 & D2 & D3 & D4).
    destruct (og_closed _ LG c c' H2 H2') as (d' & D1' & S1 & S2). assert (d = d') by (apply (same_rot_same _ (og_rotations _ LG)); auto; rewrite D2, S1; unfold compose; cbn [fst]; congruence). subst d'.
    assert (E : e = Vadd (Mapp (MofZ r) m') m).
    { pose proof (signed_bounded r K m' (GS _ _ H1)) as SB. apply bounded_K in H5'. specialize (SB H5'). destruct SB as (A' & B' & C'). cbn [vx vy vz] in A', B', C'.
      pose proof (bounded_K _ H5) as (A & B & C). pose proof (bounded_K _ D4) as (A0 & B0 & C0).
      apply Vcongr_small.
      - unfold compose in S2. cbn [snd] in S2. destruct S2 as (k & S2). destruct H4 as (n & ->), H4' as (n' & ->), D3 as (n0 & D3). rewrite S2 in D3. rewrite <- H3 in D3 |- *.
        exists (ZVadd (ZVadd (ZMapp (fst c) n') n) (V (- vx k - vx n0) (- vy k - vy n0) (- vz k - vz n0)))%Z.
        rewrite !VofZ_add, MofZ_app. rewrite !Mapp_add in D3. rewrite MofZ_V12 in D3. revert D3. generalize (Mapp (MofZ (fst c)) (VofZ n')) (Mapp (MofZ (fst c)) m'). intros X Y D3.
        destruct X as [x1 x2 x3], Y as [y1 y2 y3], e as [e1 e2 e3], m as [d1 d2 d3]. unfold V12, Vadd, VofZ, ZVadd in *. cbn [vx vy vz] in *. pose proof (f_equal (@vx R) D3) as E1. pose proof (f_equal (@vy R) D3) as E2. pose proof (f_equal (@vz R) D3) as E3. clear D3. cbn [vx vy vz] in E1, E2, E3. rewrite !plus_IZR, !mult_IZR in E1, E2, E3.
        rewrite !minus_IZR, !opp_IZR. f_equal; lra.
      - unfold Vadd. cbn [vx]. apply Rabs_le_inv in A, A', A0. apply Rabs_def1; lra.
      - unfold Vadd. cbn [vy]. apply Rabs_le_inv in B, B', B0. apply Rabs_def1; lra.
      - unfold Vadd. cbn [vz]. apply Rabs_le_inv in C, C', C0. apply Rabs_def1; lra. }
    rewrite <- E. exists (Vadd (Mapp (MofZ r) t') t), d. auto.
  Qed.
  Lemma displaced_some r t : G r t -> exists m, displaced r m.
  Proof using NEAR. intro H. destruct (NEAR r t H) as (c & m & A & B & C & D). exists m, t, c. auto. Qed.
  (** the displacements are those of a change of origin *)
  Context (Rs : list (mat Z)).
  Hypothesis RN : NoDup Rs.
  Hypothesis RG : forall r, In r Rs <-> exists t, G r t.
  Hypothesis R0 : Rs <> [].
  Lemma displaced_list : exists ds : list (mat Z * vec R), map fst ds = Rs /\ (forall e, In e ds -> displaced (fst e) (snd e)) /\ (forall r m, displaced r m -> In (r, m) ds).
  Proof using All.
    assert (H : exists ds : list (mat Z * vec R), map fst ds = Rs /\ (forall e, In e ds -> displaced (fst e) (snd e))).
    { assert (Q : forall r, In r Rs -> exists m, displaced r m). { intros r Hr. apply RG in Hr. destruct Hr as (t & Ht). exact (displaced_some r t Ht). }
      clear RN RG R0. induction Rs as [|r rs IH]; [exists []; split; [reflexivity|intros e []]|]. destruct (Q r (or_introl eq_refl)) as (m & Hm). destruct IH as (ds & E & F); [intros r' Hr'; apply Q; now right|].
      exists ((r, m) :: ds). split; [cbn; now rewrite E|]. intros e [<-|He]; [exact Hm|now apply F]. }
    destruct H as (ds & E & F). exists ds. split; [exact E|]. split; [exact F|]. intros r m Hm. assert (Hr : In r Rs) by (apply RG; destruct Hm as (t & c & X & _); eauto).
    rewrite <- E in Hr. apply in_map_iff in Hr. destruct Hr as ([r' m'] & Er & He). cbn [fst] in Er. subst r'. rewrite (displaced_unique r m m' Hm (F _ He)). exact He.
  Qed.
  Lemma origin : exists p, forall r m, displaced r m -> m = Vsub p (Mapp (MofZ r) p).
  Proof using All.
    destruct displaced_list as (ds & E & F & F'). set (S := Vsum (map snd ds)). set (n := INR (List.length ds)).
    assert (Hn : n <> 0). { unfold n. rewrite <- (map_length fst), E. destruct Rs as [|x xs]; [now elim R0|]. apply not_0_INR. discriminate. }
    exists (Vscal (/ n) S). intros r m Hm.
    set (f := fun e : mat Z * vec R => (ZMmul r (fst e), Vadd (Mapp (MofZ r) (snd e)) m)).
    assert (Sr : In r signed) by (destruct Hm as (t & c & X & _); exact (GS _ _ X)).
    assert (ND : NoDup (map f ds)).
    { apply (NoDup_map_inv fst). rewrite map_map. cbn [fst f]. rewrite <- (map_map fst (fun h => ZMmul r h)), E. apply PSearch3.NoDup_map_on; [exact RN|]. intros h h' _ _ X.
      apply (f_equal (ZMmul (transpose r))) in X. rewrite <- !ZMmul_assoc, (signed_unit r Sr) in X. now rewrite !ZMmul_id_l in X. }
    assert (PM : Permutation (map f ds) ds).
    { apply NoDup_Permutation_bis; [exact ND|now rewrite map_length|]. intros e He. apply in_map_iff in He. destruct He as (e0 & <- & He0). apply F'. apply displaced_compose; [exact Hm|exact (F _ He0)]. }
    apply (Permutation_map snd) in PM. apply Vsum_perm in PM. fold S in PM. rewrite map_map in PM. cbn [snd f] in PM.
    assert (Q : Vsum (map (fun x => Vadd (Mapp (MofZ r) (snd x)) m) ds) = Vadd (Mapp (MofZ r) S) (Vscal n m)).
    { unfold S, n. clear. unfold Vsum. induction ds as [|e ds IH]; cbn [map fold_right List.length].
      - change (INR 0) with 0. rewrite Mapp_V0. unfold V0, Vadd, Vscal. cbn [vx vy vz]. f_equal; lra.
      - rewrite IH, S_INR, !Mapp_add. generalize (Mapp (MofZ r) (snd e)) (Mapp (MofZ r) (fold_right Vadd V0 (map snd ds))). intros X Y. unfold Vadd, Vscal. cbn [vx vy vz]. f_equal; ring. }
    rewrite Q in PM. rewrite Mapp_scal. clear - PM Hn. revert PM. generalize (Mapp (MofZ r) S). intros X PM. rewrite <- PM. destruct m as [m1 m2 m3]. unfold Vadd, Vscal, Vsub. cbn [vx vy vz]. f_equal; field; exact Hn.
  Qed.
End Displaced.

(** ** Exact operations compose *)
Lemma exact_compose S r t r' t' : exact_operation S r t -> exact_operation S r' t' -> exact_operation S (ZMmul r r') (Vadd (Mapp (MofZ r) t') t).
Proof.
  intros H H' x e Hx. destruct (H' x e Hx) as (y & Hy & C). destruct (H y e Hy) as (z & Hz & C'). exists z. split; [exact Hz|]. refine (PSymmOp.Vcongr_trans _ _ _ _ C').
  replace (act (ZMmul r r') (Vadd (Mapp (MofZ r) t') t) x) with (act r t (act r' t' x)).
  - unfold act at 1 3. apply Vcongr_add; [apply PEnd11.Vcongr_app; exact C|apply Vcongr_refl].
  - unfold act. rewrite MofZ_mul, Mapp_Mmul, Mapp_add. unfold Vadd. cbn [vx vy vz]. f_equal; ring.
Qed.
Fixpoint zpow (r : mat Z) (n : nat) : mat Z := match n with O => ZMid | S k => ZMmul r (zpow r k) end.
Lemma exact_pow S r t n : exact_operation S r t -> exists t', exact_operation S (zpow r n) t'.
Proof.
  intro H. induction n as [|n (t' & IH)]; cbn [zpow].
  - exists V0. intros x e Hx. exists x. split; [exact Hx|]. unfold act. rewrite MofZ_id, Mapp_id, Vadd_0_r. apply Vcongr_refl.
  - exists (Vadd (Mapp (MofZ r) t') t). now apply exact_compose.
Qed.
Lemma signed_pow r : In r signed -> zpow r 11 = transpose r.
Proof.
  intro Hr. assert (Q : forallb (fun w => zmat_eqb (zpow w 11) (transpose w)) signed = true) by (vm_compute; reflexivity). apply zmat_eqb_spec. exact (proj1 (forallb_forall _ _) Q r Hr).
Qed.
Lemma signed_unit' r : In r signed -> ZMmul r (transpose r) = ZMid.
Proof. intro Hr. apply zinv_comm. now apply signed_unit. Qed.
(** in a primitive cell the translation goes with the rotation *)
Lemma exact_unique S r t t' : (forall v, exact_operation S ZMid v -> Vcongr v V0) -> In r signed -> exact_operation S r t -> exact_operation S r t' -> Vcongr t t'.
Proof.
  intros PR Hr H H'. destruct (exact_pow S r t 11 H) as (u & Hu). rewrite (signed_pow r Hr) in Hu.
  pose proof (exact_compose _ _ _ _ _ Hu H) as A. pose proof (exact_compose _ _ _ _ _ Hu H') as B. rewrite (signed_unit r Hr) in A, B. apply PR in A, B.
  pose proof (PSymmOp.Vcongr_trans _ _ _ A (PSymmOp.Vcongr_sym _ _ B)) as C. clear A B. assert (D : Vcongr (Mapp (MofZ (transpose r)) t) (Mapp (MofZ (transpose r)) t')).
  { destruct C as (n & C). exists n. revert C. generalize (Mapp (MofZ (transpose r)) t) (Mapp (MofZ (transpose r)) t'). intros X Y C. destruct X as [x1 x2 x3], Y as [y1 y2 y3], u as [u1 u2 u3]. unfold Vadd, VofZ in *. cbn [vx vy vz] in *. injection C as C1 C2 C3. f_equal; lra. }
  apply (PEnd11.Vcongr_app r) in D. now rewrite !(app_inv r (transpose r) _ (signed_unit' r Hr)) in D.
Qed.

(** ** The standard cell of a primitive crystal *)
Section Standard.
  Context {H : HashOrd} (s : @structure RNum) (dtol : R) (fuel : nat) (path : list nat) (b : bravais).
  Hypothesis HF : (48 <= fuel)%nat.
  Hypothesis WF : List.length (frac_coords s) = List.length (species s).
  Hypothesis BIG : (0 < Z.of_nat (List.length (species s)) <= 65535)%Z.
  Hypothesis GR : grouped (species s).
  Hypothesis fine : forall k, (k < 3)%nat -> 1 / 100000000 * Vnorm (Ccol (lattice s) k) <= dtol /\ 24 * dtol <= Vnorm (Ccol (lattice s) k) /\
                                              0 < Vnorm (Ccol (lattice s) k).
  Let sites : list (vec R * string) := combine (frac_coords s) (species s).
  Hypothesis SEP : sites_apart (4 * dtol) (lattice s) sites.
  Hypothesis RIG : rigid (2 * dtol) (lattice s) sites (fun r => In r (holo_rots b)).
  Hypothesis HS : incl (holo_rots b) signed.
  Hypothesis HM : forall r q, In r (holo_rots b) -> In q (holo_rots b) -> In (ZMmul r q) (holo_rots b).
  Hypothesis PR : forall v, exact_operation sites ZMid v -> Vcongr v V0.
  Lemma primitive_searched : exists ops, @get_primitive_space_group_ops RNum H fuel path dtol s b = Ok ops /\ NoDup (map (@rotation RNum) ops) /\
    (forall op, In op ops -> In (rotation op) (holo_rots b) /\ exists t, exact_operation sites (rotation op) t /\ nanos (1 / 1000000000) (translation op) t) /\
    (forall r t, In r (holo_rots b) -> exact_operation sites r t -> exists op, In op ops /\ rotation op = r /\ nanos (1 / 1000000000) (translation op) t).
  Proof using All.
    destruct (search_exact s dtol fuel path b HF WF BIG GR) as (n & c & P & Pi & pg & ops & En & Ec & EP & HI & Epg & E & Q).
    - intros k Hk. destruct (fine k Hk) as (A & B & C). lra.
    - exact SEP.
    - intros k Hk. destruct (fine k Hk) as (A & B & C). lra.
    - intros k Hk. destruct (fine k Hk) as (A & B & C). lra.
    - pose proof (holo_rots_spec fuel (0%nat :: path) b n c P Pi pg HF En Ec EP HI Epg) as HR. cbv zeta in Q.
      destruct Q as (Q1 & Q2 & Q3 & Q4).
      { intros r t Hr. apply HR in Hr. exact (RIG r t Hr). }
      exists ops. split; [exact E|]. split; [|split].
      + apply PSearch3.NoDup_map_on; [exact Q1|]. intros a a' Ha Ha' Er. destruct (Q2 a Ha) as (Hr & t & EX & N1). destruct (Q2 a' Ha') as (_ & t' & EX' & N1'). rewrite <- Er in EX'.
        apply HR in Hr. pose proof (exact_unique _ _ _ _ PR (HS _ Hr) EX EX') as V. apply (Q4 a a' t); auto. change (nanos (1 / 1000000000) (translation a') t).
        replace (1 / 1000000000) with (1 / 1000000000 + 0) by ring. apply (nanos_trans _ _ _ t'); [exact N1'|]. apply nanos_congr. exact (PSymmOp.Vcongr_sym _ _ V).
      + intros op Hop. destruct (Q2 op Hop) as (Hr & t & EX & N1). apply HR in Hr. split; [exact Hr|]. exists t. split; [exact EX|exact N1].
      + intros r t Hr EX. apply HR in Hr. exact (Q3 r t Hr EX).
  Qed.
  (** what an identification says *)
  Context (gens sg : list sop) (ls : lattice_system) (n : Z) (sym : string) (ipath : list nat).
  Hypothesis ND : NoDup (map (@rotation RNum) gens).
  Hypothesis FWD : forall op, In op gens -> In (rotation op) (holo_rots b) /\ exists t, exact_operation sites (rotation op) t /\ nanos (1 / 1000000000) (translation op) t.
  Hypothesis BWD : forall r t, In r (holo_rots b) -> exact_operation sites r t -> exists op, In op gens /\ rotation op = r /\ nanos (1 / 1000000000) (translation op) t.
  Let tols : vec R := @frac_tols_of RNum (lattice s) dtol.
  Hypothesis TL : forall k, (k < 3)%nat -> 9 / 1000000000 < vnth tols k <= 1 / 24.
  Hypothesis EG : @from_generators RNum fuel gens tols = Ok sg.
  Hypothesis EI : @identify_space_group RNum H ipath sg ls tols = Ok (Some (n, sym)).
  Lemma tl3 : (9 / 1000000000 < vx tols <= 1 / 24) /\ (9 / 1000000000 < vy tols <= 1 / 24) /\ (9 / 1000000000 < vz tols <= 1 / 24).
  Proof using TL. clear - TL. split; [exact (TL 0%nat ltac:(lia))|]. split; [exact (TL 1%nat ltac:(lia))|exact (TL 2%nat ltac:(lia))]. Qed.
  Definition real_ops (r : mat Z) (t : vec R) : Prop := In r (holo_rots b) /\ exact_operation sites r t.
  Definition wider : vec R := V (vx tols + 1 / 1000000000) (vy tols + 1 / 1000000000) (vz tols + 1 / 1000000000).
  Lemma real_compose r t r' t' : real_ops r t -> real_ops r' t' -> real_ops (ZMmul r r') (Vadd (Mapp (MofZ r) t') t).
  Proof using HM. intros [A B] [C D]. split; [exact (HM _ _ A C)|exact (exact_compose _ _ _ _ _ B D)]. Qed.
  Lemma real_unique r t t' : real_ops r t -> real_ops r t' -> Vcongr t t'.
  Proof using PR HS. intros [A B] [C D]. exact (exact_unique _ _ _ _ PR (HS _ A) B D). Qed.
  Lemma identified_codes : exists order codes, In (ls, order, n, codes) sg_entries /\ am_get Z.eqb n SG_NUM_TO_SYMBOL = Some sym /\ (Z.of_nat (List.length sg) mod 256 = order)%Z /\
    (forall op, In op sg -> exists c, In c (group_ops sym codes) /\ rotation op = fst c /\ near3 tols (translation op) (in_twelfths (snd c))).
  Proof using EI TL.
    destruct tl3 as (T1 & T2 & T3). assert (TK : tols_ok tols) by (repeat split; lra).
    destruct (identify_some _ _ _ _ _ _ EI) as (buckets & groups & codes & E1 & E2 & E3 & ES & IN).
    apply am_get_in in E1. destruct E1 as (ls' & Q1 & E1). apply lattice_system_eqb_spec in Q1. subst ls'.
    apply am_get_in in E2. destruct E2 as (order & Q2 & E2). apply Z.eqb_eq in Q2.
    exists order, codes. assert (HT : In (ls, order, n, codes) sg_entries) by (apply sg_entries_In; eauto). split; [exact HT|]. split; [exact ES|]. split; [exact Q2|].
    intros op Hop. destruct (IN op Hop) as (code & c & Hc & Ec & Eq). rewrite candidate_code in Ec by (apply (codes_range _ _ _ _ _ _ _ E1 E2 E3 Hc)).
    injection Ec as <-. exists (code_op (has_char "A"%char sym) code). split; [now apply in_map|]. apply is_approx_eq_spec in Eq; [exact Eq|exact TK].
  Qed.
  Context (order : Z) (codes : list Z).
  Hypothesis HT : In (ls, order, n, codes) sg_entries.
  Hypothesis ES : am_get Z.eqb n SG_NUM_TO_SYMBOL = Some sym.
  Hypothesis AF : forall op, In op sg -> exists c, In c (group_ops sym codes) /\ rotation op = fst c /\ near3 tols (translation op) (in_twelfths (snd c)).
  Lemma real_near r t : real_ops r t -> exists c m, In c (group_ops sym codes) /\ fst c = r /\ Vcongr t (Vadd (V12 (snd c)) m) /\ bounded wider m.
  Proof using BWD EG AF TL.
    destruct tl3 as (T1 & T2 & T3). assert (TK : tols_ok tols) by (repeat split; lra). intros [A B]. destruct (BWD r t A B) as (op & Hop & Er & (k & N1 & N2 & N3)).
    destruct (from_generators_spec _ TK _ _ _ EG) as [GW _]. apply (grown_gens _ _ _ GW) in Hop. destruct (AF op Hop) as (c & Hc & Ec & ((z1 & M1) & (z2 & M2) & (z3 & M3))).
    exists c, (V (vx t - vx (V12 (snd c)) - IZR (z1 - vx k)) (vy t - vy (V12 (snd c)) - IZR (z2 - vy k)) (vz t - vz (V12 (snd c)) - IZR (z3 - vz k))).
    split; [exact Hc|]. split; [congruence|]. split.
    - exists (V (z1 - vx k) (z2 - vy k) (z3 - vz k))%Z. unfold Vadd, VofZ. destruct t as [t1 t2 t3]. cbn [vx vy vz]. f_equal; ring.
    - unfold bounded, wider. cbn [vx vy vz]. change (in_twelfths (snd c)) with (V12 (snd c)) in M1, M2, M3.
      assert (G : forall x y w (i j : Z) T, Rabs (x - y - IZR i) <= 1 / 1000000000 -> Rabs (x - w - IZR j) < T -> Rabs (y - w - IZR (j - i)) <= T + 1 / 1000000000).
      { intros x y w i j T X Y. rewrite minus_IZR. replace (y - w - (IZR j - IZR i)) with ((x - w - IZR j) - (x - y - IZR i)) by ring. eapply Rle_trans; [apply Rabs_triang|]. rewrite Rabs_Ropp. lra. }
      split; [|split]; [exact (G _ _ _ _ _ _ N1 M1)|exact (G _ _ _ _ _ _ N2 M2)|exact (G _ _ _ _ _ _ N3 M3)].
  Qed.
  Lemma wider_K : vx wider <= 1 / 23 /\ vy wider <= 1 / 23 /\ vz wider <= 1 / 23.
  Proof using TL. destruct tl3 as (T1 & T2 & T3). unfold wider. cbn [vx vy vz]. lra. Qed.
  Lemma table_group : operation_group (group_ops sym codes).
  Proof using HT ES. destruct (entry_facts _ _ _ _ HT) as (sym0 & ES0 & G & _). rewrite ES in ES0. injection ES0 as <-. exact G. Qed.
  Lemma gens_real r : In r (map (@rotation RNum) gens) <-> exists t, real_ops r t.
  Proof using FWD BWD.
    rewrite in_map_iff. split.
    - intros (op & <- & Hop). destruct (FWD op Hop) as (A & t & B & _). exists t. split; [exact A|exact B].
    - intros (t & A & B). destruct (BWD r t A B) as (op & Hop & E & _). eauto.
  Qed.
  Hypothesis I0 : In ZMid (holo_rots b).
  Lemma some_gen : map (@rotation RNum) gens <> [].
  Proof using FWD BWD I0.
    intro E. assert (X : In ZMid (map (@rotation RNum) gens)); [|rewrite E in X; exact X]. apply gens_real. exists V0. split; [exact I0|].
    intros x e Hx. exists x. split; [exact Hx|]. unfold act. rewrite MofZ_id, Mapp_id, Vadd_0_r. apply Vcongr_refl.
  Qed.
  Lemma real_signed r t : real_ops r t -> In r signed. Proof using HS. intros [A _]. exact (HS _ A). Qed.
  Lemma origin_found : exists p, forall r t, real_ops r t -> exists c, In c (group_ops sym codes) /\ fst c = r /\
    Vcongr t (Vadd (V12 (snd c)) (Vsub p (Mapp (MofZ r) p))) /\ bounded wider (Vsub p (Mapp (MofZ r) p)).
  Proof using HS HM PR ND FWD BWD TL EG HT ES AF I0.
    destruct (origin real_ops (group_ops sym codes) wider (1 / 23) real_unique real_compose real_signed table_group wider_K ltac:(lra) real_near (map (@rotation RNum) gens) ND gens_real some_gen) as (p & Hp).
    exists p. intros r t Ht. destruct (real_near r t Ht) as (c & m & A & B & C & D). assert (E : m = Vsub p (Mapp (MofZ r) p)) by (apply Hp; exists t, c; auto).
    exists c. split; [exact A|]. split; [exact B|]. rewrite <- E. split; [exact C|exact D].
  Qed.
End Standard.

(** ** Operations drawn from another origin, grown by from_generators *)
Lemma V12_mul ca cb : V12 (snd (zop_mul ca cb)) = Vadd (Mapp (MofZ (fst cb)) (V12 (snd ca))) (V12 (snd cb)).
Proof. unfold zop_mul. cbn [snd]. rewrite MofZ_V12. unfold V12, Vadd, ZVadd. cbn [vx vy vz]. rewrite !plus_IZR. f_equal; field. Qed.
Lemma signed_small r : In r signed -> small_rot r = true.
Proof. intro Hr. apply small_unit. destruct (signed_facts _ Hr) as (_ & X & _). exact X. Qed.
Lemma nanos_shift d u v w : nanos d u v -> nanos d (Vadd u w) (Vadd v w).
Proof.
  intros (n & P1 & P2 & P3). exists n. unfold Vadd. cbn [vx vy vz]. split; [|split].
  - replace (vx u + vx w - (vx v + vx w) - IZR (vx n)) with (vx u - vx v - IZR (vx n)) by ring. exact P1.
  - replace (vy u + vy w - (vy v + vy w) - IZR (vy n)) with (vy u - vy v - IZR (vy n)) by ring. exact P2.
  - replace (vz u + vz w - (vz v + vz w) - IZR (vz n)) with (vz u - vz v - IZR (vz n)) by ring. exact P3.
Qed.
Section Offset.
  Context (l : list zop) (tols T : vec R) (gens : list sop) (p : vec R).
  Hypothesis TT : (vx T + 9 / 1000000000 <= vx tols <= / 2) /\ (vy T + 9 / 1000000000 <= vy tols <= / 2) /\ (vz T + 9 / 1000000000 <= vz tols <= / 2).
  Hypothesis T0 : 0 < vx tols /\ 0 < vy tols /\ 0 < vz tols.
  Hypothesis GS : forall op, In op gens -> In (rotation op) signed.
  Hypothesis GM : forall a b, In a gens -> In b gens -> exists s, In s gens /\ rotation s = ZMmul (rotation a) (rotation b).
  Hypothesis GI : forall a, In a gens -> exists s, In s gens /\ rotation s = transpose (rotation a).
  Hypothesis FWD : forall op, In op gens -> exists o, In o l /\ rotation op = fst o /\ nanos (1 / 1000000000) (translation op) (Vadd (V12 (snd o)) (Vsub p (Mapp (MofZ (fst o)) p))).
  Hypothesis SMALL : forall op, In op gens -> bounded T (Vsub p (Mapp (MofZ (rotation op)) p)).
  Hypothesis ISO : forall op m, In op gens -> bounded T m -> bounded T (Mapp (MofZ (rotation op)) m).
  Hypothesis ZC : forall a b s oa ob os, In a gens -> In b gens -> In s gens -> In oa l -> In ob l -> In os l -> rotation a = fst oa -> rotation b = fst ob -> rotation s = fst os ->
    fst os = ZMmul (fst oa) (fst ob) -> congr12 (snd os) (snd (zop_mul oa ob)).
  Lemma offset_unchanged fuel : @from_generators RNum (S fuel) gens tols = Ok gens.
  Proof using All.
    assert (Ht : tols_ok tols) by (repeat split; lra).
    unfold from_generators. destruct gens as [|x0 l0] eqn:EO; [reflexivity|]. rewrite <- EO in *. cbn [sg_rounds].
    rewrite (fold_unchanged tols); auto.
    - rewrite EO. destruct fuel; reflexivity.
    - intros [a b] Hp. apply In_iproduct in Hp. destruct Hp as [Ha Hb]. cbn [fst snd].
      destruct (FWD a Ha) as (ca & Hca & Ra & Na). destruct (FWD b Hb) as (cb & Hcb & Rb & Nb). destruct (GM a b Ha Hb) as (s & Hs & Rs). destruct (FWD s Hs) as (cs & Hcs & Ro & No).
      exists s. split; [exact Hs|]. assert (I8 : i8_range (ZMmul (rotation a) (rotation b))) by (rewrite <- Rs; apply unit_rot_i8; destruct (signed_facts _ (GS s Hs)) as (_ & X & _); exact X).
      rewrite (op_mul_R a b I8). split; [exact Rs|]. cbn [translation].
      destruct (GM b a Hb Ha) as (y & Hy & Ry). destruct (GI y Hy) as (yi & Hyi & Ryi). destruct (GM yi s Hyi Hs) as (w & Hw & Rw).
      pose proof (ISO y _ Hy (SMALL w Hw)) as BD. rewrite Mapp_sub, <- Mapp_Mmul, <- MofZ_mul in BD.
      assert (EW : ZMmul (rotation y) (rotation w) = rotation s).
      { rewrite Rw, <- ZMmul_assoc, Ryi, (signed_unit' _ (GS y Hy)). apply MofZ_eq_from_action. intro v. now rewrite MofZ_mul, MofZ_id, Mapp_Mmul, Mapp_id. }
      rewrite EW in BD. clear EW Rw Hw w Ryi Hyi yi.
      assert (E2 : congr12 (snd cs) (snd (zop_mul ca cb))) by (apply (ZC a b s); auto; congruence).
      assert (NN : nanos (8 / 1000000000) (translation s) (Vadd (Vadd (Mapp (MofZ (rotation b)) (translation a)) (translation b)) (Vsub (Mapp (MofZ (rotation y)) p) (Mapp (MofZ (rotation s)) p)))).
      { replace (8 / 1000000000) with (1 / 1000000000 + 7 / 1000000000) by lra. apply (nanos_trans _ _ _ _ _ No).
        pose proof (product_nano (rotation b) _ _ _ _ (signed_small _ (GS b Hb)) Na Nb) as PN. apply nanos_sym in PN.
        replace (7 / 1000000000) with (0 + 7 / 1000000000) by lra.
        apply (nanos_trans _ _ _ (Vadd (Vadd (Mapp (MofZ (rotation b)) (Vadd (V12 (snd ca)) (Vsub p (Mapp (MofZ (fst ca)) p)))) (Vadd (V12 (snd cb)) (Vsub p (Mapp (MofZ (fst cb)) p)))) (Vsub (Mapp (MofZ (rotation y)) p) (Mapp (MofZ (rotation s)) p)))).
        - apply nanos_congr. rewrite <- Ro, <- Ra, <- Rb, Ry, MofZ_mul, Mapp_Mmul, Mapp_add, Mapp_sub.
          assert (C : Vcongr (V12 (snd cs)) (Vadd (Mapp (MofZ (rotation b)) (V12 (snd ca))) (V12 (snd cb)))).
          { rewrite Rb, <- V12_mul. destruct E2 as [m E2]. rewrite E2. exists m. unfold V12, Vadd, VofZ. cbn [vx vy vz]. rewrite !plus_IZR, !mult_IZR. f_equal; field. }
          destruct C as (n & C). exists n. rewrite C. generalize (Mapp (MofZ (rotation b)) (V12 (snd ca))) (V12 (snd cb)) (Mapp (MofZ (rotation b)) p) (Mapp (MofZ (rotation s)) p) (Mapp (MofZ (rotation b)) (Mapp (MofZ (rotation a)) p)).
          intros x1 x2 x3 x4 x5. unfold Vadd, Vsub, VofZ. cbn [vx vy vz]. f_equal; ring.
        - apply nanos_shift. exact PN. }
      destruct NN as (n & N1 & N2 & N3). unfold bounded in BD. destruct BD as (B1 & B2 & B3). revert N1 N2 N3. generalize (Vadd (Mapp (MofZ (rotation b)) (translation a)) (translation b)).
      intros q N1 N2 N3. unfold Vadd, Vsub in *. cbn [vx vy vz] in *. clear - N1 N2 N3 B1 B2 B3 TT.
      assert (G : forall x y z k t e, Rabs (x - (y + z) - IZR k) <= 8 / 1000000000 -> Rabs z <= t -> t + 9 / 1000000000 <= e -> near1 e x y).
      { intros x0 y0 z0 k t e X Y Z. exists k. replace (x0 - y0 - IZR k) with ((x0 - (y0 + z0) - IZR k) + z0) by ring. eapply Rle_lt_trans; [apply Rabs_triang|]. lra. }
      split; [|split]; [exact (G _ _ _ _ _ _ N1 B1 (proj1 (proj1 TT)))|exact (G _ _ _ _ _ _ N2 B2 (proj1 (proj1 (proj2 TT))))|exact (G _ _ _ _ _ _ N3 B3 (proj1 (proj2 (proj2 TT))))].
  Qed.
End Offset.
