(** One atom away from the special origins: no space group is identified (analyzer.rs 36-162) *)
From Coq Require Import ZArith Reals String Ascii List Bool Lia Lra Permutation.
From Verif Require Import Num Mat Utils DataCore DataSG SymmOp PointGroup SpaceGroup Structure Reduce Analyzer RInst Spec Spec2 Spec3 RFacts
  PUtils PSymmOp PSpaceGroup PStructure PStructure2 PNiggli PLattice PAnalyzer PAnalyzer2 PPointGroup2 PSearch PSearch4 PSearch6 PSearch7
  PEnd PEnd2 PEnd3 PEnd4 Prop5 Prop9 Prop12.
Import ListNotations.
Open Scope R_scope.

Definition inversion : mat Z := M (-1)%Z 0%Z 0%Z 0%Z (-1)%Z 0%Z 0%Z 0%Z (-1)%Z.
Lemma inversion_checked : forallb (fun b => mem_rot inversion (holo_rots b)) all_bravais = true.
Proof. vm_compute. reflexivity. Qed.
Lemma inversion_in b : In inversion (holo_rots b).
Proof. apply mem_rot_In. exact (proj1 (forallb_forall _ _) inversion_checked b (all_bravais_In b)). Qed.
Lemma norm_components3 L v d0 d1 d2 : Rabs (vx v) <= d0 -> Rabs (vy v) <= d1 -> Rabs (vz v) <= d2 ->
  Vnorm (Mapp L v) <= d0 * Vnorm (Ccol L 0) + d1 * Vnorm (Ccol L 1) + d2 * Vnorm (Ccol L 2).
Proof.
  intros X Y Z.
  replace (Mapp L v) with (Vadd (Vadd (Vscal (vx v) (Ccol L 0)) (Vscal (vy v) (Ccol L 1))) (Vscal (vz v) (Ccol L 2)))
    by (destruct v, L; unfold Mapp, Vadd, Vscal, Ccol; cbn; f_equal; ring).
  eapply Rle_trans; [apply norm_triangle|]. eapply Rle_trans; [apply Rplus_le_compat_r, norm_triangle|].
  rewrite !norm_scal. pose proof (Vnorm_nonneg (Ccol L 0)). pose proof (Vnorm_nonneg (Ccol L 1)). pose proof (Vnorm_nonneg (Ccol L 2)). nra.
Qed.

(** one site: the exact operations, and rigidity *)
Lemma single_rigid tol L x e rots : rigid tol L [(x, e)] rots.
Proof.
  intros r t _ W. destruct (W x e (or_introl eq_refl)) as (y & n & [Q|[]] & B). injection Q as <-.
  exists (Vsub x (Mapp (MofZ r) x)), n. split.
  - intros x' e' [Q|[]]. injection Q as <- <-. exists x. split; [now left|]. exists (V 0 0 0)%Z. unfold act.
    destruct (Mapp (MofZ r) x) as [u1 u2 u3], x as [x1 x2 x3]. unfold Vadd, Vsub, VofZ. cbn [vx vy vz vmap]. f_equal; cbn; ring.
  - replace (Vadd (Vsub t (Vsub x (Mapp (MofZ r) x))) (VofZ n)) with (Vadd (Vsub (act r t x) x) (VofZ n)); [exact B|]. unfold act.
    destruct (Mapp (MofZ r) x) as [u1 u2 u3], x as [x1 x2 x3], t as [t1 t2 t3]. unfold Vadd, Vsub. cbn [vx vy vz]. f_equal; ring.
Qed.
Lemma single_inversion x e : exact_operation [(x, e)] inversion (Vscal 2 x).
Proof.
  intros x' e' [Q|[]]. injection Q as <- <-. exists x. split; [now left|]. exists (V 0 0 0)%Z. unfold act, inversion.
  destruct x as [x1 x2 x3]. unfold Vadd, Vscal, Mapp, MofZ, VofZ, mmap. cbn. f_equal; ring.
Qed.

Section Standard.
  Context (H : HashOrd) (std : @structure RNum) (dtol : R) (fuel : nat) (e : string) (x : vec R) (b : bravais) (path : list nat).
  Hypothesis (HF : (48 <= fuel)%nat) (ES : species std = [e]) (EX : frac_coords std = [x]) (H0 : 0 < dtol).
  Hypothesis FI : forall k, (k < 3)%nat -> 2 / 1000000000 * Vnorm (Ccol (lattice std) k) <= dtol /\ 2 * dtol <= Vnorm (Ccol (lattice std) k).
  Lemma off_twelfths gens sg path' ls n sym :
    @get_primitive_space_group_ops RNum H fuel path dtol std b = Ok gens ->
    @from_generators RNum fuel gens (@frac_tols_of RNum (lattice std) dtol) = Ok sg ->
    @identify_space_group RNum H path' sg ls (@frac_tols_of RNum (lattice std) dtol) = Ok (Some (n, sym)) ->
    exists z : vec Z, Vnorm (Mapp (lattice std) (Vsub (Vscal 24 x) (VofZ z))) <= 54 * dtol.
  Proof.
    intros E1 E2 E3.
    destruct (C78_search_exact H std dtol fuel path b HF) as (nn & c & P & Pi & pg & ops & A1 & A2 & A3 & A4 & A5 & A6 & Q).
    - now rewrite ES, EX.
    - rewrite ES. cbn. lia.
    - rewrite ES. intros i j k f Hij A B. destruct i as [|i]; [|destruct i; discriminate]. destruct k as [|k]; [|destruct k; discriminate]. assert (j = 0)%nat by lia. now subst.
    - intros k Hk. destruct (FI k Hk) as (F1 & F2). repeat split; lra.
    - rewrite ES, EX. intros i j y z f m Hij A B. cbn [combine] in A, B. destruct i as [|i]; [|destruct i; discriminate]. destruct j as [|j]; [lia|destruct j; discriminate].
    - rewrite E1 in A6. injection A6 as <-. cbv zeta in Q. rewrite ES, EX in Q. cbn [combine] in Q. destruct (Q (single_rigid _ _ _ _ _)) as (_ & _ & Q3).
      destruct (Q3 inversion (Vscal 2 x)) as (op & O1 & O2 & (k & C1 & C2 & C3) & _).
      + apply (holo_rots_spec fuel (0%nat :: path) b nn c P Pi pg HF A1 A2 A3 A4 A5). apply inversion_in.
      + apply single_inversion.
      + assert (TL : forall j, (j < 3)%nat -> 0 < dtol / Vnorm (Ccol (lattice std) j) <= / 2 /\ dtol / Vnorm (Ccol (lattice std) j) * Vnorm (Ccol (lattice std) j) = dtol).
        { intros j Hj. destruct (FI j Hj) as (F1 & F2). split; [|field; lra]. split; [apply Rmult_lt_0_compat; [exact H0|apply Rinv_0_lt_compat; lra]|].
          apply (Rmult_le_reg_r (Vnorm (Ccol (lattice std) j))); [lra|]. unfold Rdiv. rewrite Rmult_assoc, Rinv_l by lra. lra. }
        assert (TO : tols_ok (@frac_tols_of RNum (lattice std) dtol)).
        { split; [exact (proj1 (TL 0%nat ltac:(lia)))|]. split; [exact (proj1 (TL 1%nat ltac:(lia)))|exact (proj1 (TL 2%nat ltac:(lia)))]. }
        apply (from_generators_spec _ TO) in E2. destruct E2 as (GR & _). pose proof (grown_gens _ _ _ GR op O1) as O3.
        destruct TO as (T1 & T2 & T3).
        destruct (C55_identify_sound H path' sg ls _ n sym T1 T2 T3 E3) as (order & codes & _ & _ & _ & Q4).
        destruct (Q4 op O3) as (code & _ & _ & ((z1 & N1) & (z2 & N2) & (z3 & N3))).
        set (a := snd (code_op (has_char "A"%char sym) code)) in *.
        exists (V (vx a + 12 * (z1 - vx k)) (vy a + 12 * (z2 - vy k)) (vz a + 12 * (z3 - vz k)))%Z.
        set (t0 := dtol / Vnorm (Ccol (lattice std) 0)) in *. set (t1 := dtol / Vnorm (Ccol (lattice std) 1)) in *. set (t2 := dtol / Vnorm (Ccol (lattice std) 2)) in *.
        assert (G : forall u y c' k' z' tol, Rabs (u - 2 * y - IZR k') <= 1 / 1000000000 -> Rabs (u - IZR c' / 12 - IZR z') < tol ->
                  Rabs (24 * y - IZR (c' + 12 * (z' - k'))) <= 12 * (tol + 1 / 1000000000)).
        { clear. intros u y c' k' z' tol A B. rewrite plus_IZR, mult_IZR, minus_IZR.
          replace (24 * y - (IZR c' + 12 * (IZR z' - IZR k'))) with (12 * ((u - IZR c' / 12 - IZR z') - (u - 2 * y - IZR k'))) by field.
          rewrite Rabs_mult, (Rabs_pos_eq 12) by lra. apply Rmult_le_compat_l; [lra|]. eapply Rle_trans; [apply Rabs_triang|]. rewrite Rabs_Ropp. lra. }
        eapply Rle_trans; [apply (norm_components3 _ _ (12 * (t0 + 1 / 1000000000)) (12 * (t1 + 1 / 1000000000)) (12 * (t2 + 1 / 1000000000)))|].
        * exact (G _ _ _ _ _ t0 C1 N1).
        * exact (G _ _ _ _ _ t1 C2 N2).
        * exact (G _ _ _ _ _ t2 C3 N3).
        * destruct (TL 0%nat ltac:(lia)) as (_ & X0), (TL 1%nat ltac:(lia)) as (_ & X1), (TL 2%nat ltac:(lia)) as (_ & X2). fold t0 in X0. fold t1 in X1. fold t2 in X2.
          destruct (FI 0%nat ltac:(lia)) as (Y0 & _), (FI 1%nat ltac:(lia)) as (Y1 & _), (FI 2%nat ltac:(lia)) as (Y2 & _). lra.
  Qed.
End Standard.

Section Shifted.
  Context (P : @Pinv RNum) (HO : HashOrd) (dtol : R) (fuel : nat) (path : list nat) (s p q : @structure RNum) (e : string) (w : vec R) (m : vec Z) (n : Z).
  Hypothesis (HP : pinv_inverts P) (HF : (48 <= fuel)%nat) (ES : species s = [e]) (EX : frac_coords s = [Vadd w (VofZ m)]) (H0 : 0 < dtol).
  Hypothesis (Ws : well_conditioned (lattice s)) (Wp : well_conditioned (lattice p)) (Wq : well_conditioned (lattice q)).
  Hypothesis HC : forall k, (k < 3)%nat -> dtol * Vnorm (Ccol (lattice s) k) < Rabs (Mdet (lattice s)).
  Hypothesis HD : dtol < Rabs (Mdet (lattice s)).
  Hypothesis RM : roomy dtol (lattice s).
  Hypothesis HE : 1 / 100000 * Rpower (Rabs (Mdet (lattice s))) (1 / 3) < 1.
  Hypothesis (E1 : @find_primitive_cell RNum P HO (0%nat :: path) dtol s = Ok p) (E2 : @niggli_reduce RNum P dtol p (1 / 100000) = Ok q).
  Hypothesis E3 : @get_lattice_character RNum q (1 / 100000) = Ok n.
  Lemma shifted_run std : @get_standard_primitive_structure RNum P HO fuel (0%nat :: path) dtol s = Ok std ->
    (forall k, (k < 3)%nat -> Vnorm (Ccol (lattice std) k) <= 100000000 * dtol) ->
    (forall z : vec Z, 54 * dtol < Vnorm (Mapp (lattice s) (Vsub (Vscal 24 w) (VofZ z)))) ->
    forall r, @get_space_group_info RNum P HO fuel path dtol s <> Ok r.
  Proof using All.
    intros ESTD FC FAR [[n' sym'] ops'] EI.
    destruct (one_stages P HO dtol fuel path s p q e w m n HP HF ES EX H0 Ws Wp Wq HC HD RM HE E1 E2 E3)
      as (b & c & std' & T & Ti & T0 & Pm & U & K5 & K0 & EL & TI' & TI & K9 & RS & C1 & K1 & K2 & K3 & K4 & K6 & K7 & K8).
    rewrite ESTD in K0. injection K0 as <-. change (1 / 100000) with (@tol_1em5 RNum) in *.
    apply info_stages in EI.
    destruct EI as (p0 & q0 & std0 & Tm0 & Pm0 & ch0 & b0 & gens & sg & ls0 & m1 & m2 & i1 & i2 & S0 & _ & J1 & J2 & J3 & J4 & _).
    destruct S0 as [S1 S2 S3 S4 (c0 & S5 & S6)]. numR. rewrite E1 in S1. injection S1 as <-. rewrite E2 in S2. injection S2 as <-. rewrite K1 in S3. injection S3 as <- <-.
    rewrite K2 in S4. injection S4 as <- <-. rewrite K3 in S5. injection S5 as <-. rewrite K4 in S6. injection S6 as <-.
    destruct K9 as (KS & m' & KX & _).
    assert (FI : forall k, (k < 3)%nat -> 2 / 1000000000 * Vnorm (Ccol (lattice std) k) <= dtol /\ 2 * dtol <= Vnorm (Ccol (lattice std) k)).
    { intros k Hk. specialize (FC k Hk). pose proof (roomy_col dtol (lattice std) k RS). lra. }
    destruct (off_twelfths HO std dtol fuel e _ b (1%nat :: path) HF KS KX H0 FI gens sg _ ls0 n' sym' J1 J2 J4) as (z & Q).
    set (z' := ZMapp Ti (ZVadd z (ZMapp (M (-24) 0 0 0 (-24) 0 0 0 (-24))%Z m'))).
    specialize (FAR z').
    assert (QE : Mapp (lattice s) (Vsub (Vscal 24 w) (VofZ z')) = Mapp (lattice std) (Vsub (Vscal 24 (Vadd (Mapp (MofZ T) w) (VofZ m'))) (VofZ z))).
    { rewrite EL, Mapp_Mmul. f_equal.
      assert (X : Mapp (MofZ T) (VofZ z') = VofZ (ZVadd z (ZMapp (M (-24) 0 0 0 (-24) 0 0 0 (-24))%Z m'))).
      { unfold z'. rewrite MofZ_app, <- Mapp_Mmul, <- MofZ_mul, TI', MofZ_id. apply Mapp_id. }
      assert (Y : forall A u v, Mapp A (Vsub (Vscal 24 u) v) = Vsub (Vscal 24 (Mapp A u)) (Mapp A v)).
      { intros A u v. destruct A as [a1 a2 a3 b1 b2 b3 c1 c2 c3], u as [u1 u2 u3], v as [v1 v2 v3]. unfold Mapp, Vsub, Vscal. cbn [vx vy vz m11 m12 m13 m21 m22 m23 m31 m32 m33]. f_equal; ring. }
      rewrite Y, X, VofZ_add. generalize (Mapp (MofZ T) w). intro u. destruct u as [u1 u2 u3], z as [z1 z2 z3], m' as [x1 x2 x3].
      unfold Vsub, Vscal, Vadd, VofZ, ZMapp. cbn [vx vy vz m11 m12 m13 m21 m22 m23 m31 m32 m33 vmap]. rewrite !plus_IZR, !mult_IZR. cbn. f_equal; ring. }
    rewrite QE in FAR. numR. lra.
  Qed.
End Shifted.

(** one atom in an orthogonal box, away from the twenty-fourths of the axes *)
Lemma box_shifted (P : @Pinv RNum) (HO : HashOrd) (dtol a b c : R) fuel path (s : @structure RNum) e w m :
  pinv_inverts P -> (48 <= fuel)%nat -> species s = [e] -> frac_coords s = [Vadd w (VofZ m)] -> lattice s = diag a b c ->
  1 <= a <= 1000 -> 1 <= b <= 1000 -> 1 <= c <= 1000 -> 1 / 100000 <= dtol <= 1 / 24 ->
  (forall z : vec Z, 54 * dtol < Vnorm (Mapp (lattice s) (Vsub (Vscal 24 w) (VofZ z)))) ->
  forall r, @get_space_group_info RNum P HO fuel path dtol s <> Ok r.
Proof.
  intros HP HF ES EX EL Ba Bb Bc Hd FAR.
  destruct (box_cells P HO dtol a b c fuel path s e w m HP HF ES EX EL Ba Bb Bc Hd)
    as (p & q & n & A & B & C & Z1 & Ws & HN & HDd & RM & HE & F1 & G1 & EC & Wp & Wq & HI & G2 & Q1 & Q2 & Q3 & EA).
  destruct (one_stages P HO dtol fuel path s p q e w m n HP HF ES EX ltac:(lra) Ws Wp Wq HN HDd RM HE F1 G1 EC)
    as (b' & c' & std & T & Ti & T0 & Pm & U & K5 & K0 & KL & TI' & TI & K9 & RS & C1 & K1 & K2 & K3 & K4 & K6 & K7 & K8).
  destruct (box_rows n HI) as (b'' & T0' & N & sym & cnt & R1 & R2 & R3 & _ & _ & _ & R7 & _). rewrite R1 in K5. injection K5 as <-. rewrite R2 in C1. injection C1 as <-.
  apply (shifted_run P HO dtol fuel path s p q e w m n HP HF ES EX ltac:(lra) Ws Wp Wq HN HDd RM HE F1 G1 EC std K0); [|exact FAR].
  assert (EU : U = transpose T0').
  { apply MofZ_inj. rewrite <- K6. destruct (primitive_inv _ _ _ K2) as (_ & c0 & X1 & X2). rewrite R7 in X1. injection X1 as <-.
    cbn in X2. injection X2 as <-. change (MofZ (transpose T0')) with (Mtr (MofZ T0')). generalize (Mtr (MofZ T0')). intro Q. destruct Q as [p1 p2 p3 q1 q2 q3 r1 r2 r3]. apply mat_ext; cbn; field. }
  intros k Hk. rewrite K8, G2, EU, Mmul_assoc, <- MofZ_mul. pose proof (box_col a b c Ba Bb Bc (ZMmul Z1 (transpose T0')) k (signed_mul _ _ Q1 R3) Hk). lra.
Qed.

(** ** Whole periods *)
(** the search starts from the normalised coordinates; of the input only those and the lattice matter *)
Lemma info_normalized (P : @Pinv RNum) (HO : HashOrd) (dtol : R) fuel path (s s' : @structure RNum) :
  lattice s = lattice s' -> @normalize_coords RNum s dtol = @normalize_coords RNum s' dtol ->
  @get_space_group_info RNum P HO fuel path dtol s = @get_space_group_info RNum P HO fuel path dtol s'.
Proof.
  intros EL EN. unfold get_space_group_info, find_primitive_cell. rewrite EN, EL.
  unfold get_transformation_matrix. rewrite EL. reflexivity.
Qed.
Lemma normalize1_period x y t : 0 <= t < 1 -> congr1 x y -> ~ congr1 x (- t) -> @normalize1 RNum x t = @normalize1 RNum y t.
Proof.
  intros Ht C N. destruct (normalize1_canonical x y t Ht C) as [E|[(E & _)|(E & _)]]; [exact E| |]; exfalso; apply N; destruct (normalize1_int x t) as (k & Ek); rewrite E in Ek.
  - exists (- k)%Z. rewrite opp_IZR. lra.
  - exists (1 - k)%Z. rewrite minus_IZR. lra.
Qed.
Lemma normalize_period (L : mat R) sp c c' fc fc' (dtol : R) :
  (forall k, (k < 3)%nat -> 0 <= dtol < Vnorm (Ccol L k)) ->
  Forall2 Vcongr fc fc' -> (forall x k, In x fc -> (k < 3)%nat -> ~ congr1 (vnth x k) (- (dtol / Vnorm (Ccol L k)))) ->
  @normalize_coords RNum (Structure (N := RNum) L sp c fc) dtol = @normalize_coords RNum (Structure (N := RNum) L sp c' fc') dtol.
Proof.
  intros HT F HN. unfold normalize_coords. cbn [lattice species frac_coords].
  replace (@normalize_frac_vectors RNum fc (@frac_tols_of RNum L dtol)) with (@normalize_frac_vectors RNum fc' (@frac_tols_of RNum L dtol)); [reflexivity|].
  assert (TL : forall k, (k < 3)%nat -> 0 <= dtol / Vnorm (Ccol L k) < 1).
  { intros k Hk. specialize (HT k Hk). split; [apply Rmult_le_pos; [lra|left; apply Rinv_0_lt_compat; lra]|].
    apply (Rmult_lt_reg_r (Vnorm (Ccol L k))); [lra|]. unfold Rdiv. rewrite Rmult_assoc, Rinv_l by lra. lra. }
  induction F as [|x x' fc fc' (n & E) F IH]; [reflexivity|]. cbn [normalize_frac_vectors map].
  assert (HX : @normalize_vec RNum x' (@frac_tols_of RNum L dtol) = @normalize_vec RNum x (@frac_tols_of RNum L dtol)).
  { unfold normalize_vec, vmap2. f_equal; symmetry.
    - apply (normalize1_period _ _ (dtol / Vnorm (Ccol L 0)) (TL 0%nat ltac:(lia))); [|exact (HN x 0%nat (or_introl eq_refl) ltac:(lia))]. exists (vx n). rewrite E. unfold Vadd, VofZ. cbn. ring.
    - apply (normalize1_period _ _ (dtol / Vnorm (Ccol L 1)) (TL 1%nat ltac:(lia))); [|exact (HN x 1%nat (or_introl eq_refl) ltac:(lia))]. exists (vy n). rewrite E. unfold Vadd, VofZ. cbn. ring.
    - apply (normalize1_period _ _ (dtol / Vnorm (Ccol L 2)) (TL 2%nat ltac:(lia))); [|exact (HN x 2%nat (or_introl eq_refl) ltac:(lia))]. exists (vz n). rewrite E. unfold Vadd, VofZ. cbn. ring. }
  numR. rewrite HX. f_equal. apply IH. intros y k Hy. apply HN. now right.
Qed.
