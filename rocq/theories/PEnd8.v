(** One atom per primitive cell, described in a larger cell whose translations are multiples of 1/N: the cells of every stage, computed on the integers
    (reduce.rs 33-128, 214-398; analyzer.rs 36-162) *)
From Coq Require Import ZArith Reals String List Bool Lia Lra Psatz Permutation Sorting.Sorted.
From Verif Require Import Num Mat Utils DataCore Structure Reduce Analyzer RInst Spec Spec2 Spec3 Spec4 RFacts PUtils PSymmOp PStructure PStructure2 PStructure3 PNiggli
  PLattice PDelaunay PPrim PPrim2 PPrim3 PPrim4 PPrim5 PAnalyzer PAnalyzer2 PEnd PEnd2 Prop5 PNiggli2 PNiggli3 PNiggli4.
Import ListNotations.
Open Scope R_scope.

(** ** Metrics of integral combinations *)
Definition zval (g : z6) (v : vec Z) : Z := form g (vx v) (vy v) (vz v).
Definition zpair (g : z6) (u v : vec Z) : Z :=
  (za g * vx u * vx v + zb g * vy u * vy v + zc g * vz u * vz v + zd g * (vy u * vz v + vz u * vy v) + ze g * (vx u * vz v + vz u * vx v) + zf g * (vx u * vy v + vy u * vx v))%Z.
Definition zcol1 (K : mat Z) := V (m11 K) (m21 K) (m31 K).
Definition zcol2 (K : mat Z) := V (m12 K) (m22 K) (m32 K).
Definition zcol3 (K : mat Z) := V (m13 K) (m23 K) (m33 K).
Definition kform (g : z6) (K : mat Z) : z6 :=
  Z6 (zval g (zcol1 K)) (zval g (zcol2 K)) (zval g (zcol3 K)) (zpair g (zcol2 K) (zcol3 K)) (zpair g (zcol1 K) (zcol3 K)) (zpair g (zcol1 K) (zcol2 K)).
Definition zdet6 (g : z6) : Z := (za g * zb g * zc g + 2 * zd g * ze g * zf g - za g * zd g * zd g - zb g * ze g * ze g - zc g * zf g * zf g)%Z.
Definition z6_eqb (g h : z6) : bool := ((za g =? za h) && (zb g =? zb h) && (zc g =? zc h) && (zd g =? zd h) && (ze g =? ze h) && (zf g =? zf h))%Z.
Lemma z6_eqb_eq g h : z6_eqb g h = true <-> g = h.
Proof.
  unfold z6_eqb. destruct g as [g1 g2 g3 g4 g5 g6], h as [h1 h2 h3 h4 h5 h6]. cbn. rewrite !andb_true_iff, !Z.eqb_eq. split; [intros (((((-> & ->) & ->) & ->) & ->) & ->); reflexivity|intro E; injection E; intros; subst; tauto].
Qed.
Lemma zmet_inj u g h : 0 < u -> zmet u g = zmet u h -> g = h.
Proof.
  intros Hu E. unfold zmet in E. destruct g as [g1 g2 g3 g4 g5 g6], h as [h1 h2 h3 h4 h5 h6]. cbn [za zb zc zd ze zf] in E. injection E as E1 E2 E3 E4 E5 E6.
  repeat match goal with H : u * _ = u * _ |- _ => apply Rmult_eq_reg_l in H; [apply eq_IZR in H|lra] end. now subst.
Qed.
Ltac izr := repeat first [rewrite plus_IZR|rewrite minus_IZR|rewrite mult_IZR|rewrite opp_IZR].
Lemma gram_mul u g L K : gram L = zmet u g -> gram (Mmul L (MofZ K)) = zmet u (kform g K).
Proof.
  intro E. transitivity (Mmul (Mmul (Mtr (MofZ K)) (gram L)) (MofZ K)); [unfold gram; now rewrite Mtr_mul, !Mmul_assoc|]. rewrite E.
  unfold zmet, kform, zval, zpair, form, zcol1, zcol2, zcol3, Mmul, Mtr, MofZ, mmap. cbn [za zb zc zd ze zf vx vy vz m11 m12 m13 m21 m22 m23 m31 m32 m33].
  apply (@mat_ext R); cbn [m11 m12 m13 m21 m22 m23 m31 m32 m33]; izr; ring.
Qed.
Lemma nrm_val u g L z : gram L = zmet u g -> nrm L z = u * IZR (zval g z).
Proof.
  intro E. unfold nrm, col. transitivity (Vdot (VofZ z) (Mapp (gram L) (VofZ z))).
  { unfold gram, Vdot, Mapp, Mmul, Mtr. cbn [vx vy vz m11 m12 m13 m21 m22 m23 m31 m32 m33]. ring. }
  rewrite E. unfold zmet, zval, form, Vdot, Mapp, VofZ. cbn [za zb zc zd ze zf vx vy vz m11 m12 m13 m21 m22 m23 m31 m32 m33]. izr. ring.
Qed.
Lemma det_val u g L : gram L = zmet u g -> Mdet L * Mdet L = u * u * u * IZR (zdet6 g).
Proof.
  intro E. transitivity (Mdet (gram L)); [unfold gram; rewrite Mdet_mul; f_equal; unfold Mdet, Mtr; cbn; ring|]. rewrite E.
  unfold Mdet, zmet, zdet6. cbn [za zb zc zd ze zf m11 m12 m13 m21 m22 m23 m31 m32 m33]. izr. ring.
Qed.
Lemma gram_definite u g L : 0 < u -> gram L = zmet u g -> Mdet L <> 0 -> definite g.
Proof.
  intros Hu E HD x y z N. assert (Q : nrm L (V x y z) = u * IZR (form g x y z)) by apply (nrm_val u g L (V x y z) E).
  assert (PQ : 0 < nrm L (V x y z)).
  { unfold nrm. destruct (Rle_lt_or_eq_dec 0 (Vdot (col L (V x y z)) (col L (V x y z)))) as [C|C]; [unfold Vdot; nra|exact C|exfalso].
    assert (C0 : col L (V x y z) = V0).
    { destruct (col L (V x y z)) as [a b c]. unfold Vdot in C. cbn in C. assert (a = 0) by nra. assert (b = 0) by nra. assert (c = 0) by nra. now subst. }
    assert (X : VofZ (V x y z) = V0). { rewrite <- (Mapp_id (VofZ _)), <- (proj2 (Madj_inverse L HD)), Mapp_Mmul. unfold col in C0. rewrite C0. apply Mapp_V0. }
    unfold VofZ, V0 in X. cbn in X. injection X as X1 X2 X3. apply eq_IZR in X1, X2, X3. lia. }
  rewrite Q in PQ. apply lt_IZR. apply (Rmult_lt_reg_l u); [exact Hu|]. lra.
Qed.
(** the length of a lattice vector is at least the unit *)
Lemma gram_roomy u g L (dtol : R) : 0 < u -> gram L = zmet u g -> Mdet L <> 0 -> 0 <= dtol -> 576 * (dtol * dtol) <= u -> roomy dtol L.
Proof.
  intros Hu E HD H0 HU z Hz. change (Mapp L (VofZ z)) with (col L z).
  assert (Q : u <= nrm L z).
  { rewrite (nrm_val u g L z E). assert (D := gram_definite u g L Hu E HD). destruct z as [x y z].
    assert (X : (0 < zval g (V x y z))%Z) by (apply (D x y z); destruct (Z.eq_dec x 0), (Z.eq_dec y 0), (Z.eq_dec z 0); subst; try lia; exfalso; now apply Hz).
    assert (1 <= IZR (zval g (V x y z))) by (apply IZR_le; lia). nra. }
  unfold Vnorm. fold (nrm L z). rewrite <- (sqrt_square (24 * dtol)) by lra. apply sqrt_le_1_alt. lra.
Qed.
Lemma gram_well u g L : 1 / 1000000 <= u -> gram L = zmet u g -> (ztr g <= 100)%Z -> Mdet L <> 0 -> well_conditioned L.
Proof.
  intros Hu E HT HD v Hv. set (w := Mapp L v).
  assert (NV : 0 < Vdot v v) by (destruct v as [a b c]; unfold Vdot; cbn; destruct (Req_dec a 0), (Req_dec b 0), (Req_dec c 0); [exfalso; apply Hv; subst; reflexivity|nra..]).
  assert (D2 : u * u * u <= Mdet L * Mdet L).
  { rewrite (det_val u g L E). assert (X : (0 < zdet6 g)%Z).
    { apply lt_IZR. assert (0 < u * u * u) by (assert (0 < u * u) by nra; nra). apply (Rmult_lt_reg_l (u * u * u)); [assumption|]. rewrite <- (det_val u g L E). nra. }
    assert (1 <= IZR (zdet6 g)) by (apply IZR_le; lia). assert (0 < u * u * u) by (assert (0 < u * u) by nra; nra). nra. }
  assert (TR : Vdot (Ccol L 0) (Ccol L 0) + Vdot (Ccol L 1) (Ccol L 1) + Vdot (Ccol L 2) (Ccol L 2) = u * IZR (ztr g)).
  { pose proof (f_equal m11 E) as A. pose proof (f_equal m22 E) as B. pose proof (f_equal m33 E) as C. unfold zmet in A, B, C. cbn [m11 m22 m33] in A, B, C.
    unfold ztr. izr. rewrite !Rmult_plus_distr_l, <- A, <- B, <- C. unfold gram, Mmul, Mtr, Vdot, Ccol. cbn. ring. }
  (** the adjugate *)
  assert (AD : Mdet L * Mdet L * Vdot v v <= (u * IZR (ztr g)) * (u * IZR (ztr g)) * Vdot w w).
  { set (c1 := Ccol L 0) in *. set (c2 := Ccol L 1) in *. set (c3 := Ccol L 2) in *.
    assert (X1 : Mdet L * vx v = Vdot (Vcross c2 c3) w) by (unfold w, c2, c3, Vdot, Vcross, Ccol, Mapp, Mdet; cbn; ring).
    assert (X2 : Mdet L * vy v = Vdot (Vcross c3 c1) w) by (unfold w, c1, c3, Vdot, Vcross, Ccol, Mapp, Mdet; cbn; ring).
    assert (X3 : Mdet L * vz v = Vdot (Vcross c1 c2) w) by (unfold w, c1, c2, Vdot, Vcross, Ccol, Mapp, Mdet; cbn; ring).
    assert (CS : forall a b, Vdot a b * Vdot a b <= Vdot a a * Vdot b b).
    { intros a b. assert (Y : Vdot a a * Vdot b b - Vdot a b * Vdot a b = Vdot (Vcross a b) (Vcross a b)) by (unfold Vdot, Vcross; cbn; ring). assert (0 <= Vdot (Vcross a b) (Vcross a b)) by (unfold Vdot; nra). lra. }
    assert (CR : forall a b, Vdot (Vcross a b) (Vcross a b) <= Vdot a a * Vdot b b).
    { intros a b. assert (Y : Vdot a a * Vdot b b - Vdot a b * Vdot a b = Vdot (Vcross a b) (Vcross a b)) by (unfold Vdot, Vcross; cbn; ring). nra. }
    assert (PS : forall a, 0 <= Vdot a a) by (intro a; unfold Vdot; nra).
    replace (Mdet L * Mdet L * Vdot v v) with ((Mdet L * vx v) * (Mdet L * vx v) + (Mdet L * vy v) * (Mdet L * vy v) + (Mdet L * vz v) * (Mdet L * vz v)) by (unfold Vdot; ring).
    rewrite X1, X2, X3, <- TR. pose proof (CS (Vcross c2 c3) w). pose proof (CS (Vcross c3 c1) w). pose proof (CS (Vcross c1 c2) w).
    pose proof (CR c2 c3). pose proof (CR c3 c1). pose proof (CR c1 c2). pose proof (PS w). pose proof (PS c1). pose proof (PS c2). pose proof (PS c3).
    set (ww := Vdot w w) in *. set (p1 := Vdot c1 c1) in *. set (p2 := Vdot c2 c2) in *. set (p3 := Vdot c3 c3) in *.
    assert (Vdot (Vcross c2 c3) (Vcross c2 c3) * ww <= p2 * p3 * ww) by nra. assert (Vdot (Vcross c3 c1) (Vcross c3 c1) * ww <= p3 * p1 * ww) by nra.
    assert (Vdot (Vcross c1 c2) (Vcross c1 c2) * ww <= p1 * p2 * ww) by nra.
    assert (p2 * p3 + p3 * p1 + p1 * p2 <= (p1 + p2 + p3) * (p1 + p2 + p3)) by nra. nra. }
  assert (Q : 1 / 1000000 * Vdot v v / 10000 <= Vdot w w).
  { assert (T0 : 0 <= u * IZR (ztr g)) by (rewrite <- TR; unfold Vdot; nra). assert (T1 : IZR (ztr g) <= 100) by (apply IZR_le; exact HT).
    assert (T2 : u * IZR (ztr g) * (u * IZR (ztr g)) <= u * u * 10000) by (assert (u * IZR (ztr g) <= u * 100) by nra; nra).
    assert (WW : 0 <= Vdot w w) by (unfold Vdot; nra). assert (U2 : 0 < u * u) by nra.
    assert (X : u * u * (u * Vdot v v) <= u * u * (10000 * Vdot w w)) by nra.
    apply Rmult_le_reg_l in X; [|exact U2]. assert (1 / 1000000 * Vdot v v <= u * Vdot v v) by nra. lra. }
  fold w. unfold Vnorm. set (k := 1 / 1000000). replace (k * sqrt (Vdot v v)) with (sqrt (k * k * Vdot v v)) by (rewrite sqrt_mult_alt, sqrt_square by (unfold k; lra || nra); reflexivity).
  apply sqrt_lt_1_alt. split; unfold k; nra.
Qed.
Lemma root_unit u D V : 0 < u -> 0 < V -> V * V = u * u * u * IZR D -> (D <= 1000000)%Z -> 0 < Rpower V (1 / 3) <= 10 * sqrt u.
Proof.
  intros Hu HV E HD. split; [apply exp_pos|]. assert (SU : 0 < sqrt u) by now apply sqrt_lt_R0. assert (SS : sqrt u * sqrt u = u) by (apply sqrt_sqrt; lra).
  set (y := 10 * sqrt u). assert (HY : 0 < y) by (unfold y; lra).
  assert (LE : V <= y * y * y).
  { assert (Q : V * V <= (y * y * y) * (y * y * y)).
    { rewrite E. replace ((y * y * y) * (y * y * y)) with (u * u * u * 1000000) by (unfold y; rewrite <- SS at 1 2 3; ring). apply Rmult_le_compat_l; [assert (0 < u * u) by nra; nra|]. now apply IZR_le. }
    assert (0 < y * y * y) by (assert (0 < y * y) by nra; nra). destruct (Rle_or_lt V (y * y * y)) as [|C]; [assumption|exfalso; nra]. }
  apply (Rle_trans _ (Rpower (y * y * y) (1 / 3))); [apply Rle_Rpower_l; lra|].
  replace (y * y * y) with (Rpower y 3); [rewrite Rpower_mult; replace (3 * (1 / 3)) with 1 by field; rewrite Rpower_1; lra|].
  replace 3 with (INR 3) by (cbn; lra). rewrite Rpower_pow by lra. cbn; ring.
Qed.

(** ** The orders the sort may produce *)
Fixpoint remove1 (z : vec Z) (l : list (vec Z)) : list (vec Z) := match l with [] => [] | a :: t => if zveqb a z then t else a :: remove1 z t end.
Definition minimal (g : z6) (l : list (vec Z)) (z : vec Z) : bool := forallb (fun y => (zval g z <=? zval g y)%Z) l.
Fixpoint sperms (n : nat) (g : z6) (l : list (vec Z)) : list (list (vec Z)) :=
  match n with O => [[]] | S k => flat_map (fun z => map (cons z) (sperms k g (remove1 z l))) (filter (minimal g l) l) end.
Lemma remove1_perm z l : In z l -> Permutation l (z :: remove1 z l).
Proof.
  induction l as [|a l IH]; [intros []|]. intro H. cbn [remove1]. destruct (zveqb a z) eqn:Q.
  - apply zveqb_eq in Q. subst. reflexivity.
  - destruct H as [->|H]; [rewrite (proj2 (zveqb_eq z z) eq_refl) in Q; discriminate|]. rewrite (IH H) at 1. apply perm_swap.
Qed.
Lemma sperms_in u g L : 0 < u -> gram L = zmet u g -> forall lz l, Permutation l lz -> StronglySorted (fun a b => nrm L a <= nrm L b) lz -> In lz (sperms (List.length l) g l).
Proof.
  intros Hu E. induction lz as [|z lz IH]; intros l Pm SS.
  - apply Permutation_sym, Permutation_nil in Pm. subst. now left.
  - pose proof (Permutation_length Pm) as LE. cbn in LE. rewrite LE. cbn [sperms]. inversion_clear SS as [|? ? S1 S2].
    assert (Hz : In z l) by (apply (Permutation_in _ (Permutation_sym Pm)); now left).
    assert (P1 : Permutation (remove1 z l) lz) by (apply (Permutation_cons_inv (a := z)); rewrite <- Pm; symmetry; now apply remove1_perm).
    apply in_flat_map. exists z. split.
    + apply filter_In. split; [exact Hz|]. unfold minimal. apply forallb_forall. intros y Hy. apply Z.leb_le. apply le_IZR. apply (Rmult_le_reg_l u); [exact Hu|].
      rewrite <- !(nrm_val u g L _ E). apply (Permutation_in _ Pm) in Hy. destruct Hy as [<-|Hy]; [lra|]. rewrite Forall_forall in S2. now apply S2.
    + apply in_map. pose proof (Permutation_length P1) as L2. rewrite <- L2. now apply IH.
Qed.
(** the shortest triples among the 26 directions *)
Definition picks (g : z6) : list (mat Z) :=
  flat_map (fun z1 => flat_map (fun z2 => map (fun z3 => zcols z1 z2 z3)
      (filter (fun z3 => (Z.abs (zdet z1 z2 z3) =? 1)%Z && forallb (fun y => (zdet z1 z2 y =? 0)%Z || (zval g z3 <=? zval g y)%Z) dirs26) dirs26))
    (filter (fun z2 => forallb (fun y => zveqb (ZVcross z1 y) (V 0 0 0)%Z || (zval g z2 <=? zval g y)%Z) dirs26) dirs26))
  (filter (minimal g dirs26) dirs26).
Lemma picks_in u g B z1 z2 z3 : 0 < u -> gram B = zmet u g -> In z1 dirs26 -> In z2 dirs26 -> In z3 dirs26 -> Z.abs (zdet z1 z2 z3) = 1%Z -> shortest3 B z1 z2 z3 -> In (zcols z1 z2 z3) (picks g).
Proof.
  intros Hu E I1 I2 I3 D (S1 & S2 & S3). assert (LE : forall a b, nrm B a <= nrm B b -> (zval g a <=? zval g b)%Z = true).
  { intros a b Q. apply Z.leb_le, le_IZR, (Rmult_le_reg_l u); [exact Hu|]. now rewrite <- !(nrm_val u g B _ E). }
  unfold picks. apply in_flat_map. exists z1. split; [apply filter_In; split; [exact I1|]; apply forallb_forall; intros y Hy; apply LE; now apply S1|].
  apply in_flat_map. exists z2. split.
  - apply filter_In. split; [exact I2|]. apply forallb_forall. intros y Hy. apply orb_true_iff. destruct (zveqb (ZVcross z1 y) (V 0 0 0)%Z) eqn:Q; [now left|right]. apply LE, S2; [exact Hy|].
    intro X. apply zveqb_eq in X. congruence.
  - apply in_map_iff. exists z3. split; [reflexivity|]. apply filter_In. split; [exact I3|]. apply andb_true_iff. split; [now apply Z.eqb_eq|].
    apply forallb_forall. intros y Hy. apply orb_true_iff. destruct (Z.eqb_spec (zdet z1 z2 y) 0); [now left|right]. apply LE, S3; assumption.
Qed.

(** ** The sites *)
Definition zadd3 (a b : vec Z) : vec Z := V (vx a + vx b)%Z (vy a + vy b)%Z (vz a + vz b)%Z.
Definition zsub3 (a b : vec Z) : vec Z := V (vx a - vx b)%Z (vy a - vy b)%Z (vz a - vz b)%Z.
Definition modN (N : Z) (h : vec Z) : vec Z := V (vx h mod N)%Z (vy h mod N)%Z (vz h mod N)%Z.
Definition memz (z : vec Z) (l : list (vec Z)) : bool := existsb (zveqb z) l.
Lemma memz_in z l : memz z l = true <-> In z l.
Proof.
  unfold memz. rewrite existsb_exists. split; [intros (y & Hy & E); apply zveqb_eq in E; now subst|]. intro H. exists z. split; [exact H|now apply zveqb_eq].
Qed.
Definition o3 : vec Z := V 0%Z 0%Z 0%Z.
Definition closedb (N : Z) (H : list (vec Z)) : bool :=
  forallb (fun a => forallb (fun b => memz (modN N (zadd3 a b)) (o3 :: H) && memz (modN N (zsub3 a b)) (o3 :: H)) (o3 :: H)) (o3 :: H).
Definition dirb (N : Z) (h : vec Z) : bool :=
  ((0 <=? vx h) && (vx h <? N) && (0 <=? vy h) && (vy h <? N) && (0 <=? vz h) && (vz h <? N))%Z && negb (zveqb h o3).
Lemma dirb_spec N h : dirb N h = true -> inner_dir N h.
Proof.
  unfold dirb. rewrite !andb_true_iff, negb_true_iff, !Z.leb_le, !Z.ltb_lt. intros ((((((? & ?) & ?) & ?) & ?) & ?) & Q). repeat (split; [lia|]).
  intros ->. vm_compute in Q. discriminate Q.
Qed.
Fixpoint nodupb (l : list (vec Z)) : bool := match l with [] => true | a :: t => negb (memz a t) && nodupb t end.
Lemma nodupb_spec l : nodupb l = true -> NoDup l.
Proof.
  induction l as [|a l IH]; [constructor|]. cbn [nodupb]. rewrite andb_true_iff, negb_true_iff. intros [Q1 Q2]. constructor; [|now apply IH]. intro Hi. apply memz_in in Hi. congruence.
Qed.
Lemma fracN_mod N h : (1 <= N)%Z -> exists n, fracN N h = Vadd (fracN N (modN N h)) (VofZ n).
Proof.
  intro HN. exists (V (vx h / N) (vy h / N) (vz h / N))%Z. assert (PN : 0 < IZR N) by (apply IZR_lt; lia).
  assert (G : forall x, IZR x / IZR N = IZR (x mod N) / IZR N + IZR (x / N)).
  { intro x. rewrite (Z.div_mod x N) at 1 by lia. rewrite plus_IZR, mult_IZR. field. lra. }
  unfold fracN, modN, Vadd, VofZ. cbn [vx vy vz]. f_equal; apply G.
Qed.
Lemma fracN_add N a b : (1 <= N)%Z -> fracN N (zadd3 a b) = Vadd (fracN N a) (fracN N b).
Proof. intro HN. assert (PN : 0 < IZR N) by (apply IZR_lt; lia). unfold fracN, zadd3, Vadd. cbn [vx vy vz]. f_equal; rewrite plus_IZR; field; lra. Qed.
Lemma fracN_sub N a b : (1 <= N)%Z -> fracN N (zsub3 a b) = Vsub (fracN N a) (fracN N b).
Proof. intro HN. assert (PN : 0 < IZR N) by (apply IZR_lt; lia). unfold fracN, zsub3, Vsub. cbn [vx vy vz]. f_equal; rewrite minus_IZR; field; lra. Qed.

Definition at_fracs (N : Z) (Hs : list (vec Z)) (s : @structure RNum) (e : string) : Prop :=
  exists hs, Permutation Hs hs /\ Forall2 (fun x h => exists n, x = Vadd (fracN N h) (VofZ n)) (frac_coords s) hs /\ species s = repeat e (List.length Hs).
Lemma F2_length {A B} (Q : A -> B -> Prop) l l' : Forall2 Q l l' -> List.length l = List.length l'.
Proof. induction 1; cbn; congruence. Qed.
Lemma Forall2_nth {A B} (Q : A -> B -> Prop) l l' i x : Forall2 Q l l' -> nth_error l i = Some x -> exists y, nth_error l' i = Some y /\ Q x y.
Proof. intro F. revert i. induction F as [|a b l l' Hab F IH]; intros [|i] E; try discriminate; [injection E as <-; exists b; auto|now apply IH]. Qed.
Lemma combine_repeat {A} (l : list A) (e : string) n x f : In (x, f) (combine l (repeat e n)) -> f = e /\ In x l.
Proof. intro Hx. split; [apply in_combine_r in Hx; now apply repeat_spec in Hx|now apply in_combine_l in Hx]. Qed.
Lemma repeat_combine {A} (l : list A) (e : string) x : In x l -> In (x, e) (combine l (repeat e (List.length l))).
Proof. induction l as [|a l IH]; [intros []|]. cbn. intros [->|Hx]; [now left|right; now apply IH]. Qed.
Lemma at_fracs_inner dtol N H s e : (1 <= N)%Z -> forallb (dirb N) H = true -> nodupb (o3 :: H) = true -> closedb N H = true -> at_fracs N (o3 :: H) s e -> inner_set dtol s N H.
Proof.
  intros HN HD ND CL (hs & Pm & F & ES). assert (LE : List.length (frac_coords s) = List.length (o3 :: H)) by exact (eq_trans (F2_length _ _ _ F) (eq_sym (Permutation_length Pm))).
  rewrite forallb_forall in HD. unfold closedb in CL. rewrite forallb_forall in CL. apply nodupb_spec in ND.
  assert (NDh : NoDup hs) by (eapply Permutation_NoDup; eassumption).
  assert (RG : forall k, In k (o3 :: H) -> (0 <= vx k < N /\ 0 <= vy k < N /\ 0 <= vz k < N)%Z).
  { intros k [<-|Hk]; [cbn; lia|]. apply HD, dirb_spec in Hk. destruct Hk as (? & ? & ? & _). auto. }
  split.
  - intros h x f Hh Hx. rewrite ES in Hx. apply combine_repeat in Hx. destruct Hx as [-> Hx].
    destruct (Forall2_In_l _ _ _ _ F Hx) as (k & Hk & n & ->). apply (Permutation_in _ (Permutation_sym Pm)) in Hk.
    specialize (CL k Hk). rewrite forallb_forall in CL. specialize (CL h (or_intror Hh)). apply andb_prop in CL. destruct CL as [CL _]. apply memz_in in CL.
    apply (Permutation_in _ Pm) in CL. destruct (Forall2_In_r _ _ _ _ F CL) as (y & Hy & n' & Ey). destruct (fracN_mod N (zadd3 k h) HN) as (n2 & E2).
    exists y, (V (vx n + vx n2 - vx n') (vy n + vy n2 - vy n') (vz n + vz n2 - vz n'))%Z. split; [rewrite ES, <- LE; now apply repeat_combine|].
    rewrite fracN_add in E2 by exact HN. rewrite Ey. revert E2. generalize (fracN N k) (fracN N h) (fracN N (modN N (zadd3 k h))). intros [a1 a2 a3] [b1 b2 b3] [c1 c2 c3] E2.
    unfold Vadd, VofZ in *. cbn [vx vy vz] in *. injection E2 as Q1 Q2 Q3. f_equal; izr; lra.
  - intros i j x y f Hij Hx Hy _ _ _. destruct (Forall2_nth _ _ _ _ _ F Hx) as (a & Ha & n & ->). destruct (Forall2_nth _ _ _ _ _ F Hy) as (b & Hb & m & ->).
    assert (NE : a <> b). { intros <-. apply Hij. apply (proj1 (NoDup_nth_error hs) NDh); [apply nth_error_Some; congruence|congruence]. }
    assert (Ia : In a (o3 :: H)) by (apply (Permutation_in _ (Permutation_sym Pm)); now apply nth_error_In in Ha).
    assert (Ib : In b (o3 :: H)) by (apply (Permutation_in _ (Permutation_sym Pm)); now apply nth_error_In in Hb).
    specialize (CL a Ia). rewrite forallb_forall in CL. specialize (CL b Ib). apply andb_prop in CL. destruct CL as [_ CL]. apply memz_in in CL.
    destruct (fracN_mod N (zsub3 a b) HN) as (n2 & E2). rewrite fracN_sub in E2 by exact HN.
    exists (modN N (zsub3 a b)), (V (vx n - vx m + vx n2) (vy n - vy m + vy n2) (vz n - vz m + vz n2))%Z. split.
    + destruct CL as [C0|CL]; [exfalso|exact CL]. apply NE. destruct (RG a Ia) as (A1 & A2 & A3), (RG b Ib) as (B1 & B2 & B3). destruct a as [a1 a2 a3], b as [b1 b2 b3].
      unfold modN, zsub3, o3 in C0. cbn [vx vy vz] in *. injection C0 as C1 C2 C3.
      assert (G : forall x y, (0 <= x < N)%Z -> (0 <= y < N)%Z -> (0 = (x - y) mod N)%Z -> x = y).
      { intros x y Bx By Q. symmetry in Q. apply Z.mod_divide in Q; [|lia]. destruct Q as (q & Q). assert (q = 0)%Z by (destruct (Z.lt_trichotomy q 0) as [?|[?|?]]; [exfalso; nia|assumption|exfalso; nia]). subst. lia. }
      f_equal; apply G; assumption.
    + revert E2. generalize (fracN N a) (fracN N b) (fracN N (modN N (zsub3 a b))). intros [a1 a2 a3] [b1 b2 b3] [c1 c2 c3] E2.
      unfold Vadd, Vsub, VofZ in *. cbn [vx vy vz] in *. injection E2 as Q1 Q2 Q3. f_equal; izr; lra.
Qed.

(** all sites of one species on lattice points: the fold keeps one *)
Lemma fold_whole (L : mat R) ft (dtol : R) e l : (forall k, 0 <= vnth ft k <= 1) -> 0 < dtol -> (forall x f, In (x, f) l -> f = e /\ exists m, x = Vadd V0 (VofZ m)) ->
  forall st, at_most e V0 st -> (l <> [] \/ single e V0 st) -> single e V0 (fold_left (@fp_fold_step RNum L ft dtol) l st).
Proof.
  intros Hft H0. induction l as [|[x f] l IH]; intros HL st A NE; cbn [fold_left]; [destruct NE as [[]|NE]; auto|].
  - destruct (HL x f (or_introl eq_refl)) as [-> (m & ->)].
    assert (Q : single e V0 (@fp_fold_step RNum L ft dtol st (Vadd V0 (VofZ m), e))).
    { destruct A as [->|(m' & ->)]; [exists m; reflexivity|]. exists m'. unfold fp_fold_step. cbn [fst snd existsb].
      change (@fmul RNum dtol (@f2 RNum)) with (dtol * @f2 RNum). pose proof (whole_same dtol L ft V0 m m' Hft H0) as W.
      match goal with |- context [if ?b || false then _ else _] => replace b with true by (symmetry; exact W) end. reflexivity. }
    apply IH; [intros x' f' Hx; apply HL; now right|now right|now right].
Qed.

(** ** The primitive cell *)
Definition spanned (K : mat Z) (l : list (vec Z)) : bool := forallb (fun d => zveqb (ZMapp K (zsolve K d)) d) l.
Definition sel_eqb (x y : option (vec Z * vec Z * vec Z)) : bool :=
  match x, y with Some (a, b, c), Some (a', b', c') => zveqb a a' && zveqb b b' && zveqb c c' | None, None => true | _, _ => false end.
Lemma sel_eqb_eq x y : sel_eqb x y = true -> x = y.
Proof.
  destruct x as [[[a b] c]|], y as [[[a' b'] c']|]; cbn [sel_eqb]; try discriminate; [|reflexivity]. rewrite !andb_true_iff. intros ((A1 & A2) & A3). apply zveqb_eq in A1, A2, A3. now subst.
Qed.
Fixpoint undup (l : list (option (vec Z * vec Z * vec Z))) : list (option (vec Z * vec Z * vec Z)) :=
  match l with [] => [] | x :: t => let r := undup t in if existsb (sel_eqb x) r then r else x :: r end.
Lemma undup_in x l : In x l -> In x (undup l).
Proof.
  induction l as [|y l IH]; [intros []|]. cbn [undup]. cbv zeta. destruct (existsb (sel_eqb y) (undup l)) eqn:Q.
  - intros [->|Hx]; [|now apply IH]. apply existsb_exists in Q. destruct Q as (z & Hz & E). apply sel_eqb_eq in E. now subst.
  - intros [->|Hx]; [now left|right; now apply IH].
Qed.
Definition orders (G : z6) (N : Z) (H : list (vec Z)) (sg : Z) (test : mat Z -> bool) : bool :=
  forallb (fun o => match o with
    | Some (a, b, c) => let K0 := zcols a b c in negb (zdet a b c =? 0)%Z && spanned K0 (cands N H) && forallb (fun Z => test (ZMmul K0 Z)) (picks (kform G K0))
    | None => false end) (undup (map (zsel sg) (sperms (List.length (cands N H)) G (cands N H)))).

Section Family.
  Context (P : @Pinv RNum) (HO : HashOrd) (path : list nat) (dtol : R) (s : @structure RNum) (N : Z) (H : list (vec Z)) (G : z6) (u : R) (e : string) (test : mat Z -> bool).
  Let L := lattice s.
  Let Ln := scaleL N L.
  Hypothesis HPi : pinv_inverts P.
  Hypothesis HN : (1 <= N)%Z.
  Hypothesis Hu : 1 / 1000000 <= u.
  Hypothesis EG : gram L = zmet (IZR N * IZR N * u) G.
  Hypothesis TG : (ztr G <= 100)%Z.
  Hypothesis D0 : Mdet L <> 0.
  Hypothesis H0 : 0 < dtol.
  Hypothesis B1 : 576 * (dtol * dtol) <= u.
  Hypothesis B2 : IZR N * IZR (ztr G) * dtol < u.
  Hypothesis B3 : dtol * dtol < u * u * u.
  Hypothesis AT : at_fracs N (o3 :: H) s e.
  Hypothesis HDb : forallb (dirb N) H = true.
  Hypothesis NDb : nodupb (o3 :: H) = true.
  Hypothesis CLb : closedb N H = true.
  Hypothesis HM : (Z.of_nat (List.length H) < 65535)%Z.
  Hypothesis OB : orders G N H 1 test = true /\ orders G N H (-1) test = true.
  Hypothesis TB : forall K, test K = true -> (ztr (kform G K) <= 100)%Z.
  Let PN : 1 <= IZR N. Proof using HN. apply IZR_le. lia. Qed.
  Lemma gram_Ln : gram Ln = zmet u G.
  Proof using All.
    pose proof PN. transitivity (Mscal (/ (IZR N * IZR N)) (gram L)).
    - unfold Ln, gram, scaleL, Mscal, Mmul, Mtr, mmap. apply (@mat_ext R); cbn; field; lra.
    - rewrite EG. unfold zmet, Mscal, mmap. cbn [m11 m12 m13 m21 m22 m23 m31 m32 m33]. apply (@mat_ext R); cbn [m11 m12 m13 m21 m22 m23 m31 m32 m33]; field; lra.
  Qed.
  Lemma det_Ln : Mdet Ln <> 0.
  Proof using All. pose proof PN. unfold Ln. rewrite scaleL_det by exact HN. intro Q. apply D0. apply (Rmult_eq_reg_r (/ (IZR N * IZR N * IZR N))); [unfold Rdiv in Q; lra|]. apply Rinv_neq_0_compat. assert (0 < IZR N * IZR N) by nra. nra. Qed.
  Lemma G_definite : definite G.
  Proof using All. apply (gram_definite u G Ln); [lra|exact gram_Ln|exact det_Ln]. Qed.
  Lemma col_len k : (k < 3)%nat -> exists g, (1 <= g <= ztr G)%Z /\ Vnorm (Ccol L k) = IZR N * sqrt (u * IZR g).
  Proof using All.
    intro Hk. pose proof PN. destruct (definite_pos G G_definite) as (P1 & P2 & P3).
    assert (X : forall g : Z, (1 <= g)%Z -> Vdot (Ccol L k) (Ccol L k) = IZR N * IZR N * u * IZR g -> Vnorm (Ccol L k) = IZR N * sqrt (u * IZR g)).
    { intros g Hg Q. unfold Vnorm. rewrite Q. replace (IZR N * IZR N * u * IZR g) with ((IZR N * IZR N) * (u * IZR g)) by ring.
      rewrite sqrt_mult_alt by nra. now rewrite sqrt_square by lra. }
    pose proof (f_equal m11 EG) as A. pose proof (f_equal m22 EG) as B. pose proof (f_equal m33 EG) as C. unfold zmet in A, B, C. cbn [m11 m22 m33] in A, B, C. unfold ztr.
    destruct k as [|[|[|k]]]; [exists (za G)|exists (zb G)|exists (zc G)|lia]; (split; [lia|]); apply X; try lia; rewrite <- ?A, <- ?B, <- ?C; unfold Vdot, Ccol, gram, Mmul, Mtr; cbn; ring.
  Qed.
  Lemma col_bounds k : (k < 3)%nat -> IZR N * sqrt u <= Vnorm (Ccol L k).
  Proof using All.
    intro Hk. destruct (col_len k Hk) as (g & Hg & ->). pose proof PN. apply Rmult_le_compat_l; [lra|]. apply sqrt_le_1_alt. assert (1 <= IZR g) by (apply IZR_le; lia). nra.
  Qed.
  Lemma col_sum : Vnorm (Ccol L 0) + Vnorm (Ccol L 1) + Vnorm (Ccol L 2) <= IZR N * (sqrt u * IZR (ztr G)).
  Proof using All.
    destruct (definite_pos G G_definite) as (P1 & P2 & P3). pose proof PN.
    assert (X : forall k g, (1 <= g)%Z -> Vdot (Ccol L k) (Ccol L k) = IZR N * IZR N * u * IZR g -> Vnorm (Ccol L k) <= IZR N * (sqrt u * IZR g)).
    { intros k g Hg Q. unfold Vnorm. rewrite Q. replace (IZR N * IZR N * u * IZR g) with ((IZR N * IZR N) * (u * IZR g)) by ring.
      rewrite sqrt_mult_alt by nra. rewrite sqrt_square by lra. apply Rmult_le_compat_l; [lra|]. rewrite sqrt_mult_alt by lra. apply Rmult_le_compat_l; [apply sqrt_pos|].
      assert (1 <= IZR g) by (apply IZR_le; lia). rewrite <- (sqrt_square (IZR g)) at 2 by lra. apply sqrt_le_1_alt. nra. }
    pose proof (f_equal m11 EG) as A. pose proof (f_equal m22 EG) as B. pose proof (f_equal m33 EG) as C. unfold zmet in A, B, C. cbn [m11 m22 m33] in A, B, C.
    assert (X0 := X 0%nat (za G) ltac:(lia) ltac:(rewrite <- A; unfold Vdot, Ccol, gram, Mmul, Mtr; cbn; ring)).
    assert (X1 := X 1%nat (zb G) ltac:(lia) ltac:(rewrite <- B; unfold Vdot, Ccol, gram, Mmul, Mtr; cbn; ring)).
    assert (X2 := X 2%nat (zc G) ltac:(lia) ltac:(rewrite <- C; unfold Vdot, Ccol, gram, Mmul, Mtr; cbn; ring)).
    unfold ztr. izr. lra.
  Qed.
  Lemma det_low : u * sqrt u <= Rabs (Mdet Ln).
  Proof using All.
    pose proof (det_val u G Ln gram_Ln) as E. assert (PU : 0 < u) by lra. assert (U3 : 0 < u * u * u) by (assert (0 < u * u) by nra; nra).
    assert (DG : (0 < zdet6 G)%Z). { apply lt_IZR. apply (Rmult_lt_reg_l (u * u * u)); [exact U3|]. rewrite <- E. pose proof det_Ln. nra. }
    assert (1 <= IZR (zdet6 G)) by (apply IZR_le; lia). rewrite <- (sqrt_square (Rabs (Mdet Ln))) by apply Rabs_pos.
    replace (u * sqrt u) with (sqrt (u * u * u)) by (rewrite (sqrt_mult_alt (u * u)), sqrt_square by nra; reflexivity). apply sqrt_le_1_alt.
    rewrite <- Rabs_mult, Rabs_pos_eq by nra. rewrite E. nra.
  Qed.
  Lemma family_prim : exists K p, @find_primitive_cell RNum P HO path dtol s = Ok p /\ lattice p = Mmul Ln (MofZ K) /\ test K = true /\ 0 < Mdet (lattice p) /\
    gram (lattice p) = zmet u (kform G K) /\ well_conditioned (lattice p) /\ roomy dtol (lattice p) /\ whole V0 p e /\
    (forall d, In d (cands N H) -> exists m, d = ZMapp K m).
  Proof using All.
    pose proof PN. assert (PU : 0 < u) by lra. assert (SU : 0 < sqrt u) by now apply sqrt_lt_R0. assert (SS : sqrt u * sqrt u = u) by (apply sqrt_sqrt; lra).
    assert (DU : 24 * dtol <= sqrt u) by (rewrite <- (sqrt_square (24 * dtol)) by lra; apply sqrt_le_1_alt; lra).
    assert (DUU : dtol < u * sqrt u).
    { rewrite <- (sqrt_square dtol) by lra. replace (u * sqrt u) with (sqrt (u * u * u)) by (rewrite (sqrt_mult_alt (u * u)), sqrt_square by nra; reflexivity). apply sqrt_lt_1_alt. split; nra. }
    destruct AT as (hs & Pm & F & ES). pose proof (Permutation_length Pm) as LH. pose proof (F2_length _ _ _ F) as LF.
    assert (WF : List.length (species s) = List.length (frac_coords s)) by (rewrite ES, repeat_length; exact (eq_trans LH (eq_sym LF))).
    assert (HNE : species s <> []) by (rewrite ES; cbn; discriminate).
    assert (HM' : (Z.of_nat (List.length (species s)) <= 65535)%Z) by (rewrite ES, repeat_length; cbn [List.length]; lia).
    pose proof (gram_well (IZR N * IZR N * u) G L ltac:(nra) EG TG D0) as WL.
    assert (DL : Rabs (Mdet L) = IZR N * IZR N * IZR N * Rabs (Mdet Ln)).
    { unfold Ln. rewrite scaleL_det by exact HN. assert (0 < IZR N * IZR N * IZR N) by (assert (0 < IZR N * IZR N) by nra; nra). unfold Rdiv. rewrite Rabs_mult, (Rabs_pos_eq (/ _)) by (left; now apply Rinv_0_lt_compat). field. lra. }
    assert (N3 : 0 < IZR N * IZR N * IZR N) by (assert (0 < IZR N * IZR N) by nra; nra).
    pose proof det_low as DLo.
    assert (HSg : exists sg, (sg = 1 \/ sg = -1)%Z /\ Mdet L = Rabs (Mdet L) * IZR sg).
    { destruct (Rle_or_lt 0 (Mdet L)); [exists 1%Z; split; [auto|rewrite Rabs_pos_eq by lra; lra]|exists (-1)%Z; split; [auto|rewrite Rabs_left by lra; lra]]. }
    destruct HSg as (sg & HSg).
    destruct (prim_multi P HO path dtol s N H sg WF HNE HM' H0 HN) as (lz & Pmz & SSz & SEL).
    - intros k Hk. fold L. pose proof (col_bounds k Hk). split; nra.
    - fold L. rewrite DL. pose proof col_sum as CS.
      apply (Rle_lt_trans _ (IZR N * IZR N * IZR N * dtol * (IZR N * (sqrt u * IZR (ztr G))))); [apply Rmult_le_compat_l; [nra|exact CS]|].
      replace (IZR N * IZR N * IZR N * dtol * (IZR N * (sqrt u * IZR (ztr G)))) with (IZR N * IZR N * IZR N * (sqrt u * (IZR N * IZR (ztr G) * dtol))) by ring.
      apply Rmult_lt_compat_l; [exact N3|]. nra.
    - fold L. rewrite DL. apply Rmult_lt_compat_l; [exact N3|]. lra.
    - apply HPi, WL.
    - apply nodupb_spec in NDb. now inversion NDb.
    - rewrite forallb_forall in HDb. intros h Hh. now apply dirb_spec, HDb.
    - now apply (at_fracs_inner dtol N H s e).
    - exact HSg.
    - fold L in SSz, SEL. fold Ln in SSz, SEL.
      assert (OBs : orders G N H sg test = true) by (destruct HSg as [[-> | ->] _]; tauto). unfold orders in OBs. rewrite forallb_forall in OBs.
      specialize (OBs _ (undup_in _ _ (in_map (zsel sg) _ _ (sperms_in u G Ln PU gram_Ln lz _ Pmz SSz)))). destruct (zsel sg lz) as [[[a b] c]|] eqn:EZ; [|discriminate].
      cbv zeta in OBs. rewrite !andb_true_iff, negb_true_iff in OBs. destruct OBs as ((Q1 & Q2) & Q3). apply Z.eqb_neq in Q1.
      destruct (SEL a b c eq_refl Q1) as (z1 & z2 & z3 & EP & I1 & I2 & I3 & DZ & DP & S3). cbv zeta in EP, DP.
      set (K := ZMmul (zcols a b c) (zcols z1 z2 z3)) in *. set (L' := Mmul Ln (MofZ K)) in *.
      assert (TK : test K = true).
      { rewrite forallb_forall in Q3. apply Q3. apply (picks_in u _ (Mmul Ln (MofZ (zcols a b c)))); auto. apply gram_mul, gram_Ln. }
      assert (GP : gram L' = zmet u (kform G K)) by apply gram_mul, gram_Ln.
      assert (WP : well_conditioned L') by (apply (gram_well u (kform G K)); auto; lra).
      assert (RP : roomy dtol L') by (apply (gram_roomy u (kform G K)); auto; lra).
      assert (SP : forall d, In d (cands N H) -> exists m, d = ZMapp K m).
      { intros d Hd. unfold spanned in Q2. rewrite forallb_forall in Q2. specialize (Q2 d Hd). apply zveqb_eq in Q2.
        destruct (unimodular_inverse (zcols z1 z2 z3)) as (Zi & HZ); [change (ZMdet (zcols z1 z2 z3)) with (zdet z1 z2 z3) || idtac; lia|].
        exists (ZMapp Zi (zsolve (zcols a b c) d)). apply VofZ_inj. rewrite <- Q2 at 1. unfold K. rewrite !MofZ_app, MofZ_mul, Mapp_Mmul, <- (Mapp_Mmul (MofZ (zcols z1 z2 z3))), <- MofZ_mul, HZ, MofZ_id, Mapp_id. reflexivity. }
      eexists K, _. split; [exact EP|]. rewrite (proj1 (normalize_coords_spec _ dtol)). cbn [lattice]. do 6 (split; [assumption || reflexivity|]). split; [|exact SP].
      (* the sites *)
      set (temp := @normalize_coords RNum s dtol).
      assert (FW : single e V0 (folded P dtol s L')).
      { unfold folded. apply fold_whole; [|exact H0| |now left|left].
        - intro k. apply tols_unit; [exact H0|]. intros j Hj. fold L. pose proof (col_bounds j Hj). nra.
        - intros x f Hx. fold temp in Hx.
          assert (Q : exists y, x = Mapp (@pinv RNum P L') (Mapp L y) /\ In (y, f) (combine (frac_coords temp) (species temp))).
          { destruct (normalize_coords_spec s dtol) as (_ & _ & _ & _ & EC & _). fold temp in EC. rewrite EC in Hx. fold L in Hx. revert Hx. generalize (species temp) (frac_coords temp). clear.
            intros sp fc. revert sp. induction fc as [|y fc IH]; intros [|g sp]; cbn; try tauto. intros [E|Hx]; [injection E as <- <-; eauto|]. destruct (IH sp Hx) as (y' & ? & ?). eauto. }
          destruct Q as (y & -> & Hy). destruct (temp_site dtol s WF y f Hy) as (x0 & n & Hx0 & ->). rewrite ES in Hx0. apply combine_repeat in Hx0. destruct Hx0 as [-> Hx0]. split; [reflexivity|].
          destruct (Forall2_In_l _ _ _ _ F Hx0) as (h & Hh & n' & ->). apply (Permutation_in _ (Permutation_sym Pm)) in Hh.
          assert (SPh : exists m, h = ZMapp K m). { destruct Hh as [<-|Hh]; [exists o3; symmetry; apply ZMapp_0|]. apply SP. apply in_or_app. now right. }
          destruct SPh as (mh & Emh).
          destruct (SP (timesN N e1)) as (k1 & K1); [cbn; tauto|]. destruct (SP (timesN N e2)) as (k2 & K2); [cbn; tauto|]. destruct (SP (timesN N e3)) as (k3 & K3); [cbn; tauto|].
          set (nn := ZVadd n' n). set (m := zadd3 mh (ZMapp (zcols k1 k2 k3) nn)). exists m. rewrite Vadd_0.
          assert (EQ : Mapp L (Vadd (Vadd (fracN N h) (VofZ n')) (VofZ n)) = Mapp L' (VofZ m)).
          { rewrite Vadd_assoc, <- VofZ_add. fold nn. transitivity (Mapp Ln (VofZ (zadd3 h (timesN N nn)))).
            - transitivity (Mapp L (fracN N (zadd3 h (timesN N nn)))); [|symmetry; now apply scaleL_frac]. rewrite fracN_add by exact HN. f_equal. f_equal.
              unfold fracN, timesN, VofZ. cbn [vx vy vz]. f_equal; rewrite mult_IZR; field; lra.
            - unfold L'. rewrite Mapp_Mmul, <- MofZ_app. f_equal. f_equal. unfold m. rewrite Emh.
              replace (timesN N nn) with (ZMapp K (ZMapp (zcols k1 k2 k3) nn)); [unfold zadd3, ZMapp; cbn [vx vy vz]; f_equal; ring|].
              unfold timesN, e1, e2, e3 in K1, K2, K3. cbn [vx vy vz] in K1, K2, K3. clear - K1 K2 K3. clearbody K nn. destruct nn as [n1 n2 n3]. unfold ZMapp, zcols, timesN in *. cbn [vx vy vz m11 m12 m13 m21 m22 m23 m31 m32 m33] in *.
              injection K1 as A1 A2 A3. injection K2 as A4 A5 A6. injection K3 as A7 A8 A9.
              apply (f_equal (Z.mul n1)) in A1, A2, A3. apply (f_equal (Z.mul n2)) in A4, A5, A6. apply (f_equal (Z.mul n3)) in A7, A8, A9.
              f_equal; lia. }
          rewrite EQ. rewrite (inv_app (@pinv RNum P L') L'); [reflexivity|]. destruct (HPi L' WP). split; assumption.
        - destruct (normalize_coords_spec s dtol) as (_ & X1 & X2 & _ & EC & _). fold temp in X1, X2, EC. fold temp. rewrite EC. intro Q. apply (f_equal (@List.length _)) in Q.
          rewrite combine_length, !map_length in Q. rewrite <- WF, Nat.min_id, ES, repeat_length in X2. cbn [List.length] in X2.
          assert (Y : List.length (frac_coords temp) = S (List.length H)) by exact (eq_trans (eq_sym X1) X2).
          change (Nat.min (List.length (frac_coords temp)) (List.length (species temp)) = 0%nat) in Q. rewrite Y, X2 in Q. cbn in Q. discriminate Q. }
      destruct FW as (m & FW). rewrite FW. cbn [fst snd map]. apply whole_normalize.
  Qed.
End Family.
