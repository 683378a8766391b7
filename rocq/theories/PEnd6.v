(** Facts behind C60-C61 and C81-C84 *)
From Coq Require Import ZArith Reals String Ascii List Bool Lia Lra Permutation.
From Verif Require Import Num Mat Utils DataCore DataSG SymmOp PointGroup SpaceGroup Structure Reduce Analyzer RInst Spec Spec2 Spec3 RFacts
  PUtils PSymmOp PSpaceGroup PStructure PStructure2 PNiggli PLattice PPrim PPrim2 PDelaunay PAnalyzer PAnalyzer2 PPointGroup2 PSearch PSearch4 PSearch6 PSearch7
  PEnd PEnd2 PEnd3 PEnd4 PEnd5 Prop5 Prop12.
Import ListNotations.
Open Scope R_scope.

Lemma dirs26_In z : z <> V 0%Z 0%Z 0%Z -> (-1 <= vx z <= 1)%Z -> (-1 <= vy z <= 1)%Z -> (-1 <= vz z <= 1)%Z -> In z dirs26.
Proof.
  destruct z as [x y z]. cbn [vx vy vz]. intros N X Y Z.
  assert (CX : x = (-1)%Z \/ x = 0%Z \/ x = 1%Z) by lia. assert (CY : y = (-1)%Z \/ y = 0%Z \/ y = 1%Z) by lia. assert (CZ : z = (-1)%Z \/ z = 0%Z \/ z = 1%Z) by lia.
  clear X Y Z. destruct CX as [->|[->| ->]], CY as [->|[->| ->]], CZ as [->|[->| ->]]; try (exfalso; apply N; reflexivity); unfold dirs26, dirs13, zneg; cbn; clear N;
    repeat (first [left; reflexivity|right]).
Qed.
Lemma col_from_columns (L : mat R) y1 y2 y3 : let L' := from_columns (col L y1) (col L y2) (col L y3) in
  Ccol L' 0 = col L y1 /\ Ccol L' 1 = col L y2 /\ Ccol L' 2 = col L y3.
Proof. cbv zeta. repeat split. Qed.

(** the squared edge lengths in increasing order *)
Lemma sorted_squares a b c A B C : 0 < a -> 0 < b -> 0 < c -> Permutation [A; B; C] [a * a; b * b; c * c] -> A <= B <= C ->
  exists x y z, Permutation [x; y; z] [a; b; c] /\ x <= y <= z /\ A = x * x /\ B = y * y /\ C = z * z.
Proof.
  intros Ha Hb Hc HP HO.
  assert (G : forall u v, 0 < u -> 0 < v -> u * u <= v * v -> u <= v) by (intros u v Hu Hv Q; destruct (Rle_or_lt u v); auto; nra).
  destruct (perm3 _ _ _ _ _ _ HP) as [(-> & -> & ->)|[(-> & -> & ->)|[(-> & -> & ->)|[(-> & -> & ->)|[(-> & -> & ->)|(-> & -> & ->)]]]]].
  - exists a, b, c. split; [reflexivity|]. split; [split; apply G; lra|auto].
  - exists a, c, b. split; [apply perm_skip, perm_swap|]. split; [split; apply G; lra|auto].
  - exists b, a, c. split; [apply perm_swap|]. split; [split; apply G; lra|auto].
  - exists b, c, a. split; [symmetry; exact (Permutation_cons_append [b; c] a)|]. split; [split; apply G; lra|auto].
  - exists c, a, b. split; [exact (Permutation_cons_append [a; b] c)|]. split; [split; apply G; lra|auto].
  - exists c, b, a. split; [exact (Permutation_rev [c; b; a])|]. split; [split; apply G; lra|auto].
Qed.
Lemma box_cases eps x y z : x <= y <= z -> 0 < x ->
  let '(N, sym, cnt) := box_answer eps (x * x) (y * y) (z * z) in
  (N = 221%Z /\ sym = "Pm-3m"%string /\ cnt = 48%nat /\ z * z - x * x <= eps) \/
  (N = 123%Z /\ sym = "P4/mmm"%string /\ cnt = 16%nat /\ eps < z * z - x * x /\ (y * y - x * x <= eps \/ z * z - y * y <= eps)) \/
  (N = 47%Z /\ sym = "Pmmm"%string /\ cnt = 8%nat /\ eps < y * y - x * x /\ eps < z * z - y * y).
Proof.
  intros O Hx. assert (Q1 : x * x <= y * y) by nra. assert (Q2 : y * y <= z * z) by nra. unfold box_answer.
  assert (T : forall u v, u <= v -> Rabs (u - v) = v - u) by (intros; rewrite Rabs_minus_sym; apply Rabs_pos_eq; lra).
  pose proof (cust_eq_spec (x * x) (y * y) eps) as S1. pose proof (cust_eq_spec (x * x) (z * z) eps) as S2. pose proof (cust_eq_spec (y * y) (z * z) eps) as S3.
  rewrite (T (x * x) (y * y)) in S1 by lra. rewrite (T (x * x) (z * z)) in S2 by lra. rewrite (T (y * y) (z * z)) in S3 by lra.
  pose proof (cust_eq_false (x * x) (y * y) eps) as F1. pose proof (cust_eq_false (x * x) (z * z) eps) as F2. pose proof (cust_eq_false (y * y) (z * z) eps) as F3.
  rewrite (T (x * x) (y * y)) in F1 by lra. rewrite (T (x * x) (z * z)) in F2 by lra. rewrite (T (y * y) (z * z)) in F3 by lra.
  destruct (@cust_eq RNum (x * x) (y * y) eps); [apply proj1 in S1; specialize (S1 eq_refl)|apply proj1 in F1; specialize (F1 eq_refl)];
  (destruct (@cust_eq RNum (x * x) (z * z) eps); [apply proj1 in S2; specialize (S2 eq_refl)|apply proj1 in F2; specialize (F2 eq_refl)]);
  (destruct (@cust_eq RNum (y * y) (z * z) eps); [apply proj1 in S3; specialize (S3 eq_refl)|apply proj1 in F3; specialize (F3 eq_refl)]);
  cbn [andb orb]; first [left; repeat split; lra|right; left; repeat split; lra|right; right; repeat split; lra|exfalso; lra].
Qed.

(** an orthogonal box meets the hypotheses of C82 and C84 *)
Lemma box_setting (P : @Pinv RNum) (HO : HashOrd) (dtol a b c : R) fuel path (s : @structure RNum) e w m :
  pinv_inverts P -> (48 <= fuel)%nat -> species s = [e] -> frac_coords s = [Vadd w (VofZ m)] -> lattice s = diag a b c ->
  1 <= a <= 1000 -> 1 <= b <= 1000 -> 1 <= c <= 1000 -> 1 / 100000 <= dtol <= 1 / 24 ->
  well_conditioned (lattice s) /\
  (forall k, (k < 3)%nat -> dtol * Vnorm (Ccol (lattice s) k) < Rabs (Mdet (lattice s))) /\ dtol < Rabs (Mdet (lattice s)) /\
  (forall z : vec Z, z <> V 0%Z 0%Z 0%Z -> 24 * dtol <= Vnorm (Mapp (lattice s) (VofZ z))) /\
  1 / 100000 * Rpower (Rabs (Mdet (lattice s))) (1 / 3) < 1 /\
  (forall p, @find_primitive_cell RNum P HO (0%nat :: path) dtol s = Ok p -> well_conditioned (lattice p) /\
     forall q, @niggli_reduce RNum P dtol p (1 / 100000) = Ok q -> well_conditioned (lattice q)) /\
  (forall std, @get_standard_primitive_structure RNum P HO fuel (0%nat :: path) dtol s = Ok std ->
     forall k, (k < 3)%nat -> Vnorm (Ccol (lattice std) k) <= 100000000 * dtol).
Proof.
  intros HP HF ES EX EL Ba Bb Bc Hd.
  destruct (box_cells P HO dtol a b c fuel path s e w m HP HF ES EX EL Ba Bb Bc Hd)
    as (p & q & n & A & B & C & Z1 & Ws & HN & HDd & RM & HE & F1 & G1 & EC & Wp & Wq & HI & G2 & Q1 & Q2 & Q3 & EA).
  destruct (one_stages P HO dtol fuel path s p q e w m n HP HF ES EX ltac:(lra) Ws Wp Wq HN HDd RM HE F1 G1 EC)
    as (b' & c' & std & T & Ti & T0 & Pm & U & K5 & K0 & KL & TI' & TI & K9 & RS & C1 & K1 & K2 & K3 & K4 & K6 & K7 & K8).
  destruct (box_rows n HI) as (b'' & T0' & N & sym & cnt & R1 & R2 & R3 & _ & _ & _ & R7 & _). rewrite R1 in K5. injection K5 as <-. rewrite R2 in C1. injection C1 as <-.
  split; [exact Ws|]. split; [exact HN|]. split; [exact HDd|]. split; [exact RM|]. split; [exact HE|]. split.
  - intros p' Ep. rewrite F1 in Ep. injection Ep as <-. split; [exact Wp|]. intros q' Eq. rewrite G1 in Eq. injection Eq as <-. exact Wq.
  - intros std' Es. rewrite K0 in Es. injection Es as <-.
    assert (EU : U = transpose T0').
    { apply MofZ_inj. rewrite <- K6. destruct (primitive_inv _ _ _ K2) as (_ & c0 & X1 & X2). rewrite R7 in X1. injection X1 as <-.
      cbn in X2. injection X2 as <-. change (MofZ (transpose T0')) with (Mtr (MofZ T0')). generalize (Mtr (MofZ T0')). intro Q. destruct Q as [p1 p2 p3 q1 q2 q3 r1 r2 r3]. apply mat_ext; cbn; field. }
    intros k Hk. rewrite K8, G2, EU, Mmul_assoc, <- MofZ_mul. pose proof (box_col a b c Ba Bb Bc (ZMmul Z1 (transpose T0')) k (signed_mul _ _ Q1 R3) Hk). lra.
Qed.
(** the calls behind an answer *)
Lemma info_calls (P : @Pinv RNum) (HO : HashOrd) fuel path (dtol : R) (s : @structure RNum) n sym ops :
  @get_space_group_info RNum P HO fuel path dtol s = Ok (n, sym, ops) ->
  exists p q std ch, @find_primitive_cell RNum P HO (0%nat :: path) dtol s = Ok p /\ @niggli_reduce RNum P dtol p (1 / 100000) = Ok q /\
    @get_standard_primitive_structure RNum P HO fuel (0%nat :: path) dtol s = Ok std /\ @get_lattice_character RNum q (1 / 100000) = Ok ch.
Proof.
  intro E. apply info_stages in E. destruct E as (p & q & std & Tm & Pm & ch & b & gens & sg & ls & m1 & m2 & i1 & i2 & S & E & _).
  destruct S as [S1 S2 S3 _ _]. apply conventional_inv in S3. destruct S3 as (S3 & _). exists p, q, std, ch. auto.
Qed.
