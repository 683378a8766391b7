(** One atom per primitive cell: the whole run (analyzer.rs 36-162, 286-345) *)
From Coq Require Import ZArith Reals String Ascii List Bool Lia Lra Permutation.
From Verif Require Import Num Mat Utils DataCore SymmOp PointGroup SpaceGroup Structure Reduce Analyzer RInst Spec Spec2 Spec3 RFacts
  PUtils PSymmOp PStructure PStructure2 PStructure3 PNiggli PDelaunay PPrim PPrim2 PLattice PAnalyzer PAnalyzer2 PEnd Prop5.
Import ListNotations.
Open Scope R_scope.

Lemma one_normalize L e c x (dtol : R) : exists n, @normalize_coords RNum (Structure (N := RNum) L [e] c [x]) dtol =
  Structure (N := RNum) L [e] [Mapp L (Vadd x (VofZ n))] [Vadd x (VofZ n)].
Proof.
  destruct (normalize_vec_shift x (@frac_tols_of RNum L dtol)) as (n & En). exists n. rewrite <- En. reflexivity.
Qed.
(** one site, at [w] up to whole periods *)
Definition whole (w : vec R) (s : @structure RNum) (e : string) : Prop :=
  species s = [e] /\ exists m, frac_coords s = [Vadd w (VofZ m)] /\ coords s = [Mapp (lattice s) (Vadd w (VofZ m))].
Lemma Vadd_assoc u v w : Vadd (Vadd u v) w = Vadd u (Vadd v w).
Proof. destruct u as [u1 u2 u3], v as [v1 v2 v3], w as [w1 w2 w3]. unfold Vadd. cbn [vx vy vz]. f_equal; ring. Qed.
Lemma Vadd_0 v : Vadd V0 v = v.
Proof. destruct v as [v1 v2 v3]. unfold Vadd, V0. cbn [vx vy vz]. f_equal; ring. Qed.
Lemma whole_normalize L e c w m (dtol : R) : whole w (@normalize_coords RNum (Structure (N := RNum) L [e] c [Vadd w (VofZ m)]) dtol) e.
Proof.
  destruct (one_normalize L e c (Vadd w (VofZ m)) dtol) as (n & E). cbn [num RNum] in *. rewrite E. split; [reflexivity|]. exists (ZVadd m n). cbn [frac_coords coords lattice].
  rewrite VofZ_add, Vadd_assoc. auto.
Qed.
Lemma unimodular_app L Li T Ti w m : inverse_of (Mmul L (MofZ T)) Li -> ZMmul T Ti = ZMid ->
  Mapp Li (Mapp L (Vadd w (VofZ m))) = Vadd (Mapp (MofZ Ti) w) (VofZ (ZMapp Ti m)).
Proof.
  intros [_ I] HT. rewrite MofZ_app, <- Mapp_add. generalize (Vadd w (VofZ m)). intro x.
  rewrite <- (Mapp_id (Mapp (MofZ Ti) x)), <- I, Mapp_Mmul, !Mapp_Mmul.
  rewrite <- (Mapp_Mmul (MofZ T)), <- MofZ_mul, HT, MofZ_id, Mapp_id. reflexivity.
Qed.

Lemma zinv_comm a b : ZMmul a b = ZMid -> ZMmul b a = ZMid.
Proof.
  intro E. apply MofZ_inj. assert (ER : Mmul (MofZ a) (MofZ b) = Mid) by now rewrite <- MofZ_mul, E, MofZ_id.
  assert (D : Mdet (MofZ a) <> 0). { intro Q. assert (X : Mdet (Mmul (MofZ a) (MofZ b)) = 0) by (rewrite Mdet_mul, Q; ring). rewrite ER in X. unfold Mdet, Mid in X. cbn in X. lra. }
  destruct (Madj_inverse _ D) as [I1 I2]. rewrite MofZ_mul, MofZ_id, <- I2. f_equal.
  rewrite <- (Mmul_id_l (MofZ b)), <- I2, Mmul_assoc, ER. apply Mmul_id_r.
Qed.
Lemma VofZ_inj u v : VofZ u = VofZ v -> u = v.
Proof. destruct u as [u1 u2 u3], v as [v1 v2 v3]. unfold VofZ. cbn. intro E. injection E as E1 E2 E3. f_equal; now apply eq_IZR. Qed.
Lemma ZMapp_0 T : ZMapp T (V 0 0 0)%Z = V 0%Z 0%Z 0%Z.
Proof. unfold ZMapp. cbn [vx vy vz]. f_equal; ring. Qed.
Lemma adj_app T v : Mdet (MofZ T) <> 0 -> Vscal (IZR (ZMdet T)) (Mapp (Madj_inv (MofZ T)) (VofZ v)) = VofZ (ZMapp (zadj T) v).
Proof.
  intro H. rewrite MofZ_det in H. unfold Madj_inv. rewrite MofZ_det. unfold zadj, ZMapp, MofZ, VofZ, Vscal, Mapp, Mscal, mmap. cbn.
  apply vec_ext; cbn [vx vy vz]; repeat rewrite ?plus_IZR, ?mult_IZR, ?minus_IZR; field; exact H.
Qed.
Lemma Vnorm_scal k v : Vnorm (Vscal k v) = Rabs k * Vnorm v.
Proof.
  unfold Vnorm. replace (Vdot (Vscal k v) (Vscal k v)) with (Rsqr k * Vdot v v) by (unfold Vdot, Vscal, Rsqr; cbn; ring).
  rewrite sqrt_mult_alt by apply Rle_0_sqr. now rewrite sqrt_Rsqr_abs.
Qed.
Lemma tols_unit L (dtol : R) : 0 < dtol -> (forall k, (k < 3)%nat -> 24 * dtol <= Vnorm (Ccol L k)) -> forall k, 0 <= vnth (@frac_tols_of RNum L dtol) k <= 1.
Proof.
  intros H0 HC k. assert (G : forall j, (j < 3)%nat -> 0 <= dtol / Vnorm (Ccol L j) <= 1).
  { intros j Hj. specialize (HC j Hj). split; [apply Rmult_le_pos; [lra|left; apply Rinv_0_lt_compat; lra]|].
    apply (Rmult_le_reg_r (Vnorm (Ccol L j))); [lra|]. unfold Rdiv. rewrite Rmult_assoc, Rinv_l by lra. lra. }
  destruct k as [|[|k]]; [apply (G 0%nat)|apply (G 1%nat)|apply (G 2%nat)]; lia.
Qed.

Section Whole.
  Context (P : @Pinv RNum) (HO : HashOrd) (dtol : R).
  Hypothesis HP : pinv_inverts P.

  Lemma prim_whole path (s : @structure RNum) e w m : species s = [e] -> frac_coords s = [Vadd w (VofZ m)] -> 0 <= dtol -> well_conditioned (lattice s) ->
    (forall k, (k < 3)%nat -> dtol <= Vnorm (Ccol (lattice s) k) /\ dtol * Vnorm (Ccol (lattice s) k) < Rabs (Mdet (lattice s))) ->
    dtol < Rabs (Mdet (lattice s)) ->
    exists p y1 y2 y3, @find_primitive_cell RNum P HO path dtol s = Ok p /\ lattice p = Mmul (lattice s) (MofZ (zcols y1 y2 y3)) /\
      (ZMdet (zcols y1 y2 y3) = 1 \/ ZMdet (zcols y1 y2 y3) = -1)%Z /\ 0 < Mdet (lattice p) /\ In y1 dirs26 /\ In y2 dirs26 /\ In y3 dirs26 /\
      shortest3 (lattice s) y1 y2 y3 /\ (forall Ti, ZMmul (zcols y1 y2 y3) Ti = ZMid -> well_conditioned (lattice p) -> whole (Mapp (MofZ Ti) w) p e).
  Proof.
    intros ES EX H0 W HC HD.
    assert (WF : List.length (species s) = List.length (frac_coords s)) by now rewrite ES, EX.
    assert (HC' : forall k, (k < 3)%nat -> 0 < Vnorm (Ccol (lattice s) k) /\ dtol <= Vnorm (Ccol (lattice s) k) /\ dtol * Vnorm (Ccol (lattice s) k) < Rabs (Mdet (lattice s))).
    { intros k Hk. split; [|now apply HC]. apply well_conditioned_col; assumption. }
    destruct (prim_keeps_shortest P HO path dtol s WF H0) as (y1 & y2 & y3 & E & I1 & I2 & I3 & D & DP & S3); auto.
    { rewrite ES. discriminate. } { rewrite ES. cbn. lia. }
    { intros i j x y e' Hij Hx Hy. rewrite EX in Hx, Hy. destruct i as [|[|i]], j as [|[|j]]; try discriminate; congruence. }
    cbv zeta in E, DP. unfold col in E, DP. rewrite cols_app in E, DP.
    eexists. exists y1, y2, y3. split; [exact E|]. rewrite (proj1 (normalize_coords_spec _ dtol)). cbn [lattice].
    split; [reflexivity|]. split; [exact D|]. split; [lra|]. do 4 (split; [assumption|]). intros Ti HI Wp.
    assert (ET : exists n, @normalize_coords RNum s dtol = Structure (N := RNum) (lattice s) [e] [Mapp (lattice s) (Vadd w (VofZ n))] [Vadd w (VofZ n)]).
    { destruct s as [L sp c fc]. cbn [species frac_coords lattice] in *. subst sp fc. destruct (one_normalize L e c (Vadd w (VofZ m)) dtol) as (n & Q). cbn [num RNum] in *. rewrite Q. exists (ZVadd m n). now rewrite VofZ_add, Vadd_assoc. }
    destruct ET as (n & ET). unfold folded. rewrite ET. cbn [coords species map combine fold_left fp_fold_step existsb fst snd app].
    assert (Q := unimodular_app (lattice s) _ _ _ w n (HP _ Wp) HI). cbn [num RNum] in *. rewrite Q. apply whole_normalize.
  Qed.

  Lemma niggli_whole (p q : @structure RNum) e w : whole w p e -> 0 < Mdet (lattice p) -> 1 / 100000 * Rpower (Mdet (lattice p)) (1 / 3) < 1 ->
    @niggli_reduce RNum P dtol p (1 / 100000) = Ok q -> well_conditioned (lattice q) ->
    exists T, ZMdet T = 1%Z /\ lattice q = Mmul (lattice p) (MofZ T) /\ forall Ti, ZMmul T Ti = ZMid -> whole (Mapp (MofZ Ti) w) q e.
  Proof using HP.
    intros (ES & m & EX & EC) HD He E W.
    assert (He' : 0 <= 1 / 100000 * Rpower (Mdet (lattice p)) (1 / 3) < 1) by (split; [apply Rmult_le_pos; [lra|apply Rlt_le, exp_pos]|exact He]).
    destruct (niggli_reduce_spec P dtol p q (1 / 100000) HD He' E) as (T & HT & EQ & _).
    assert (EL : lattice q = Mmul (lattice p) (MofZ T)) by now rewrite EQ.
    exists T. split; [exact HT|]. split; [exact EL|]. intros Ti HI.
    rewrite EQ. unfold rebuilt. rewrite ES, EC. cbn [map]. rewrite EL in W.
    assert (Q := unimodular_app (lattice p) _ _ _ w m (HP _ W) HI). cbn [num RNum] in *. rewrite Q. apply whole_normalize.
  Qed.

  (** every non-zero lattice vector is at least 24 tolerances long *)
  Definition roomy (L : mat R) : Prop := forall z : vec Z, z <> V 0%Z 0%Z 0%Z -> 24 * dtol <= Vnorm (Mapp L (VofZ z)).
  Lemma roomy_mul L T Ti : ZMmul Ti T = ZMid -> roomy L -> roomy (Mmul L (MofZ T)).
  Proof using.
    intros HT R z Hz. rewrite Mapp_Mmul, <- MofZ_app. apply R. intro E. apply Hz.
    assert (Q : ZMapp Ti (ZMapp T z) = z).
    { apply VofZ_inj. rewrite !MofZ_app, <- Mapp_Mmul, <- MofZ_mul, HT, MofZ_id. apply Mapp_id. }
    rewrite <- Q, E. apply ZMapp_0.
  Qed.
  Lemma roomy_col L k : roomy L -> 24 * dtol <= Vnorm (Ccol L k).
  Proof using.
    intros RM. assert (E : exists z, z <> V 0%Z 0%Z 0%Z /\ Mapp L (VofZ z) = Ccol L k).
    { destruct k as [|[|k]]; [exists e1|exists e2|exists e3]; (split; [discriminate|]); unfold Mapp, VofZ, Ccol, e1, e2, e3; cbn; apply (@vec_ext R); cbn; ring. }
    destruct E as (z & Hz & <-). now apply RM.
  Qed.
  (** the conventional cell of a one-site cell *)
  Lemma conv_whole (q : @structure RNum) e w T fuel : whole w q e -> 0 < dtol -> roomy (lattice q) -> (1 <= Z.abs (ZMdet T) <= 4)%Z -> (4 <= fuel)%nat ->
    exists c, @apply_transformation RNum fuel q (MofZ T) dtol = Ok c /\ lattice c = Mmul (lattice q) (MofZ T) /\
      List.length (species c) = Z.to_nat (Z.abs (ZMdet T)) /\ List.length (frac_coords c) = Z.to_nat (Z.abs (ZMdet T)) /\
      List.length (coords c) = Z.to_nat (Z.abs (ZMdet T)) /\
      forall y f, In (y, f) (combine (frac_coords c) (species c)) -> f = e /\ exists m, Mapp (MofZ T) y = Vadd w (VofZ m).
  Proof using.
    intros (ES & m & EX & EC) H0 RM HT HF. assert (HD : ZMdet T <> 0%Z) by lia.
    assert (HDR : Mdet (MofZ T) <> 0) by (rewrite MofZ_det; now apply (IZR_neq _ 0)).
    destruct (C68_supercell_complete q T (Madj_inv (MofZ T)) dtol fuel HD (Madj_inverse _ HDR)) as (c & E & EL & N1 & N2 & ECc & _).
    - lra.
    - intro k. pose proof (roomy_col (lattice q) k RM). lra.
    - intro k. pose proof (roomy_col (lattice q) k RM). lra.
    - now rewrite EX, ES.
    - now rewrite EC, ES.
    - intros i j x y z Hx Hy Hz. rewrite EX in Hx, Hy. destruct i as [|[|i]], j as [|[|j]]; try discriminate. destruct Hz as [[]|Hz]; [reflexivity|].
      injection Hx as <-. injection Hy as <-. 
      replace (Vadd (Vsub (Vadd w (VofZ m)) (Vadd w (VofZ m))) (VofZ z)) with (VofZ z) by (unfold Vadd, Vsub, VofZ; cbn; f_equal; ring).
      assert (NZ : ZMapp (zadj T) z <> V 0%Z 0%Z 0%Z).
      { intro Q. apply Hz. exists (V 0 0 0)%Z. rewrite ZMapp_0. pose proof (adj_app T z HDR) as A. rewrite Q in A.
        apply VofZ_inj. rewrite <- (inv_app (MofZ T) (Madj_inv (MofZ T)) (VofZ z)) by now apply Madj_inverse.
        replace (Mapp (Madj_inv (MofZ T)) (VofZ z)) with (V0 : vec R); [rewrite Mapp_V0; reflexivity|].
        assert (D0 : IZR (ZMdet T) <> 0) by now rewrite <- MofZ_det.
        destruct (Mapp (Madj_inv (MofZ T)) (VofZ z)) as [a1 a2 a3]. unfold Vscal, VofZ in A. cbn in A. injection A as A1 A2 A3. unfold V0.
        assert (G : forall x, IZR (ZMdet T) * x = 0 -> 0 = x) by (intros x Hx; apply Rmult_integral in Hx; destruct Hx; [contradiction|auto]).
        f_equal; now apply G. }
      specialize (RM _ NZ). rewrite <- (adj_app T z HDR), Mapp_scal, Vnorm_scal in RM.
      set (d := Vnorm (Mapp (lattice q) (Mapp (Madj_inv (MofZ T)) (VofZ z)))) in *.
      assert (B : Rabs (IZR (ZMdet T)) <= 4) by (rewrite <- abs_IZR; apply IZR_le; lia). assert (0 <= d) by apply Vnorm_nonneg. nra.
    - lia.
    - exists c. rewrite ES in N1, N2. cbn [List.length] in N1, N2. split; [exact E|]. split; [exact EL|]. split; [lia|]. split; [lia|].
      split; [rewrite ECc, map_length; rewrite Nat.mul_1_l in N2; exact N2|]. intros y f Hy.
      destruct (apply_transformation_sound _ _ _ _ _ E) as (_ & _ & _ & _ & S & _).
      apply In_nth_error in Hy. destruct Hy as (k & Hk). apply nth_combine in Hk. destruct Hk as [K1 K2].
      destruct (S k f y K2 K1) as (j & x & m1 & n1 & J1 & J2 & J3). rewrite ES in J1. rewrite EX in J2. destruct j as [|[|j]]; try discriminate.
      injection J1 as <-. injection J2 as <-. split; [reflexivity|]. exists (ZVadd (ZVadd m m1) (ZMapp T n1)). now rewrite J3, !VofZ_add, MofZ_app, !Vadd_assoc.
  Qed.
  (** and its primitive cell *)
  Lemma whole_same L ft w m m' : (forall k, 0 <= vnth ft k <= 1) -> 0 < dtol -> @same_site RNum L ft (dtol * @f2 RNum) (Vadd w (VofZ m)) (Vadd w (VofZ m')) = true.
  Proof using.
    intros Hft H0. unfold same_site. rewrite fle_true, mvmul_R, magnitude_R. change (@vsub RNum (Vadd w (VofZ m)) (Vadd w (VofZ m'))) with (Vsub (Vadd w (VofZ m)) (Vadd w (VofZ m'))).
    replace (Vsub (Vadd w (VofZ m)) (Vadd w (VofZ m'))) with (VofZ (ZVadd m (zneg m'))) by (unfold ZVadd, zneg, Vadd, Vsub, VofZ; cbn; rewrite !plus_IZR, !opp_IZR; f_equal; ring).
    assert (Z0 : @normalize_vec RNum (VofZ (ZVadd m (zneg m'))) ft = V0).
    { unfold normalize_vec, vmap2, VofZ; cbn [vx vy vz]. pose proof (Hft 0%nat). pose proof (Hft 1%nat). pose proof (Hft 2%nat). cbn [vnth] in *.
      numR. rewrite !normalize1_whole by assumption. reflexivity. }
    numR. rewrite Z0, Mapp_V0, Vnorm_V0. cbn [fabs RNum]. rewrite Rabs_R0. unfold f2. cbn [fofZ RNum]. lra.
  Qed.
  Section Back.
    Context (L : mat R) (ft : vec R) (Pi : mat R) (e : string) (w : vec R) (good : vec R -> Prop).
    Hypothesis (Hft : forall k, 0 <= vnth ft k <= 1) (H0 : 0 < dtol).
    Hypothesis Hgood : forall y k, good y -> exists m, cand Pi y k = Vadd w (VofZ m).
    Definition single (st : list (vec R) * list string) : Prop := exists m, st = ([Vadd w (VofZ m)], [e]).
    Definition at_most (st : list (vec R) * list string) : Prop := st = ([], []) \/ single st.
    Lemma back_step mult y st p : good y -> at_most st ->
      single (@at_vec_step RNum Pi L ft dtol mult y e st (VofZ (V (fst (fst p)) (snd (fst p)) (snd p)))).
    Proof using Hft H0 Hgood.
      intros Hy I. unfold at_vec_step. rewrite cand_step. destruct (Hgood y (zscale mult p) Hy) as (m & Em). numR. rewrite Em.
      destruct I as [->|(m' & ->)]; [now exists m|]. cbn [existsb]. change (dtol * 2) with (dtol * @f2 RNum).
      pose proof (whole_same L ft w m m' Hft H0) as Q. match goal with |- context [if ?b || false then _ else _] => replace b with true by (symmetry; exact Q) end.
      now exists m'.
    Qed.
    Lemma back_fold mult y l : forall st, good y -> at_most st ->
      at_most (fold_left (fun st p => @at_vec_step RNum Pi L ft dtol mult y e st (VofZ (V (fst (fst p)) (snd (fst p)) (snd p)))) l st) /\
      (l <> [] \/ single st -> single (fold_left (fun st p => @at_vec_step RNum Pi L ft dtol mult y e st (VofZ (V (fst (fst p)) (snd (fst p)) (snd p)))) l st)).
    Proof using Hft H0 Hgood.
      induction l as [|p l IH]; intros st Hy I; cbn [fold_left].
      - split; [exact I|]. intros [[]|Q]; auto.
      - assert (S := back_step mult y st p Hy I). destruct (IH _ Hy (or_intror S)) as [A B]. split; [exact A|]. intros _. apply B. now right.
    Qed.
    Lemma back_pass mult sites : (1 <= mult)%nat -> (forall y f, In (y, f) sites -> f = e /\ good y) -> forall st, at_most st ->
      (sites <> [] \/ single st) -> single (fold_left (@at_site_step RNum Pi L ft dtol mult) sites st).
    Proof using Hft H0 Hgood.
      intros HM. assert (NE : tri mult <> []).
      { assert (Q : In (0, 0, 0)%Z (tri mult)) by (apply tri_In; lia). intro E. rewrite E in Q. destruct Q. }
      induction sites as [|[y f] sites IH]; intros HS st I N; cbn [fold_left].
      - destruct N as [[]|N]; auto.
      - destruct (HS y f (or_introl eq_refl)) as [-> Hy]. apply IH.
        + intros y' f' H'. apply HS. now right.
        + rewrite at_site_fold. cbn [fst snd]. exact (proj1 (back_fold mult y (tri mult) st Hy I)).
        + right. rewrite at_site_fold. cbn [fst snd]. apply (proj2 (back_fold mult y (tri mult) st Hy I)). now left.
    Qed.
  End Back.
  Lemma back_whole (c : @structure RNum) e w (T : mat Z) (Pm : mat R) (U : mat Z) fuel : 0 < dtol ->
    (forall y f, In (y, f) (combine (frac_coords c) (species c)) -> f = e /\ exists m, Mapp (MofZ T) y = Vadd w (VofZ m)) ->
    species c <> [] -> List.length (frac_coords c) = List.length (species c) -> List.length (coords c) = List.length (species c) ->
    (forall k, 0 <= vnth (@frac_tols_of RNum (lattice c) dtol) k <= 1) ->
    Mmul (MofZ T) Pm = MofZ U -> (ZMdet U = 1 \/ ZMdet U = -1)%Z ->
    0 < @volume_ratio RNum Pm -> @volume_ratio RNum Pm * INR (List.length (species c)) <= 1 -> (1 <= fuel)%nat ->
    exists s, @apply_transformation RNum fuel c Pm dtol = Ok s /\ lattice s = Mmul (lattice c) Pm /\ forall Ui, ZMmul U Ui = ZMid -> whole (Mapp (MofZ Ui) w) s e.
  Proof using.
    intros H0 HS NE N1 N2 Hft EU DU V0' V1 HF.
    assert (DP : Mdet Pm <> 0).
    { intro Q. assert (X : Mdet (MofZ U) = 0) by (rewrite <- EU, Mdet_mul, Q; ring). rewrite MofZ_det in X. apply eq_IZR in X. lia. }
    destruct (unimodular_inverse U DU) as (Ui & HI).
    rewrite apply_transformation_unfold by exact DP. destruct fuel as [|fuel]; [lia|]. cbn [at_search fst List.length].
    assert (LC : (0 < List.length (species c))%nat) by (destruct (species c); [congruence|cbn; lia]).
    assert (LC2 : (0 < List.length (coords c))%nat) by (rewrite N2; exact LC).
    assert (Go : @ratio_lt RNum 0 (@fofZ RNum (Z.of_nat (List.length (coords c)))) (@volume_ratio RNum Pm) = true).
    { apply ratio_lt_true_iff; [exact LC2|]. cbn [INR]. apply Rmult_lt_0_compat; [exact V0'|]. apply lt_0_INR. exact LC2. }
    rewrite Go.
    destruct (back_pass (lattice c) (@frac_tols_of RNum (lattice c) dtol) (Madj_inv Pm) e (Mapp (MofZ Ui) w) (fun y => exists m, Mapp (MofZ T) y = Vadd w (VofZ m)) Hft H0) with (mult := 2%nat)
      (sites := combine (frac_coords c) (species c)) (st := ([] : list (vec R), [] : list string)) as (m & Em).
    - intros y k (m & Hm). exists (ZMapp Ui (ZVadd m (ZMapp T k))). unfold cand.
      assert (Q : Madj_inv Pm = Mmul (MofZ Ui) (MofZ T)).
      { rewrite <- (Mmul_id_r (Mmul (MofZ Ui) (MofZ T))), <- (proj1 (Madj_inverse Pm DP)), <- Mmul_assoc, (Mmul_assoc (MofZ Ui)), EU, <- MofZ_mul.
        assert (HI' : ZMmul Ui U = ZMid) by (apply zinv_comm; exact HI). rewrite HI', MofZ_id. now rewrite Mmul_id_l. }
      rewrite Q, Mapp_Mmul, Mapp_add, Hm, <- MofZ_app, Vadd_assoc, <- VofZ_add, Mapp_add, <- MofZ_app. reflexivity.
    - lia.
    - exact HS.
    - now left.
    - left. destruct (frac_coords c) as [|x fx], (species c) as [|y sp]; [congruence|discriminate N1|congruence|discriminate].
    - numR. rewrite Em. 
      assert (St : @ratio_lt RNum 1 (IZR (Z.of_nat (List.length (coords c)))) (@volume_ratio RNum Pm) = false).
      { apply not_true_iff_false. intro X. apply ratio_lt_true_iff in X; [|exact LC2]. cbn [INR] in X.
        assert (X2 : 1 < @volume_ratio RNum Pm * INR (List.length (species c))) by (rewrite <- N2; exact X). lra. }
      assert (Q : @at_search RNum fuel (Madj_inv Pm) c (@frac_tols_of RNum (lattice c) dtol) dtol (@volume_ratio RNum Pm) 3 ([Vadd (Mapp (MofZ Ui) w) (VofZ m)], [e]) = Ok ([Vadd (Mapp (MofZ Ui) w) (VofZ m)], [e])).
      { destruct fuel; cbn [at_search fst List.length]; match goal with |- (if ?b then _ else _) = _ => replace b with false by (symmetry; exact St) end; reflexivity. }
      numR. rewrite Q. cbn [bind]. eexists. split; [reflexivity|]. split; [rewrite (proj1 (normalize_coords_spec _ dtol)); reflexivity|].
      intros Ui' HI'. replace Ui' with Ui; [apply whole_normalize|]. apply MofZ_inj.
      rewrite <- (Mmul_id_r (MofZ Ui)), <- MofZ_id, <- HI', MofZ_mul, <- Mmul_assoc, <- MofZ_mul, (zinv_comm _ _ HI), MofZ_id. apply Mmul_id_l.
  Qed.

  Lemma row_multiplicity b l : last_char (bravais_to_string b) = Some l -> (1 <= centering_multiplicity l <= 4)%Z.
  Proof using. destruct b; intro E; injection E as <-; cbn; lia. Qed.
  Lemma ratio_fits (Pm : mat R) (d : Z) : (1 <= d <= 4)%Z -> Rabs (Mdet Pm) * IZR d = 1 ->
    0 < @volume_ratio RNum Pm /\ @volume_ratio RNum Pm * IZR d <= 1.
  Proof using.
    intros Hd E. destruct (volume_ratio_near Pm) as (k & -> & K). set (x := Rabs (Mdet Pm)) in *. assert (K1 := Rle_trans _ _ _ (Rle_abs _) K). assert (K2 := Rle_trans _ _ _ (Rle_abs _) (eq_ind_r (fun t => t <= / 2) K (Rabs_Ropp _))).
    assert (D : d = 1%Z \/ d = 2%Z \/ d = 3%Z \/ d = 4%Z) by lia.
    assert (B : (1 <= k /\ k * d <= 100)%Z).
    { destruct D as [-> |[-> |[-> | ->]]].
      - assert (A : (99 < k < 101)%Z) by (split; apply lt_IZR; lra). lia.
      - assert (A : (49 < k < 51)%Z) by (split; apply lt_IZR; lra). lia.
      - assert (A : (32 < k < 34)%Z) by (split; apply lt_IZR; lra). lia.
      - assert (A : (24 < k < 26)%Z) by (split; apply lt_IZR; lra). lia. }
    destruct B as [B1 B2]. apply IZR_le in B1, B2. rewrite mult_IZR in B2. split; lra.
  Qed.
  Lemma std_whole (q : @structure RNum) e w n fuel : whole w q e -> roomy (lattice q) -> 0 < dtol -> (4 <= fuel)%nat ->
    @get_lattice_character RNum q (1 / 100000) = Ok n ->
    exists T Pm b c std U, @conventional_transformation_matrix RNum q = Ok (Mtr (MofZ T), n) /\ @primitive_transformation_matrix RNum n = Ok (Pm, b) /\
      @apply_transformation RNum fuel q (Mtr (MofZ T)) dtol = Ok c /\ @apply_transformation RNum fuel c Pm dtol = Ok std /\
      am_get Z.eqb n LATTICE_CHAR_TO_BRAVAIS = Some b /\ Mmul (Mtr (MofZ T)) Pm = MofZ U /\ (ZMdet U = 1 \/ ZMdet U = -1)%Z /\
      lattice std = Mmul (lattice q) (MofZ U) /\ forall Ui, ZMmul U Ui = ZMid -> whole (Mapp (MofZ Ui) w) std e.
  Proof using.
    intros Wq RM H0 HF EC.
    assert (HR : (1 <= n <= 44)%Z).
    { unfold get_lattice_character in EC. match type of EC with character_of ?a ?b ?c ?d ?e ?f ?g = _ =>
        destruct (character_of_range a b c d e f g) as [X|(m & X & HR)]; rewrite X in EC; [discriminate EC|] end. injection EC as ->. exact HR. }
    destruct (row_facts n HR) as (T & b & l & c0 & blk & d & U & E1 & E2 & E3 & E4 & E5 & E6 & E7 & E8 & E9 & E10).
    destruct (prim_trans_R c0 blk d T U E5 E7 E6) as (Pm & EP & EU).
    assert (AT : Z.abs (ZMdet (transpose T)) = centering_multiplicity l).
    { replace (ZMdet (transpose T)) with (ZMdet T) by (unfold ZMdet, transpose; cbn; ring). rewrite E10. pose proof (row_multiplicity b l E3). destruct (n =? 17)%Z; lia. }
    pose proof (row_multiplicity b l E3) as ML.
    assert (TT : Mtr (MofZ T) = MofZ (transpose T)) by reflexivity.
    destruct (conv_whole q e w (transpose T) fuel Wq H0 RM ltac:(lia) HF) as (c & F1 & F2 & F3 & F4 & F5 & F6).
    assert (NZ : forall k, exists z, z <> V 0%Z 0%Z 0%Z /\ Ccol (MofZ (transpose T)) k = VofZ z).
    { intro k. assert (D0 : ZMdet (transpose T) <> 0%Z) by lia.
      destruct k as [|[|k]]; [exists (V (m11 (transpose T)) (m21 (transpose T)) (m31 (transpose T)))|exists (V (m12 (transpose T)) (m22 (transpose T)) (m32 (transpose T)))|
        exists (V (m13 (transpose T)) (m23 (transpose T)) (m33 (transpose T)))];
        (split; [|reflexivity]); intro Q; injection Q as Q1 Q2 Q3; apply D0; unfold ZMdet, transpose; cbn [m11 m12 m13 m21 m22 m23 m31 m32 m33]; rewrite Q1, Q2, Q3; ring. }
    destruct (back_whole c e w (transpose T) Pm U fuel H0 F6) as (std & G1 & G2 & G3).
    - intro Q. rewrite Q in F3. cbn [List.length] in F3. lia.
    - now rewrite F3, F4.
    - now rewrite F3, F5.
    - apply tols_unit; [exact H0|]. intros k Hk. rewrite F2. destruct (NZ k) as (z & Hz & Ez).
      replace (Ccol (Mmul (lattice q) (MofZ (transpose T))) k) with (Mapp (lattice q) (Ccol (MofZ (transpose T)) k)); [rewrite Ez; now apply RM|].
      destruct k as [|[|k]]; reflexivity.
    - exact EU.
    - exact E8.
    - refine (proj1 (ratio_fits Pm (centering_multiplicity l) ML _)).
      assert (X : Rabs (Mdet (Mmul (Mtr (MofZ T)) Pm)) = 1).
      { rewrite EU, MofZ_det, <- abs_IZR. destruct E8 as [-> | ->]; reflexivity. }
      rewrite TT, Mdet_mul, Rabs_mult, MofZ_det, <- abs_IZR, AT in X. lra.
    - rewrite F3, AT, INR_IZR_INZ, Z2Nat.id by lia. refine (proj2 (ratio_fits Pm (centering_multiplicity l) ML _)).
      assert (X : Rabs (Mdet (Mmul (Mtr (MofZ T)) Pm)) = 1).
      { rewrite EU, MofZ_det, <- abs_IZR. destruct E8 as [-> | ->]; reflexivity. }
      rewrite TT, Mdet_mul, Rabs_mult, MofZ_det, <- abs_IZR, AT in X. lra.
    - lia.
    - exists T, Pm, b, c, std, U. split; [|split; [|split; [exact F1|split; [exact G1|split; [exact E2|split; [exact EU|split; [exact E8|split; [|exact G3]]]]]]]].
      + unfold conventional_transformation_matrix. change (@tol_1em5 RNum) with (1 / 100000). rewrite EC. cbn [bind]. rewrite E1. reflexivity.
      + unfold primitive_transformation_matrix. rewrite E2. cbn [of_opt bind]. rewrite E4. cbn [bind]. now rewrite EP.
      + rewrite G2, F2, Mmul_assoc. rewrite <- TT, EU. reflexivity.
  Qed.
End Whole.
