(** Facts about the Delaunay reduction over the reals. *)
From Coq Require Import ZArith QArith Qreals Reals String List Bool Lia Lra Psatz Permutation Sorting.Sorted.
From Flocq Require Import Core.
From Verif Require Import Num Mat SpaceGroup Structure Reduce RInst Spec RFacts PSymmOp PNiggli.
Import ListNotations.
Open Scope R_scope.

Definition quadof (A : mat R) : @quad RNum := Quad (N := RNum) (Ccol A 0) (Ccol A 1) (Ccol A 2) (fourth A).
Definition prods (A : mat R) : list R :=
  [Vdot (Ccol A 0) (Ccol A 1); Vdot (Ccol A 0) (Ccol A 2); Vdot (Ccol A 0) (fourth A);
   Vdot (Ccol A 1) (Ccol A 2); Vdot (Ccol A 1) (fourth A); Vdot (Ccol A 2) (fourth A)].
Lemma prods_eq A : @get_scalar_prods RNum (quadof A) = prods A.
Proof. reflexivity. Qed.
Definition tolD : R := 1 / 1000000.
Lemma tolD_eq : @ZERO_TOL RNum = tolD. Proof. reflexivity. Qed.

Definition dT (i : nat) : mat Z :=
  match i with
  | 0%nat => M 1 0 0 0 (-1) 1 0 0 1
  | 1%nat => M 1 0 0 0 1 0 0 1 (-1)
  | 2%nat => M 1 (-1) (-1) 0 0 (-1) 0 (-1) 0
  | 3%nat => M 1 0 0 0 1 0 1 0 (-1)
  | 4%nat => M 0 0 (-1) (-1) 1 (-1) (-1) 0 0
  | _ => M 0 (-1) 0 (-1) 0 0 (-1) (-1) 1
  end%Z.
Lemma dT_det i : ZMdet (dT i) = (-1)%Z.
Proof. destruct i as [|[|[|[|[|i]]]]]; reflexivity. Qed.
Lemma quad_ext (a b c d a' b' c' d' : vec R) : a = a' -> b = b' -> c = c' -> d = d' ->
  Quad (N := RNum) a b c d = Quad (N := RNum) a' b' c' d'.
Proof. now intros -> -> -> ->. Qed.
(** one row of the basis: the products are sums over the three rows *)
Definition row_T (i : nat) (a b c : R) : R * R * R :=
  match i with
  | 0%nat => (a, - b, b + c) | 1%nat => (a, c + b, - c) | 2%nat => (a, - a - c, - a - b)
  | 3%nat => (c + a, b, - c) | 4%nat => (- b - c, b, - a - b) | _ => (- b - c, - a - c, c)
  end.
Lemma row_T_eq i a b c : (a * IZR (m11 (dT i)) + b * IZR (m21 (dT i)) + c * IZR (m31 (dT i)),
  a * IZR (m12 (dT i)) + b * IZR (m22 (dT i)) + c * IZR (m32 (dT i)),
  a * IZR (m13 (dT i)) + b * IZR (m23 (dT i)) + c * IZR (m33 (dT i))) = row_T i a b c.
Proof. destruct i as [|[|[|[|[|i]]]]]; unfold row_T, dT; cbn [m11 m12 m13 m21 m22 m23 m31 m32 m33]; (apply f_equal2; [apply f_equal2|]; ring). Qed.
Definition r1 (p : R * R * R) := fst (fst p).
Definition r2 (p : R * R * R) := snd (fst p).
Definition r3 (p : R * R * R) := snd p.
Lemma mul_T A i : Mmul A (MofZ (dT i)) =
  (let x := row_T i (m11 A) (m12 A) (m13 A) in let y := row_T i (m21 A) (m22 A) (m23 A) in let z := row_T i (m31 A) (m32 A) (m33 A) in
   M (r1 x) (r2 x) (r3 x) (r1 y) (r2 y) (r3 y) (r1 z) (r2 z) (r3 z)).
Proof. cbv zeta. rewrite <- !row_T_eq. reflexivity. Qed.
Lemma transform_eq i A : @delaunay_transform RNum i (quadof A) = quadof (Mmul A (MofZ (dT i))).
Proof.
  rewrite mul_T. destruct i as [|[|[|[|[|i]]]]]; unfold delaunay_transform, quadof, row_T, r1, r2, r3; cbn [q0 q1 q2 q3 fst snd]; apply quad_ext;
    apply vec_ext; unfold fourth, vscale_r, vadd, vmap, vmap2, Vscal, Vadd, Ccol, fm1;
    cbn [vx vy vz m11 m12 m13 m21 m22 m23 m31 m32 m33 fmul fadd fneg fofZ RNum]; first [reflexivity | ring].
Qed.
Definition qs1 (p : R * R * R) : R :=
  r1 p * r1 p + r2 p * r2 p + r3 p * r3 p + - 1 * (r1 p + r2 p + r3 p) * (- 1 * (r1 p + r2 p + r3 p)).
Definition pr1 (i : nat) (p : R * R * R) : R :=
  match i with
  | 0%nat => r1 p * r2 p | 1%nat => r1 p * r3 p | 2%nat => r1 p * (- 1 * (r1 p + r2 p + r3 p))
  | 3%nat => r2 p * r3 p | 4%nat => r2 p * (- 1 * (r1 p + r2 p + r3 p)) | _ => r3 p * (- 1 * (r1 p + r2 p + r3 p))
  end.
Lemma qs_eq A : quad_size A = qs1 (m11 A, m12 A, m13 A) + qs1 (m21 A, m22 A, m23 A) + qs1 (m31 A, m32 A, m33 A).
Proof. unfold quad_size, qs1, fourth, Vdot, Vscal, Vadd, Ccol, r1, r2, r3. cbn [vx vy vz fst snd]. ring. Qed.
Lemma pr_eq i A : (i < 6)%nat -> nth i (prods A) 0 = pr1 i (m11 A, m12 A, m13 A) + pr1 i (m21 A, m22 A, m23 A) + pr1 i (m31 A, m32 A, m33 A).
Proof. intro H. destruct i as [|[|[|[|[|[|i]]]]]]; [..|lia]; reflexivity. Qed.
Lemma qs_step i a b c : (i < 6)%nat -> qs1 (row_T i a b c) = qs1 (a, b, c) - 2 * pr1 i (a, b, c).
Proof.
  intro H. destruct i as [|[|[|[|[|[|i]]]]]]; [..|lia]; unfold qs1, pr1, row_T, r1, r2, r3; cbn [fst snd]; ring.
Qed.
Lemma triple_eta (p : R * R * R) : (r1 p, r2 p, r3 p) = p. Proof. now destruct p as [[? ?] ?]. Qed.
Lemma size_step i A : (i < 6)%nat -> quad_size (Mmul A (MofZ (dT i))) = quad_size A - 2 * nth i (prods A) 0.
Proof.
  intro H. rewrite pr_eq by exact H. rewrite mul_T, !qs_eq. cbv zeta. cbn [m11 m12 m13 m21 m22 m23 m31 m32 m33].
  rewrite !triple_eta, !qs_step by exact H. lra.
Qed.

Lemma max_scan_spec (l : list R) : forall (pre : list R) (m : R) mi,
  (tolD < nth mi (pre ++ l) 0 /\ (mi < List.length (pre ++ l))%nat) \/ (exists e, In e l /\ tolD < e /\ m < e) ->
  let j := @max_scan RNum (List.length pre) m mi l in
  tolD < nth j (pre ++ l) 0 /\ (j < List.length (pre ++ l))%nat.
Proof.
  induction l as [|h t IH]; intros pre m mi H; cbn [max_scan].
  - destruct H as [H|(e & [] & _)]; exact H.
  - rewrite tolD_eq.
    assert (EP : pre ++ h :: t = (pre ++ [h]) ++ t) by now rewrite <- app_assoc.
    assert (EL : S (List.length pre) = List.length (pre ++ [h])) by (rewrite app_length; cbn; lia).
    destruct (@flt RNum tolD h && @flt RNum m h)%bool eqn:E.
    + apply andb_prop in E. destruct E as [E1 E2]. apply flt_true in E1.
      rewrite EL, EP. apply IH. left. split.
      * rewrite <- EP, app_nth2 by lia. rewrite Nat.sub_diag. exact E1.
      * rewrite !app_length. cbn. lia.
    + rewrite EL, EP. apply IH. destruct H as [H|(e & [->|H] & H1 & H2)].
      * left. now rewrite <- EP.
      * exfalso. apply andb_false_iff in E. destruct E as [E|E]; apply flt_false in E; lra.
      * right. exists e. auto.
Qed.

Definition reducedb (A : mat R) : bool := existsb (fun v => @flt RNum tolD v) (prods A).
Lemma reducedb_false A : reducedb A = false <-> delaunay_within tolD A.
Proof.
  unfold reducedb, prods, delaunay_within. cbn [existsb]. rewrite !orb_false_iff, !flt_false. tauto.
Qed.
Lemma pick_spec A : reducedb A = true -> let j := @max_scan RNum 0 (@f0 RNum) 0 (prods A) in (j < 6)%nat /\ tolD < nth j (prods A) 0.
Proof.
  intros H j. unfold reducedb in H. apply existsb_exists in H. destruct H as (e & He & H). apply flt_true in H.
  destruct (max_scan_spec (prods A) [] (@f0 RNum) 0) as [A1 A2].
  - right. exists e. repeat split; auto. unfold f0, tolD in *; cbn in *. lra.
  - split; [exact A2|exact A1].
Qed.

(** scalar products above the tolerance are at least [d], for all bases of the lattice *)
Definition gap (d : R) (A : mat R) : Prop :=
  forall T j, (j < 6)%nat -> tolD < nth j (prods (Mmul A (MofZ T))) 0 -> d <= nth j (prods (Mmul A (MofZ T))) 0.
(** [n] steps lead from the basis [A] to [A T]. *)
Definition steps (A : mat R) (T : mat Z) (n : Z) : Prop :=
  (0 <= n)%Z /\ ZMdet T = (if Z.even n then 1 else -1)%Z /\
  (forall d, gap d A -> quad_size (Mmul A (MofZ T)) + 2 * d * IZR n <= quad_size A) /\
  ((0 < n)%Z -> quad_size (Mmul A (MofZ T)) + 2 * tolD * IZR n < quad_size A).
Lemma steps_0 A : steps A ZMid 0.
Proof. split; [lia|]. split; [reflexivity|]. rewrite MofZ_id, Mmul_id_r. split; [intros; lra|lia]. Qed.
Lemma gap_tol A : gap tolD A.
Proof. intros T j _ H. lra. Qed.
Lemma steps_S A T n j : steps A T n -> (j < 6)%nat -> tolD < nth j (prods (Mmul A (MofZ T))) 0 -> steps A (ZMmul T (dT j)) (n + 1).
Proof.
  intros (H0 & H1 & H2 & H3) Hj Hp. split; [lia|]. split.
  - rewrite ZMdet_mul, dT_det, H1. rewrite Z.even_add. change (Z.even 1) with false. destruct (Z.even n); reflexivity.
  - rewrite MofZ_mul, <- Mmul_assoc, size_step by exact Hj. rewrite plus_IZR. split.
    + intros d Hd. pose proof (H2 d Hd). pose proof (Hd T j Hj Hp). lra.
    + intros _. pose proof (H2 tolD (gap_tol A)). lra.
Qed.
Lemma loop_D fuel : forall n A T, steps A T n -> (n + Z.of_nat fuel >= 102)%Z -> (n <= 101)%Z ->
  exists T' n', @delaunay_loop RNum fuel n (quadof (Mmul A (MofZ T))) = Ok (quadof (Mmul A (MofZ T')), n') /\
    steps A T' n' /\ (n' <= 101)%Z /\ (delaunay_within tolD (Mmul A (MofZ T')) \/ n' = 101%Z).
Proof.
  induction fuel as [|fuel IH]; intros n A T HS HF HN.
  - exfalso. lia.
  - cbn [delaunay_loop]. rewrite prods_eq, tolD_eq. fold (reducedb (Mmul A (MofZ T))).
    destruct (reducedb (Mmul A (MofZ T))) eqn:ER; cbn [andb].
    + destruct (Z.leb_spec n 100) as [Hn|Hn].
      * destruct (pick_spec _ ER) as [Hj Hp]. rewrite transform_eq, Mmul_assoc, <- MofZ_mul.
        apply IH; [now apply steps_S|lia|lia].
      * exists T, n. split; [reflexivity|]. split; [exact HS|]. split; [lia|]. right. lia.
    + exists T, n. split; [reflexivity|]. split; [exact HS|]. split; [lia|]. left. now apply reducedb_false.
Qed.

Lemma sort_R l : @sort_by_length RNum l = Ok (sort_by (fun a b => @fle RNum (@magnitude RNum a) (@magnitude RNum b)) l).
Proof.
  unfold sort_by_length. replace (existsb (fun v => @fisnan RNum (@magnitude RNum v)) l) with false.
  - now rewrite andb_false_r.
  - symmetry. induction l as [|v l IH]; [reflexivity|]. cbn [existsb]. rewrite IH. unfold fisnan. cbn [feq RNum]. now rewrite Req_bool_true by reflexivity.
Qed.
Lemma insert_by_perm {A} (le : A -> A -> bool) x l : Permutation (insert_by le x l) (x :: l).
Proof. induction l as [|y l IH]; cbn; auto. destruct (le x y); auto. rewrite IH. apply perm_swap. Qed.
Lemma sort_by_perm {A} (le : A -> A -> bool) l : Permutation (sort_by le l) l.
Proof. induction l as [|x l IH]; cbn; auto. rewrite insert_by_perm. now constructor. Qed.

Definition ze (i : nat) : vec Z := match i with 0%nat => V 1 0 0 | 1%nat => V 0 1 0 | 2%nat => V 0 0 1 | _ => V (-1) (-1) (-1) end%Z.
Definition zcols (a b c : vec Z) : mat Z := M (vx a) (vx b) (vx c) (vy a) (vy b) (vy c) (vz a) (vz b) (vz c).
Lemma perm_cases i j k l : Permutation [0; 1; 2; 3]%nat [i; j; k; l] ->
  (i < 4 /\ j < 4 /\ k < 4 /\ l < 4)%nat /\ (i <> j /\ i <> k /\ i <> l /\ j <> k /\ j <> l /\ k <> l)%nat.
Proof.
  intro H. assert (HN : NoDup [i; j; k; l]).
  { eapply Permutation_NoDup; [exact H|]. repeat constructor; cbn; lia. }
  assert (HI : forall x, In x [i; j; k; l] -> (x < 4)%nat).
  { intros x Hx. apply (Permutation_in _ (Permutation_sym H)) in Hx. cbn in Hx. lia. }
  split; [repeat split; apply HI; cbn; auto|].
  inversion_clear HN as [|? ? N1 HN1]. inversion_clear HN1 as [|? ? N2 HN2]. inversion_clear HN2 as [|? ? N3 _].
  cbn in N1, N2, N3. intuition.
Qed.
Lemma four_cols_det i j k l : Permutation [0; 1; 2; 3]%nat [i; j; k; l] ->
  pm1 (ZMdet (zcols (ze i) (ze j) (ze k))) /\ ZVadd (ZVadd (ZVadd (ze i) (ze j)) (ze k)) (ze l) = V 0%Z 0%Z 0%Z.
Proof.
  intro H. destruct (perm_cases _ _ _ _ H) as ((Hi & Hj & Hk & Hl) & N1 & N2 & N3 & N4 & N5 & N6).
  destruct i as [|[|[|[|i]]]]; try lia; destruct j as [|[|[|[|j]]]]; try lia; destruct k as [|[|[|[|k]]]]; try lia;
    destruct l as [|[|[|[|l]]]]; try lia; (split; [|reflexivity]); unfold pm1; cbn; auto.
Qed.
Lemma quad_cols A : [q0 (quadof A); q1 (quadof A); q2 (quadof A); q3 (quadof A)] = map (fun i => Mapp A (VofZ (ze i))) [0; 1; 2; 3]%nat.
Proof.
  cbn [map quadof q0 q1 q2 q3]. repeat f_equal; apply vec_ext; unfold fourth, Vscal, Vadd, Ccol, Mapp, VofZ, ze; cbn; ring.
Qed.
Lemma cols_app A a b c : @from_columns R (Mapp A (VofZ a)) (Mapp A (VofZ b)) (Mapp A (VofZ c)) = Mmul A (MofZ (zcols a b c)).
Proof. reflexivity. Qed.
Definition zneg (a : vec Z) : vec Z := (V (- vx a) (- vy a) (- vz a))%Z.
Lemma vneg_Z A a : @vscale_r RNum (Mapp A (VofZ a)) (@fm1 RNum) = Mapp A (VofZ (zneg a)).
Proof. apply (@vec_ext R); unfold vscale_r, vmap, fm1, zneg, VofZ, Mapp; cbn [vx vy vz fmul fneg fofZ RNum]; rewrite !opp_IZR; ring. Qed.
Lemma vnegadd_Z A a b : @vscale RNum (@fm1 RNum) (@vadd RNum (Mapp A (VofZ a)) (Mapp A (VofZ b))) = Mapp A (VofZ (zneg (ZVadd a b))).
Proof.
  apply (@vec_ext R); unfold vscale, vadd, vmap, vmap2, fm1, zneg, ZVadd, VofZ, Mapp; cbn [vx vy vz fmul fadd fneg fofZ RNum];
    rewrite !opp_IZR, !plus_IZR; ring.
Qed.
Lemma select_spec A : exists U, pm1 (ZMdet U) /\ @delaunay_select RNum (quadof A) = Ok (Mmul A (MofZ U)).
Proof.
  unfold delaunay_select. rewrite sort_R. cbn [bind].
  set (le := fun a b => @fle RNum (@magnitude RNum a) (@magnitude RNum b)).
  change (@num RNum) with R in *. rewrite quad_cols.
  pose proof (sort_by_perm le (map (fun i => Mapp A (VofZ (ze i))) [0; 1; 2; 3]%nat)) as HP.
  apply Permutation_map_inv in HP. destruct HP as (l' & E & HP).
  match goal with |- context [sort_by ?f ?x] => change (sort_by f x) with (sort_by le x) end. rewrite E.
  pose proof (Permutation_length HP) as HL. destruct l' as [|i [|j [|k [|l [|? ?]]]]]; try discriminate HL.
  destruct (four_cols_det _ _ _ _ HP) as [HD _]. cbn [map].
  destruct (@flt RNum _ _).
  { eexists. split; [|rewrite vneg_Z, vnegadd_Z, cols_app; reflexivity].
    replace (ZMdet _) with (ZMdet (zcols (ze i) (ze j) (ze k))); [exact HD|]. unfold ZMdet, zcols, zneg, ZVadd. cbn [m11 m12 m13 m21 m22 m23 m31 m32 m33 vx vy vz]. ring. }
  destruct (@flt RNum _ _).
  { eexists. split; [|rewrite vneg_Z, vnegadd_Z, cols_app; reflexivity].
    replace (ZMdet _) with (ZMdet (zcols (ze i) (ze j) (ze k))); [exact HD|]. unfold ZMdet, zcols, zneg, ZVadd. cbn [m11 m12 m13 m21 m22 m23 m31 m32 m33 vx vy vz]. ring. }
  destruct (@flt RNum _ _).
  { eexists. split; [|rewrite vneg_Z, vnegadd_Z, cols_app; reflexivity].
    replace (ZMdet _) with (ZMdet (zcols (ze i) (ze j) (ze k))); [exact HD|]. unfold ZMdet, zcols, zneg, ZVadd. cbn [m11 m12 m13 m21 m22 m23 m31 m32 m33 vx vy vz]. ring. }
  eexists. split; [exact HD|]. rewrite cols_app. reflexivity.
Qed.

Lemma delaunay_reduce_spec (P : @Pinv RNum) (dtol : R) (s : @structure RNum) (full : bool) :
  exists T n, steps (lattice s) T n /\ (n <= 101)%Z /\
    (delaunay_within tolD (Mmul (lattice s) (MofZ T)) \/ n = 101%Z) /\
    @delaunay_loop RNum 102 0 (quadof (lattice s)) = Ok (quadof (Mmul (lattice s) (MofZ T)), n) /\
    (n = 100%Z -> @delaunay_reduce RNum P dtol s full = Panic PDelaunay) /\
    (n <> 100%Z -> exists U, pm1 (ZMdet U) /\ (full = false -> U = ZMid) /\
       @delaunay_reduce RNum P dtol s full = Ok (rebuilt P (Mmul (lattice s) (MofZ (ZMmul T U))) (species s) (coords s) dtol)).
Proof.
  destruct (loop_D 102 0 (lattice s) ZMid (steps_0 _)) as (T & n & E & HS & HN & HR); [lia|lia|].
  rewrite MofZ_id, Mmul_id_r in E. exists T, n. split; [exact HS|]. split; [exact HN|]. split; [exact HR|]. split; [exact E|].
  assert (EQ : @delaunay_reduce RNum P dtol s full =
    (do (q, count) <- @delaunay_loop RNum 102 0 (quadof (lattice s));
     if (count =? 100)%Z then Panic PDelaunay else
     do new_lattice <- (if full then @delaunay_select RNum q else Ok (@from_columns R (q0 q) (q1 q) (q2 q)));
     do new_frac_coords <- @get_frac_coords RNum P new_lattice (coords s);
     do new_structure <- @structure_new RNum P new_lattice (species s) new_frac_coords false;
     Ok (@normalize_coords RNum new_structure dtol))) by reflexivity.
  rewrite EQ, E. cbn [bind]. split.
  - intros ->. reflexivity.
  - intro Hn. apply Z.eqb_neq in Hn. rewrite Hn. destruct full.
    + destruct (select_spec (Mmul (lattice s) (MofZ T))) as (U & HU & EU). exists U. split; [exact HU|]. split; [discriminate|].
      rewrite EU. cbn [bind]. rewrite build_eq, MofZ_mul, Mmul_assoc. reflexivity.
    + exists ZMid. split; [now left|]. split; [reflexivity|]. cbn [bind].
      rewrite (build_eq P (from_columns _ _ _)). do 2 f_equal. rewrite MofZ_mul, MofZ_id, Mmul_id_r. apply mat_ext; reflexivity.
Qed.

(** ** Metrics that are whole multiples of a unit *)
Lemma dot_gram A (x y : vec R) : Vdot (Mapp A x) (Mapp A y) =
  vx x * (m11 (gram A) * vx y + m12 (gram A) * vy y + m13 (gram A) * vz y) +
  vy x * (m21 (gram A) * vx y + m22 (gram A) * vy y + m23 (gram A) * vz y) +
  vz x * (m31 (gram A) * vx y + m32 (gram A) * vy y + m33 (gram A) * vz y).
Proof. unfold Vdot, Mapp, gram, Mmul, Mtr. cbn [vx vy vz m11 m12 m13 m21 m22 m23 m31 m32 m33]. ring. Qed.
Lemma unit_dot u A : unit_metric u A -> forall x y, exists k : Z, Vdot (Mapp A (VofZ x)) (Mapp A (VofZ y)) = u * IZR k.
Proof.
  intros (K & HK) x y. rewrite dot_gram, HK. cbn [m11 m12 m13 m21 m22 m23 m31 m32 m33]. unfold VofZ. cbn [vx vy vz].
  exists (vx x * (m11 K * vx y + m12 K * vy y + m13 K * vz y) + vy x * (m21 K * vx y + m22 K * vy y + m23 K * vz y) +
          vz x * (m31 K * vx y + m32 K * vy y + m33 K * vz y))%Z.
  rewrite !plus_IZR, !mult_IZR, !plus_IZR, !mult_IZR. ring.
Qed.
Definition zq (T : mat Z) (i : nat) : vec Z := ZMapp T (ze i).
Lemma prod_as_dot A T j : (j < 6)%nat -> exists x y, nth j (prods (Mmul A (MofZ T))) 0 = Vdot (Mapp A (VofZ x)) (Mapp A (VofZ y)).
Proof.
  intro Hj.
  assert (E : forall i, Mapp A (VofZ (ZMapp T (ze i))) = Mapp (Mmul A (MofZ T)) (VofZ (ze i))) by (intro; now rewrite MofZ_app, Mapp_Mmul).
  pose proof (quad_cols (Mmul A (MofZ T))) as Q. cbn [map quadof q0 q1 q2 q3] in Q.
  pose proof (f_equal (fun l => nth 0 l V0) Q) as E0. pose proof (f_equal (fun l => nth 1 l V0) Q) as E1.
  pose proof (f_equal (fun l => nth 2 l V0) Q) as E2. pose proof (f_equal (fun l => nth 3 l V0) Q) as E3. cbn [nth] in E0, E1, E2, E3. clear Q.
  destruct j as [|[|[|[|[|[|j]]]]]]; [..|lia]; unfold prods; cbn [nth].
  - exists (ZMapp T (ze 0)), (ZMapp T (ze 1)). now rewrite !E, <- E0, <- E1.
  - exists (ZMapp T (ze 0)), (ZMapp T (ze 2)). now rewrite !E, <- E0, <- E2.
  - exists (ZMapp T (ze 0)), (ZMapp T (ze 3)). now rewrite !E, <- E0, <- E3.
  - exists (ZMapp T (ze 1)), (ZMapp T (ze 2)). now rewrite !E, <- E1, <- E2.
  - exists (ZMapp T (ze 1)), (ZMapp T (ze 3)). now rewrite !E, <- E1, <- E3.
  - exists (ZMapp T (ze 2)), (ZMapp T (ze 3)). now rewrite !E, <- E2, <- E3.
Qed.
Lemma unit_gap u A : 0 < u -> unit_metric u A -> gap u A.
Proof.
  intros Hu HA T j Hj. destruct (prod_as_dot A T j Hj) as (x & y & ->). destruct (unit_dot u A HA x y) as (k & ->).
  intro H. assert (Hk : (0 < k)%Z).
  { apply lt_IZR. unfold tolD in H. destruct (Rle_or_lt (IZR k) 0) as [C|C]; [|exact C]. exfalso.
    assert (u * IZR k <= 0); [|lra]. rewrite <- (Rmult_0_r u). apply Rmult_le_compat_l; lra. }
  assert (1 <= IZR k) by (apply IZR_le; lia). rewrite <- (Rmult_1_r u) at 1. apply Rmult_le_compat_l; lra.
Qed.
Lemma quad_size_pos A : Mdet A <> 0 -> 0 < quad_size A.
Proof.
  intro H. unfold quad_size, Vdot.
  destruct (Rle_or_lt (vx (Ccol A 0) * vx (Ccol A 0) + vy (Ccol A 0) * vy (Ccol A 0) + vz (Ccol A 0) * vz (Ccol A 0)) 0) as [C|C].
  - exfalso. apply H. destruct A as [a b c d e f g h i]. cbn in C. assert (a = 0) by nra. assert (d = 0) by nra. assert (g = 0) by nra.
    subst. unfold Mdet. cbn. ring.
  - pose proof (Rle_0_sqr (vx (Ccol A 1))). pose proof (Rle_0_sqr (vy (Ccol A 1))). pose proof (Rle_0_sqr (vz (Ccol A 1))).
    pose proof (Rle_0_sqr (vx (Ccol A 2))). pose proof (Rle_0_sqr (vy (Ccol A 2))). pose proof (Rle_0_sqr (vz (Ccol A 2))).
    pose proof (Rle_0_sqr (vx (fourth A))). pose proof (Rle_0_sqr (vy (fourth A))). pose proof (Rle_0_sqr (vz (fourth A))).
    unfold Rsqr in *. lra.
Qed.
