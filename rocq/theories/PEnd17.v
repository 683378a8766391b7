(** Crystals whose positions are fractions with a common denominator *)
From Coq Require Import ZArith Reals String Ascii List Bool Lia Lra Psatz.
From Verif Require Import Num Mat Utils DataCore DataSG SymmOp Structure RInst Spec Spec2 Spec3 Spec5 Spec6 RFacts
  PUtils PSymmOp PStructure PStructure2 PPrim PPrim2 PLattice PSpaceGroup2 PCode PTables PIdentify PSearch PSearch4 PSearch6 PSearch7 PEnd2 PEnd3 PEnd4 PEnd11 PEnd12 PEnd13 PEnd14 PEnd15 PEnd16.
Import ListNotations.
Open Scope R_scope.

Definition fracM (m : Z) (k : vec Z) : vec R := V (IZR (vx k) / IZR m) (IZR (vy k) / IZR m) (IZR (vz k) / IZR m).
Section Fractions.
  Context (m : Z). Hypothesis Hm : (0 < m)%Z.
  Let Pm : 0 < IZR m. Proof. apply (IZR_lt 0), Hm. Qed.
  Lemma fracM_add j k : fracM m (ZVadd j k) = Vadd (fracM m j) (fracM m k).
  Proof using Hm. unfold fracM, Vadd, ZVadd. cbn [vx vy vz]. rewrite !plus_IZR. f_equal; field; lra. Qed.
  Definition zvsub (j k : vec Z) : vec Z := V (vx j - vx k)%Z (vy j - vy k)%Z (vz j - vz k)%Z.
  Lemma fracM_sub j k : fracM m (zvsub j k) = Vsub (fracM m j) (fracM m k).
  Proof using Hm. unfold fracM, Vsub, zvsub. cbn [vx vy vz]. rewrite !minus_IZR. f_equal; field; lra. Qed.
  Definition zvscal (c : Z) (k : vec Z) : vec Z := V (c * vx k)%Z (c * vy k)%Z (c * vz k)%Z.
  Lemma fracM_whole n : fracM m (zvscal m n) = VofZ n.
  Proof using Hm. unfold fracM, VofZ, zvscal. cbn [vx vy vz]. rewrite !mult_IZR. f_equal; field; lra. Qed.
  Lemma fracM_app r k : Mapp (MofZ r) (fracM m k) = fracM m (ZMapp r k).
  Proof using Hm. destruct r as [r1 r2 r3 r4 r5 r6 r7 r8 r9]. unfold fracM, Mapp, MofZ, mmap, ZMapp. cbn [vx vy vz m11 m12 m13 m21 m22 m23 m31 m32 m33]. rewrite !plus_IZR, !mult_IZR. f_equal; field; lra. Qed.
  Lemma fracM_inj j k : fracM m j = fracM m k -> j = k.
  Proof using Hm.
    intro E. assert (G : forall x y, IZR x / IZR m = IZR y / IZR m -> x = y) by (intros x y Q; apply eq_IZR; apply (f_equal (fun z => z * IZR m)) in Q; field_simplify in Q; lra).
    injection E as E1 E2 E3. destruct j as [j1 j2 j3], k as [k1 k2 k3]. cbn [vx vy vz] in *. now rewrite (G _ _ E1), (G _ _ E2), (G _ _ E3).
  Qed.
  Lemma Vnorm_comp (v : vec R) : Rabs (vx v) <= Vnorm v /\ Rabs (vy v) <= Vnorm v /\ Rabs (vz v) <= Vnorm v.
  Proof using. destruct v as [x y z]. unfold Vnorm, Vdot. cbn [vx vy vz]. rewrite <- !sqrt_Rsqr_abs. unfold Rsqr. repeat split; apply sqrt_le_1_alt; nra. Qed.
  Lemma fracM_norm k : Vnorm (fracM m k) < 1 / IZR m -> k = (V 0 0 0)%Z.
  Proof using Hm.
    intro H. destruct (Vnorm_comp (fracM m k)) as (A & B & C).
    assert (G : forall x, Rabs (IZR x / IZR m) < 1 / IZR m -> x = 0%Z).
    { intros x Q. unfold Rdiv in Q. rewrite Rabs_mult, (Rabs_pos_eq (/ IZR m)) in Q by (left; now apply Rinv_0_lt_compat). apply Rmult_lt_reg_r in Q; [|now apply Rinv_0_lt_compat].
      rewrite <- abs_IZR in Q. apply lt_IZR in Q. lia. }
    destruct k as [k1 k2 k3]. unfold fracM in A, B, C. cbn [vx vy vz] in *. rewrite (G k1), (G k2), (G k3); [reflexivity|eapply Rle_lt_trans; eassumption..].
  Qed.
  Lemma fractions_spread sites : fractions_of m sites -> spread (1 / (2 * IZR m)) sites.
  Proof using Hm.
    intros (F & D) i j x e y f n Hij Hi Hj. apply Rnot_le_lt. intro Q.
    destruct (F x e (nth_error_In _ _ Hi)) as (kx & Ex). destruct (F y f (nth_error_In _ _ Hj)) as (ky & Ey). fold (fracM m kx) in Ex. fold (fracM m ky) in Ey.
    rewrite Ex, Ey, <- fracM_whole, <- fracM_sub, <- fracM_add in Q. assert (L1 : 1 / (2 * IZR m) < 1 / IZR m).
    { replace (1 / (2 * IZR m)) with (/ 2 * / IZR m) by (field; lra). replace (1 / IZR m) with (1 * / IZR m) by (field; lra). apply Rmult_lt_compat_r; [now apply Rinv_0_lt_compat|lra]. }
    pose proof (fracM_norm _ (Rle_lt_trans _ _ _ Q L1)) as Z0. apply (D i j x e y f (zneg n) Hij Hi Hj). rewrite Ex, Ey, <- fracM_whole, <- fracM_add. f_equal.
    destruct kx as [x1 x2 x3], ky as [y1 y2 y3], n as [n1 n2 n3]. unfold ZVadd, zvsub, zvscal, zneg in *. cbn [vx vy vz] in *. injection Z0 as Z1 Z2 Z3. f_equal; lia.
  Qed.
  (** an operation to within the tolerance is close to an exact one *)
  Lemma fractions_rigid_gen L g tol sites rots : (forall v, g * Vnorm v <= Vnorm (Mapp L v)) -> 0 <= tol -> 2 * tol * IZR m < g -> fractions_of m sites -> rigid tol L sites rots.
  Proof using Hm.
    intros EL Ht E0 (F & D) r t _ OW.
    assert (SHORT : forall k, Vnorm (Mapp L (fracM m k)) <= 2 * tol -> k = (V 0 0 0)%Z).
    { intros k Q. apply fracM_norm. assert (0 <= 2 * tol * IZR m) by (apply Rmult_le_pos; lra). pose proof (EL (fracM m k)) as N.
      apply (Rmult_lt_reg_l g); [lra|]. eapply Rle_lt_trans; [exact N|]. eapply Rle_lt_trans; [exact Q|]. apply (Rmult_lt_reg_r (IZR m)); [exact Pm|]. replace (g * (1 / IZR m) * IZR m) with g by (field; lra). exact E0. }
    clear E0 EL g.
    destruct sites as [|[x0 e0] rest] eqn:ES.
    - exists t, (V 0 0 0)%Z. split; [intros x e []|]. replace (Vadd (Vsub t t) (VofZ (V 0 0 0)%Z)) with V0 by (unfold Vadd, Vsub, VofZ, V0; cbn [vx vy vz]; apply (@vec_ext R); cbn [vx vy vz]; ring).
      rewrite Mapp_V0. unfold Vnorm, Vdot, V0. cbn [vx vy vz]. replace (0 * 0 + 0 * 0 + 0 * 0) with 0 by ring. rewrite sqrt_0. exact Ht.
    - rewrite <- ES in *. assert (H0 : In (x0, e0) sites) by (rewrite ES; now left).
      destruct (OW x0 e0 H0) as (y0 & n0 & Hy0 & B0). exists (Vsub y0 (Mapp (MofZ r) x0)), n0.
      assert (EQ : forall t' y n, Vadd (Vsub (act r t' x0) y) (VofZ n) = Vadd (Vsub t' (Vsub y (Mapp (MofZ r) x0))) (VofZ n)).
      { intros t' y n. unfold act. generalize (Mapp (MofZ r) x0). intros z. unfold Vadd, Vsub. cbn [vx vy vz]. apply (@vec_ext R); cbn [vx vy vz]; ring. }
      split; [|rewrite <- EQ; exact B0].
      intros x e Hx. destruct (OW x e Hx) as (y & n & Hy & B). exists y. split; [exact Hy|].
      destruct (F x e Hx) as (kx & Ex). destruct (F y e Hy) as (ky & Ey). destruct (F x0 e0 H0) as (k0 & E0). destruct (F y0 e0 Hy0) as (j0 & Ej). fold (fracM m kx) in Ex. fold (fracM m ky) in Ey. fold (fracM m k0) in E0. fold (fracM m j0) in Ej.
      set (k := ZVadd (zvsub (ZVadd (ZMapp r kx) (zvsub j0 (ZMapp r k0))) ky) (zvscal m (ZVadd n (zneg n0)))).
      assert (EK : fracM m k = Vsub (Vadd (Vsub (act r t x) y) (VofZ n)) (Vadd (Vsub (act r t x0) y0) (VofZ n0))).
      { unfold k. rewrite fracM_add, fracM_sub, fracM_add, fracM_sub, <- !fracM_app, fracM_whole, <- Ex, <- Ey, <- E0, <- Ej, VofZ_add. unfold act. generalize (Mapp (MofZ r) x) (Mapp (MofZ r) x0). intros z z0.
        unfold Vadd, Vsub, VofZ, zneg. cbn [vx vy vz]. rewrite !opp_IZR. apply (@vec_ext R); cbn [vx vy vz]; ring. }
      assert (K0 : k = (V 0 0 0)%Z).
      { apply SHORT. rewrite EK, Mapp_sub. set (p := Mapp L (Vadd (Vsub (act r t x) y) (VofZ n))) in *. set (q := Mapp L (Vadd (Vsub (act r t x0) y0) (VofZ n0))) in *.
        replace (Vsub p q) with (Vadd p (Vscal (-1) q)) by (unfold Vadd, Vsub, Vscal; apply (@vec_ext R); cbn [vx vy vz]; ring). eapply Rle_trans; [apply norm_triangle|]. rewrite Vnorm_scal.
        replace (Rabs (-1)) with 1 by (rewrite Rabs_left; lra). lra. }
      exists (zneg (ZVadd n (zneg n0))). rewrite Ey, Ex, Ej, E0 in *. unfold act. rewrite !fracM_app, <- fracM_sub, <- fracM_add, <- fracM_whole, <- fracM_add. f_equal.
      unfold k in K0. destruct (ZMapp r kx) as [x1 x2 x3], (ZMapp r k0) as [w1 w2 w3], j0 as [j1 j2 j3], ky as [y1 y2 y3], n as [n1 n2 n3], n0 as [o1 o2 o3]. unfold ZVadd, zvsub, zvscal, zneg in *. cbn [vx vy vz] in *. injection K0 as Z1 Z2 Z3. f_equal; lia.
  Qed.
  Lemma fractions_rigid L a b c tol sites rots : gram L = diag (a * a) (b * b) (c * c) -> 0 <= tol -> 2 * tol * IZR m < a -> 2 * tol * IZR m < b -> 2 * tol * IZR m < c ->
    fractions_of m sites -> rigid tol L sites rots.
  Proof using Hm.
    intros EL Ht Ha Hb Hc FR. set (e := Rmin a (Rmin b c)). assert (B : e <= a /\ e <= b /\ e <= c).
    { unfold e. split; [apply Rmin_l|]. split; [eapply Rle_trans; [apply Rmin_r|apply Rmin_l]|eapply Rle_trans; [apply Rmin_r|apply Rmin_r]]. }
    assert (E0 : 2 * tol * IZR m < e) by (unfold e; repeat apply Rmin_glb_lt; lra). assert (0 <= 2 * tol * IZR m) by (apply Rmult_le_pos; lra).
    apply (fractions_rigid_gen L e tol sites rots); auto. intro v. apply (box_norm_ge L a b c e v EL ltac:(lra)); tauto.
  Qed.
End Fractions.

(** ** Deciding the operations of such a crystal *)
Section Grid.
  Context (m : Z) (pts : list (vec Z * string)). Hypothesis Hm : (0 < m)%Z.
  Definition grid_sites : list (vec R * string) := map (fun p => (fracM m (fst p), snd p)) pts.
  Definition zmod (v w : vec Z) : bool := if ((vx v - vx w) mod m =? 0)%Z then if ((vy v - vy w) mod m =? 0)%Z then ((vz v - vz w) mod m =? 0)%Z else false else false.
  Definition grid_op (r : mat Z) (t : vec Z) : bool := all_if (fun p => let q := ZVadd (ZMapp r (fst p)) t in ex_if (fun p' => if zmod q (fst p') then String.eqb (snd p) (snd p') else false) pts) pts.
  Lemma zmod_spec v w : zmod v w = true <-> exists n, v = ZVadd w (zvscal m n).
  Proof using Hm.
    unfold zmod. split.
    - destruct ((vx v - vx w) mod m =? 0)%Z eqn:E1; [|discriminate]. destruct ((vy v - vy w) mod m =? 0)%Z eqn:E2; [|discriminate]. intro E3. apply Z.eqb_eq in E1, E2, E3.
      exists (V ((vx v - vx w) / m) ((vy v - vy w) / m) ((vz v - vz w) / m))%Z. destruct v as [v1 v2 v3], w as [w1 w2 w3]. unfold ZVadd, zvscal. cbn [vx vy vz] in *. apply Z_div_exact_full_2 in E1, E2, E3; try lia. f_equal; lia.
    - intros (n & ->). destruct w as [w1 w2 w3], n as [n1 n2 n3]. unfold ZVadd, zvscal. cbn [vx vy vz].
      replace (w1 + m * n1 - w1)%Z with (n1 * m)%Z by ring. replace (w2 + m * n2 - w2)%Z with (n2 * m)%Z by ring. replace (w3 + m * n3 - w3)%Z with (n3 * m)%Z by ring. now rewrite !Z_mod_mult.
  Qed.
  Lemma zmod_congr v w : zmod v w = true <-> Vcongr (fracM m v) (fracM m w).
  Proof using Hm.
    rewrite zmod_spec. split; intros (n & E); exists n.
    - now rewrite E, fracM_add, fracM_whole.
    - rewrite <- (fracM_whole m Hm), <- (fracM_add m Hm) in E. exact (fracM_inj m Hm _ _ E).
  Qed.
  Lemma grid_in x e : In (x, e) grid_sites <-> exists k, In (k, e) pts /\ x = fracM m k.
  Proof using.
    unfold grid_sites. rewrite in_map_iff. split.
    - intros ([k f] & E & H). injection E as <- <-. exists k. auto.
    - intros (k & H & ->). exists (k, e). auto.
  Qed.
  Lemma act_frac r t k : act r (fracM m t) (fracM m k) = fracM m (ZVadd (ZMapp r k) t).
  Proof using Hm. unfold act. now rewrite fracM_app, fracM_add. Qed.
  Lemma grid_op_spec r t : grid_op r t = true <-> exact_operation grid_sites r (fracM m t).
  Proof using Hm.
    unfold grid_op. rewrite all_if_forallb, forallb_forall. split.
    - intros Q x e Hx. apply grid_in in Hx. destruct Hx as (k & Hk & ->). specialize (Q _ Hk). cbv zeta in Q. cbn [fst snd] in Q. rewrite ex_if_existsb in Q. apply existsb_exists in Q. destruct Q as ([k' e'] & Hk' & Q). cbn [fst snd] in Q.
      destruct (zmod _ k') eqn:EZ; [|discriminate]. apply String.eqb_eq in Q. subst e'. exists (fracM m k'). split; [apply grid_in; eauto|]. rewrite act_frac. now apply zmod_congr.
    - intros Q [k e] Hk. cbv zeta. cbn [fst snd]. destruct (Q (fracM m k) e) as (y & Hy & C); [apply grid_in; eauto|]. apply grid_in in Hy. destruct Hy as (k' & Hk' & ->). rewrite act_frac in C. apply zmod_congr in C.
      rewrite ex_if_existsb. apply existsb_exists. exists (k', e). split; [exact Hk'|]. cbn [fst snd]. rewrite C. apply String.eqb_refl.
  Qed.
  Lemma exact_congr S r t t' : Vcongr t t' -> exact_operation S r t -> exact_operation S r t'.
  Proof using.
    intros C EX x e Hx. destruct (EX x e Hx) as (y & Hy & C2). exists y. split; [exact Hy|]. apply (PSymmOp.Vcongr_trans _ (act r t x)); [|exact C2]. destruct C as (n & ->). exists (zneg n).
    unfold act, Vadd, VofZ, zneg. cbn [vx vy vz]. rewrite !opp_IZR. apply (@vec_ext R); cbn [vx vy vz]; ring.
  Qed.
  Lemma grid_exact_only r t k0 e0 : In (k0, e0) pts -> exact_operation grid_sites r t ->
    exists k, In (k, e0) pts /\ Vcongr t (fracM m (zvsub k (ZMapp r k0))) /\ grid_op r (zvsub k (ZMapp r k0)) = true.
  Proof using Hm.
    intros H0 EX. destruct (EX (fracM m k0) e0) as (y & Hy & n & C); [apply grid_in; eauto|]. apply grid_in in Hy. destruct Hy as (k & Hk & ->). exists k. split; [exact Hk|].
    assert (VC : Vcongr t (fracM m (zvsub k (ZMapp r k0)))).
    { exists n. rewrite (fracM_sub m Hm), <- (fracM_app m Hm). unfold act in C. revert C. generalize (Mapp (MofZ r) (fracM m k0)) (fracM m k). intros z y C. destruct t as [t1 t2 t3], z as [z1 z2 z3], y as [y1 y2 y3], n as [n1 n2 n3].
      unfold Vadd, Vsub, VofZ in *. cbn [vx vy vz] in *. injection C as C1 C2 C3. apply (@vec_ext R); cbn [vx vy vz]; lra. }
    split; [exact VC|]. apply grid_op_spec. exact (exact_congr _ _ _ _ VC EX).
  Qed.
  (** the operations are those of a list, along the axes [u] *)
  Context (w : Z) (u ui : mat Z) (hr : list (mat Z)) (G : list zop) (iso : mat Z -> Prop) (k0 : vec Z) (e0 : string).
  Hypothesis (EM : m = (12 * w)%Z) (H0 : In (k0, e0) pts) (UI : ZMmul u ui = ZMid).
  Hypothesis ISO : forall r, In r hr <-> iso (conj u r ui).
  Definition check_only : bool := forallb (fun r' => let r := conj u r' ui in let s := ZMapp r k0 in forallb (fun p => if String.eqb (snd p) e0 then let t := zvsub (fst p) s in
    if grid_op r t then ex_if (fun o => if zmat_eqb (fst o) r' then zmod (zvscal w (ZMapp u (snd o))) t else false) G else true else true) pts) hr.
  Definition check_has : bool := forallb (fun o => if mem_rot (fst o) hr then grid_op (conj u (fst o) ui) (zvscal w (ZMapp u (snd o))) else false) G.
  Lemma twelfths_frac t : Mapp (MofZ u) (in_twelfths t) = fracM m (zvscal w (ZMapp u t)).
  Proof using Hm EM.
    change (in_twelfths t) with (V12 t). rewrite MofZ_V12. unfold V12, fracM, zvscal. cbn [vx vy vz]. rewrite EM, !mult_IZR. assert (IZR w <> 0) by (apply (not_0_IZR w); lia). f_equal; field; auto.
  Qed.
  Lemma grid_group : check_only = true -> check_has = true ->
    forall r t, (iso r /\ exact_operation grid_sites r t) <-> exists o, In o G /\ r = conj u (fst o) ui /\ Vcongr t (Mapp (MofZ u) (in_twelfths (snd o))).
  Proof using All.
    intros CO CH r t. pose proof (zinv_comm _ _ UI) as IU. split.
    - intros [IS EX]. set (r' := conj ui r u). assert (ER : conj u r' ui = r) by (unfold r'; now apply conj_conj). assert (HR : In r' hr) by (apply ISO; now rewrite ER).
      destruct (grid_exact_only r t k0 e0 H0 EX) as (k & Hk & VC & GO). pose proof (proj1 (forallb_forall _ _) CO r' HR) as Q. cbv beta zeta in Q. rewrite ER in Q.
      pose proof (proj1 (forallb_forall _ _) Q (k, e0) Hk) as Q2. cbv beta zeta in Q2. cbn [fst snd] in Q2. rewrite String.eqb_refl, GO in Q2. rewrite ex_if_existsb in Q2. apply existsb_exists in Q2. destruct Q2 as (o & Ho & Q2).
      destruct (zmat_eqb (fst o) r') eqn:E; [|discriminate]. apply zmat_eqb_spec in E. exists o. split; [exact Ho|]. split; [now rewrite E, ER|]. rewrite twelfths_frac. apply zmod_congr in Q2.
      exact (PSymmOp.Vcongr_trans _ _ _ VC (PSymmOp.Vcongr_sym _ _ Q2)).
    - intros (o & Ho & -> & VC). pose proof (proj1 (forallb_forall _ _) CH o Ho) as Q. cbn beta in Q. destruct (mem_rot (fst o) hr) eqn:E; [|discriminate]. apply mem_rot_In in E. split; [now apply ISO|].
      apply grid_op_spec in Q. rewrite <- twelfths_frac in Q. exact (exact_congr _ _ _ _ (PSymmOp.Vcongr_sym _ _ VC) Q).
  Qed.
  (** no two points share a position *)
  Fixpoint distinct_check (l : list (vec Z * string)) : bool := match l with [] => true | p :: l' => if ex_if (fun q => zmod (fst p) (fst q)) l' then false else distinct_check l' end.
End Grid.
Lemma distinct_spec m l : (0 < m)%Z -> distinct_check m l = true -> forall i j p q, (i < j)%nat -> nth_error l i = Some p -> nth_error l j = Some q -> zmod m (fst p) (fst q) = false.
Proof.
  intro Hm. induction l as [|p0 l IH]; intros D i j p q Hij Hi Hj; [destruct i; discriminate|]. cbn [distinct_check] in D. destruct (ex_if (fun q => zmod m (fst p0) (fst q)) l) eqn:E; [discriminate|].
  destruct i as [|i], j as [|j]; try lia.
  - cbn in Hi, Hj. injection Hi as <-. rewrite ex_if_existsb in E. apply not_true_iff_false. intro Q. apply not_true_iff_false in E. apply E. apply existsb_exists. exists q. split; [exact (nth_error_In _ _ Hj)|exact Q].
  - apply (IH D i j); auto; lia.
Qed.
Lemma grid_fractions m pts : (0 < m)%Z -> distinct_check m pts = true -> fractions_of m (grid_sites m pts).
Proof.
  intros Hm D. split.
  - intros x e Hx. apply grid_in in Hx. destruct Hx as (k & _ & ->). now exists k.
  - assert (G : forall i j x e y f n, (i < j)%nat -> nth_error (grid_sites m pts) i = Some (x, e) -> nth_error (grid_sites m pts) j = Some (y, f) -> x <> Vadd y (VofZ n)).
    { intros i j x e y f n Hij Hi Hj E. unfold grid_sites in Hi, Hj. rewrite nth_error_map in Hi, Hj. destruct (nth_error pts i) as [[p1 p2]|] eqn:E1; [|discriminate]. destruct (nth_error pts j) as [[q1 q2]|] eqn:E2; [|discriminate].
      cbn in Hi, Hj. injection Hi as <- <-. injection Hj as <- <-. pose proof (distinct_spec m pts Hm D i j _ _ Hij E1 E2) as Q. cbn [fst] in Q. apply not_true_iff_false in Q. apply Q. apply zmod_congr; [exact Hm|]. now exists n. }
    intros i j x e y f n Hij Hi Hj E. destruct (Nat.lt_trichotomy i j) as [L|[L|L]]; [exact (G i j x e y f n L Hi Hj E)|contradiction|].
    apply (G j i y f x e (zneg n) L Hj Hi). rewrite E. unfold Vadd, VofZ, zneg. destruct y as [y1 y2 y3], n as [n1 n2 n3]. cbn [vx vy vz]. rewrite !opp_IZR. apply (@vec_ext R); cbn [vx vy vz]; ring.
Qed.

(** ** Axes renamed *)
Lemma cube_signed u : of_the_cube u -> In u signed /\ ZMmul u (transpose u) = ZMid.
Proof.
  intro H. assert (IH : In u (holo_rots (box_bravais Cubic))).
  { assert (E1 : gram Mid = diag (1 * 1) (1 * 1) (1 * 1)) by (unfold gram, diag, Mmul, Mtr, Mid; cbn [m11 m12 m13 m21 m22 m23 m31 m32 m33]; f_equal; lra).
    assert (E2 : lattice_isometry Mid u) by (apply isometry_gram; rewrite Mmul_id_l; unfold of_the_cube in H; unfold gram at 1; rewrite H, E1; unfold diag, Mid; f_equal; lra).
    exact (iso_holo Mid Cubic 1 1 1 1 E1 Rlt_0_1 Rlt_0_1 Rlt_0_1 Rlt_0_1 (Logic.conj eq_refl eq_refl) u E2). }
  destruct (holo_closed Cubic u eq_refl IH) as (_ & S & _). clear IH. split; [exact S|]. destruct (signed_facts u S) as (E & _). exact (zinv_comm _ _ E).
Qed.
Lemma along_conj u r0 t0 r t : ZMmul u (transpose u) = ZMid -> along u r0 t0 r t <-> (r = conj u r0 (transpose u) /\ Vcongr t (Mapp (MofZ u) t0)).
Proof.
  intro UI. pose proof (zinv_comm _ _ UI) as IU. unfold along. split; intros [E C]; (split; [|exact C]).
  - apply MofZ_eq_from_action. intro v. rewrite conj_app. rewrite <- (Mapp_Mmul (MofZ u)), <- E, Mapp_Mmul, (app_inv u _ v UI). reflexivity.
  - subst r. unfold conj. rewrite !MofZ_mul, !Mmul_assoc, <- (MofZ_mul (transpose u) u), IU, MofZ_id, Mmul_id_r. reflexivity.
Qed.
Lemma fractions_conditions dtol a b c m L u sites : (0 < m)%Z -> of_the_cube u -> gram (Mmul L (MofZ u)) = diag (a * a) (b * b) (c * c) ->
  1 <= a <= 1000 -> 1 <= b <= 1000 -> 1 <= c <= 1000 -> 1 / 100000 <= dtol <= 1 / 24 -> fractions_of m sites -> 8 * IZR m * dtol <= a -> 8 * IZR m * dtol <= b -> 8 * IZR m * dtol <= c ->
  spread (1 / (2 * IZR m)) sites /\ rigid (2 * dtol) L sites (lattice_isometry L) /\
  4 * dtol <= 1 / (2 * IZR m) * a /\ 4 * dtol <= 1 / (2 * IZR m) * b /\ 4 * dtol <= 1 / (2 * IZR m) * c.
Proof.
  intros Hm HU EL Ba Bb Bc Hd FR Ma Mb Mc. assert (Pm : 0 < IZR m) by (apply (IZR_lt 0), Hm). destruct (cube_signed u HU) as (Su & UI).
  split; [now apply fractions_spread|].
  assert (G : forall x, 8 * IZR m * dtol <= x -> 4 * dtol <= 1 / (2 * IZR m) * x).
  { intros x Hx. apply (Rmult_le_reg_l (2 * IZR m)); [lra|]. replace (2 * IZR m * (1 / (2 * IZR m) * x)) with x by (field; lra). lra. }
  split; [|split; [exact (G a Ma)|split; [exact (G b Mb)|exact (G c Mc)]]].
  destruct (own_edges dtol a b c (1 / (2 * IZR m)) (Structure (N := RNum) L [] [] []) u (transpose u) Su UI EL Ba Bb Bc (G a Ma) (G b Mb) (G c Mc)) as (a0 & b0 & c0 & EL0 & PM & Ba0 & Bb0 & Bc0 & _).
  assert (PP : 0 < IZR m * dtol) by (apply Rmult_lt_0_compat; lra).
  assert (E : 8 * IZR m * dtol <= a0 /\ 8 * IZR m * dtol <= b0 /\ 8 * IZR m * dtol <= c0).
  { destruct (perm3 _ _ _ _ _ _ (Permutation.Permutation_sym PM)) as [X|[X|[X|[X|[X|X]]]]]; destruct X as (-> & -> & ->); repeat split; lra. }
  apply (fractions_rigid m Hm L a0 b0 c0 (2 * dtol) sites _ EL0); [lra..|exact FR].
Qed.
