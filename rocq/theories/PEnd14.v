(** Crystals in a rectangular cell: tabulated groups under renaming of the axes, and the standard cell (analyzer.rs 36-110) *)
From Coq Require Import ZArith Reals String Ascii List Bool Lia Lra Psatz Permutation.
From Flocq Require Import Core.
From Verif Require Import Num Mat Utils DataCore DataPG DataSG SymmOp PointGroup SpaceGroup Structure Reduce Analyzer RInst Spec Spec2 Spec3 Spec5 Spec6 RFacts
  PUtils PSymmOp PStructure PStructure2 PStructure3 PNiggli PDelaunay PPrim PPrim2 PLattice PAnalyzer PAnalyzer2 PPointGroup PPointGroup2 PSpaceGroup PSpaceGroup2 PCode PTables PIdentify
  PSearch PSearch4 PSearch6 PSearch7 PEnd PEnd2 PEnd3 PEnd4 PEnd11 PEnd12 PEnd13 Prop5.
Import ListNotations.
Open Scope R_scope.


(** ** Tabulated groups do not change when the axes of the box are renamed by one of its isometries *)
Definition conj_op (w : mat Z) (o : zop) : zop := (conj (transpose w) (fst o) w, ZMapp (transpose w) (snd o)).
Definition handed : list Z := [76; 78]%Z.
Definition invariant_check (e : lattice_system * Z * Z * list Z) : bool :=
  let '(ls, _, N, codes) := e in
  if existsb (Z.eqb N) not_closed then true else
  match ls with
  | Cubic | Tetragonal | Orthorhombic =>
      match entry_ops N codes with
      | Some l =>
          let hr := holo_rots (box_bravais ls) in
          if forallb (fun o => mem_rot (fst o) hr) l then
            forallb (fun w => if if (ZMdet w =? 1)%Z then false else existsb (Z.eqb N) handed then true else forallb (fun o => ex_if (zop_eq (conj_op w o)) l) l) hr
          else true
      | None => false
      end
  | _ => true
  end.
Lemma invariant_checked : forallb invariant_check sg_entries = true.
Proof. vm_compute. reflexivity. Qed.
Definition boxed (ls : lattice_system) : bool := match ls with Cubic | Tetragonal | Orthorhombic => true | _ => false end.
Lemma not_in_handed N l : ~ In N l -> existsb (Z.eqb N) l = false.
Proof. intro H. apply not_true_iff_false. intro Q. apply H. apply existsb_exists in Q. destruct Q as (x & Hx & E). apply Z.eqb_eq in E. now subst. Qed.
Lemma table_invariant ls order N codes sym w o : boxed ls = true -> In (ls, order, N, codes) sg_entries -> am_get Z.eqb N SG_NUM_TO_SYMBOL = Some sym -> ~ In N not_closed ->
  (forall o, In o (group_ops sym codes) -> In (fst o) (holo_rots (box_bravais ls))) -> In w (holo_rots (box_bravais ls)) -> ZMdet w = 1%Z \/ ~ In N handed ->
  In o (group_ops sym codes) -> exists o', In o' (group_ops sym codes) /\ same_op (conj_op w o) o'.
Proof.
  intros HB HT ES NC HR Hw HD Ho. pose proof (proj1 (forallb_forall _ _) invariant_checked _ HT) as Q. unfold invariant_check in Q. rewrite (not_in_handed _ _ NC) in Q.
  assert (EO : entry_ops N codes = Some (group_ops sym codes)) by (unfold entry_ops; rewrite ES; reflexivity). rewrite EO in Q.
  assert (Q' : (let hr := holo_rots (box_bravais ls) in
          if forallb (fun o => mem_rot (fst o) hr) (group_ops sym codes) then
            forallb (fun w => if if (ZMdet w =? 1)%Z then false else existsb (Z.eqb N) handed then true else forallb (fun o => ex_if (zop_eq (conj_op w o)) (group_ops sym codes)) (group_ops sym codes)) hr
          else true) = true) by (destruct ls; try discriminate HB; exact Q). clear Q. cbv zeta in Q'.
  replace (forallb (fun o => mem_rot (fst o) (holo_rots (box_bravais ls))) (group_ops sym codes)) with true in Q'.
  - pose proof (proj1 (forallb_forall _ _) Q' w Hw) as K. cbn beta in K. replace (if (ZMdet w =? 1)%Z then false else existsb (Z.eqb N) handed) with false in K.
    + pose proof (proj1 (forallb_forall _ _) K o Ho) as K'. cbn beta in K'. rewrite ex_if_existsb in K'. apply existsb_exists in K'. destruct K' as (o' & Ho' & E). exists o'. split; [exact Ho'|now apply same_op_eq].
    + destruct HD as [-> |HD]; [reflexivity|]. rewrite (not_in_handed _ _ HD). now destruct (ZMdet w =? 1)%Z.
  - symmetry. apply forallb_forall. intros o0 H0. unfold mem_rot. rewrite ex_if_existsb. apply existsb_exists. exists (fst o0). split; [now apply HR|now apply zmat_eqb_spec].
Qed.
Lemma holo_closed_checked : forallb (fun b => let hr := holo_rots b in forallb (fun r => if mem_rot (transpose r) hr then if mem_rot r signed then forallb (fun q => mem_rot (ZMmul r q) hr) hr else false else false) hr) [cP; tP; oP] = true.
Proof. vm_compute. reflexivity. Qed.
Lemma holo_closed ls r : boxed ls = true -> In r (holo_rots (box_bravais ls)) ->
  In (transpose r) (holo_rots (box_bravais ls)) /\ In r signed /\ forall q, In q (holo_rots (box_bravais ls)) -> In (ZMmul r q) (holo_rots (box_bravais ls)).
Proof.
  intros HB Hr. assert (HI : In (box_bravais ls) [cP; tP; oP]) by (destruct ls; try discriminate HB; cbn; tauto).
  pose proof (proj1 (forallb_forall _ _) holo_closed_checked _ HI) as Q. cbv zeta in Q. pose proof (proj1 (forallb_forall _ _) Q r Hr) as K. cbn beta in K.
  destruct (mem_rot (transpose r) _) eqn:E1; [|discriminate]. destruct (mem_rot r signed) eqn:E2; [|discriminate]. split; [now apply mem_rot_In|]. split; [now apply mem_rot_In|].
  intros q Hq. apply mem_rot_In. exact (proj1 (forallb_forall _ _) K q Hq).
Qed.
Lemma same_op_V12 a b : same_op a b -> fst a = fst b /\ Vcongr (in_twelfths (snd a)) (in_twelfths (snd b)).
Proof.
  intros [E (m & C)]. split; [exact E|]. exists m. rewrite C. unfold in_twelfths, Vadd, VofZ. cbn [vx vy vz ZVadd]. rewrite ?plus_IZR, ?mult_IZR. apply (@vec_ext R); cbn [vx vy vz]; lra.
Qed.

(** ** Distances in a box *)
Lemma box_norm_ge L a b c m v : gram L = diag (a * a) (b * b) (c * c) -> 0 <= m -> m <= a -> m <= b -> m <= c -> m * Vnorm v <= Vnorm (Mapp L v).
Proof.
  intros E Hm Ha Hb Hc. rewrite <- (Rabs_pos_eq m Hm), <- Vnorm_scal. unfold Vnorm. apply sqrt_le_1_alt.
  assert (G : Vdot (Mapp L v) (Mapp L v) = Vdot v (Mapp (gram L) v)) by (clear; unfold gram, Vdot, Mapp, Mmul, Mtr; cbn [vx vy vz m11 m12 m13 m21 m22 m23 m31 m32 m33]; ring).
  rewrite G, E. destruct v as [x y z]. unfold Vdot, Vscal, Mapp, diag. cbn [vx vy vz m11 m12 m13 m21 m22 m23 m31 m32 m33].
  assert (m * m <= a * a) by (apply Rmult_le_compat; lra). assert (m * m <= b * b) by (apply Rmult_le_compat; lra). assert (m * m <= c * c) by (apply Rmult_le_compat; lra).
  assert (Px : 0 <= x * x) by apply Rle_0_sqr. assert (Py : 0 <= y * y) by apply Rle_0_sqr. assert (Pz : 0 <= z * z) by apply Rle_0_sqr.
  assert (m * m * (x * x) <= a * a * (x * x)) by (now apply Rmult_le_compat_r). assert (m * m * (y * y) <= b * b * (y * y)) by (now apply Rmult_le_compat_r).
  assert (m * m * (z * z) <= c * c * (z * z)) by (now apply Rmult_le_compat_r). lra.
Qed.
Lemma spread_apart d S L a b c t : spread d S -> gram L = diag (a * a) (b * b) (c * c) -> 0 < a -> 0 < b -> 0 < c -> 0 <= t -> t <= d * a -> t <= d * b -> t <= d * c ->
  forall W, In W signed -> apart t (Mmul L (MofZ W)) S.
Proof.
  intros SP E Ha Hb Hc Ht Da Db Dc W HW. apply nth_FOP. intros i j [x e] [y f] Hij Hi Hj n. cbn [fst].
  pose proof (SP i j x e y f n ltac:(lia) Hi Hj) as Q. set (v := Vadd (Vsub x y) (VofZ n)) in *.
  assert (G : exists m, 0 < m /\ m <= a /\ m <= b /\ m <= c /\ t <= d * m).
  { destruct (Rle_or_lt a b), (Rle_or_lt a c), (Rle_or_lt b c); try (exists a; repeat split; lra); try (exists b; repeat split; lra); exists c; repeat split; lra. }
  destruct G as (m & G0 & G1 & G2 & G3 & G4). rewrite Mapp_Mmul.
  pose proof (box_norm_ge L a b c m (Mapp (MofZ W) v) E ltac:(lra) G1 G2 G3) as K. rewrite (signed_norm W v HW) in K. nra.
Qed.
Lemma apart_sites_apart d L S : apart d L S -> sites_apart d L S.
Proof.
  intros A i j x y e n Hij Hi Hj. exact (FOP_nth _ _ i j (x, e) (y, e) (fun u v => apart_sym _ _ u v) A Hij Hi Hj n).
Qed.
Lemma signed_transpose W Wi : In W signed -> ZMmul W Wi = ZMid -> Wi = transpose W.
Proof.
  intros HW HI. destruct (signed_facts W HW) as (E & _). apply MofZ_inj. rewrite <- (Mmul_id_l (MofZ Wi)), <- MofZ_id, <- E, MofZ_mul, Mmul_assoc, <- MofZ_mul, HI, MofZ_id, Mmul_id_r. reflexivity.
Qed.

Lemma signed_diag a b c r : In r signed -> let p := a * IZR (m11 r * m11 r) + b * IZR (m21 r * m21 r) + c * IZR (m31 r * m31 r) in
  let q := a * IZR (m12 r * m12 r) + b * IZR (m22 r * m22 r) + c * IZR (m32 r * m32 r) in let t := a * IZR (m13 r * m13 r) + b * IZR (m23 r * m23 r) + c * IZR (m33 r * m33 r) in
  Permutation [a; b; c] [p; q; t] /\ Mmul (Mtr (MofZ r)) (Mmul (diag (a * a) (b * b) (c * c)) (MofZ r)) = diag (p * p) (q * q) (t * t).
Proof.
  intros H p q t. assert (PM : forall x y z, Permutation [x; y; z] [a; b; c] -> x = p -> y = q -> z = t -> Permutation [a; b; c] [p; q; t]).
  { intros x y z HP <- <- <-. now apply Permutation_sym. }
  assert (P1 : Permutation [a; c; b] [a; b; c]) by (apply perm_skip, perm_swap). assert (P2 : Permutation [b; a; c] [a; b; c]) by apply perm_swap.
  assert (P3 : Permutation [b; c; a] [a; b; c]) by (apply Permutation_sym, (Permutation_cons_append [b; c] a)).
  assert (P4 : Permutation [c; a; b] [a; b; c]) by (apply (Permutation_cons_append [a; b] c)).
  assert (P5 : Permutation [c; b; a] [a; b; c]) by (apply (perm_trans (perm_swap b c [a])); exact P3).
  assert (P0 : Permutation [a; b; c] [a; b; c]) by apply Permutation_refl.
  unfold p, q, t in *. clear p q t. unfold signed in H. cbn [In] in H.
  repeat (destruct H as [<-|H]; [cbn [m11 m12 m13 m21 m22 m23 m31 m32 m33 Z.mul Pos.mul] in *; split;
    [first [apply (PM _ _ _ P0); ring|apply (PM _ _ _ P1); ring|apply (PM _ _ _ P2); ring|apply (PM _ _ _ P3); ring|apply (PM _ _ _ P4); ring|apply (PM _ _ _ P5); ring]
    |unfold diag, MofZ, mmap, Mmul, Mtr; cbn [m11 m12 m13 m21 m22 m23 m31 m32 m33]; apply (@mat_ext R); cbn [m11 m12 m13 m21 m22 m23 m31 m32 m33]; ring]|]). destruct H.
Qed.

Section Std.
  Context (P : @Pinv RNum) (HO : HashOrd) (dtol a b c : R) (fuel : nat) (path : list nat) (s : @structure RNum).
  Hypothesis (HP : pinv_inverts P) (HF : (48 <= fuel)%nat) (WF : List.length (frac_coords s) = List.length (species s)).
  Hypothesis BIG : (0 < Z.of_nat (List.length (species s)) <= 65535)%Z.
  Hypothesis EL : gram (lattice s) = diag (a * a) (b * b) (c * c).
  Hypothesis (Ba : 1 <= a <= 1000) (Bb : 1 <= b <= 1000) (Bc : 1 <= c <= 1000) (Hd : 1 / 100000 <= dtol <= 1 / 24).
  Context (d : R).
  Hypothesis (SP : spread d (sites_of s)) (Da : 4 * dtol <= d * a) (Db : 4 * dtol <= d * b) (Dc : 4 * dtol <= d * c).
  Lemma std_apart W : In W signed -> apart (4 * dtol) (Mmul (lattice s) (MofZ W)) (sites_of s).
  Proof using All. intro HW. apply (spread_apart d _ _ a b c); auto; lra. Qed.
  Lemma apart_mono t t' L S : t' <= t -> apart t L S -> apart t' L S.
  Proof using. intros H A. now apply (apart_weaken t). Qed.
  (** the operations of a group have only whole translations with the identity, so the crystal has no inner translation *)
  Lemma no_inner (rots : mat Z -> Prop) : rots ZMid -> rigid (2 * dtol) (lattice s) (sites_of s) rots ->
    (forall t, exact_operation (sites_of s) ZMid t -> exists n, t = VofZ n) -> no_inner_translation dtol s.
  Proof using All.
    intros R1 RI ID i j x y e Hij Hx Hy Ex Ey ST. assert (I0 : In ZMid signed) by (apply mem_rot_In; vm_compute; reflexivity).
    destruct (RI ZMid (Vsub x y) R1) as (t0 & n & EX & Q).
    { intros z f Hz. destruct (ST z f Hz) as (w & k & Hw & K). exists w, k. split; [exact Hw|]. unfold act. rewrite MofZ_id, Mapp_id. exact K. }
    destruct (ID t0 EX) as (m & ->). pose proof (std_apart ZMid I0) as A. rewrite MofZ_id, Mmul_id_r in A.
    pose proof (apart_sites_apart _ _ _ A i j x y e (ZVadd (zneg m) n) Hij (zip_nth _ _ _ _ _ Hx Ex) (zip_nth _ _ _ _ _ Hy Ey)) as K.
    replace (Vadd (Vsub x y) (VofZ (ZVadd (zneg m) n))) with (Vadd (Vsub (Vsub x y) (VofZ m)) (VofZ n)) in K by (destruct m, n, x, y; unfold Vadd, Vsub, VofZ, ZVadd, zneg; cbn; rewrite !plus_IZR, !opp_IZR; apply (@vec_ext R); cbn; ring).
    lra.
  Qed.
  Context (p q std : @structure RNum) (Tm Pm : mat R) (n : Z) (b' : bravais) (A B C : R) (Z1 T0 W Wi : mat Z).
  Hypothesis RUN : run_of P HO dtol a b c fuel path s p q std Tm Pm n b' A B C Z1 T0 W Wi.
  Lemma run_moved : moved Wi (sites_of s) (sites_of std).
  Proof using RUN. apply like_moved. exact (rn_like _ _ _ _ _ _ _ _ _ _ _ _ _ _ _ _ _ _ _ _ _ _ _ RUN). Qed.
  Lemma run_len : List.length (frac_coords std) = List.length (species std).
  Proof using RUN. exact (lk_len _ _ _ (rn_like _ _ _ _ _ _ _ _ _ _ _ _ _ _ _ _ _ _ _ _ _ _ _ RUN)). Qed.
  Lemma run_big : (0 < Z.of_nat (List.length (species std)) <= 65535)%Z.
  Proof using RUN BIG WF.
    rewrite (like_length _ _ _ (rn_like _ _ _ _ _ _ _ _ _ _ _ _ _ _ _ _ _ _ _ _ _ _ _ RUN)).
    assert (Q : List.length (sites_of s) = List.length (species s)) by (apply zip_length; exact WF). now rewrite Q.
  Qed.
  Lemma run_grouped : grouped (species std).
  Proof using RUN. exact (like_grouped _ _ _ (rn_like _ _ _ _ _ _ _ _ _ _ _ _ _ _ _ _ _ _ _ _ _ _ _ RUN)). Qed.
  Lemma run_W : In W signed. Proof using RUN. exact (rn_signed _ _ _ _ _ _ _ _ _ _ _ _ _ _ _ _ _ _ _ _ _ _ _ RUN). Qed.
  Lemma run_inv : ZMmul W Wi = ZMid. Proof using RUN. exact (rn_inv _ _ _ _ _ _ _ _ _ _ _ _ _ _ _ _ _ _ _ _ _ _ _ RUN). Qed.
  Lemma run_std : lattice std = Mmul (lattice s) (MofZ W). Proof using RUN. exact (rn_std _ _ _ _ _ _ _ _ _ _ _ _ _ _ _ _ _ _ _ _ _ _ _ RUN). Qed.
  Lemma run_back : Mmul (lattice std) (MofZ Wi) = lattice s.
  Proof using RUN. rewrite run_std, Mmul_assoc, <- MofZ_mul, run_inv, MofZ_id. apply Mmul_id_r. Qed.
  Lemma run_fine k : (k < 3)%nat -> 1 / 100000000 * Vnorm (Ccol (lattice std) k) <= dtol /\ 24 * dtol <= Vnorm (Ccol (lattice std) k) /\ 0 < Vnorm (Ccol (lattice std) k).
  Proof using RUN EL Ba Bb Bc Hd.
    intro Hk. rewrite run_std. pose proof (many_col a b c s EL Ba Bb Bc W k run_W Hk) as Q.
    assert (X : 24 * dtol <= Vnorm (Ccol (Mmul (lattice s) (MofZ W)) k)) by (apply roomy_col; exact (roomy_mul dtol (lattice s) W Wi (zinv_comm _ _ run_inv) (many_roomy dtol a b c s EL Ba Bb Bc Hd))).
    lra.
  Qed.
  Lemma run_apart : sites_apart (4 * dtol) (lattice std) (sites_of std).
  Proof using All.
    apply apart_sites_apart. apply (like_apart _ _ W Wi (sites_of s)); [exact (zinv_comm _ _ run_inv)|exact (rn_like _ _ _ _ _ _ _ _ _ _ _ _ _ _ _ _ _ _ _ _ _ _ _ RUN)|].
    rewrite run_back. assert (I0 : In ZMid signed) by (apply mem_rot_In; vm_compute; reflexivity). pose proof (std_apart ZMid I0) as X. now rewrite MofZ_id, Mmul_id_r in X.
  Qed.
  Lemma run_det : 0 < Mdet (lattice std).
  Proof using RUN. exact (rn_right _ _ _ _ _ _ _ _ _ _ _ _ _ _ _ _ _ _ _ _ _ _ _ RUN). Qed.
  (** the standard cell of a box in the standard form is the box itself *)
  Context (ls : lattice_system) (a1 b1 c1 : R).
  Hypothesis PM1 : Permutation [a * a; b * b; c * c] [a1 * a1; b1 * b1; c1 * c1].
  Hypothesis SE : standard_edges ls (1 / 100000 * Rpower (a * b * c) (1 / 3)) a1 b1 c1.
  Lemma run_standard : b' = box_bravais ls /\ gram (lattice std) = diag (a1 * a1) (b1 * b1) (c1 * c1) /\ boxed ls = true /\ bravais_lattice_system b' = Ok ls.
  Proof using RUN SE PM1 Ba Bb Bc.
    clear SP Da Db Dc. destruct RUN as [_ _ ROW BRV _ _ _ _ GR _ PM OR NU _ _ EW _ _ ES _]. pose proof (box_eps a b c Ba Bb Bc) as BE. set (eps := 1 / 100000 * Rpower (a * b * c) (1 / 3)) in *.
    assert (CT : forall x y : R, Rabs (x - y) <= eps -> @cust_eq RNum x y eps = true) by (intros; now apply cust_eq_spec).
    assert (CF : forall x y : R, eps < Rabs (x - y) -> @cust_eq RNum x y eps = false).
    { intros x y H. apply not_true_iff_false. intro Q. apply cust_eq_spec in Q. lra. }
    assert (GS : gram (lattice std) = Mmul (Mtr (MofZ (transpose T0))) (Mmul (diag A B C) (MofZ (transpose T0)))).
    { rewrite ES, EW, MofZ_mul, <- Mmul_assoc, gram_app, GR. reflexivity. }
    assert (AZ : forall x, Rabs (x - x) <= eps) by (intro x; replace (x - x) with 0 by ring; rewrite Rabs_R0; lra).
    assert (AL : forall x y, eps < y - x -> eps < Rabs (x - y)) by (intros x y H; rewrite Rabs_left1; lra).
    pose proof (perm_trans PM PM1) as PM2. clear PM. rename PM2 into PM.
    unfold standard_edges in SE. destruct ls; try (exfalso; exact SE); unfold box_bravais, boxed.
    - destruct SE as [S1 S2]. assert (X : A = a1 * a1 /\ B = b1 * b1 /\ C = c1 * c1).
      { destruct (perm3 _ _ _ _ _ _ PM) as [X|[X|[X|[X|[X|X]]]]]; destruct X as (-> & -> & ->); repeat split; lra. }
      destruct X as (-> & -> & ->). unfold box_number in NU. rewrite (CF (a1 * a1) (b1 * b1)), (CF (b1 * b1) (c1 * c1)) in NU by (apply AL; lra). cbn [andb] in NU. subst n.
      vm_compute in ROW, BRV. injection ROW as <-. injection BRV as <-. repeat split; auto. rewrite GS. unfold diag, Mmul, Mtr, MofZ, mmap, transpose. cbn. apply (@mat_ext R); cbn; ring.
    - destruct SE as [<- S2]. unfold Rabs in S2. destruct (Rcase_abs (a1 * a1 - c1 * c1)) as [LT|GE].
      + assert (X : A = a1 * a1 /\ B = a1 * a1 /\ C = c1 * c1).
        { destruct (perm3 _ _ _ _ _ _ PM) as [X|[X|[X|[X|[X|X]]]]]; destruct X as (-> & -> & ->); repeat split; lra. }
        destruct X as (-> & -> & ->). unfold box_number in NU. rewrite (CF (a1 * a1) (c1 * c1)), (CT (a1 * a1) (a1 * a1)) in NU by (try apply AZ; apply AL; lra). cbn [andb] in NU. subst n.
        vm_compute in ROW, BRV. injection ROW as <-. injection BRV as <-. repeat split; auto. rewrite GS. unfold diag, Mmul, Mtr, MofZ, mmap, transpose. cbn. apply (@mat_ext R); cbn; ring.
      + assert (X : A = c1 * c1 /\ B = a1 * a1 /\ C = a1 * a1).
        { destruct (perm3 _ _ _ _ _ _ PM) as [X|[X|[X|[X|[X|X]]]]]; destruct X as (-> & -> & ->); repeat split; lra. }
        destruct X as (-> & -> & ->). unfold box_number in NU. rewrite (CF (c1 * c1) (a1 * a1)), (CT (a1 * a1) (a1 * a1)) in NU by (try apply AZ; apply AL; lra). cbn [andb] in NU. subst n.
        vm_compute in ROW, BRV. injection ROW as <-. injection BRV as <-. repeat split; auto. rewrite GS. unfold diag, Mmul, Mtr, MofZ, mmap, transpose. cbn. apply (@mat_ext R); cbn; ring.
    - destruct SE as [<- <-]. assert (X : A = a1 * a1 /\ B = a1 * a1 /\ C = a1 * a1).
      { destruct (perm3 _ _ _ _ _ _ PM) as [X|[X|[X|[X|[X|X]]]]]; destruct X as (-> & -> & ->); repeat split; lra. }
      destruct X as (-> & -> & ->). unfold box_number in NU. rewrite (CT (a1 * a1) (a1 * a1)) in NU by apply AZ. cbn [andb] in NU. subst n.
      vm_compute in ROW, BRV. injection ROW as <-. injection BRV as <-. repeat split; auto. rewrite GS. unfold diag, Mmul, Mtr, MofZ, mmap, transpose. cbn. apply (@mat_ext R); cbn; ring.
  Qed.
End Std.
