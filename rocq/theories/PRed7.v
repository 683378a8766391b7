(** Triclinic and monoclinic crystals for the examples *)
From Coq Require Import ZArith Reals String Ascii List Bool Lia Lra Psatz Permutation.
From Flocq Require Import Core.
From Verif Require Import Num Mat Utils DataCore DataPG DataSG SymmOp PointGroup SpaceGroup Structure Reduce Analyzer RInst Spec Spec2 Spec3 Spec5 Spec6 Spec8 Spec10 RFacts
  PUtils PSymmOp PStructure PStructure2 PStructure3 PNiggli PDelaunay PPrim PPrim2 PLattice PAnalyzer PAnalyzer2 PPointGroup PPointGroup2 PSpaceGroup PSpaceGroup2 PCode PTables PIdentify
  PSearch PSearch3 PSearch4 PSearch6 PSearch7 PEnd PEnd2 PEnd3 PEnd4 PEnd11 PEnd12 PEnd13 PEnd14 PEnd15 PEnd16 Prop5 PRun PRun2 PHex PHex2 PHex3 PHex4 PHex5 PEnd17 PEnd18 PHex6 PHex7 PRed PRed2 PRed3 PRed4 PRed5 PRed6 PEnd21 Prop4.
From Verif Require PEnd19 PEnd20.
Import ListNotations.
Open Scope R_scope.

Definition low_crystal (m : Z) (L : mat R) (pts : list (vec Z * string)) : @structure RNum := Structure (N := RNum) L (map snd pts) [] (map (fun p => fracM m (fst p)) pts).
Lemma low_sites m L pts : combine (frac_coords (low_crystal m L pts)) (species (low_crystal m L pts)) = grid_sites m pts.
Proof. unfold low_crystal, grid_sites. cbn [frac_coords species]. induction pts as [|p pts IH]; [reflexivity|]. cbn [map combine fst snd]. f_equal. exact IH. Qed.
Lemma low_len m L pts : List.length (frac_coords (low_crystal m L pts)) = List.length (species (low_crystal m L pts)).
Proof. unfold low_crystal. cbn [frac_coords species]. now rewrite !map_length. Qed.
Lemma low_conditions dtol m L sites : (0 < m)%Z -> not_flat L -> 0 < dtol -> 72 * IZR m * dtol <= 1 -> fractions_of m sites ->
  spread (1 / (2 * IZR m)) sites /\ rigid (2 * dtol) L sites (lattice_isometry L) /\ 36 * dtol <= 1 / (2 * IZR m).
Proof.
  intros Hm NF H0 H1 FR. assert (Pm : 0 < IZR m) by (apply (IZR_lt 0), Hm). assert (PP : 0 < IZR m * dtol) by (apply Rmult_lt_0_compat; lra). split; [now apply fractions_spread|]. split.
  - apply (fractions_rigid_gen m Hm L 1 (2 * dtol) sites); [|lra|lra|exact FR]. intro v. rewrite Rmult_1_l. apply NF.
  - apply (Rmult_le_reg_l (2 * IZR m)); [lra|]. replace (2 * IZR m * (1 / (2 * IZR m))) with 1 by (field; lra). lra.
Qed.

(** ** A monoclinic cell *)
Definition mono_lattice : mat R := M 5 0 (-1) 0 6 0 0 0 7.
Lemma mono_not_flat : not_flat mono_lattice.
Proof. intro v. destruct v as [x y z]. unfold Vnorm. apply sqrt_le_1_alt. unfold Vdot, Mapp, mono_lattice. cbn [vx vy vz m11 m12 m13 m21 m22 m23 m31 m32 m33]. nra. Qed.
Lemma mono_eps : 0 < metric_tolerance mono_lattice <= 1 / 10000.
Proof. unfold metric_tolerance. apply small_eps. unfold Mdet, mono_lattice. cbn [m11 m12 m13 m21 m22 m23 m31 m32 m33]. rewrite Rabs_pos_eq; lra. Qed.
Lemma mono_lattice_cell : monoclinic_cell (metric_tolerance mono_lattice) 25 36 50 (-5) (Mmul mono_lattice (MofZ ZMid)).
Proof.
  pose proof mono_eps as He. rewrite MofZ_id, Mmul_id_r. constructor; try lra; try (rewrite Rabs_left; lra).
  unfold Mmul, Mtr, mono_lattice. cbn [m11 m12 m13 m21 m22 m23 m31 m32 m33]. apply (@mat_ext R); cbn [m11 m12 m13 m21 m22 m23 m31 m32 m33]; lra.
Qed.
(** four equivalent atoms in the standard setting, and after exchange of the first and third axis *)
Definition four_atoms : list (vec Z * string) := [(V 6 9 13, "C"); (V 54 39 17, "C"); (V 54 51 47, "C"); (V 6 21 43, "C")]%Z%string.
Definition exchange : mat Z := (M 0 0 1 0 (-1) 0 1 0 0)%Z.
Lemma exchange_axis : same_second_axis exchange. Proof. repeat split; try reflexivity. left. reflexivity. Qed.
Lemma id_axis : same_second_axis ZMid. Proof. repeat split; try reflexivity. left. reflexivity. Qed.
Definition mono_check (m w : Z) (pts : list (vec Z * string)) (g : mat Z) (sym : string) (codes : list Z) : bool :=
  match pts with
  | (k0, e0) :: _ =>
      let G := group_ops sym codes in let hr := holo_rots mP in
      if (m =? 12 * w)%Z then if (0 <? m)%Z then if distinct_check m pts then if check_only m pts w g g hr G k0 e0 then check_has m pts w g g hr G else false else false else false else false
  | [] => false
  end.
Lemma standard_checked : checked_entry 14 Monoclinic 4 "P12_1/c1" (mono_check 60 5 four_atoms ZMid "P12_1/c1") = true. Proof. vm_compute. reflexivity. Qed.
Lemma exchanged_checked : checked_entry 14 Monoclinic 4 "P12_1/c1" (mono_check 60 5 (turned exchange four_atoms) exchange "P12_1/c1") = true. Proof. vm_compute. reflexivity. Qed.
Lemma mono_facts pts g N order sym : same_second_axis g -> ZMmul g g = ZMid -> checked_entry N Monoclinic order sym (mono_check 60 5 pts g sym) = true -> let s := low_crystal 60 mono_lattice pts in
  exists codes, tabulated Monoclinic order N codes /\ am_get Z.eqb N SG_NUM_TO_SYMBOL = Some sym /\ fractions_of 60 (combine (frac_coords s) (species s)) /\
  (forall r t, (lattice_isometry (lattice s) r /\ exact_operation (combine (frac_coords s) (species s)) r t) <->
    exists code, In code codes /\ along (ZMmul ZMid g) (fst (code_op (has_char "A"%char sym) code)) (in_twelfths (snd (code_op (has_char "A"%char sym) code))) r t).
Proof.
  intros GS GG CK s. destruct (checked_entry_ok _ _ _ _ _ CK) as (codes & HT & ES & Q). exists codes. split; [exact HT|]. split; [exact ES|]. unfold s. rewrite low_sites. rewrite Z1l.
  unfold mono_check in Q. destruct pts as [|[k0 e0] rest] eqn:EP; [discriminate|]. rewrite <- EP in *. cbv zeta in Q. cbn [Z.eqb Z.mul Pos.mul Z.ltb] in Q. change (60 =? 12 * 5)%Z with true in Q. change (0 <? 60)%Z with true in Q. cbv iota in Q.
  destruct (distinct_check 60 pts) eqn:Q3; [|discriminate]. destruct (check_only 60 pts 5 g g (holo_rots mP) (group_ops sym codes) k0 e0) eqn:Q4; [|discriminate].
  split; [apply grid_fractions; [lia|exact Q3]|]. cbn [lattice low_crystal].
  assert (ISO : forall r, In r (holo_rots mP) <-> lattice_isometry mono_lattice (conj g r g)).
  { assert (NZ : Mdet mono_lattice <> 0) by (unfold Mdet, mono_lattice; cbn [m11 m12 m13 m21 m22 m23 m31 m32 m33]; lra).
    destruct (monoclinic_ready (metric_tolerance mono_lattice) mono_lattice ZMid (proj1 mono_eps) NZ id_near 25 36 50 (-5) mono_lattice_cell ltac:(lra) ltac:(lra)) as (n & T0 & u & A' & B' & C' & D' & E' & F' & RY & _).
    pose proof (re_iso _ _ _ _ _ _ _ _ _ _ _ _ _ RY) as X. rewrite MofZ_id, Mmul_id_r in X. intro r. rewrite <- X. split; intro Hr.
    - rewrite (axis_commutes g g r GS GG Hr). exact Hr.
    - pose proof (axis_commutes g g _ GS GG Hr) as Y. rewrite (conj_conj g r g GG GG) in Y. rewrite Y. exact Hr. }
  intros r t. rewrite (grid_group 60 pts ltac:(lia) 5 g g (holo_rots mP) (group_ops sym codes) (lattice_isometry mono_lattice) k0 e0 eq_refl ltac:(rewrite EP; now left) GG ISO Q4 Q r t).
  split.
  - intros (o & Ho & A). unfold group_ops in Ho. apply in_map_iff in Ho. destruct Ho as (code & <- & H). exists code. split; [exact H|]. apply (along_conj_inv g g); [exact GG|exact A].
  - intros (code & H & A). apply (along_conj_inv g g) in A; [|exact GG]. exists (code_op (has_char "A"%char sym) code). split; [now apply in_map|exact A].
Qed.

(** ** A triclinic cell *)
Definition tri_lattice : mat R := M 5 (-1) (-1) 0 6 (-1) 0 0 7.
Lemma tri_not_flat : not_flat tri_lattice.
Proof. intro v. destruct v as [x y z]. unfold Vnorm. apply sqrt_le_1_alt. unfold Vdot, Mapp, tri_lattice. cbn [vx vy vz m11 m12 m13 m21 m22 m23 m31 m32 m33].
  assert (0 <= (5 * x - y - z) * (5 * x - y - z) + (6 * y - z) * (6 * y - z) + 49 * (z * z) - (x * x + y * y + z * z)); [|lra].
  assert (E : (5 * x - y - z) * (5 * x - y - z) + (6 * y - z) * (6 * y - z) + 49 * (z * z) - (x * x + y * y + z * z) = 24 * ((x - 5 / 24 * (y + z)) * (x - 5 / 24 * (y + z))) + (36 - 25 / 24) * (y * y) + (50 - 25 / 24) * (z * z) - (10 + 50 / 24) * (y * z)) by field. rewrite E.
  pose proof (Rle_0_sqr (x - 5 / 24 * (y + z))) as S1. pose proof (Rle_0_sqr (y - z)) as S2. pose proof (Rle_0_sqr y) as S3. pose proof (Rle_0_sqr z) as S4. unfold Rsqr in *. lra.
Qed.
Lemma tri_eps : 0 < metric_tolerance tri_lattice <= 1 / 10000.
Proof. unfold metric_tolerance. apply small_eps. unfold Mdet, tri_lattice. cbn [m11 m12 m13 m21 m22 m23 m31 m32 m33]. rewrite Rabs_pos_eq; lra. Qed.
Lemma tri_metric : Mmul (Mtr (Mmul tri_lattice (MofZ ZMid))) (Mmul tri_lattice (MofZ ZMid)) = metric 25 37 51 (-5) (-5) (-5).
Proof. rewrite MofZ_id, Mmul_id_r. unfold metric, Mmul, Mtr, tri_lattice. cbn [m11 m12 m13 m21 m22 m23 m31 m32 m33]. apply (@mat_ext R); cbn [m11 m12 m13 m21 m22 m23 m31 m32 m33]; lra. Qed.
Lemma tri_reduced : strictly_reduced (metric_tolerance tri_lattice) 25 37 51 (-5) (-5) (-5).
Proof. pose proof tri_eps as He. constructor; [lra|lra|]. right. unfold zero_or_below. repeat (split; [lra|]). lra. Qed.
Lemma tri_angles : no_two_zero (-5) (-5) (-5). Proof. unfold no_two_zero. lra. Qed.
(** three atoms with an inversion centre, and without *)
Definition centred : list (vec Z * string) := [(V 0 0 0, "Na"); (V 6 9 13, "Cl"); (V 54 51 47, "Cl")]%Z%string.
Definition uncentred : list (vec Z * string) := [(V 0 0 0, "Na"); (V 6 9 13, "Cl"); (V 20 7 31, "O")]%Z%string.
Lemma lone_first m pts x e : (0 < m)%Z -> forallb (fun p => if String.eqb (snd p) e then zmat_eqb (zdiag (vx (fst p)) (vy (fst p)) (vz (fst p))) (zdiag (vx x) (vy x) (vz x)) else true) pts = true -> In (x, e) pts ->
  forall t, exact_operation (grid_sites m pts) ZMid t -> exists n, t = VofZ n.
Proof.
  intros Hm Q Hx t EX. destruct (lone_site_primitive (grid_sites m pts) (fracM m x) e) with (t := t) as (n & ->); [apply in_map_iff; exists (x, e); split; [reflexivity|exact Hx]| |exact EX|].
  - intros y Hy. unfold grid_sites in Hy. apply in_map_iff in Hy. destruct Hy as ([k e'] & E & Hk). cbn [fst snd] in E. injection E as E1 E2. subst e' y. pose proof (proj1 (forallb_forall _ _) Q _ Hk) as K. cbn [fst snd] in K. rewrite String.eqb_refl in K. apply zmat_eqb_spec in K. unfold zdiag in K. injection K as K1 K2 K3. destruct k as [k1 k2 k3], x as [x1 x2 x3]. cbn [vx vy vz] in *. subst. reflexivity.
  - exists n. apply (@vec_ext R); unfold Vadd, V0, VofZ; cbn [vx vy vz]; lra.
Qed.
Lemma centred_primitive t : exact_operation (grid_sites 60 centred) ZMid t -> exists n, t = VofZ n. Proof. apply (lone_first 60 centred (V 0 0 0)%Z "Na"); [lia|reflexivity|left; reflexivity]. Qed.
Lemma uncentred_primitive t : exact_operation (grid_sites 60 uncentred) ZMid t -> exists n, t = VofZ n. Proof. apply (lone_first 60 uncentred (V 0 0 0)%Z "Na"); [lia|reflexivity|left; reflexivity]. Qed.
Lemma centred_fractions : fractions_of 60 (grid_sites 60 centred). Proof. apply grid_fractions; [lia|vm_compute; reflexivity]. Qed.
Lemma uncentred_fractions : fractions_of 60 (grid_sites 60 uncentred). Proof. apply grid_fractions; [lia|vm_compute; reflexivity]. Qed.
Lemma centred_inverted : exact_operation (grid_sites 60 centred) inverted V0.
Proof. replace V0 with (fracM 60 (V 0 0 0)%Z) by (unfold fracM, V0; cbn [vx vy vz]; f_equal; lra). apply (grid_op_spec 60 centred ltac:(lia)). vm_compute. reflexivity. Qed.
Lemma uncentred_inverted t : ~ exact_operation (grid_sites 60 uncentred) inverted t.
Proof.
  intro EX. destruct (grid_exact_only 60 uncentred ltac:(lia) inverted t (V 0 0 0)%Z "Na" (or_introl eq_refl) EX) as (k & Hk & _ & GO). cbn [uncentred In] in Hk.
  destruct Hk as [Q|[Q|[Q|[]]]]; try discriminate Q. injection Q as <-. vm_compute in GO. discriminate GO.
Qed.
