(** Hexagonal lattices: bounds, the cells the run goes through, and the tabulated groups *)
From Coq Require Import ZArith Reals String Ascii List Bool Lia Lra Psatz Permutation.
From Flocq Require Import Core.
From Verif Require Import Num Mat Utils DataCore DataPG DataSG SymmOp PointGroup SpaceGroup Structure Reduce Analyzer RInst Spec Spec2 Spec3 Spec5 Spec6 RFacts
  PUtils PSymmOp PStructure PStructure2 PStructure3 PNiggli PDelaunay PPrim PPrim2 PLattice PAnalyzer PAnalyzer2 PPointGroup PPointGroup2 PSpaceGroup PSpaceGroup2 PCode PTables PIdentify
  PSearch PSearch3 PSearch4 PSearch6 PSearch7 PEnd PEnd2 PEnd3 PEnd4 PEnd11 PEnd12 PEnd13 PEnd14 PEnd15 Prop5 PRun PRun2 PHex PHex2.
Import ListNotations.
Open Scope R_scope.

(** ** Integer matrices with small entries *)
Definition small (k : Z) (m : mat Z) : Prop := entries_within (- k) k m.
Definition smallb (k : Z) (m : mat Z) : bool := forallb (fun z => (Z.abs z <=? k)%Z) (mlist m).
Lemma smallb_spec k m : smallb k m = true -> small k m.
Proof.
  unfold smallb, mlist, small, entries_within. cbn [forallb]. intro H.
  rewrite !andb_true_iff, !Z.leb_le in H. destruct H as (H1 & H2 & H3 & H4 & H5 & H6 & H7 & H8 & H9 & _). repeat split; lia.
Qed.
Lemma zprod3 j k a b c x y z : (0 <= j -> 0 <= k -> - j <= a <= j -> - j <= b <= j -> - j <= c <= j -> - k <= x <= k -> - k <= y <= k -> - k <= z <= k -> - (3 * j * k) <= a * x + b * y + c * z <= 3 * j * k)%Z.
Proof. intros. assert (P : forall p q, (- j <= p <= j -> - k <= q <= k -> - (j * k) <= p * q <= j * k)%Z) by (intros; nia). pose proof (P a x ltac:(lia) ltac:(lia)). pose proof (P b y ltac:(lia) ltac:(lia)). pose proof (P c z ltac:(lia) ltac:(lia)). lia. Qed.
Lemma small_mul j k a b : (0 <= j)%Z -> (0 <= k)%Z -> small j a -> small k b -> small (3 * j * k) (ZMmul a b).
Proof.
  intros Hj Hk. destruct a as [a1 a2 a3 a4 a5 a6 a7 a8 a9], b as [b1 b2 b3 b4 b5 b6 b7 b8 b9]. unfold small, entries_within, ZMmul. cbn [m11 m12 m13 m21 m22 m23 m31 m32 m33]. intros Ha Hb.
  repeat split; apply (zprod3 j k); lia.
Qed.
Lemma small_norm k Y v : (0 <= k)%Z -> small k Y -> Vnorm (Mapp (MofZ Y) v) <= 3 * IZR k * Vnorm v.
Proof.
  intros Hk HY. assert (Pk : 0 <= IZR k) by (apply (IZR_le 0), Hk). rewrite <- (Rabs_pos_eq (3 * IZR k)) by lra. rewrite <- Vnorm_scal. unfold Vnorm. apply sqrt_le_1_alt.
  destruct v as [x y z], Y as [a1 a2 a3 a4 a5 a6 a7 a8 a9]. unfold small, entries_within in HY. cbn [m11 m12 m13 m21 m22 m23 m31 m32 m33] in HY.
  set (K := IZR k) in *. assert (B : forall a, (- k <= a <= k)%Z -> - K <= IZR a <= K) by (intros a [H1 H2]; apply IZR_le in H1, H2; rewrite opp_IZR in H1; auto).
  assert (R : forall p q r, - K <= p <= K -> - K <= q <= K -> - K <= r <= K -> (p * x + q * y + r * z) * (p * x + q * y + r * z) <= 3 * (K * K) * (x * x + y * y + z * z)).
  { intros p q r Hp Hq Hr. assert (C1 : (p * x + q * y + r * z) * (p * x + q * y + r * z) <= (p * p + q * q + r * r) * (x * x + y * y + z * z)).
    { assert (0 <= (p * y - q * x) * (p * y - q * x)) by apply Rle_0_sqr. assert (0 <= (p * z - r * x) * (p * z - r * x)) by apply Rle_0_sqr. assert (0 <= (q * z - r * y) * (q * z - r * y)) by apply Rle_0_sqr. lra. }
    assert (Sx : forall t, 0 <= t * t) by (intro; apply Rle_0_sqr). assert (SK : forall t, - K <= t <= K -> t * t <= K * K) by (intros; nra).
    pose proof (SK p Hp). pose proof (SK q Hq). pose proof (SK r Hr). apply (Rle_trans _ _ _ C1). apply Rmult_le_compat_r; [pose proof (Sx x); pose proof (Sx y); pose proof (Sx z); lra|lra]. }
  unfold Vdot, Vscal, Mapp, MofZ, mmap. cbn [vx vy vz m11 m12 m13 m21 m22 m23 m31 m32 m33].
  pose proof (R (IZR a1) (IZR a2) (IZR a3) (B a1 ltac:(lia)) (B a2 ltac:(lia)) (B a3 ltac:(lia))). pose proof (R (IZR a4) (IZR a5) (IZR a6) (B a4 ltac:(lia)) (B a5 ltac:(lia)) (B a6 ltac:(lia))).
  pose proof (R (IZR a7) (IZR a8) (IZR a9) (B a7 ltac:(lia)) (B a8 ltac:(lia)) (B a9 ltac:(lia))). lra.
Qed.
Lemma Zinv_unique a b c : ZMmul a b = ZMid -> ZMmul a c = ZMid -> b = c.
Proof. intros HB HC. apply MofZ_eq_from_action. intro v. rewrite <- (app_inv b a (Mapp (MofZ c) v) (zinv_comm _ _ HB)). now rewrite (app_inv a c v HC). Qed.
Definition zinv (m : mat Z) : mat Z := if (ZMdet m =? 1)%Z then zadj m else mmap Z.opp (zadj m).
Lemma zinv_r m : ZMdet m = 1%Z \/ ZMdet m = (-1)%Z -> ZMmul m (zinv m) = ZMid.
Proof.
  intro H. unfold zinv. destruct (Z.eqb_spec (ZMdet m) 1) as [E|E]; [rewrite zadj_r, E; reflexivity|]. destruct H as [H|H]; [contradiction|]. pose proof (zadj_r m) as Q. rewrite H in Q.
  destruct m as [p q r s t u v w x]. revert Q. unfold ZMmul, zadj, mmap, ZMid. cbn [m11 m12 m13 m21 m22 m23 m31 m32 m33]. intro Q. injection Q as Q1 Q2 Q3 Q4 Q5 Q6 Q7 Q8 Q9. f_equal; lia.
Qed.
Lemma small_adj u : small 1 u -> small 2 (zadj u).
Proof.
  destruct u as [p q r s t u v w x]. unfold small, entries_within, zadj. cbn [m11 m12 m13 m21 m22 m23 m31 m32 m33]. intro H.
  assert (P : forall a b, (-1 <= a <= 1 -> -1 <= b <= 1 -> -1 <= a * b <= 1)%Z) by (intros; nia).
  repeat split; match goal with |- context [(?a * ?b - ?c * ?d)%Z] => pose proof (P a b ltac:(lia) ltac:(lia)); pose proof (P c d ltac:(lia) ltac:(lia)); lia end.
Qed.
Lemma small_opp k m : small k m -> small k (mmap Z.opp m).
Proof. destruct m. unfold small, entries_within, mmap. cbn. lia. Qed.
Lemma small_inv u ui : ZMdet u = 1%Z \/ ZMdet u = (-1)%Z -> small 1 u -> ZMmul u ui = ZMid -> small 2 ui.
Proof.
  intros D S E. rewrite (Zinv_unique u ui (zinv u) E (zinv_r u D)). unfold zinv. destruct (ZMdet u =? 1)%Z; [|apply small_opp]; now apply small_adj.
Qed.
Lemma dirs_small : forallb (fun y => if (Z.abs (vx y) <=? 1)%Z then if (Z.abs (vy y) <=? 1)%Z then (Z.abs (vz y) <=? 1)%Z else false else false) dirs26 = true.
Proof. vm_compute. reflexivity. Qed.
Lemma dirs_small_cols y1 y2 y3 : In y1 dirs26 -> In y2 dirs26 -> In y3 dirs26 -> small 1 (zcols y1 y2 y3).
Proof.
  assert (G : forall y, In y dirs26 -> (-1 <= vx y <= 1 /\ -1 <= vy y <= 1 /\ -1 <= vz y <= 1)%Z).
  { intros y H. pose proof (proj1 (forallb_forall _ _) dirs_small y H) as Q. cbv beta in Q.
    destruct (Z.leb_spec (Z.abs (vx y)) 1); [|discriminate]. destruct (Z.leb_spec (Z.abs (vy y)) 1); [|discriminate]. apply Z.leb_le in Q. lia. }
  intros H1 H2 H3. apply G in H1, H2, H3. unfold small, entries_within, zcols. cbn [m11 m12 m13 m21 m22 m23 m31 m32 m33]. lia.
Qed.

(** ** Distances in a hexagonal lattice *)
Lemma hex_norm L A C m v : gram L = hexm A C -> 0 <= m -> m * m <= A -> m * m <= C -> 7 / 10 * m * Vnorm v <= Vnorm (Mapp L v).
Proof.
  intros E Hm HA HC. rewrite <- (Rabs_pos_eq (7 / 10 * m)) by lra. rewrite <- Vnorm_scal. unfold Vnorm. apply sqrt_le_1_alt.
  rewrite (hex_dot L A C _ _ E). destruct v as [x y z]. unfold Vdot, Vscal. cbn [vx vy vz].
  assert (Px : 0 <= x * x) by apply Rle_0_sqr. assert (Py : 0 <= y * y) by apply Rle_0_sqr. assert (Pz : 0 <= z * z) by apply Rle_0_sqr. assert (Pd : 0 <= (x - y) * (x - y)) by apply Rle_0_sqr.
  assert (0 <= m * m) by apply Rle_0_sqr. assert (X1 : m * m * (x * x) <= A * (x * x)) by (now apply Rmult_le_compat_r). assert (X2 : m * m * (y * y) <= A * (y * y)) by (now apply Rmult_le_compat_r).
  assert (X3 : m * m * (z * z) <= C * (z * z)) by (now apply Rmult_le_compat_r). assert (X4 : 0 <= A * ((x - y) * (x - y))) by (apply Rmult_le_pos; lra).
  assert (0 <= m * m * (x * x)) by (now apply Rmult_le_pos). assert (0 <= m * m * (y * y)) by (now apply Rmult_le_pos). assert (0 <= m * m * (z * z)) by (now apply Rmult_le_pos). lra.
Qed.
Lemma hex_det2 L A C : gram L = hexm A C -> Mdet L * Mdet L = 3 / 4 * (A * A * C).
Proof.
  intro E. assert (G : Mdet (gram L) = Mdet L * Mdet L) by (unfold gram; rewrite Mdet_mul; f_equal; destruct L; unfold Mdet, Mtr; cbn; ring). rewrite <- G, E. unfold hexm, Mdet. cbn [m11 m12 m13 m21 m22 m23 m31 m32 m33]. field.
Qed.

(** the matrices of the hexagonal holohedry *)
Definition hexrots : list (mat Z) := Eval vm_compute in holo_rots hP.
Lemma hexrots_eq : holo_rots hP = hexrots. Proof. vm_compute. reflexivity. Qed.

(** ** Finite facts about the two choices of shortest vectors *)
Definition quads : list (Z * Z * Z) := [(1, 1, 1); (1, -1, -1); (-1, 1, -1); (-1, -1, 1)]%Z.
Lemma quads_in i j k : pm1 i -> pm1 j -> pm1 k -> (i * j * k = 1)%Z -> In (i, j, k) quads.
Proof. intros [-> | ->] [-> | ->] [-> | ->] H; try discriminate H; cbn; tauto. Qed.
Definition T22 : mat Z := (M 0 1 0 0 0 1 1 0 0)%Z.
(** what the run does with the chosen vectors [v], once the signs [t] have been applied *)
Definition cell_ok (hr : list (mat Z)) (v t tt : mat Z) : bool :=
  let w := zinv v in
  if mem_rot (ZMmul (ZMmul v t) tt) hr then if smallb 1 w then if smallb 1 (ZMmul t w) then smallb 1 (ZMmul (ZMmul (ZMmul t tt) t) w) else false else false else false.
Definition long_check : bool := let hr := hexrots in
  forallb (fun v1 => forallb (fun v2 => forallb (fun z => let v3 := (V 0 0 z)%Z in let v := zcols v1 v2 v3 in
    if (ZMdet v =? 0)%Z then true else
    if (hb v1 v1 =? 2)%Z then if (hb v2 v2 =? 2)%Z then if if (hb v1 v2 =? 1)%Z then true else (hb v1 v2 =? -1)%Z then if (vz v1 =? 0)%Z then if (vz v2 =? 0)%Z then
    forallb (fun q => let '(i, j, k) := q in if (k * hb v1 v2 =? -1)%Z then cell_ok hr v (zdiag i j k) ZMid else true) quads else false else false else false else false else false) [1; -1]%Z) six) six.
Definition short_check : bool := let hr := hexrots in
  forallb (fun v2 => forallb (fun v3 => forallb (fun z => let v1 := (V 0 0 z)%Z in let v := zcols v1 v2 v3 in
    if (ZMdet v =? 0)%Z then true else
    if (hb v2 v2 =? 2)%Z then if (hb v3 v3 =? 2)%Z then if if (hb v2 v3 =? 1)%Z then true else (hb v2 v3 =? -1)%Z then if (vz v2 =? 0)%Z then if (vz v3 =? 0)%Z then
    forallb (fun q => let '(i, j, k) := q in if (i * hb v2 v3 =? -1)%Z then cell_ok hr v (zdiag i j k) (transpose T22) else true) quads else false else false else false else false else false) [1; -1]%Z) six) six.
Lemma long_checked : long_check = true. Proof. vm_compute. reflexivity. Qed.
Lemma short_checked : short_check = true. Proof. vm_compute. reflexivity. Qed.
Record cell_fit (v t tt : mat Z) : Prop := { cf_h : In (ZMmul (ZMmul v t) tt) (hexrots); cf_1 : small 1 (zinv v); cf_2 : small 1 (ZMmul t (zinv v)); cf_3 : small 1 (ZMmul (ZMmul (ZMmul t tt) t) (zinv v)) }.
Lemma cell_ok_fit v t tt : cell_ok (hexrots) v t tt = true -> cell_fit v t tt.
Proof.
  unfold cell_ok. cbv zeta. destruct (mem_rot _ _) eqn:E1; [|discriminate]. destruct (smallb 1 (zinv v)) eqn:E2; [|discriminate]. destruct (smallb 1 (ZMmul t (zinv v))) eqn:E3; [|discriminate]. intro E4.
  constructor; [now apply mem_rot_In|now apply smallb_spec|now apply smallb_spec|now apply smallb_spec].
Qed.
Lemma pm_z z : (z = 1 \/ z = -1)%Z -> In z [1; -1]%Z. Proof. intros [-> | ->]; cbn; tauto. Qed.
Lemma long_fit v1 v2 z : In v1 six -> In v2 six -> (z = 1 \/ z = -1)%Z -> zdet v1 v2 (V 0 0 z)%Z <> 0%Z ->
  hb v1 v1 = 2%Z /\ hb v2 v2 = 2%Z /\ (hb v1 v2 = 1%Z \/ hb v1 v2 = (-1)%Z) /\ vz v1 = 0%Z /\ vz v2 = 0%Z /\
  forall i j k, pm1 i -> pm1 j -> pm1 k -> (i * j * k = 1)%Z -> (k * hb v1 v2 = -1)%Z -> cell_fit (zcols v1 v2 (V 0 0 z)%Z) (zdiag i j k) ZMid.
Proof.
  intros H1 H2 Hz D. pose proof long_checked as Q. unfold long_check in Q. cbv zeta in Q. pose proof (proj1 (forallb_forall _ _) Q v1 H1) as Q1. cbv beta in Q1. pose proof (proj1 (forallb_forall _ _) Q1 v2 H2) as Q2. cbv beta in Q2.
  pose proof (proj1 (forallb_forall _ _) Q2 z (pm_z z Hz)) as Q3. cbv beta in Q3. clear Q Q1 Q2. destruct (Z.eqb_spec (ZMdet (zcols v1 v2 (V 0 0 z)%Z)) 0) as [E|_]; [contradiction|].
  destruct (Z.eqb_spec (hb v1 v1) 2) as [E1|_]; [|discriminate Q3]. destruct (Z.eqb_spec (hb v2 v2) 2) as [E2|_]; [|discriminate Q3].
  assert (E3 : hb v1 v2 = 1%Z \/ hb v1 v2 = (-1)%Z). { destruct (Z.eqb_spec (hb v1 v2) 1); [auto|]. destruct (Z.eqb_spec (hb v1 v2) (-1)); [auto|discriminate Q3]. }
  replace (if (hb v1 v2 =? 1)%Z then true else (hb v1 v2 =? -1)%Z) with true in Q3 by (destruct E3 as [-> | ->]; reflexivity).
  destruct (Z.eqb_spec (vz v1) 0) as [E4|_]; [|discriminate Q3]. destruct (Z.eqb_spec (vz v2) 0) as [E5|_]; [|discriminate Q3]. split; [exact E1|split; [exact E2|split; [exact E3|split; [exact E4|split; [exact E5|]]]]].
  intros i j k Hi Hj Hk P S. pose proof (proj1 (forallb_forall _ _) Q3 _ (quads_in i j k Hi Hj Hk P)) as Q4. cbv beta iota in Q4. rewrite S in Q4. apply cell_ok_fit; exact Q4.
Qed.
Lemma short_fit v2 v3 z : In v2 six -> In v3 six -> (z = 1 \/ z = -1)%Z -> zdet (V 0 0 z)%Z v2 v3 <> 0%Z ->
  hb v2 v2 = 2%Z /\ hb v3 v3 = 2%Z /\ (hb v2 v3 = 1%Z \/ hb v2 v3 = (-1)%Z) /\ vz v2 = 0%Z /\ vz v3 = 0%Z /\
  forall i j k, pm1 i -> pm1 j -> pm1 k -> (i * j * k = 1)%Z -> (i * hb v2 v3 = -1)%Z -> cell_fit (zcols (V 0 0 z)%Z v2 v3) (zdiag i j k) (transpose T22).
Proof.
  intros H1 H2 Hz D. pose proof short_checked as Q. unfold short_check in Q. cbv zeta in Q. pose proof (proj1 (forallb_forall _ _) Q v2 H1) as Q1. cbv beta in Q1. pose proof (proj1 (forallb_forall _ _) Q1 v3 H2) as Q2. cbv beta in Q2.
  pose proof (proj1 (forallb_forall _ _) Q2 z (pm_z z Hz)) as Q3. cbv beta in Q3. clear Q Q1 Q2. destruct (Z.eqb_spec (ZMdet (zcols (V 0 0 z)%Z v2 v3)) 0) as [E|_]; [contradiction|].
  destruct (Z.eqb_spec (hb v2 v2) 2) as [E1|_]; [|discriminate Q3]. destruct (Z.eqb_spec (hb v3 v3) 2) as [E2|_]; [|discriminate Q3].
  assert (E3 : hb v2 v3 = 1%Z \/ hb v2 v3 = (-1)%Z). { destruct (Z.eqb_spec (hb v2 v3) 1); [auto|]. destruct (Z.eqb_spec (hb v2 v3) (-1)); [auto|discriminate Q3]. }
  replace (if (hb v2 v3 =? 1)%Z then true else (hb v2 v3 =? -1)%Z) with true in Q3 by (destruct E3 as [-> | ->]; reflexivity).
  destruct (Z.eqb_spec (vz v2) 0) as [E4|_]; [|discriminate Q3]. destruct (Z.eqb_spec (vz v3) 0) as [E5|_]; [|discriminate Q3]. split; [exact E1|split; [exact E2|split; [exact E3|split; [exact E4|split; [exact E5|]]]]].
  intros i j k Hi Hj Hk P S. pose proof (proj1 (forallb_forall _ _) Q3 _ (quads_in i j k Hi Hj Hk P)) as Q4. cbv beta iota in Q4. rewrite S in Q4. apply cell_ok_fit; exact Q4.
Qed.
Lemma char_rows : am_get Z.eqb 12%Z LATTICE_CHAR_TO_BRAVAIS = Some hP /\ am_get Z.eqb 12%Z LATTICE_CHAR_TO_CONV_TRANS = Some ZMid /\
  am_get Z.eqb 22%Z LATTICE_CHAR_TO_BRAVAIS = Some hP /\ am_get Z.eqb 22%Z LATTICE_CHAR_TO_CONV_TRANS = Some T22 /\ bravais_centering hP = Ok CP /\ bravais_lattice_system hP = Ok Hexagonal.
Proof. vm_compute. repeat split. Qed.

(** ** Tabulated groups do not change when the hexagonal axes are renamed *)
Definition conj_opi (w : mat Z) (o : zop) : zop := (conj (zinv w) (fst o) w, ZMapp (zinv w) (snd o)).
Definition handed6 : list Z := [144; 145; 169; 170; 171; 172]%Z.
Definition hex_invariant (hr : list (mat Z)) (e : lattice_system * Z * Z * list Z) : bool :=
  let '(ls, _, N, codes) := e in
  if existsb (Z.eqb N) not_closed then true else
  match ls with
  | Hexagonal =>
      match entry_ops N codes with
      | Some l => forallb (fun w => if if (ZMdet w =? 1)%Z then false else existsb (Z.eqb N) handed6 then true else forallb (fun o => ex_if (zop_eq (conj_opi w o)) l) l) hr
      | None => false
      end
  | _ => true
  end.
Lemma hex_invariant_checked : let hr := hexrots in forallb (hex_invariant hr) sg_entries = true.
Proof. vm_compute. reflexivity. Qed.
Lemma hex_table order N codes sym w o : In (Hexagonal, order, N, codes) sg_entries -> am_get Z.eqb N SG_NUM_TO_SYMBOL = Some sym -> ~ In N not_closed ->
  In w (hexrots) -> ZMdet w = 1%Z \/ ~ In N handed6 -> In o (group_ops sym codes) -> exists o', In o' (group_ops sym codes) /\ same_op (conj_opi w o) o'.
Proof.
  intros HT ES NC Hw HD Ho. pose proof hex_invariant_checked as Q0. cbv zeta in Q0. pose proof (proj1 (forallb_forall _ _) Q0 _ HT) as Q. clear Q0. unfold hex_invariant in Q. rewrite (not_in_handed _ _ NC) in Q.
  assert (EO : entry_ops N codes = Some (group_ops sym codes)) by (unfold entry_ops; rewrite ES; reflexivity). rewrite EO in Q.
  pose proof (proj1 (forallb_forall _ _) Q w Hw) as K. cbn beta in K. replace (if (ZMdet w =? 1)%Z then false else existsb (Z.eqb N) handed6) with false in K.
  - pose proof (proj1 (forallb_forall _ _) K o Ho) as K'. cbn beta in K'. rewrite ex_if_existsb in K'. apply existsb_exists in K'. destruct K' as (o' & Ho' & E). exists o'. split; [exact Ho'|apply same_op_eq; exact E].
  - destruct HD as [-> |HD]; [reflexivity|]. rewrite (not_in_handed _ _ HD). now destruct (ZMdet w =? 1)%Z.
Qed.
(** the rows of the fourteen isometries are short, and they form a group *)
Lemma hex_group_checked : let hr := hexrots in forallb (fun r => if smallb 1 r then if (Z.abs (m11 r) + Z.abs (m12 r) + Z.abs (m13 r) <=? 2)%Z then if (Z.abs (m21 r) + Z.abs (m22 r) + Z.abs (m23 r) <=? 2)%Z then
  if (Z.abs (m31 r) + Z.abs (m32 r) + Z.abs (m33 r) <=? 2)%Z then if mem_rot (zinv r) hr then if if (ZMdet r =? 1)%Z then true else (ZMdet r =? -1)%Z then forallb (fun q => mem_rot (ZMmul r q) hr) hr else false else false else false else false else false else false) hr = true.
Proof. vm_compute. reflexivity. Qed.
Lemma hex_group r : In r (hexrots) -> small 1 r /\ (Z.abs (m11 r) + Z.abs (m12 r) + Z.abs (m13 r) <= 2 /\ Z.abs (m21 r) + Z.abs (m22 r) + Z.abs (m23 r) <= 2 /\ Z.abs (m31 r) + Z.abs (m32 r) + Z.abs (m33 r) <= 2)%Z /\
  In (zinv r) (hexrots) /\ (ZMdet r = 1%Z \/ ZMdet r = (-1)%Z) /\ forall q, In q (hexrots) -> In (ZMmul r q) (hexrots).
Proof.
  intro Hr. pose proof hex_group_checked as Q0. cbv zeta in Q0. pose proof (proj1 (forallb_forall _ _) Q0 r Hr) as Q. cbv beta in Q. clear Q0.
  destruct (smallb 1 r) eqn:E1; [|discriminate Q]. destruct (Z.leb_spec (Z.abs (m11 r) + Z.abs (m12 r) + Z.abs (m13 r)) 2); [|discriminate Q]. destruct (Z.leb_spec (Z.abs (m21 r) + Z.abs (m22 r) + Z.abs (m23 r)) 2); [|discriminate Q].
  destruct (Z.leb_spec (Z.abs (m31 r) + Z.abs (m32 r) + Z.abs (m33 r)) 2); [|discriminate Q]. destruct (mem_rot (zinv r) _) eqn:E2; [|discriminate Q].
  split; [now apply smallb_spec|]. split; [auto|]. split; [now apply mem_rot_In|]. split.
  - destruct (Z.eqb_spec (ZMdet r) 1); [auto|]. destruct (Z.eqb_spec (ZMdet r) (-1)); [auto|discriminate Q].
  - destruct (if (ZMdet r =? 1)%Z then true else (ZMdet r =? -1)%Z); [|discriminate Q]. intros q Hq. apply mem_rot_In. exact (proj1 (forallb_forall _ _) Q q Hq).
Qed.
