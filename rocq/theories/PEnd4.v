(** One atom in an orthogonal box: the whole run (analyzer.rs 36-162) *)
From Coq Require Import ZArith Reals String Ascii List Bool Lia Lra Psatz Permutation.
From Flocq Require Import Core.
From Verif Require Import Num Mat Utils DataCore SymmOp PointGroup SpaceGroup Structure Reduce Analyzer RInst Spec Spec2 Spec3 RFacts
  PUtils PSymmOp PStructure PStructure2 PStructure3 PNiggli PDelaunay PPrim PPrim2 PLattice PAnalyzer PAnalyzer2 PPointGroup PPointGroup2 PTables PSearch4 PSearch6 PSearch7 PEnd PEnd2 PEnd3 Prop5.
Import ListNotations.
Open Scope R_scope.

Definition diag (a b c : R) : mat R := M a 0 0 0 b 0 0 0 c.
Definition units6 : list (vec Z) := [V 1 0 0; V 0 1 0; V 0 0 1; V (-1) 0 0; V 0 (-1) 0; V 0 0 (-1)]%Z.
(** the 48 matrices with one entry of 1 or -1 in each row and column *)
Definition signed : list (mat Z) := Eval vm_compute in holo_rots cP.
Lemma signed_holo : holo_rots cP = signed. Proof. vm_compute. reflexivity. Qed.
Lemma signed_units : forallb (fun u => forallb (fun v => forallb (fun w => if (zdet u v w =? 0)%Z then true else mem_rot (zcols u v w) signed) units6) units6) units6 = true.
Proof. vm_compute. reflexivity. Qed.
Lemma unit_case z : In z units6 -> (vx z * vx z = 1 /\ vy z = 0 /\ vz z = 0)%Z \/ (vx z = 0 /\ vy z * vy z = 1 /\ vz z = 0)%Z \/ (vx z = 0 /\ vy z = 0 /\ vz z * vz z = 1)%Z.
Proof. intro H. unfold units6 in H. cbn [In] in H. destruct H as [<-|[<-|[<-|[<-|[<-|[<-|[]]]]]]]; cbn [vx vy vz]; lia. Qed.
Lemma nrm_diag a b c z : nrm (diag a b c) z = a * a * (IZR (vx z) * IZR (vx z)) + b * b * (IZR (vy z) * IZR (vy z)) + c * c * (IZR (vz z) * IZR (vz z)).
Proof. unfold nrm, col, diag, Vdot, Mapp, VofZ. cbn. ring. Qed.
Definition dpair (a b c : R) (u v : vec Z) : R := a * a * (IZR (vx u) * IZR (vx v)) + b * b * (IZR (vy u) * IZR (vy v)) + c * c * (IZR (vz u) * IZR (vz v)).
Lemma gram_diag a b c u v w : gram (Mmul (diag a b c) (MofZ (zcols u v w))) =
  M (dpair a b c u u) (dpair a b c u v) (dpair a b c u w) (dpair a b c u v) (dpair a b c v v) (dpair a b c v w) (dpair a b c u w) (dpair a b c v w) (dpair a b c w w).
Proof.
  destruct u as [u1 u2 u3], v as [v1 v2 v3], w as [w1 w2 w3].
  replace (Mmul (diag a b c) (MofZ (zcols (V u1 u2 u3) (V v1 v2 v3) (V w1 w2 w3)))) with
    (M (a * IZR u1) (a * IZR v1) (a * IZR w1) (b * IZR u2) (b * IZR v2) (b * IZR w2) (c * IZR u3) (c * IZR v3) (c * IZR w3)).
  - unfold gram, Mmul, Mtr, dpair. cbn [m11 m12 m13 m21 m22 m23 m31 m32 m33 vx vy vz]. apply mat_ext; cbn [m11 m12 m13 m21 m22 m23 m31 m32 m33]; ring.
  - unfold zcols, MofZ, mmap, diag, Mmul. cbn [m11 m12 m13 m21 m22 m23 m31 m32 m33 vx vy vz]. apply mat_ext; cbn [m11 m12 m13 m21 m22 m23 m31 m32 m33]; ring.
Qed.
Lemma dirs26_unit z A B C : 0 < A -> 0 < B -> 0 < C -> In z dirs26 ->
  let f z := A * (IZR (vx z) * IZR (vx z)) + B * (IZR (vy z) * IZR (vy z)) + C * (IZR (vz z) * IZR (vz z)) in
  In z units6 \/ ((vx z <> 0%Z -> A < f z) /\ (vy z <> 0%Z -> B < f z) /\ (vz z <> 0%Z -> C < f z)).
Proof.
  intros HA HB HC Hz f. unfold f. unfold dirs26, dirs13, zneg in Hz. cbn [app map vx vy vz Z.opp] in Hz.
  repeat (destruct Hz as [<-|Hz]; [first [left; unfold units6; cbn [In]; solve [repeat (first [left; reflexivity | right])]|right]; cbn [vx vy vz]; (repeat split); intro Q; try (exfalso; apply Q; reflexivity); lra|]). contradiction Hz.
Qed.
Lemma e1_in : In e1 dirs26. Proof. apply e_in. now left. Qed.
Lemma e2_in : In e2 dirs26. Proof. apply e_in. right. now left. Qed.
Lemma e3_in : In e3 dirs26. Proof. apply e_in. right. right. now left. Qed.
Section Axes.
  Context (a b c : R) (Ha : 0 < a) (Hb : 0 < b) (Hc : 0 < c) (y1 y2 y3 : vec Z).
  Hypothesis (I1 : In y1 dirs26) (I2 : In y2 dirs26) (I3 : In y3 dirs26) (S3 : shortest3 (diag a b c) y1 y2 y3) (D : zdet y1 y2 y3 <> 0%Z).
  Lemma sq_pos x : 0 < x -> 0 < x * x. Proof. intro. nra. Qed.
  Lemma e_nrm : nrm (diag a b c) e1 = a * a /\ nrm (diag a b c) e2 = b * b /\ nrm (diag a b c) e3 = c * c.
  Proof. rewrite !nrm_diag. unfold e1, e2, e3. cbn. repeat split; ring. Qed.
  Lemma axis1 : In y1 units6.
  Proof.
    destruct S3 as (S & _ & _). destruct e_nrm as (N1 & N2 & N3).
    destruct (dirs26_unit y1 (a * a) (b * b) (c * c) (sq_pos a Ha) (sq_pos b Hb) (sq_pos c Hc) I1) as [|(Q1 & Q2 & Q3)]; [assumption|].
    rewrite <- nrm_diag in Q1, Q2, Q3. pose proof (S e1 e1_in). pose proof (S e2 e2_in). pose proof (S e3 e3_in).
    exfalso. destruct (Z.eq_dec (vx y1) 0) as [X|X]; [|specialize (Q1 X); lra]. destruct (Z.eq_dec (vy y1) 0) as [Y|Y]; [|specialize (Q2 Y); lra].
    destruct (Z.eq_dec (vz y1) 0) as [Z0|Z0]; [|specialize (Q3 Z0); lra]. apply (dirs26_nz y1 I1). destruct y1. cbn in *. now subst.
  Qed.
  Lemma axis2 : In y2 units6.
  Proof.
    destruct S3 as (_ & S & _). destruct e_nrm as (N1 & N2 & N3). pose proof (det_cross _ _ _ D) as X12.
    destruct (dirs26_unit y2 (a * a) (b * b) (c * c) (sq_pos a Ha) (sq_pos b Hb) (sq_pos c Hc) I2) as [|(Q1 & Q2 & Q3)]; [assumption|].
    rewrite <- nrm_diag in Q1, Q2, Q3. pose proof (S e1 e1_in) as T1. pose proof (S e2 e2_in) as T2. pose proof (S e3 e3_in) as T3.
    exfalso. pose proof axis1 as A1. unfold ZVcross, e1, e2, e3 in *.
    cbn in A1. destruct A1 as [E|[E|[E|[E|[E|[E|[]]]]]]]; subst y1; cbn [vx vy vz] in *.
    all: destruct (Z.eq_dec (vx y2) 0) as [X|X]; [|try (specialize (Q1 X); specialize (T1 ltac:(discriminate)); lra)].
    all: destruct (Z.eq_dec (vy y2) 0) as [Y|Y]; [|try (specialize (Q2 Y); specialize (T2 ltac:(discriminate)); lra)].
    all: destruct (Z.eq_dec (vz y2) 0) as [Z0|Z0]; [|try (specialize (Q3 Z0); specialize (T3 ltac:(discriminate)); lra)].
    all: apply X12; rewrite ?X, ?Y, ?Z0; f_equal; ring.
  Qed.
  Lemma axis3 : In y3 units6.
  Proof.
    destruct S3 as (_ & _ & S). destruct e_nrm as (N1 & N2 & N3).
    destruct (dirs26_unit y3 (a * a) (b * b) (c * c) (sq_pos a Ha) (sq_pos b Hb) (sq_pos c Hc) I3) as [|(Q1 & Q2 & Q3)]; [assumption|].
    rewrite <- nrm_diag in Q1, Q2, Q3. pose proof (S e1 e1_in) as T1. pose proof (S e2 e2_in) as T2. pose proof (S e3 e3_in) as T3.
    exfalso. pose proof axis1 as A1. pose proof axis2 as A2.
    assert (DD : zdet y1 y2 y3 = (zdet y1 y2 e1 * vx y3 + zdet y1 y2 e2 * vy y3 + zdet y1 y2 e3 * vz y3)%Z) by (unfold e1, e2, e3; zdets; ring).
    destruct (Z.eq_dec (zdet y1 y2 e1 * vx y3) 0) as [X|X]; [|specialize (Q1 ltac:(intro W; apply X; rewrite W; ring)); specialize (T1 ltac:(intro W; apply X; rewrite W; ring)); lra].
    destruct (Z.eq_dec (zdet y1 y2 e2 * vy y3) 0) as [Y|Y]; [|specialize (Q2 ltac:(intro W; apply Y; rewrite W; ring)); specialize (T2 ltac:(intro W; apply Y; rewrite W; ring)); lra].
    destruct (Z.eq_dec (zdet y1 y2 e3 * vz y3) 0) as [Z0|Z0]; [|specialize (Q3 ltac:(intro W; apply Z0; rewrite W; ring)); specialize (T3 ltac:(intro W; apply Z0; rewrite W; ring)); lra].
    lia.
  Qed.
  Lemma axes : In (zcols y1 y2 y3) signed /\ Permutation [nrm (diag a b c) y1; nrm (diag a b c) y2; nrm (diag a b c) y3] [a * a; b * b; c * c] /\
    nrm (diag a b c) y1 <= nrm (diag a b c) y2 <= nrm (diag a b c) y3 /\
    gram (Mmul (diag a b c) (MofZ (zcols y1 y2 y3))) = diag (nrm (diag a b c) y1) (nrm (diag a b c) y2) (nrm (diag a b c) y3).
  Proof.
    pose proof axis1 as A1. pose proof axis2 as A2. pose proof axis3 as A3. split; [|split; [|split]].
    - pose proof (proj1 (forallb_forall _ _) signed_units y1 A1) as Q1. cbn beta in Q1. pose proof (proj1 (forallb_forall _ _) Q1 y2 A2) as Q2. cbn beta in Q2.
      pose proof (proj1 (forallb_forall _ _) Q2 y3 A3) as Q3. cbn beta in Q3. destruct (zdet y1 y2 y3 =? 0)%Z eqn:E; [apply Z.eqb_eq in E; congruence|]. now apply mem_rot_In.
    - destruct (unit_case y1 A1) as [(X1 & Y1 & Z1)|[(X1 & Y1 & Z1)|(X1 & Y1 & Z1)]]; destruct (unit_case y2 A2) as [(X2 & Y2 & Z2)|[(X2 & Y2 & Z2)|(X2 & Y2 & Z2)]];
        destruct (unit_case y3 A3) as [(X3 & Y3 & Z3)|[(X3 & Y3 & Z3)|(X3 & Y3 & Z3)]];
        first [exfalso; apply D; zdets; rewrite ?X1, ?Y1, ?Z1, ?X2, ?Y2, ?Z2, ?X3, ?Y3, ?Z3; ring|idtac].
      all: rewrite !nrm_diag, ?X1, ?Y1, ?Z1, ?X2, ?Y2, ?Z2, ?X3, ?Y3, ?Z3.
      all: repeat match goal with H : (?u * ?u = 1)%Z |- _ => apply (f_equal IZR) in H; rewrite mult_IZR in H; rewrite ?H end.
      all: rewrite ?Rmult_0_l, ?Rmult_0_r, ?Rmult_1_r, ?Rplus_0_l, ?Rplus_0_r.
      all: first [apply Permutation_refl|apply perm_swap|apply perm_skip, perm_swap
        |apply (Permutation_trans (l' := [a * a; c * c; b * b])); [first [apply perm_swap|apply perm_skip, perm_swap]|first [apply perm_swap|apply perm_skip, perm_swap]]
        |apply (Permutation_trans (l' := [b * b; a * a; c * c])); [first [apply perm_swap|apply perm_skip, perm_swap]|first [apply perm_swap|apply perm_skip, perm_swap]]
        |apply Permutation_sym, (Permutation_rev [_;_;_])].
    - destruct S3 as (S & S' & _). split; [now apply S|]. apply S'; [exact I3|]. intro W. apply D.
      assert (G : forall u v w, ZVcross u w = V 0%Z 0%Z 0%Z -> zdet u v w = 0%Z).
      { clear. intros u v w E. unfold ZVcross in E. injection E as E1 E2 E3. zdets.
        transitivity (- (vx v * (vy u * vz w - vz u * vy w) + vy v * (vz u * vx w - vx u * vz w) + vz v * (vx u * vy w - vy u * vx w)))%Z; [ring|rewrite E1, E2, E3; ring]. }
      now apply G.
    - destruct (unit_case y1 A1) as [(X1 & Y1 & Z1)|[(X1 & Y1 & Z1)|(X1 & Y1 & Z1)]]; destruct (unit_case y2 A2) as [(X2 & Y2 & Z2)|[(X2 & Y2 & Z2)|(X2 & Y2 & Z2)]];
        destruct (unit_case y3 A3) as [(X3 & Y3 & Z3)|[(X3 & Y3 & Z3)|(X3 & Y3 & Z3)]];
        first [exfalso; apply D; zdets; rewrite ?X1, ?Y1, ?Z1, ?X2, ?Y2, ?Z2, ?X3, ?Y3, ?Z3; ring|idtac].
      all: rewrite gram_diag, !nrm_diag; unfold dpair; rewrite ?X1, ?Y1, ?Z1, ?X2, ?Y2, ?Z2, ?X3, ?Y3, ?Z3.
      all: unfold diag; f_equal; ring.
  Qed.
End Axes.

Lemma orth_character (eps A B C : R) : 0 < eps -> @character_of RNum eps A B C 0 0 0 =
  Ok (if @cust_eq RNum A B eps && @cust_eq RNum A C eps then 3 else if @cust_eq RNum A B eps then 11 else if @cust_eq RNum B C eps then 21 else 32)%Z.
Proof.
  intro He. unfold character_of.
  assert (EN : @num_negative_zero RNum [0; 0; 0] eps = (0, 3)%Z).
  { rewrite num_negative_zero_spec by (cbn; lia). unfold countb. cbn [filter].
    rewrite !(Rlt_bool_false 0 (- eps)), !(Rlt_bool_true 0 eps) by lra. reflexivity. }
  match goal with |- context [@num_negative_zero RNum ?l eps] => change (@num_negative_zero RNum l eps) with (@num_negative_zero RNum [0; 0; 0] eps) end.
  rewrite EN. change ((Z.rem 0 2 =? 0)%Z && (3 =? 0)%Z) with false.
  assert (E0 : @cust_eq RNum 0 0 eps = true) by (apply cust_eq_spec; apply Rabs_le; cbn; lra).
  destruct (@cust_eq RNum A B eps); cbn [andb]; [destruct (@cust_eq RNum A C eps)|destruct (@cust_eq RNum B C eps)];
    unfold get_first_set, get_second_set, get_third_set, get_fourth_set; cbn [app first_match vx vy vz];
    change (@f0 RNum) with 0; rewrite E0; cbn [andb]; reflexivity.
Qed.
Lemma orth_niggli eps A B C : 0 <= eps -> eps < A -> A <= B <= C -> niggli_within eps (diag A B C).
Proof.
  intros He HA HB. unfold diag. constructor; cbn [m11 m12 m13 m21 m22 m23 m31 m32 m33]; rewrite ?Rmult_0_r, ?Rabs_R0; try lra; try (right; lra); intro Q; try rewrite Rabs_pos_eq in Q by lra; lra.
Qed.

(** ** The 48 signed permutations *)
Lemma signed_mul_checked : forallb (fun a => forallb (fun b => mem_rot (ZMmul a b) signed) signed) signed = true.
Proof. vm_compute. reflexivity. Qed.
Lemma signed_facts_checked : forallb (fun a => if zmat_eqb (ZMmul (transpose a) a) ZMid then if unit_rot a then has_unit_entry a else false else false) signed = true.
Proof. vm_compute. reflexivity. Qed.
Lemma signed_mul a b : In a signed -> In b signed -> In (ZMmul a b) signed.
Proof.
  intros Ha Hb. apply mem_rot_In. pose proof (proj1 (forallb_forall _ _) signed_mul_checked a Ha) as Q. exact (proj1 (forallb_forall _ _) Q b Hb).
Qed.
Lemma signed_facts a : In a signed -> ZMmul (transpose a) a = ZMid /\ unit_rot a = true /\ has_unit_entry a = true.
Proof.
  intros Ha. pose proof (proj1 (forallb_forall _ _) signed_facts_checked a Ha) as Q. cbn beta in Q.
  destruct (zmat_eqb (ZMmul (transpose a) a) ZMid) eqn:E; [|discriminate]. apply zmat_eqb_spec in E. destruct (unit_rot a); [auto|discriminate].
Qed.
Lemma signed_norm a v : In a signed -> Vnorm (Mapp (MofZ a) v) = Vnorm v.
Proof.
  intro Ha. destruct (signed_facts a Ha) as (E & _). unfold Vnorm. f_equal. apply (f_equal MofZ) in E. rewrite MofZ_mul, MofZ_id in E.
  change (MofZ (transpose a)) with (Mtr (MofZ a)) in E.
  transitivity (Vdot v (Mapp (Mmul (Mtr (MofZ a)) (MofZ a)) v)); [|now rewrite E, Mapp_id].
  rewrite Mapp_Mmul. generalize (MofZ a). intro m. destruct v as [v1 v2 v3], m as [p1 p2 p3 q1 q2 q3 r1 r2 r3]. unfold Vdot, Mapp, Mtr. cbn [vx vy vz m11 m12 m13 m21 m22 m23 m31 m32 m33]. ring.
Qed.
Lemma signed_inv a b : In a signed -> ZMmul a b = ZMid -> In b signed.
Proof.
  intros Ha E. destruct (signed_facts a Ha) as (E' & _). replace b with (transpose a).
  - apply mem_rot_In. assert (Q : forallb (fun a => mem_rot (transpose a) signed) signed = true) by (vm_compute; reflexivity). exact (proj1 (forallb_forall _ _) Q a Ha).
  - apply MofZ_inj. rewrite <- (Mmul_id_r (MofZ (transpose a))), <- MofZ_id, <- E, MofZ_mul, <- Mmul_assoc, <- MofZ_mul, E', MofZ_id. apply Mmul_id_l.
Qed.

(** ** Permutations of three numbers *)
Lemma perm3 (A B C p q r : R) : Permutation [A; B; C] [p; q; r] ->
  (A = p /\ B = q /\ C = r) \/ (A = p /\ B = r /\ C = q) \/ (A = q /\ B = p /\ C = r) \/ (A = q /\ B = r /\ C = p) \/ (A = r /\ B = p /\ C = q) \/ (A = r /\ B = q /\ C = p).
Proof.
  intro H. assert (HA : In A [p; q; r]) by (apply (Permutation_in _ H); now left).
  assert (G : forall x y, Permutation [B; C] [x; y] -> (B = x /\ C = y) \/ (B = y /\ C = x)).
  { intros x y Q. apply Permutation_length_2 in Q. tauto. }
  destruct HA as [<-|[<-|[<-|[]]]].
  - apply Permutation_cons_inv, G in H. tauto.
  - assert (Q : Permutation [q; B; C] [q; p; r]) by (rewrite H; apply perm_swap). apply Permutation_cons_inv, G in Q. tauto.
  - assert (Q : Permutation [r; B; C] [r; p; q]) by (rewrite H; apply Permutation_sym, (Permutation_cons_append [p; q] r)). apply Permutation_cons_inv, G in Q. tauto.
Qed.

(** ** The run *)
Definition box_answer (eps A B C : R) : Z * string * nat :=
  if @cust_eq RNum A B eps && @cust_eq RNum A C eps then (221%Z, "Pm-3m"%string, 48%nat)
  else if @cust_eq RNum A B eps || @cust_eq RNum B C eps then (123%Z, "P4/mmm"%string, 16%nat) else (47%Z, "Pmmm"%string, 8%nat).
Lemma box_rows n : In n [3; 11; 21; 32]%Z -> exists b T0 N sym cnt,
  am_get Z.eqb n LATTICE_CHAR_TO_BRAVAIS = Some b /\ am_get Z.eqb n LATTICE_CHAR_TO_CONV_TRANS = Some T0 /\ In (transpose T0) signed /\
  lattice_group (bravais_to_string b) = Some (N, sym) /\ List.length (holo_rots b) = cnt /\ incl (holo_rots b) signed /\
  bravais_centering b = Ok CP /\
  (N, sym, cnt) = (if n =? 3 then (221%Z, "Pm-3m"%string, 48%nat) else if n =? 32 then (47%Z, "Pmmm"%string, 8%nat) else (123%Z, "P4/mmm"%string, 16%nat))%Z.
Proof.
  assert (G : forall b, (if forallb (fun r => mem_rot r signed) (holo_rots b) then true else false) = true -> incl (holo_rots b) signed).
  { intros b Q r Hr. destruct (forallb _ _) eqn:E; [|discriminate]. apply mem_rot_In. exact (proj1 (forallb_forall _ _) E r Hr). }
  intros [<-|[<-|[<-|[<-|[]]]]].
  all: eexists; eexists; eexists; eexists; eexists; split; [reflexivity|]; split; [reflexivity|]; split; [apply mem_rot_In; vm_compute; reflexivity|].
  all: split; [reflexivity|]; split; [vm_compute; reflexivity|]; split; [apply G; vm_compute; reflexivity|]; split; reflexivity.
Qed.

Section Box.
  Context (P : @Pinv RNum) (HO : HashOrd) (dtol a b c : R) (fuel : nat) (path : list nat) (s : @structure RNum) (e : string) (w : vec R) (m : vec Z).
  Hypothesis (HP : pinv_inverts P) (HF : (48 <= fuel)%nat) (ES : species s = [e]) (EX : frac_coords s = [Vadd w (VofZ m)]) (EL : lattice s = diag a b c).
  Hypothesis (Ba : 1 <= a <= 1000) (Bb : 1 <= b <= 1000) (Bc : 1 <= c <= 1000) (Hd : 1 / 100000 <= dtol <= 1 / 24).
  Let L := diag a b c.
  Lemma box_det : Mdet L = a * b * c. Proof using. unfold L, diag, Mdet. cbn. ring. Qed.
  Lemma box_vol : 1 <= a * b * c <= 1000000000 /\ a <= a * b * c /\ b <= a * b * c /\ c <= a * b * c.
  Proof using Ba Bb Bc.
    assert (Q : 1 <= a * b <= 1000000 /\ a <= a * b /\ b <= a * b) by (repeat split; nra). revert Q. generalize (a * b). intros r Q. repeat split; nra.
  Qed.
  Lemma box_eps : 0 < 1 / 100000 * Rpower (a * b * c) (1 / 3) < 1.
  Proof using Ba Bb Bc.
    destruct box_vol as (V & _). assert (Q : 0 < Rpower (a * b * c) (1 / 3) <= 1000).
    { split; [apply exp_pos|]. apply (Rle_trans _ (Rpower 1000000000 (1 / 3))); [apply Rle_Rpower_l; lra|].
      replace 1000000000 with (Rpower 1000 3); [rewrite Rpower_mult; replace (3 * (1 / 3)) with 1 by field; rewrite Rpower_1; lra|].
      replace 3 with (INR 3) by (cbn; lra). rewrite Rpower_pow by lra. cbn; lra. }
    lra.
  Qed.
  Lemma box_norm v : Vnorm v <= Vnorm (Mapp L v).
  Proof using Ba Bb Bc.
    unfold Vnorm. apply sqrt_le_1_alt. unfold L, diag, Mapp, Vdot. cbn [vx vy vz m11 m12 m13 m21 m22 m23 m31 m32 m33]. destruct v as [x y z]. cbn [vx vy vz].
    assert (G : forall k w, 1 <= k -> w * w <= k * w * (k * w)) by (intros k t Hk; assert (0 <= t * t) by nra; assert (1 <= k * k) by nra; nra).
    pose proof (G a x ltac:(lra)). pose proof (G b y ltac:(lra)). pose proof (G c z ltac:(lra)). lra.
  Qed.
  Lemma Vnorm_pos v : v <> V0 -> 0 < Vnorm v.
  Proof using.
    intro H. apply sqrt_lt_R0. destruct v as [x y z]. unfold Vdot. cbn [vx vy vz].
    destruct (Req_dec x 0) as [->|X]; [|nra]. destruct (Req_dec y 0) as [->|Y]; [|nra]. destruct (Req_dec z 0) as [->|Z0]; [|nra]. now elim H.
  Qed.
  Lemma box_well W : In W signed -> well_conditioned (Mmul L (MofZ W)).
  Proof using Ba Bb Bc.
    intros HW v Hv. rewrite Mapp_Mmul. pose proof (box_norm (Mapp (MofZ W) v)) as Q. rewrite (signed_norm W v HW) in Q. pose proof (Vnorm_pos v Hv). lra.
  Qed.
  Lemma box_roomy : roomy dtol L.
  Proof using Ba Bb Bc Hd.
    clear HF. intros z Hz. apply (Rle_trans _ 1); [lra|]. apply (Rle_trans _ (Vnorm (VofZ z))); [|apply box_norm].
    rewrite <- sqrt_1. apply sqrt_le_1_alt. unfold Vdot, VofZ. cbn [vx vy vz vmap]. 
    assert (G : forall k, (0 <= k * k)%Z /\ (k <> 0 -> 1 <= k * k)%Z) by (intro k; nia).
    destruct z as [x y t]. cbn [vx vy vz]. rewrite <- !mult_IZR, <- !plus_IZR. apply IZR_le.
    destruct (G x) as (X1 & X2), (G y) as (Y1 & Y2), (G t) as (W1 & W2).
    destruct (Z.eq_dec x 0) as [->|X]; [|specialize (X2 X); lia]. destruct (Z.eq_dec y 0) as [->|Y]; [|specialize (Y2 Y); lia]. destruct (Z.eq_dec t 0) as [->|W]; [|specialize (W2 W); lia]. now elim Hz.
  Qed.
  Lemma box_col W k : In W signed -> (k < 3)%nat -> Vnorm (Ccol (Mmul L (MofZ W)) k) <= 1000.
  Proof using Ba Bb Bc.
    clear HF. intros HW Hk. assert (E : exists u, Vnorm u = 1 /\ Ccol (Mmul L (MofZ W)) k = Mapp L (Mapp (MofZ W) u)).
    { destruct k as [|[|[|k]]]; [exists (V 1 0 0)|exists (V 0 1 0)|exists (V 0 0 1)|lia];
      (split; [unfold Vnorm, Vdot; cbn [vx vy vz]; match goal with |- sqrt ?x = 1 => replace x with 1 by ring end; apply sqrt_1|]);
      rewrite <- Mapp_Mmul; generalize (Mmul L (MofZ W)); intro Q; destruct Q as [p1 p2 p3 q1 q2 q3 r1 r2 r3]; unfold Mapp, Ccol; apply (@vec_ext R); cbn; ring. }
    destruct E as (u & E1 & ->). rewrite <- (signed_norm W u HW) in E1. revert E1. generalize (Mapp (MofZ W) u). intros v E1.
    apply (f_equal (fun x => x * x)) in E1. rewrite Vnorm_sq in E1.
    assert (Q : Vnorm (Mapp L v) * Vnorm (Mapp L v) <= 1000 * 1000).
    { rewrite Vnorm_sq. unfold L, diag, Mapp, Vdot in *. cbn [vx vy vz m11 m12 m13 m21 m22 m23 m31 m32 m33] in *. destruct v as [x y z]. cbn [vx vy vz] in *.
      assert (G : forall k w, 1 <= k <= 1000 -> k * w * (k * w) <= 1000000 * (w * w)).
      { intros h t Hh. assert (0 <= t * t) by nra. assert (h * h <= 1000000) by nra. replace (h * t * (h * t)) with (h * h * (t * t)) by ring. now apply Rmult_le_compat_r. }
      pose proof (G a x ltac:(lra)). pose proof (G b y ltac:(lra)). pose proof (G c z ltac:(lra)).
      replace (1000 * 1000) with (1000000 * (x * x + y * y + z * z)) by (rewrite E1; ring). 
      match goal with |- ?l <= _ => replace l with (a * x * (a * x) + b * y * (b * y) + c * z * (c * z)) by ring end. lra. }
    pose proof (Vnorm_nonneg (Mapp L v)). nra.
  Qed.

  Lemma box_cells : exists p q n A B C W0,
    well_conditioned (lattice s) /\ (forall k, (k < 3)%nat -> dtol * Vnorm (Ccol (lattice s) k) < Rabs (Mdet (lattice s))) /\
    dtol < Rabs (Mdet (lattice s)) /\ roomy dtol (lattice s) /\ 1 / 100000 * Rpower (Rabs (Mdet (lattice s))) (1 / 3) < 1 /\
    @find_primitive_cell RNum P HO (0%nat :: path) dtol s = Ok p /\ @niggli_reduce RNum P dtol p (1 / 100000) = Ok q /\
    @get_lattice_character RNum q (1 / 100000) = Ok n /\ well_conditioned (lattice p) /\ well_conditioned (lattice q) /\
    In n [3; 11; 21; 32]%Z /\ lattice q = Mmul L (MofZ W0) /\ In W0 signed /\ Permutation [A; B; C] [a * a; b * b; c * c] /\ A <= B <= C /\
    box_answer (1 / 100000 * Rpower (a * b * c) (1 / 3)) A B C =
      (if n =? 3 then (221%Z, "Pm-3m"%string, 48%nat) else if n =? 32 then (47%Z, "Pmmm"%string, 8%nat) else (123%Z, "P4/mmm"%string, 16%nat))%Z.
  Proof using All.
    destruct box_vol as (BV & Va & Vb & Vc). pose proof box_eps as BE. pose proof box_det as BD.
    assert (DL : Rabs (Mdet (lattice s)) = a * b * c) by (rewrite EL; fold L; rewrite BD; apply Rabs_pos_eq; lra).
    assert (I0 : In ZMid signed) by (apply mem_rot_In; vm_compute; reflexivity).
    assert (Ws : well_conditioned (lattice s)).
    { rewrite EL. fold L. rewrite <- (Mmul_id_r L), <- MofZ_id. now apply box_well. }
    assert (HN : forall k, (k < 3)%nat -> dtol * Vnorm (Ccol (lattice s) k) < Rabs (Mdet (lattice s))).
    { intros k Hk. rewrite DL, EL.
      assert (Q : Vnorm (Ccol (diag a b c) k) = match k with 0 => a | 1 => b | _ => c end%nat).
      { destruct k as [|[|[|k]]]; [..|lia]; unfold Vnorm, Vdot, Ccol, diag; cbn;
        match goal with |- sqrt ?x = ?y => replace x with (y * y) by ring; apply sqrt_square; lra end. }
      rewrite Q. destruct k as [|[|[|k]]]; [..|lia]; nra. }
    assert (HDd : dtol < Rabs (Mdet (lattice s))) by (rewrite DL; lra).
    assert (RM : roomy dtol (lattice s)) by (rewrite EL; apply box_roomy).
    destruct (prim_whole P HO dtol HP (0%nat :: path) s e w m ES EX ltac:(lra) Ws) as (p & y1 & y2 & y3 & F1 & F2 & F3 & F4 & J1 & J2 & J3 & S3 & F5); [|exact HDd|].
    { intros k Hk. split; [|now apply HN]. pose proof (roomy_col dtol (lattice s) k RM). lra. }
    rewrite EL in F2, S3. fold L in F2.
    assert (D0 : zdet y1 y2 y3 <> 0%Z). { intro X. assert (Y : ZMdet (zcols y1 y2 y3) = zdet y1 y2 y3) by (unfold ZMdet, zcols; zdets; cbn; ring). rewrite Y, X in F3. lia. }
    destruct (axes a b c ltac:(lra) ltac:(lra) ltac:(lra) y1 y2 y3 J1 J2 J3 S3 D0) as (Q1 & Q2 & Q3 & Q4).
    set (A := nrm (diag a b c) y1) in *. set (B := nrm (diag a b c) y2) in *. set (C := nrm (diag a b c) y3) in *. fold L in Q4.
    set (Z1 := zcols y1 y2 y3) in *. rewrite <- F2 in Q4.
    assert (Wp : well_conditioned (lattice p)) by (rewrite F2; now apply box_well).
    assert (VP : Mdet (lattice p) = a * b * c).
    { rewrite <- DL, <- (Rabs_pos_eq (Mdet (lattice p))) by lra. rewrite F2, EL. fold L. rewrite Mdet_mul, MofZ_det, Rabs_mult, <- abs_IZR. destruct F3 as [-> | ->]; cbn; lra. }
    assert (HA : 1 <= A). { destruct (perm3 _ _ _ _ _ _ Q2) as [X|[X|[X|[X|[X|X]]]]]; destruct X as (-> & _); nra. }
    set (eps := 1 / 100000 * Rpower (a * b * c) (1 / 3)) in *.
    destruct (niggli_fixed P dtol p (1 / 100000) F4) as (q & G1 & G2); cbv zeta; rewrite ?VP; fold eps.
    { lra. } { rewrite Q4. apply orth_niggli; lra. } 1-3: (rewrite Q4; unfold diag; cbn [m11 m12 m13 m21 m22 m23 m31 m32 m33]; lra).
    assert (EC : exists n, @get_lattice_character RNum q (1 / 100000) = Ok n /\ In n [3; 11; 21; 32]%Z /\ box_answer eps A B C =
      (if n =? 3 then (221%Z, "Pm-3m"%string, 48%nat) else if n =? 32 then (47%Z, "Pmmm"%string, 8%nat) else (123%Z, "P4/mmm"%string, 16%nat))%Z).
    { rewrite lattice_character_R by (rewrite G2; exact F4). cbv zeta. rewrite G2, VP, Q4. fold eps. unfold diag at 1 2 3 4 5 6. cbn [m11 m12 m13 m21 m22 m23 m31 m32 m33].
      rewrite orth_character by lra. eexists. split; [reflexivity|]. unfold box_answer.
      destruct (@cust_eq RNum A B eps), (@cust_eq RNum A C eps), (@cust_eq RNum B C eps); cbn; auto 10. }
    destruct EC as (n & EC & HI & EA).
    exists p, q, n, A, B, C, Z1. split; [exact Ws|]. split; [exact HN|]. split; [exact HDd|]. split; [exact RM|]. split; [rewrite DL; fold eps; lra|].
    rewrite G2. fold eps. auto 20.
  Qed.

  Lemma box_run : w = V0 -> exists A B C ops, Permutation [A; B; C] [a * a; b * b; c * c] /\ A <= B <= C /\
    let '(N, sym, cnt) := box_answer (1 / 100000 * Rpower (a * b * c) (1 / 3)) A B C in
    @get_space_group_info RNum P HO fuel path dtol s = Ok (N, sym, ops) /\ List.length ops = cnt /\
    NoDup (map (@rotation RNum) ops) /\ (forall op, In op ops -> In (rotation op) signed).
  Proof using All.
    intros E0. assert (EX0 : frac_coords s = [VofZ m]) by (rewrite EX, E0, Vadd_0; reflexivity). destruct box_vol as (BV & Va & Vb & Vc). pose proof box_det as BD.
    destruct box_cells as (p & q & n & A & B & C & Z1 & Ws & HN & HDd & RM & HE & F1 & G1 & EC & Wp & Wq & HI & G2 & Q1 & Q2 & Q3 & EA).
    destruct (box_rows n HI) as (b' & T0 & N & sym & cnt & R1 & R2 & R3 & R4 & R5 & R6 & R7 & R8).
    destruct (one_run P HO dtol fuel path s p q e m n HP HF ES EX0 ltac:(lra) Ws Wp Wq HN HDd RM) as (b'' & std & T & Ti & K1 & K2 & K3 & K4 & K5 & K6 & K7 & K8); auto.
    rewrite R1 in K1. injection K1 as <-. destruct K7 as (T0' & Pm & U & K7 & K9 & K10 & K11). rewrite R2 in K7. injection K7 as <-.
    assert (EU : U = transpose T0).
    { apply MofZ_inj. rewrite <- K10. destruct (primitive_inv _ _ _ K9) as (_ & c' & X1 & X2). rewrite R7 in X1. injection X1 as <-.
      cbn in X2. injection X2 as <-. change (MofZ (transpose T0)) with (Mtr (MofZ T0)). generalize (Mtr (MofZ T0)). intro Q. destruct Q as [p1 p2 p3 q1 q2 q3 r1 r2 r3]. apply mat_ext; cbn; field. }
    subst U. rewrite G2, Mmul_assoc, <- MofZ_mul in K11. set (W := ZMmul Z1 (transpose T0)) in *.
    assert (HW : In W signed) by now apply signed_mul.
    assert (CL : forall x y, Mmul L x = Mmul L y -> x = y).
    { assert (DN : Mdet L <> 0) by (rewrite BD; lra). destruct (Madj_inverse _ DN) as [_ I]. intros x y X. rewrite <- (Mmul_id_l x), <- (Mmul_id_l y), <- I, !Mmul_assoc, X. reflexivity. }
    assert (WT : ZMmul W T = ZMid).
    { apply MofZ_inj. apply CL. rewrite MofZ_mul, <- Mmul_assoc, <- K11, <- K3, EL, MofZ_id. symmetry. apply Mmul_id_r. }
    assert (HT : In T signed) by exact (signed_inv W T HW WT). assert (HTi : In Ti signed) by exact (signed_inv T Ti HT K4).
    rewrite R4 in K8. destruct K8 as (_ & K8). { intros k Hk. rewrite K11. pose proof (box_col W k HW Hk). lra. }
    assert (UB : forall x, In x signed -> entries_within (-3) 3 x).
    { intros x Hx. destruct (signed_facts x Hx) as (_ & X & _). apply unit_rot_spec in X. unfold entries_within in *. clear - X. lia. }
    destruct (K8 (UB T HT) (UB Ti HTi)) as (ops & O1 & O2 & O3 & O4).
    exists A, B, C, ops. split; [exact Q2|]. split; [exact Q3|]. rewrite EA, <- R8. split; [exact O1|].
    assert (CJ : forall r, In r (holo_rots b') -> In (ZMmul (ZMmul Ti r) T) signed) by (intros r Hr; apply signed_mul; [apply signed_mul; auto|exact HT]).
    destruct (lattice_facts_hold b') as (ls & F). pose proof (lf_nodup _ _ F) as NB.
    split; [|split; [exact O4|]].
    - rewrite <- R5, <- (map_length (@rotation RNum)), <- (map_length (fun r => ZMmul (ZMmul Ti r) T) (holo_rots b')). apply Nat.le_antisymm.
      + apply NoDup_incl_length; [exact O4|]. intros r Hr. apply in_map_iff in Hr. destruct Hr as (op & <- & Hop). destruct (O2 op Hop) as (r & X1 & ->). apply in_map_iff. eauto.
      + apply NoDup_incl_length.
        * pose proof (NoDup_conj T Ti (map (fun r => @SymmOp RNum r V0) (holo_rots b')) K4) as X. rewrite !map_map in X. cbn [rotation] in X. apply X. rewrite map_id. exact NB.
        * intros r Hr. apply in_map_iff in Hr. destruct Hr as (h & <- & Hh). destruct (O3 h Hh (proj2 (proj2 (signed_facts _ (CJ h Hh))))) as (op & X1 & X2). rewrite <- X2. now apply in_map.
    - intros op Hop. destruct (O2 op Hop) as (r & X1 & ->). now apply CJ.
  Qed.
End Box.
