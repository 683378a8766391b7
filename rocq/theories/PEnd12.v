(** Several atoms in an orthogonal box: the whole run (analyzer.rs 36-162) *)
From Coq Require Import ZArith Reals String Ascii List Bool Lia Lra Psatz Permutation.
From Verif Require Import Num Mat Utils DataCore SymmOp PointGroup SpaceGroup Structure Reduce Analyzer RInst Spec Spec2 Spec3 RFacts
  PUtils PSymmOp PStructure PStructure2 PStructure3 PNiggli PDelaunay PPrim PPrim2 PLattice PAnalyzer PAnalyzer2 PPointGroup PPointGroup2 PTables PSearch4 PSearch6 PSearch7
  PSpaceGroup2 PEnd PEnd2 PEnd3 PEnd4 PEnd11 Prop4 Prop5.
Import ListNotations.
Open Scope R_scope.

(** ** The last stages, from the operations found in the standard cell to the answer *)
Section Answer.
  Context (P : @Pinv RNum) (HO : HashOrd) (dtol : R) (fuel : nat) (path : list nat) (s p q std : @structure RNum) (Tm Pm : mat R) (n : Z) (b : bravais).
  Hypothesis (HP : pinv_inverts P) (HF : (1 <= fuel)%nat) (H0 : 0 < dtol).
  Hypothesis STG : @stages RNum P HO fuel path dtol s p q std Tm Pm n b.
  Context (ls : lattice_system) (gens ops : list (@symmop RNum)).
  Hypothesis Q1 : @get_primitive_space_group_ops RNum HO fuel (1%nat :: path) dtol std b = Ok gens.
  Hypothesis Q2 : @from_generators RNum fuel gens (@frac_tols_of RNum (lattice std) dtol) = Ok ops.
  Hypothesis LS : bravais_lattice_system b = Ok ls.
  (** an answer is the one the identification gives *)
  Lemma answer_identified n' sym' ops' : @get_space_group_info RNum P HO fuel path dtol s = Ok (n', sym', ops') ->
    @identify_space_group RNum HO (2%nat :: path) ops ls (@frac_tols_of RNum (lattice std) dtol) = Ok (Some (n', sym')).
  Proof using STG Q1 Q2 LS.
    intro EI. apply info_stages in EI.
    destruct EI as (p0 & q0 & std0 & Tm0 & Pm0 & ch0 & b0 & gens0 & sg & ls0 & m1 & m2 & i1 & i2 & S0 & _ & J1 & J2 & J3 & J4 & _).
    destruct STG as [A1 A2 A3 A4 (c & A5 & A6)]. destruct S0 as [S1 S2 S3 S4 (c0 & S5 & S6)]. rewrite A1 in S1. injection S1 as <-. rewrite A2 in S2. injection S2 as <-. rewrite A3 in S3. injection S3 as <- <-.
    rewrite A4 in S4. injection S4 as <- <-. rewrite A5 in S5. injection S5 as <-. rewrite A6 in S6. injection S6 as <-.
    rewrite Q1 in J1. injection J1 as <-. rewrite Q2 in J2. injection J2 as <-. rewrite LS in J3. injection J3 as <-. exact J4.
  Qed.
  Hypothesis (Wp : well_conditioned (lattice p)) (Wq : well_conditioned (lattice q)).
  Context (T Ti : mat Z) (N : Z) (sym : string).
  Hypothesis (EL : lattice s = Mmul (lattice std) (MofZ T)) (TI : ZMmul T Ti = ZMid) (DS : Mdet (lattice std) <> 0).
  Hypothesis (DP : Mdet Pm <> 0) (DT : Mdet Tm <> 0).
  Hypothesis Q7 : @identify_space_group RNum HO (2%nat :: path) ops ls (@frac_tols_of RNum (lattice std) dtol) = Ok (Some (N, sym)).
  Hypothesis FT : forall k, (k < 3)%nat -> 0 < Vnorm (Ccol (lattice std) k) /\ 2 * dtol <= Vnorm (Ccol (lattice std) k).
  Hypothesis RG : forall op, In op ops -> i8_range (ZMmul (ZMmul Ti (rotation op)) T).
  Hypothesis ND : NoDup (map (@rotation RNum) ops).
  Lemma answer_given : exists ops', @get_space_group_info RNum P HO fuel path dtol s = Ok (N, sym, ops') /\
    Forall2 (fun op op' => rotation op' = ZMmul (ZMmul Ti (rotation op)) T /\
                 (forall x, Vcongr (Mapp (MofZ Ti) (@op_apply RNum op x)) (@op_apply RNum op' (Mapp (MofZ Ti) x))))
              (filter (fun op => has_unit_entry (ZMmul (ZMmul Ti (rotation op)) T)) ops) ops'.
  Proof using All.
    assert (M1 : exists m1, @get_transformation_matrix RNum P p s = Ok m1) by (unfold get_transformation_matrix; rewrite pseudo_inverse_R; cbn [of_opt bind]; eauto).
    assert (M2 : exists m2, @get_transformation_matrix RNum P q p = Ok m2) by (unfold get_transformation_matrix; rewrite pseudo_inverse_R; cbn [of_opt bind]; eauto).
    destruct M1 as (m1 & M1), M2 as (m2 & M2).
    pose proof (try_inverse_R _ DP) as V1. pose proof (try_inverse_R _ DT) as V2.
    pose proof (total_transformation P HO fuel path dtol s p q std _ _ _ _ m1 m2 _ _ STG HP Wp Wq M1 M2 V1 V2) as TT.
    assert (TE : Mmul (Mmul (Mmul (Madj_inv Pm) (Madj_inv Tm)) m2) m1 = MofZ T).
    { assert (CA : forall a b, Mmul (lattice std) a = Mmul (lattice std) b -> a = b).
      { intros a b0 X. destruct (Madj_inverse _ DS) as [_ I]. rewrite <- (Mmul_id_l a), <- (Mmul_id_l b0), <- I, !Mmul_assoc, X. reflexivity. }
      apply CA. rewrite TT. exact EL. }
    assert (F2 : forall k, (k < 3)%nat -> 0 < dtol / Vnorm (Ccol (lattice std) k) <= / 2).
    { intros k Hk. destruct (FT k Hk) as (A1 & A2). split; [apply Rmult_lt_0_compat; [exact H0|now apply Rinv_0_lt_compat]|].
      apply (Rmult_le_reg_r (Vnorm (Ccol (lattice std) k))); [exact A1|]. unfold Rdiv. rewrite Rmult_assoc, Rinv_l by lra. lra. }
    destruct (C20_unimodular_transformation T Ti (@frac_tols_of RNum (lattice std) dtol) ops fuel TI (zinv_comm _ _ TI)
      (F2 0%nat ltac:(lia)) (F2 1%nat ltac:(lia)) (F2 2%nat ltac:(lia)) HF RG) as (ops' & W1 & W2 & W3).
    { intros i j a a' Hij Ha Ha' Er _. assert (X : i = j); [|lia]. apply (proj1 (NoDup_nth_error (map (@rotation RNum) ops)) ND).
      - rewrite map_length. apply nth_error_Some. congruence.
      - rewrite !nth_error_map, Ha, Ha'. cbn. now rewrite Er. }
    exists ops'. split.
    - destruct STG as [A1 A2 A3 A4 (c & A5 & A6)].
      unfold get_space_group_info. rewrite A1. cbn [bind]. rewrite A2. cbn [bind]. rewrite A3. cbn [bind]. rewrite A5. cbn [bind]. rewrite A4. cbn [bind].
      rewrite A6. cbn [bind]. rewrite Q1. cbn [bind]. cbv zeta. rewrite Q2. cbn [bind]. rewrite LS. cbn [bind]. rewrite Q7. cbn [bind of_opt].
      rewrite M1. cbn [bind]. rewrite M2. cbn [bind]. numR. rewrite V1. cbn [bind of_opt]. rewrite V2. cbn [bind of_opt].
      match goal with |- context [@sg_apply_transformation RNum _ _ ?t _] => replace t with (MofZ T) by (symmetry; exact TE) end. rewrite W1. reflexivity.
    - revert W2. apply Forall2_weaken. intros op op' (X1 & X2 & _). auto.
  Qed.
End Answer.

(** ** A box in any orientation *)
Lemma gram_norm L D v : gram L = gram D -> Vnorm (Mapp L v) = Vnorm (Mapp D v).
Proof.
  intro E. unfold Vnorm. f_equal. assert (G : forall X, Vdot (Mapp X v) (Mapp X v) = Vdot v (Mapp (gram X) v)).
  { clear. intro X. unfold gram, Vdot, Mapp, Mmul, Mtr. cbn [vx vy vz m11 m12 m13 m21 m22 m23 m31 m32 m33]. ring. }
  now rewrite !G, E.
Qed.
Lemma gram_mul_eq L D m : gram L = gram D -> gram (Mmul L m) = gram (Mmul D m).
Proof. intro E. unfold gram in *. rewrite !Mtr_mul, !Mmul_assoc, <- (Mmul_assoc (Mtr L)), <- (Mmul_assoc (Mtr D)), E. reflexivity. Qed.
Lemma gram_nrm L D z : gram L = gram D -> nrm L z = nrm D z.
Proof. intro E. unfold nrm, col. rewrite <- !Vnorm_sq. now rewrite (gram_norm L D _ E). Qed.
Lemma gram_det L D : gram L = gram D -> Rabs (Mdet L) = Rabs (Mdet D).
Proof.
  intro E. assert (G : forall X, Mdet (gram X) = Rsqr (Mdet X)) by (intro X; unfold gram; rewrite Mdet_mul; unfold Rsqr; f_equal; unfold Mdet, Mtr; cbn; ring).
  apply Rsqr_eq_abs_0. now rewrite <- !G, E.
Qed.
Lemma gram_shortest L D y1 y2 y3 : gram L = gram D -> shortest3 L y1 y2 y3 -> shortest3 D y1 y2 y3.
Proof.
  intros E (A & B & C). split; [|split].
  - intros z Hz. rewrite <- !(gram_nrm L D _ E). now apply A.
  - intros z Hz X. rewrite <- !(gram_nrm L D _ E). now apply B.
  - intros z Hz X. rewrite <- !(gram_nrm L D _ E). now apply C.
Qed.
Lemma gram_diag_eq a b c : gram (diag a b c) = diag (a * a) (b * b) (c * c).
Proof. unfold gram, diag, Mmul, Mtr. cbn. apply (@mat_ext R); cbn; ring. Qed.
Lemma col_unit L k : exists u, Ccol L k = Mapp L u /\ u = match k with 0%nat => V 1 0 0 | 1%nat => V 0 1 0 | _ => V 0 0 1 end.
Proof. destruct k as [|[|k]]; eexists; (split; [|reflexivity]); unfold Ccol, Mapp; cbn; apply (@vec_ext R); cbn; ring. Qed.
Lemma gram_col L D k : gram L = gram D -> Vnorm (Ccol L k) = Vnorm (Ccol D k).
Proof. intro E. destruct (col_unit L k) as (u & -> & Hu), (col_unit D k) as (u' & -> & Hu'). subst u u'. now apply gram_norm. Qed.

Definition box_number (eps A B C : R) : Z :=
  if @cust_eq RNum A B eps && @cust_eq RNum A C eps then 3%Z else if @cust_eq RNum A B eps then 11%Z else if @cust_eq RNum B C eps then 21%Z else 32%Z.
Section Many.
  Context (P : @Pinv RNum) (HO : HashOrd) (dtol a b c : R) (fuel : nat) (path : list nat) (s : @structure RNum).
  Hypothesis (HP : pinv_inverts P) (HF : (48 <= fuel)%nat) (WF : List.length (frac_coords s) = List.length (species s)).
  Hypothesis BIG : (0 < Z.of_nat (List.length (species s)) <= 65535)%Z.
  Hypothesis EL : gram (lattice s) = diag (a * a) (b * b) (c * c).
  Hypothesis (Ba : 1 <= a <= 1000) (Bb : 1 <= b <= 1000) (Bc : 1 <= c <= 1000) (Hd : 1 / 100000 <= dtol <= 1 / 24).
  Hypothesis NI : no_inner_translation dtol s.
  Hypothesis AP : forall W, In W signed -> apart (2 * dtol) (Mmul (lattice s) (MofZ W)) (sites_of s).
  Let L := lattice s.
  Let E : gram L = gram (diag a b c).
  Proof. unfold L. now rewrite EL, gram_diag_eq. Qed.
  Lemma many_well W : In W signed -> well_conditioned (Mmul L (MofZ W)).
  Proof using Ba Bb Bc EL.
    intros HW v Hv. rewrite Mapp_Mmul, (gram_norm L _ _ E), <- Mapp_Mmul. exact (box_well a b c Ba Bb Bc W HW v Hv).
  Qed.
  Lemma many_roomy : roomy dtol L.
  Proof using Ba Bb Bc EL Hd. intros z Hz. rewrite (gram_norm L _ _ E). exact (box_roomy dtol a b c Ba Bb Bc Hd z Hz). Qed.
  Lemma many_det : Rabs (Mdet L) = a * b * c.
  Proof using Ba Bb Bc EL. rewrite (gram_det L _ E), box_det. apply Rabs_pos_eq. pose proof (box_vol a b c Ba Bb Bc). lra. Qed.
  Lemma many_col W k : In W signed -> (k < 3)%nat -> Vnorm (Ccol (Mmul L (MofZ W)) k) <= 1000.
  Proof using Ba Bb Bc EL. intros HW Hk. rewrite (gram_col _ _ _ (gram_mul_eq _ _ (MofZ W) E)). exact (box_col a b c Ba Bb Bc W k HW Hk). Qed.

  Record run_of (p q std : @structure RNum) (Tm Pm : mat R) (n : Z) (b' : bravais) (A B C : R) (Z1 T0 W Wi : mat Z) : Prop := {
    rn_stages : @stages RNum P HO fuel path dtol s p q std Tm Pm n b';
    rn_char : In n [3; 11; 21; 32]%Z;
    rn_row : am_get Z.eqb n LATTICE_CHAR_TO_CONV_TRANS = Some T0;
    rn_bravais : am_get Z.eqb n LATTICE_CHAR_TO_BRAVAIS = Some b';
    rn_p : well_conditioned (lattice p);
    rn_q : well_conditioned (lattice q);
    rn_P : Mdet Pm <> 0;
    rn_T : Mdet Tm <> 0;
    rn_gram : gram (Mmul L (MofZ Z1)) = diag A B C;
    rn_Z1 : In Z1 signed;
    rn_perm : Permutation [A; B; C] [a * a; b * b; c * c];
    rn_order : A <= B <= C;
    rn_number : n = box_number (1 / 100000 * Rpower (a * b * c) (1 / 3)) A B C;
    rn_right : 0 < Mdet (lattice std);
    rn_answer : box_answer (1 / 100000 * Rpower (a * b * c) (1 / 3)) A B C =
      (if n =? 3 then (221%Z, "Pm-3m"%string, 48%nat) else if n =? 32 then (47%Z, "Pmmm"%string, 8%nat) else (123%Z, "P4/mmm"%string, 16%nat))%Z;
    rn_W : W = ZMmul Z1 (transpose T0);
    rn_signed : In W signed;
    rn_inv : ZMmul W Wi = ZMid;
    rn_std : lattice std = Mmul L (MofZ W);
    rn_like : like (MofZ Wi) (sites_of s) std }.
  Lemma many_stages : exists p q std Tm Pm n b' A B C Z1 T0 W Wi, run_of p q std Tm Pm n b' A B C Z1 T0 W Wi.
  Proof using All.
    destruct (box_vol a b c Ba Bb Bc) as (BV & Va & Vb & Vc). pose proof (box_eps a b c Ba Bb Bc) as BE. pose proof many_det as DL.
    assert (I0 : In ZMid signed) by (apply mem_rot_In; vm_compute; reflexivity).
    assert (Ws : well_conditioned L) by (rewrite <- (Mmul_id_r L), <- MofZ_id; now apply many_well).
    assert (RM : roomy dtol L) by apply many_roomy.
    assert (HN : forall k, (k < 3)%nat -> dtol <= Vnorm (Ccol L k) /\ dtol * Vnorm (Ccol L k) < Rabs (Mdet L)).
    { intros k Hk. split; [pose proof (roomy_col dtol L k RM); lra|]. rewrite DL, (gram_col L _ k E).
      assert (Q : Vnorm (Ccol (diag a b c) k) = match k with 0 => a | 1 => b | _ => c end%nat).
      { destruct k as [|[|[|k]]]; [..|lia]; unfold Vnorm, Vdot, Ccol, diag; cbn;
        match goal with |- sqrt ?x = ?y => replace x with (y * y) by ring; apply sqrt_square; lra end. }
      rewrite Q. destruct k as [|[|[|k]]]; [..|lia]; nra. }
    assert (HDd : dtol < Rabs (Mdet L)) by (rewrite DL; lra).
    destruct (prim_like P HO dtol HP (0%nat :: path) s WF ltac:(lra) Ws BIG HN HDd NI) as (p & y1 & y2 & y3 & F1 & F2 & F3 & F4 & J1 & J2 & J3 & S3 & F5).
    fold L in F2, S3, F5. apply (gram_shortest L _ _ _ _ E) in S3.
    assert (D0 : zdet y1 y2 y3 <> 0%Z). { intro X. assert (Y : ZMdet (zcols y1 y2 y3) = zdet y1 y2 y3) by (unfold ZMdet, zcols; zdets; cbn; ring). rewrite Y, X in F3. lia. }
    destruct (axes a b c ltac:(lra) ltac:(lra) ltac:(lra) y1 y2 y3 J1 J2 J3 S3 D0) as (Q1 & Q2 & Q3 & Q4).
    set (A := nrm (diag a b c) y1) in *. set (B := nrm (diag a b c) y2) in *. set (C := nrm (diag a b c) y3) in *.
    set (Z1 := zcols y1 y2 y3) in *. rewrite <- (gram_mul_eq _ _ (MofZ Z1) E), <- F2 in Q4.
    assert (Wp : well_conditioned (lattice p)) by (rewrite F2; now apply many_well).
    assert (VP : Mdet (lattice p) = a * b * c).
    { rewrite <- DL, <- (Rabs_pos_eq (Mdet (lattice p))) by lra. rewrite F2. fold L. rewrite Mdet_mul, MofZ_det, Rabs_mult, <- abs_IZR. destruct F3 as [-> | ->]; cbn; lra. }
    assert (HA : 1 <= A). { destruct (perm3 _ _ _ _ _ _ Q2) as [X|[X|[X|[X|[X|X]]]]]; destruct X as (-> & _); nra. }
    set (eps := 1 / 100000 * Rpower (a * b * c) (1 / 3)) in *.
    destruct (unimodular_inverse Z1 F3) as (I1 & HI1). assert (HS1 : In I1 signed) by exact (signed_inv Z1 I1 Q1 HI1).
    assert (LP : like (MofZ I1) (sites_of s) p) by (apply F5; [exact HI1|exact Wp|now apply AP]).
    destruct (niggli_fixed P dtol p (1 / 100000) F4) as (q & G1 & G2); cbv zeta; rewrite ?VP; fold eps.
    { lra. } { rewrite Q4. apply orth_niggli; lra. } 1-3: (rewrite Q4; unfold diag; cbn [m11 m12 m13 m21 m22 m23 m31 m32 m33]; lra).
    assert (Wq : well_conditioned (lattice q)) by now rewrite G2.
    assert (LQ : like (MofZ I1) (sites_of s) q).
    { destruct (niggli_like P dtol HP p q _ _ LP F4 ltac:(rewrite VP; fold eps; lra) G1 Wq) as (T & HT & ET & HTi).
      assert (TI : T = ZMid).
      { apply MofZ_inj. rewrite MofZ_id. assert (DN : Mdet (lattice p) <> 0) by lra. destruct (Madj_inverse _ DN) as [_ I]. 
        rewrite <- (Mmul_id_l (MofZ T)), <- I, Mmul_assoc, <- ET, G2. reflexivity. }
      subst T. specialize (HTi ZMid eq_refl). rewrite MofZ_id, Mmul_id_l in HTi. exact HTi. }
    assert (EC : exists n, @get_lattice_character RNum q (1 / 100000) = Ok n /\ In n [3; 11; 21; 32]%Z /\
      n = box_number eps A B C /\ box_answer eps A B C =
      (if n =? 3 then (221%Z, "Pm-3m"%string, 48%nat) else if n =? 32 then (47%Z, "Pmmm"%string, 8%nat) else (123%Z, "P4/mmm"%string, 16%nat))%Z).
    { rewrite lattice_character_R by (rewrite G2; exact F4). cbv zeta. rewrite G2, VP, Q4. fold eps. unfold diag at 1 2 3 4 5 6. cbn [m11 m12 m13 m21 m22 m23 m31 m32 m33].
      rewrite orth_character by lra. eexists. split; [reflexivity|]. unfold box_answer, box_number.
      destruct (@cust_eq RNum A B eps), (@cust_eq RNum A C eps), (@cust_eq RNum B C eps); cbn; auto 12. }
    destruct EC as (n & EC & HI & EN & EA).
    destruct (box_rows n HI) as (b' & T0 & N & sym & cnt & R1 & R2 & R3 & R4 & R5 & R6 & R7 & R8).
    assert (DT0 : (ZMdet (transpose T0) = 1 \/ ZMdet (transpose T0) = -1)%Z).
    { assert (Q : forallb (fun r => if (ZMdet r =? 1)%Z then true else (ZMdet r =? -1)%Z) signed = true) by (vm_compute; reflexivity).
      pose proof (proj1 (forallb_forall _ _) Q _ R3) as X. cbn beta in X. destruct (ZMdet (transpose T0) =? 1)%Z eqn:Y; [left; now apply Z.eqb_eq|right; now apply Z.eqb_eq]. }
    destruct (unimodular_inverse _ DT0) as (I2 & HI2). assert (HS2 : In I2 signed) by exact (signed_inv _ I2 R3 HI2).
    assert (LQL : lattice q = Mmul L (MofZ Z1)) by now rewrite G2.
    assert (CQ : forall W k, In W signed -> 24 * dtol <= Vnorm (Ccol (Mmul L (MofZ W)) k)).
    { intros W k HW. assert (X : exists V', ZMmul V' W = ZMid). { destruct (signed_facts W HW) as (X & _). eauto. }
      destruct X as (V' & X). apply roomy_col. exact (roomy_mul dtol L W V' X RM). }
    assert (APQ : forall x y, In x signed -> In y signed -> apart (2 * dtol) (Mmul (Mmul L (MofZ x)) (MofZ y)) (sites_of s)).
    { intros x y Hx Hy. rewrite Mmul_assoc, <- MofZ_mul. apply AP. now apply signed_mul. }
    assert (HS3 : In (ZMmul I2 I1) signed) by now apply signed_mul.
    destruct (apply_like dtol q (transpose T0) I2 Z1 I1 (sites_of s) fuel LQ (zinv_comm _ _ HI1) HI2 DT0) as (cc & C1 & C2 & C3); [lra|..|lia| |].
    { intro k. rewrite LQL. pose proof (CQ Z1 k Q1). lra. } { intro k. rewrite LQL. pose proof (CQ Z1 k Q1). lra. } { rewrite LQL. now apply APQ. }
    set (W := ZMmul Z1 (transpose T0)). set (Wi := ZMmul I2 I1) in *. assert (HW : In W signed) by now apply signed_mul.
    assert (WI : ZMmul W Wi = ZMid).
    { apply MofZ_inj. unfold W, Wi. rewrite !MofZ_mul, !Mmul_assoc, <- (Mmul_assoc (MofZ (transpose T0))), <- (MofZ_mul (transpose T0) I2), HI2, MofZ_id, Mmul_id_l, <- MofZ_mul, HI1, MofZ_id. reflexivity. }
    assert (LCL : lattice cc = Mmul L (MofZ W)) by (rewrite C2, LQL, Mmul_assoc, <- MofZ_mul; reflexivity).
    destruct (apply_like dtol cc ZMid ZMid W Wi (sites_of s) fuel C3 (zinv_comm _ _ WI) eq_refl (or_introl eq_refl)) as (std & K1 & K2 & K3); [lra|..|lia| |].
    { intro k. rewrite LCL. pose proof (CQ W k HW). lra. } { intro k. rewrite LCL. pose proof (CQ W k HW). lra. }
    { assert (X : ZMmul ZMid Wi = Wi) by (apply MofZ_inj; rewrite MofZ_mul, MofZ_id; apply Mmul_id_l). rewrite LCL, X. now apply APQ. }
    assert (X : ZMmul ZMid Wi = Wi) by (apply MofZ_inj; rewrite MofZ_mul, MofZ_id; apply Mmul_id_l). rewrite X in K3.
    rewrite MofZ_id, Mmul_id_r in K2.
    assert (PT : @prim_trans_of RNum CP = Some (Mid : mat R)).
    { cbn. f_equal. apply (@mat_ext R); cbn; field. }
    exists p, q, std, (Mtr (MofZ T0)), (Mid : mat R), n, b', A, B, C, Z1, T0, W, Wi. constructor; auto.
    - change (1 / 100000) with (@tol_1em5 RNum) in *. constructor; auto.
      + unfold conventional_transformation_matrix. rewrite EC. cbn [bind]. rewrite R2. reflexivity.
      + unfold primitive_transformation_matrix. rewrite R1. cbn [of_opt bind]. rewrite R7. cbn [bind]. numR. rewrite PT. reflexivity.
      + exists cc. split; [exact C1|]. rewrite <- MofZ_id. exact K1.
    - unfold Mdet, Mid. cbn. lra.
    - change (Mdet (MofZ (transpose T0)) <> 0). rewrite MofZ_det. destruct DT0 as [-> | ->]; lra.
    - rewrite <- F2. exact Q4.
    - rewrite K2, C2, G2, Mdet_mul, MofZ_det, VP. replace (ZMdet (transpose T0)) with 1%Z; [lra|].
      destruct HI as [<-|[<-|[<-|[<-|[]]]]]; vm_compute in R2; injection R2 as <-; reflexivity.
    - now rewrite K2.
  Qed.
End Many.
