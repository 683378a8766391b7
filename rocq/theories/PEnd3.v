(** One atom per primitive cell: the whole run, continued (analyzer.rs 36-162) *)
From Coq Require Import ZArith Reals String Ascii List Bool Lia Lra Permutation.
From Verif Require Import Num Mat Utils DataCore SymmOp PointGroup SpaceGroup Structure Reduce Analyzer RInst Spec Spec2 Spec3 RFacts
  PUtils PSymmOp PStructure PStructure2 PStructure3 PNiggli PDelaunay PPrim PPrim2 PLattice PAnalyzer PAnalyzer2 PPointGroup PPointGroup2 PTables PSearch4 PSearch6 PSearch7 PEnd PEnd2 Prop4 Prop5.
Import ListNotations.
Open Scope R_scope.

Definition unit_rot (r : mat Z) : bool := forallb (fun x => Z.abs x <=? 1)%Z [m11 r; m12 r; m13 r; m21 r; m22 r; m23 r; m31 r; m32 r; m33 r].
Lemma holo_unit_checked : forallb (fun b => forallb unit_rot (holo_rots b)) all_bravais = true.
Proof. vm_compute. reflexivity. Qed.
Lemma unit_rot_spec r : unit_rot r = true -> (Z.abs (m11 r) <= 1 /\ Z.abs (m12 r) <= 1 /\ Z.abs (m13 r) <= 1 /\ Z.abs (m21 r) <= 1 /\ Z.abs (m22 r) <= 1 /\ Z.abs (m23 r) <= 1 /\
  Z.abs (m31 r) <= 1 /\ Z.abs (m32 r) <= 1 /\ Z.abs (m33 r) <= 1)%Z.
Proof. unfold unit_rot. cbn [forallb]. rewrite !andb_true_iff, !Z.leb_le. tauto. Qed.
Lemma mul3_bound a b c x y z k l : (Z.abs a <= k -> Z.abs b <= k -> Z.abs c <= k -> Z.abs x <= l -> Z.abs y <= l -> Z.abs z <= l ->
  0 <= k -> 0 <= l -> Z.abs (a * x + b * y + c * z) <= 3 * (k * l))%Z.
Proof.
  intros. assert (G : forall u v, (Z.abs u <= k -> Z.abs v <= l -> Z.abs (u * v) <= k * l)%Z).
  { intros u v Hu Hv. rewrite Z.abs_mul. apply Z.mul_le_mono_nonneg; lia. }
  pose proof (G a x ltac:(assumption) ltac:(assumption)). pose proof (G b y ltac:(assumption) ltac:(assumption)). pose proof (G c z ltac:(assumption) ltac:(assumption)). lia.
Qed.
Lemma conj_i8 T Ti r : entries_within (-3) 3 T -> entries_within (-3) 3 Ti -> unit_rot r = true -> i8_range (ZMmul (ZMmul Ti r) T).
Proof.
  intros HT HI HR. apply unit_rot_spec in HR. unfold entries_within in HT, HI. unfold i8_range, entries_within, ZMmul. cbn [m11 m12 m13 m21 m22 m23 m31 m32 m33].
  assert (B : forall x k, (- k <= x <= k -> Z.abs x <= k)%Z) by lia.
  assert (G : forall x, (Z.abs x <= 3 * ((3 * (3 * 1)) * 3) -> -128 <= x <= 127)%Z) by lia.
  repeat match goal with |- _ /\ _ => split end; apply G;
  (apply mul3_bound; [..|lia|lia]; try (apply B; lia); apply mul3_bound; try lia; apply B; lia).
Qed.

Lemma NoDup_map_filter {A B} (f : A -> B) g l : NoDup (map f l) -> NoDup (map f (filter g l)).
Proof.
  induction l as [|a l IH]; cbn; [auto|]. intro N. inversion N as [|x y N1 N2]; subst. destruct (g a); [cbn; constructor; [|now apply IH]|now apply IH].
  intro X. apply N1. apply in_map_iff in X. destruct X as (z & Ez & Hz). apply filter_In in Hz. apply in_map_iff. exists z. tauto.
Qed.
Lemma NoDup_conj T Ti (l : list (@symmop RNum)) : ZMmul T Ti = ZMid -> NoDup (map (@rotation RNum) l) ->
  NoDup (map (fun op : @symmop RNum => ZMmul (ZMmul Ti (rotation op)) T) l).
Proof.
  intros TI N. assert (TI' := zinv_comm _ _ TI). rewrite <- (map_map (@rotation RNum) (fun r => ZMmul (ZMmul Ti r) T)). apply FinFun.Injective_map_NoDup; [|exact N].
  intros a b E. apply MofZ_inj. assert (Q : MofZ (ZMmul (ZMmul Ti a) T) = MofZ (ZMmul (ZMmul Ti b) T)) by now rewrite E.
  rewrite !MofZ_mul in Q.
  assert (G : forall x, Mmul (MofZ T) (Mmul (Mmul (Mmul (MofZ Ti) x) (MofZ T)) (MofZ Ti)) = x).
  { intro x. rewrite !Mmul_assoc, <- (MofZ_mul T Ti), TI, MofZ_id, Mmul_id_r, <- Mmul_assoc, <- MofZ_mul, TI, MofZ_id. apply Mmul_id_l. }
  rewrite <- (G (MofZ a)), <- (G (MofZ b)), Q. reflexivity.
Qed.

Section Stages.
  Context (P : @Pinv RNum) (HO : HashOrd) (dtol : R) (fuel : nat) (path : list nat) (s p q : @structure RNum) (e : string) (w : vec R) (m : vec Z) (n : Z).
  Hypothesis (HP : pinv_inverts P) (HF : (48 <= fuel)%nat) (ES : species s = [e]) (EX : frac_coords s = [Vadd w (VofZ m)]) (H0 : 0 < dtol).
  Hypothesis (Ws : well_conditioned (lattice s)) (Wp : well_conditioned (lattice p)) (Wq : well_conditioned (lattice q)).
  Hypothesis HC : forall k, (k < 3)%nat -> dtol * Vnorm (Ccol (lattice s) k) < Rabs (Mdet (lattice s)).
  Hypothesis HD : dtol < Rabs (Mdet (lattice s)).
  Hypothesis RM : roomy dtol (lattice s).
  Hypothesis HE : 1 / 100000 * Rpower (Rabs (Mdet (lattice s))) (1 / 3) < 1.
  Hypothesis (E1 : @find_primitive_cell RNum P HO (0%nat :: path) dtol s = Ok p) (E2 : @niggli_reduce RNum P dtol p (1 / 100000) = Ok q).
  Hypothesis E3 : @get_lattice_character RNum q (1 / 100000) = Ok n.
  (** the stages up to the standard primitive cell, which has one site *)
  Lemma one_stages : exists b c std T Ti T0 Pm U,
    am_get Z.eqb n LATTICE_CHAR_TO_BRAVAIS = Some b /\
    @get_standard_primitive_structure RNum P HO fuel (0%nat :: path) dtol s = Ok std /\
    lattice s = Mmul (lattice std) (MofZ T) /\ ZMmul T Ti = ZMid /\ ZMmul Ti T = ZMid /\ whole (Mapp (MofZ T) w) std e /\ roomy dtol (lattice std) /\
    am_get Z.eqb n LATTICE_CHAR_TO_CONV_TRANS = Some T0 /\
    @conventional_transformation_matrix RNum q = Ok (Mtr (MofZ T0), n) /\ @primitive_transformation_matrix RNum n = Ok (Pm, b) /\
    @apply_transformation RNum fuel q (Mtr (MofZ T0)) dtol = Ok c /\ @apply_transformation RNum fuel c Pm dtol = Ok std /\
    Mmul (Mtr (MofZ T0)) Pm = MofZ U /\ (ZMdet U = 1 \/ ZMdet U = -1)%Z /\ lattice std = Mmul (lattice q) (MofZ U).
  Proof using All.
    destruct (prim_whole P HO dtol HP (0%nat :: path) s e w m ES EX ltac:(lra) Ws) as (p' & y1 & y2 & y3 & F1 & F2 & F3 & F4 & _ & _ & _ & _ & F5); [|exact HD|].
    { intros k Hk. split; [|now apply HC]. pose proof (roomy_col dtol (lattice s) k RM). lra. }
    rewrite E1 in F1. injection F1 as <-. set (Z1 := zcols y1 y2 y3) in *.
    destruct (unimodular_inverse Z1 F3) as (I1 & HI1). pose proof (zinv_comm _ _ HI1) as HI1'. specialize (F5 I1 HI1 Wp).
    assert (DP : Mdet (lattice p) = Rabs (Mdet (lattice s))).
    { rewrite <- (Rabs_pos_eq (Mdet (lattice p))) by lra. rewrite F2, Mdet_mul, MofZ_det, Rabs_mult, <- abs_IZR. destruct F3 as [-> | ->]; cbn; lra. }
    destruct (niggli_whole P dtol HP p q e _ F5 F4) as (Z2 & G2 & G3 & G1); [rewrite DP; exact HE|exact E2|exact Wq|].
    destruct (unimodular_inverse Z2 (or_introl G2)) as (I2 & HI2). pose proof (zinv_comm _ _ HI2) as HI2'. specialize (G1 I2 HI2).
    assert (RQ : roomy dtol (lattice q)).
    { rewrite G3, F2. apply (roomy_mul dtol _ _ I2 HI2'). now apply (roomy_mul dtol _ _ I1 HI1'). }
    destruct (std_whole dtol q e _ n fuel G1 RQ H0 ltac:(lia) E3) as (T0 & Pm & b & c & std & U & K1 & K2 & K3 & K4 & K5 & K6 & K7 & K8 & K9).
    destruct (unimodular_inverse U K7) as (I3 & HI3). pose proof (zinv_comm _ _ HI3) as HI3'. specialize (K9 I3 HI3).
    assert (RS : roomy dtol (lattice std)) by (rewrite K8; now apply (roomy_mul dtol _ _ I3 HI3')).
    set (Ti := ZMmul (ZMmul Z1 Z2) U). set (T := ZMmul I3 (ZMmul I2 I1)).
    assert (TI : ZMmul Ti T = ZMid).
    { apply MofZ_inj. unfold T, Ti. rewrite !MofZ_mul, !Mmul_assoc, <- (Mmul_assoc (MofZ U)), <- MofZ_mul, HI3, MofZ_id, Mmul_id_l.
      rewrite <- (Mmul_assoc (MofZ Z2)), <- MofZ_mul, HI2, MofZ_id, Mmul_id_l, <- MofZ_mul, HI1. apply MofZ_id. }
    pose proof (zinv_comm _ _ TI) as TI'.
    assert (ESTD : lattice std = Mmul (lattice s) (MofZ Ti)) by (rewrite K8, G3, F2; unfold Ti; now rewrite !MofZ_mul, !Mmul_assoc).
    assert (EL : lattice s = Mmul (lattice std) (MofZ T)) by (rewrite ESTD, Mmul_assoc, <- MofZ_mul, TI, MofZ_id; symmetry; apply Mmul_id_r).
    change (1 / 100000) with (@tol_1em5 RNum) in *.
    destruct (conventional_inv _ _ _ K1) as (_ & _ & T1 & C1 & C2). change (transpose (@mcast RNum T1)) with (Mtr (MofZ T1)) in C2.
    exists b, c, std, T, Ti, T1, Pm, U. rewrite <- C2. split; [exact K5|]. split.
    { unfold get_standard_primitive_structure. rewrite E1. cbn [bind]. rewrite E2. cbn [bind]. rewrite K1. cbn [bind]. numR. rewrite K3. cbn [bind]. rewrite K2. cbn [bind]. exact K4. }
    split; [exact EL|]. split; [exact TI'|]. split; [exact TI|].
    split; [unfold T; rewrite !MofZ_mul, !Mapp_Mmul; exact K9|]. auto 15.
  Qed.
End Stages.

Section Run.
  Context (P : @Pinv RNum) (HO : HashOrd) (dtol : R) (fuel : nat) (path : list nat) (s p q : @structure RNum) (e : string) (m : vec Z) (n : Z).
  Hypothesis (HP : pinv_inverts P) (HF : (48 <= fuel)%nat) (ES : species s = [e]) (EX : frac_coords s = [VofZ m]) (H0 : 0 < dtol).
  Hypothesis (Ws : well_conditioned (lattice s)) (Wp : well_conditioned (lattice p)) (Wq : well_conditioned (lattice q)).
  Hypothesis HC : forall k, (k < 3)%nat -> dtol * Vnorm (Ccol (lattice s) k) < Rabs (Mdet (lattice s)).
  Hypothesis HD : dtol < Rabs (Mdet (lattice s)).
  Hypothesis RM : roomy dtol (lattice s).
  Hypothesis HE : 1 / 100000 * Rpower (Rabs (Mdet (lattice s))) (1 / 3) < 1.
  Hypothesis (E1 : @find_primitive_cell RNum P HO (0%nat :: path) dtol s = Ok p) (E2 : @niggli_reduce RNum P dtol p (1 / 100000) = Ok q).
  Hypothesis E3 : @get_lattice_character RNum q (1 / 100000) = Ok n.
  Lemma one_run : exists b std T Ti,
    am_get Z.eqb n LATTICE_CHAR_TO_BRAVAIS = Some b /\
    @get_standard_primitive_structure RNum P HO fuel (0%nat :: path) dtol s = Ok std /\
    lattice s = Mmul (lattice std) (MofZ T) /\ ZMmul T Ti = ZMid /\ ZMmul Ti T = ZMid /\ whole V0 std e /\
    (exists T0 Pm U, am_get Z.eqb n LATTICE_CHAR_TO_CONV_TRANS = Some T0 /\ @primitive_transformation_matrix RNum n = Ok (Pm, b) /\
      Mmul (Mtr (MofZ T0)) Pm = MofZ U /\ lattice std = Mmul (lattice q) (MofZ U)) /\
    ((forall k, (k < 3)%nat -> Vnorm (Ccol (lattice std) k) <= 100000000 * dtol) ->
     match lattice_group (bravais_to_string b) with
     | Some (N, sym) =>
         (forall n' sym' ops, @get_space_group_info RNum P HO fuel path dtol s = Ok (n', sym', ops) -> n' = N /\ sym' = sym) /\
         (entries_within (-3) 3 T -> entries_within (-3) 3 Ti ->
          exists ops, @get_space_group_info RNum P HO fuel path dtol s = Ok (N, sym, ops) /\
            (forall op, In op ops -> exists r, In r (holo_rots b) /\ rotation op = ZMmul (ZMmul Ti r) T) /\
            (forall r, In r (holo_rots b) -> has_unit_entry (ZMmul (ZMmul Ti r) T) = true -> exists op, In op ops /\ rotation op = ZMmul (ZMmul Ti r) T) /\
            NoDup (map (@rotation RNum) ops))
     | None => forall r, @get_space_group_info RNum P HO fuel path dtol s <> Ok r
     end).
  Proof.
    destruct (one_stages P HO dtol fuel path s p q e V0 m n HP HF ES ltac:(rewrite Vadd_0; exact EX) H0 Ws Wp Wq HC HD RM HE E1 E2 E3)
      as (b & c & std & T & Ti & T0 & Pm & U & K5 & K0 & EL & TI' & TI & K9 & RS & C1 & K1 & K2 & K3 & K4 & K6 & K7 & K8).
    rewrite Mapp_V0 in K9.
    change (1 / 100000) with (@tol_1em5 RNum) in *.
    assert (STG : @stages RNum P HO fuel path dtol s p q std (Mtr (MofZ T0)) Pm n b).
    { constructor; [exact E1|exact E2|exact K1|exact K2|]. exists c. split; [exact K3|exact K4]. }
    exists b, std, T, Ti. split; [exact K5|]. split; [exact K0|]. split; [exact EL|]. split; [exact TI'|]. split; [exact TI|]. split; [exact K9|]. split.
    { exists T0, Pm, U. auto. }
    intro FC. destruct K9 as (KS & m' & KX & _). rewrite Vadd_0 in KX.
    assert (fine : forall k, (k < 3)%nat -> 1 / 100000000 * Vnorm (Ccol (lattice std) k) <= dtol /\ 24 * dtol <= Vnorm (Ccol (lattice std) k) /\ 0 < Vnorm (Ccol (lattice std) k)).
    { intros k Hk. specialize (FC k Hk). pose proof (roomy_col dtol (lattice std) k RS). lra. }
    destruct (lattice_facts_hold b) as (ls & F).
    destruct (one_found std dtol fuel (1%nat :: path) b e m' HF KS KX fine ls F) as (ops & Q1 & Q2 & Q3 & Q4 & Q5 & Q6).
    destruct (lattice_group (bravais_to_string b)) as [[N sym]|] eqn:EG.
    - destruct (one_identified std dtol fuel (1%nat :: path) b e m' HF KS KX fine ls N sym F EG) as (ops' & Q1' & _ & _ & Q7).
      rewrite Q1 in Q1'. injection Q1' as <-. split.
      + intros n' sym' ops' EI. apply info_stages in EI.
        destruct EI as (p0 & q0 & std0 & Tm0 & Pm0 & ch0 & b0 & gens & sg & ls0 & m1 & m2 & i1 & i2 & S0 & _ & J1 & J2 & J3 & J4 & _).
        destruct S0 as [S1 S2 S3 S4 (c0 & S5 & S6)]. numR. rewrite E1 in S1. injection S1 as <-. rewrite E2 in S2. injection S2 as <-. rewrite K1 in S3. injection S3 as <- <-.
        rewrite K2 in S4. injection S4 as <- <-. rewrite K3 in S5. injection S5 as <-. rewrite K4 in S6. injection S6 as <-.
        rewrite Q1 in J1. injection J1 as <-. rewrite Q2 in J2. injection J2 as <-. rewrite (lf_system _ _ F) in J3. injection J3 as <-. rewrite Q7 in J4.
        injection J4 as <- <-. auto.
      + intros BT BI.
        assert (M1 : exists m1, @get_transformation_matrix RNum P p s = Ok m1) by (unfold get_transformation_matrix; rewrite pseudo_inverse_R; cbn [of_opt bind]; eauto).
        assert (M2 : exists m2, @get_transformation_matrix RNum P q p = Ok m2) by (unfold get_transformation_matrix; rewrite pseudo_inverse_R; cbn [of_opt bind]; eauto).
        destruct M1 as (m1 & M1), M2 as (m2 & M2).
        assert (D0 : Mdet (MofZ U) <> 0) by (rewrite MofZ_det; destruct K7 as [-> | ->]; lra).
        assert (DPm : Mdet Pm <> 0) by (intro X; apply D0; rewrite <- K6, Mdet_mul, X; ring).
        assert (DTm : Mdet (Mtr (MofZ T0)) <> 0) by (intro X; apply D0; rewrite <- K6, Mdet_mul, X; ring).
        pose proof (try_inverse_R _ DPm) as V1. pose proof (try_inverse_R _ DTm) as V2.
        pose proof (total_transformation P HO fuel path dtol s p q std _ _ _ _ m1 m2 _ _ STG HP Wp Wq M1 M2 V1 V2) as TT.
        assert (TE : Mmul (Mmul (Mmul (Madj_inv Pm) (Madj_inv (Mtr (MofZ T0)))) m2) m1 = MofZ T).
        { assert (DS : Mdet (lattice std) <> 0).
          { intro X. assert (Y : Mdet (lattice s) = 0) by (rewrite EL, Mdet_mul, X; ring). rewrite Y, Rabs_R0 in HD. lra. }
          assert (CA : forall a b, Mmul (lattice std) a = Mmul (lattice std) b -> a = b).
          { intros a b0 X. destruct (Madj_inverse _ DS) as [_ I]. rewrite <- (Mmul_id_l a), <- (Mmul_id_l b0), <- I, !Mmul_assoc, X. reflexivity. }
          apply CA. rewrite TT. exact EL. }
        assert (FT : forall k, (k < 3)%nat -> 0 < dtol / Vnorm (Ccol (lattice std) k) <= / 2).
        { intros k Hk. destruct (fine k Hk) as (A1 & A2 & A3). split; [apply Rmult_lt_0_compat; [exact H0|now apply Rinv_0_lt_compat]|].
          apply (Rmult_le_reg_r (Vnorm (Ccol (lattice std) k))); [exact A3|]. unfold Rdiv. rewrite Rmult_assoc, Rinv_l by lra. lra. }
        destruct (C20_unimodular_transformation T Ti (@frac_tols_of RNum (lattice std) dtol) ops fuel TI' TI
          (FT 0%nat ltac:(lia)) (FT 1%nat ltac:(lia)) (FT 2%nat ltac:(lia)) ltac:(lia)) as (ops' & W1 & W2 & W3).
        * intros op Hop. apply conj_i8; [exact BT|exact BI|]. pose proof (proj1 (forallb_forall _ _) holo_unit_checked b (all_bravais_In b)) as X.
          exact (proj1 (forallb_forall _ _) X _ (proj1 (Q5 op Hop))).
        * intros i j a a' Hij Ha Ha' Er _. 
          assert (X : i = j); [|lia]. apply (proj1 (NoDup_nth_error (map (@rotation RNum) ops)) Q4).
          -- rewrite map_length. apply nth_error_Some. congruence.
          -- rewrite !nth_error_map, Ha, Ha'. cbn. now rewrite Er.
        * assert (ER : map (@rotation RNum) ops' = map (fun op => ZMmul (ZMmul Ti (rotation op)) T) (filter (fun op => has_unit_entry (ZMmul (ZMmul Ti (rotation op)) T)) ops)).
          { clear - W2. induction W2 as [|a a' l l' (A & _) _ IH]; [reflexivity|]. cbn [map]. now rewrite A, IH. }
          exists ops'. split; [|split; [|split]].
          -- unfold get_space_group_info. rewrite E1. cbn [bind]. rewrite E2. cbn [bind]. rewrite K1. cbn [bind]. numR. rewrite K3. cbn [bind]. rewrite K2. cbn [bind].
             rewrite K4. cbn [bind]. rewrite Q1. cbn [bind]. rewrite Q2. cbn [bind]. rewrite (lf_system _ _ F). cbn [bind]. rewrite Q7. cbn [bind of_opt].
             rewrite M1. cbn [bind]. rewrite M2. cbn [bind]. rewrite V1. cbn [bind of_opt]. rewrite V2. cbn [bind of_opt].
             match goal with |- context [@sg_apply_transformation RNum _ _ ?t _] => replace t with (MofZ T) by (symmetry; exact TE) end. rewrite W1. reflexivity.
          -- intros op Hop. assert (X : In (rotation op) (map (@rotation RNum) ops')) by now apply in_map. rewrite ER in X. apply in_map_iff in X.
             destruct X as (a & <- & Ha). apply filter_In in Ha. exists (rotation a). split; [exact (proj1 (Q5 a (proj1 Ha)))|reflexivity].
          -- intros r Hr HU. destruct (Q6 r Hr) as (a & Ha & Ea & _). assert (X : In (ZMmul (ZMmul Ti r) T) (map (@rotation RNum) ops')).
             { rewrite ER. apply in_map_iff. exists a. rewrite Ea. split; [reflexivity|]. apply filter_In. rewrite Ea. auto. }
             apply in_map_iff in X. destruct X as (op & Eo & Ho). eauto.
          -- rewrite ER. apply NoDup_conj; [exact TI'|]. now apply NoDup_map_filter.
    - destruct (one_unidentified std dtol fuel (1%nat :: path) b e m' HF KS KX fine ls F EG) as (ops' & Q1' & _ & Q7).
      rewrite Q1 in Q1'. injection Q1' as <-. intros [[n' sym'] ops'] EI. apply info_stages in EI.
        destruct EI as (p0 & q0 & std0 & Tm0 & Pm0 & ch0 & b0 & gens & sg & ls0 & m1 & m2 & i1 & i2 & S0 & _ & J1 & J2 & J3 & J4 & _).
        destruct S0 as [S1 S2 S3 S4 (c0 & S5 & S6)]. numR. rewrite E1 in S1. injection S1 as <-. rewrite E2 in S2. injection S2 as <-. rewrite K1 in S3. injection S3 as <- <-.
        rewrite K2 in S4. injection S4 as <- <-. rewrite K3 in S5. injection S5 as <-. rewrite K4 in S6. injection S6 as <-.
        rewrite Q1 in J1. injection J1 as <-. rewrite Q2 in J2. injection J2 as <-. rewrite (lf_system _ _ F) in J3. injection J3 as <-. exact (Q7 _ _ _ J4).
  Qed.
End Run.
