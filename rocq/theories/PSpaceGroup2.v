(** Proofs about SpaceGroup::apply_transformation and about from_generators on the tables *)
From Coq Require Import ZArith Reals String Ascii List Bool Lia Lra Permutation.
From Flocq Require Import Core.Raux.
From Verif Require Import Num Mat Utils DataCore DataSG SymmOp SpaceGroup Analyzer RInst Spec RFacts PUtils PSymmOp PPointGroup2 PSpaceGroup.
Import ListNotations.
Open Scope R_scope.

Lemma Forall2_weaken {A B} (P Q : A -> B -> Prop) : (forall a b, P a b -> Q a b) ->
  forall l m, Forall2 P l m -> Forall2 Q l m.
Proof. intros H l m F. induction F; constructor; auto. Qed.
(** ** fuel *)
Lemma sg_rounds_fuel_mono {N : Num} tols fuel : forall fuel' ops new r, (fuel <= fuel')%nat ->
  sg_rounds fuel tols ops new = Ok r -> sg_rounds fuel' tols ops new = Ok r.
Proof.
  induction fuel as [|fuel IH]; intros [|fuel'] ops new r Hf E; destruct new; try exact E; try discriminate; try lia.
  cbn [sg_rounds] in *. destruct (fold_left _ _ _) as [o g]. apply IH; auto. lia.
Qed.

(** ** unimodular transformations *)
Lemma am_get_insert_same {V} k (v : V) m : am_get zmat_eqb k (am_insert zmat_eqb k v m) = Some v.
Proof.
  induction m as [|[k' v'] m IH]; cbn; [now rewrite zmat_eqb_refl|].
  destruct (zmat_eqb k k') eqn:E; cbn; rewrite E; auto.
Qed.
Lemma am_get_insert_other {V} k k2 (v : V) m : k2 <> k -> am_get zmat_eqb k2 (am_insert zmat_eqb k v m) = am_get zmat_eqb k2 m.
Proof.
  intro Hn. induction m as [|[k' v'] m IH]; cbn.
  - replace (zmat_eqb k2 k) with false; auto. symmetry. now apply zmat_eqb_false.
  - destruct (zmat_eqb k k') eqn:E; cbn.
    + apply zmat_eqb_spec in E. subst k'. replace (zmat_eqb k2 k) with false; auto. symmetry. now apply zmat_eqb_false.
    + destruct (zmat_eqb k2 k'); auto.
Qed.

Section Uni.
  Variables (T Ti : mat Z) (tols : vec R).
  Hypothesis (HT : ZMmul T Ti = ZMid) (HTi : ZMmul Ti T = ZMid) (Ht : tols_ok tols).

  Lemma uni_inverse : inverse_of (MofZ T) (MofZ Ti).
  Proof. split; rewrite <- MofZ_mul, ?HT, ?HTi; apply MofZ_id. Qed.
  Lemma uni_try_inverse : @try_inverse RNum (MofZ T) = Some (MofZ Ti).
  Proof.
    pose proof (inverse_det _ _ uni_inverse) as D. rewrite (try_inverse_R _ D). f_equal.
    exact (inverse_unique _ _ _ (Madj_inverse _ D) uni_inverse).
  Qed.
  Lemma uni_det : ZMdet T = 1%Z \/ ZMdet T = (-1)%Z.
  Proof.
    pose proof (ZMdet_mul T Ti) as E. rewrite HT in E. change (ZMdet ZMid) with 1%Z in E.
    apply eq_sym, Z.eq_mul_1 in E. exact E.
  Qed.
  Lemma uni_volume_ratio : @volume_ratio RNum (MofZ T) = 1.
  Proof.
    unfold volume_ratio. cbn [fdiv fround fmul fabs fofZ RNum]. numR. rewrite det_R, MofZ_det.
    replace (Rabs (IZR (ZMdet T)) * 100) with (IZR 100).
    - rewrite Rround_IZR. lra.
    - destruct uni_det as [-> | ->]; [rewrite Rabs_pos_eq by lra|rewrite Rabs_left by lra]; lra.
  Qed.

  Definition cj (r : mat Z) : mat Z := ZMmul (ZMmul Ti r) T.
  Lemma cj_real r : @mmul RNum (@mmul RNum (MofZ Ti) (@mcast RNum r)) (MofZ T) = MofZ (cj r).
  Proof. unfold cj. rewrite !MofZ_mul. reflexivity. Qed.

  Lemma unit_entry1 z : (@flt RNum (@fabs RNum (IZR z)) (@ZERO_TOL RNum) ||
      @flt RNum (@fabs RNum (@fsub RNum (@fabs RNum (IZR z)) (@f1 RNum))) (@ZERO_TOL RNum))%bool = (Z.abs z <=? 1)%Z.
  Proof.
    apply eq_iff_eq_true. rewrite orb_true_iff, !flt_true, Z.leb_le.
    unfold ZERO_TOL, flit, f1. cbn [fabs fsub fofZ fdiv RNum]. rewrite <- abs_IZR, <- minus_IZR, <- abs_IZR.
    assert (B : forall k, IZR k < 1 / 1000000 <-> (k <= 0)%Z).
    { intro k. split; intro H.
      - assert (IZR k < IZR 1) by lra. apply lt_IZR in H0. lia.
      - apply IZR_le in H. lra. }
    rewrite !B. lia.
  Qed.
  Lemma keeps_unit r : @sg_keeps_rotation RNum (MofZ r) = has_unit_entry r.
  Proof.
    unfold sg_keeps_rotation, has_unit_entry, mlist, MofZ. cbn [m11 m12 m13 m21 m22 m23 m31 m32 m33 existsb].
    rewrite !unit_entry1. destruct (_ <=? _)%Z, (_ <=? _)%Z, (_ <=? _)%Z, (_ <=? _)%Z, (_ <=? _)%Z, (_ <=? _)%Z,
      (_ <=? _)%Z, (_ <=? _)%Z, (_ <=? _)%Z; reflexivity.
  Qed.

  Definition tr_ok (op op' : sop) : Prop :=
    rotation op' = cj (rotation op) /\
    Vcongr (translation op') (Mapp (MofZ Ti) (translation op)) /\
    (forall c, - vnth tols c <= vnth (translation op') c <= 1 - vnth tols c).

  (** one operation: a new translation is recorded exactly once *)
  Definition found_ok (found : list (mat Z * list (vec R))) (new : list sop) : Prop :=
    forall r t, In t (@found_get RNum r found) <-> exists o, In o new /\ rotation o = r /\ translation o = t.

  Lemma vec_step_dup op r found new v : Vcongr v V0 ->
    (exists t, In t (@found_get RNum r found) /\ near3 tols (Mapp (MofZ Ti) (translation op)) t) ->
    @sg_vec_step RNum (MofZ Ti) tols op r (found, new) v = (found, new).
  Proof.
    intros [n Hv] (t & It & Nt). unfold sg_vec_step.
    replace (existsb _ (@found_get RNum r found)) with true; [reflexivity|]. symmetry.
    apply existsb_exists. exists t. split; auto. apply within_near; auto.
    eapply near3_congr; [|apply Vcongr_refl|exact Nt].
    apply Vcongr_sym. eapply Vcongr_trans; [apply normalize_vec_congr|].
    rewrite mvmul_R, vadd_R, Mapp_add.
    rewrite <- (Vadd_0_r (Mapp (MofZ Ti) (translation op))) at 2.
    apply Vcongr_add; [apply Vcongr_refl|]. exists (ZMapp Ti n).
    rewrite MofZ_app, Hv, Mapp_add.
    rewrite Mapp_V0. reflexivity.
  Qed.
  Lemma vec_step_new op r found new v : Vcongr v V0 ->
    (forall t, In t (@found_get RNum r found) -> ~ near3 tols (Mapp (MofZ Ti) (translation op)) t) ->
    exists tv, @sg_vec_step RNum (MofZ Ti) tols op r (found, new) v =
      (am_insert zmat_eqb r (@found_get RNum r found ++ [tv]) found, new ++ [SymmOp (N := RNum) r tv]) /\
      Vcongr tv (Mapp (MofZ Ti) (translation op)) /\
      (forall c, - vnth tols c <= vnth tv c <= 1 - vnth tols c).
  Proof.
    intros [n Hv] Hn. unfold sg_vec_step.
    set (tv0 := @normalize_vec RNum (@mvmul RNum (MofZ Ti) (@vadd RNum (translation op) v)) tols).
    assert (C : Vcongr tv0 (Mapp (MofZ Ti) (translation op))).
    { eapply Vcongr_trans; [apply normalize_vec_congr|].
      rewrite mvmul_R, vadd_R, Mapp_add.
      rewrite <- (Vadd_0_r (Mapp (MofZ Ti) (translation op))) at 2.
      apply Vcongr_add; [apply Vcongr_refl|]. exists (ZMapp Ti n).
      rewrite MofZ_app, Hv, Mapp_add.
      rewrite Mapp_V0. reflexivity. }
    exists (@normalize_vec RNum tv0 tols). split; [|split].
    - replace (existsb _ (@found_get RNum r found)) with false; [reflexivity|]. symmetry.
      apply not_true_is_false. intro E. apply existsb_exists in E. destruct E as (t & It & W).
      apply within_near in W; auto. apply (Hn t It). eapply near3_congr; [exact C|apply Vcongr_refl|exact W].
    - eapply Vcongr_trans; [apply normalize_vec_congr|exact C].
    - intro c. rewrite normalize_vec_vnth_R. apply normalize1_range.
      destruct Ht as (T1 & T2 & T3). destruct c as [|[|c]]; cbn; lra.
  Qed.
  Lemma vec_fold_dup op r vs : forall found new, (forall v, In v vs -> Vcongr v V0) ->
    (exists t, In t (@found_get RNum r found) /\ near3 tols (Mapp (MofZ Ti) (translation op)) t) ->
    fold_left (@sg_vec_step RNum (MofZ Ti) tols op r) vs (found, new) = (found, new).
  Proof.
    induction vs as [|v vs IH]; intros found new Hv Hd; [reflexivity|]. cbn [fold_left].
    rewrite vec_step_dup by (auto; apply Hv; now left). apply IH; auto. intros w Hw. apply Hv. now right.
  Qed.
  Lemma vec_fold_new op r v vs found new : (forall w, In w (v :: vs) -> Vcongr w V0) -> found_ok found new ->
    (forall t, In t (@found_get RNum r found) -> ~ near3 tols (Mapp (MofZ Ti) (translation op)) t) ->
    exists tv found',
      fold_left (@sg_vec_step RNum (MofZ Ti) tols op r) (v :: vs) (found, new) =
        (found', new ++ [SymmOp (N := RNum) r tv]) /\
      found_ok found' (new ++ [SymmOp (N := RNum) r tv]) /\
      Vcongr tv (Mapp (MofZ Ti) (translation op)) /\
      (forall c, - vnth tols c <= vnth tv c <= 1 - vnth tols c).
  Proof.
    intros Hv Fo Hn. cbn [fold_left].
    destruct (vec_step_new op r found new v (Hv v (or_introl eq_refl)) Hn) as (tv & Est & C & Rg).
    set (found' := am_insert zmat_eqb r (@found_get RNum r found ++ [tv]) found).
    assert (G : @found_get RNum r found' = @found_get RNum r found ++ [tv]).
    { unfold found'. unfold found_get at 1. rewrite am_get_insert_same. reflexivity. }
    exists tv, found'. split; [|split; [|split; auto]].
    - transitivity (fold_left (@sg_vec_step RNum (MofZ Ti) tols op r) vs (found', new ++ [SymmOp (N := RNum) r tv]));
        [f_equal; exact Est|].
      apply vec_fold_dup; [intros w Hw; apply Hv; now right|].
      exists tv. split; [rewrite G; apply in_or_app; right; now left|].
      eapply near3_congr; [exact C|apply Vcongr_refl|]. now apply near3_refl.
    - intros r' t. destruct (mat_Z_eq_dec r' r) as [->|Hne].
      + rewrite G, in_app_iff, (Fo r t). split.
        * intros [(o & Io & Er & Et)|[<-|[]]]; [exists o; rewrite in_app_iff; auto|].
          eexists. rewrite in_app_iff. split; [right; now left|]. auto.
        * intros (o & Io & Er & Et). apply in_app_or in Io. destruct Io as [Io|[<-|[]]]; [left; exists o; auto|].
          right. left. exact Et.
      + unfold found_get, found'. rewrite am_get_insert_other by auto. fold (@found_get RNum r' found).
        rewrite (Fo r' t). split.
        * intros (o & Io & Er & Et). exists o. rewrite in_app_iff. auto.
        * intros (o & Io & Er & Et). apply in_app_or in Io. destruct Io as [Io|[<-|[]]]; [exists o; auto|].
          cbn in Er. congruence.
  Qed.

  (** pairwise different images *)
  Definition separated (ops : list sop) : Prop := forall i j a b, (i < j)%nat ->
    nth_error ops i = Some a -> nth_error ops j = Some b -> rotation a = rotation b ->
    ~ near3 tols (Mapp (MofZ Ti) (translation a)) (Mapp (MofZ Ti) (translation b)).
  Definition inequivalent (ops : list sop) : Prop := forall i j a b, (i < j)%nat ->
    nth_error ops i = Some a -> nth_error ops j = Some b -> ~ sop_equiv tols a b.

  Definition keep (op : sop) : bool := has_unit_entry (cj (rotation op)).
  Lemma cj_inj a b : cj a = cj b -> a = b.
  Proof.
    unfold cj. intro E. apply (f_equal (fun x => ZMmul (ZMmul T x) Ti)) in E.
    assert (Q : forall x, ZMmul (ZMmul T (ZMmul (ZMmul Ti x) T)) Ti = x).
    { intro x. rewrite !ZMmul_assoc, HT, ZMmul_id_r, <- ZMmul_assoc, HT. apply ZMmul_id_l. }
    now rewrite !Q in E.
  Qed.

  Lemma separated_tail a ops : separated (a :: ops) -> separated ops.
  Proof. intros S i j x y Hij Ex Ey. apply (S (Datatypes.S i) (Datatypes.S j)); auto. lia. Qed.

  Lemma ops_fold v vs (Hv : forall w, In w (v :: vs) -> Vcongr w V0) : forall ops n0 found new,
    (forall op, In op ops -> i8_range (cj (rotation op))) ->
    found_ok found new -> separated ops ->
    (forall a o, In a ops -> In o new -> rotation o = cj (rotation a) ->
        ~ near3 tols (Mapp (MofZ Ti) (translation a)) (translation o)) ->
    inequivalent new ->
    exists n1 found' added,
      fold_left (@sg_op_step RNum (MofZ Ti) (MofZ T) tols (v :: vs)) ops (n0, (found, new)) =
        (n1, (found', new ++ added)) /\
      n1 = n0 - IZR (Z.of_nat (List.length ops)) + IZR (Z.of_nat (List.length added)) /\
      Forall2 tr_ok (filter keep ops) added /\ inequivalent (new ++ added).
  Proof.
    induction ops as [|op ops IH]; intros n0 found new Hr Fo Sep Far Ineq.
    - exists n0, found, []. rewrite app_nil_r. cbn. split; [reflexivity|]. split; [lra|]. split; auto; constructor.
    - cbn [fold_left filter]. unfold sg_op_step at 2. cbv zeta.
      rewrite cj_real, keeps_unit. fold (keep op).
      destruct (keep op) eqn:EK.
      + rewrite mround_i8_MofZ by (apply Hr; now left).
        destruct (vec_fold_new op (cj (rotation op)) v vs found new Hv Fo) as (tv & found' & Ef & Fo' & C & Rg).
        { intros t It. apply (Fo (cj (rotation op)) t) in It. destruct It as (o & Io & Er & <-).
          apply Far; auto. now left. }
        cbn [num RNum] in *. rewrite Ef.
        set (o' := SymmOp (N := RNum) (cj (rotation op)) tv) in *.
        destruct (IH n0 found' (new ++ [o'])) as (n1 & f1 & added & E & En & F2 & Iq); auto.
        * intros x Hx. apply Hr. now right.
        * eapply separated_tail; eauto.
        * intros a o Ia Io Er. apply in_app_or in Io. destruct Io as [Io|[<-|[]]]; [apply Far; auto; now right|].
          cbn [rotation translation o'] in *. apply cj_inj in Er.
          destruct (In_nth_error _ _ Ia) as [j Hj]. intro Q.
          apply (Sep 0%nat (S j) op a); cbn; auto; [lia|].
          eapply near3_congr; [exact C|apply Vcongr_refl|]. now apply near3_sym.
        * intros i j a b Hij Ea Eb Q.
          assert (Lj : (j < List.length (new ++ [o']))%nat) by (apply nth_error_Some; congruence).
          rewrite app_length in Lj. cbn in Lj.
          rewrite nth_error_app1 in Ea by lia.
          destruct (Nat.lt_ge_cases j (List.length new)).
          { rewrite nth_error_app1 in Eb by auto. apply (Ineq i j a b Hij Ea Eb Q). }
          rewrite nth_error_app2 in Eb by auto. replace (j - List.length new)%nat with 0%nat in Eb by lia.
          injection Eb as <-. destruct Q as [Er N]. cbn [rotation translation o'] in *.
          apply (Far op a); auto; [now left|eapply nth_error_In; eauto|].
          eapply near3_congr; [exact C|apply Vcongr_refl|]. now apply near3_sym.
        * exists n1, f1, (o' :: added). rewrite <- !app_assoc in *. cbn [app] in *. split; auto.
          split; [rewrite En; cbn [List.length]; rewrite !Nat2Z.inj_succ, !succ_IZR; lra|].
          split; auto. constructor; auto. repeat split; cbn [rotation translation o']; auto; apply Rg.
      + destruct (IH (n0 - 1) found new) as (n1 & f1 & added & E & En & F2 & Iq); auto.
        * intros x Hx. apply Hr. now right.
        * eapply separated_tail; eauto.
        * intros a o Ia. apply Far. now right.
        * exists n1, f1, added. split; [exact E|].
          split; [rewrite En; cbn [List.length]; rewrite !Nat2Z.inj_succ, !succ_IZR; lra|]. split; auto.
  Qed.

  Lemma Forall2_len {A B} (P : A -> B -> Prop) l m : Forall2 P l m -> List.length l = List.length m.
  Proof. induction 1; cbn; auto. Qed.

  Lemma unit_translations_int n v : In v (@unit_translations RNum n) -> Vcongr v V0.
  Proof.
    unfold unit_translations. rewrite in_map_iff. intros ([[a b] c] & <- & _). exists (V a b c).
    apply vec_ext; cbn; lra.
  Qed.

  Lemma sg_apply_unimodular (ops : list sop) fuel :
    (forall op, In op ops -> i8_range (cj (rotation op))) -> separated ops ->
    exists ops', @sg_apply_transformation RNum (S fuel) ops (MofZ T) tols = Ok ops' /\
      Forall2 tr_ok (filter keep ops) ops' /\ inequivalent ops'.
  Proof.
    intros Hr Sep. unfold sg_apply_transformation. rewrite uni_try_inverse, uni_volume_ratio.
    assert (RL : forall k (d : R), d = IZR (Z.of_nat k) -> @ratio_lt RNum k d 1 = false).
    { intros k d ->. unfold ratio_lt. destruct (@feq RNum (IZR (Z.of_nat k)) (@f0 RNum)) eqn:E; [reflexivity|].
      apply feq_false in E. cbn in E. apply flt_false. cbn. right. field. exact E. }
    assert (Iq0 : inequivalent []) by (intros i j a b _ Ea; destruct i; discriminate).
    assert (Fo0 : found_ok [] []).
    { intros r t. cbn. split; [tauto|]. intros (o & [] & _). }
    destruct ops as [|op ops].
    - exists []. split; [|split; [constructor|exact Iq0]]. cbn [sg_search List.length].
      rewrite (RL 0%nat) by reflexivity. reflexivity.
    - set (l := op :: ops) in *. cbn [sg_search].
      destruct (@ratio_lt RNum (List.length (@nil sop)) (@fofZ RNum (Z.of_nat (List.length l))) 1) eqn:E0.
      + assert (UT : @unit_translations RNum 2 = hd V0 (@unit_translations RNum 2) :: tl (@unit_translations RNum 2)) by reflexivity.
        rewrite UT.
        destruct (ops_fold (hd V0 (@unit_translations RNum 2)) (tl (@unit_translations RNum 2))
                    ltac:(rewrite <- UT; apply unit_translations_int) l (IZR (Z.of_nat (List.length l))) [] [] Hr Fo0 Sep ltac:(intros a o _ []) Iq0)
          as (n1 & f1 & added & Ef & En & F2 & Iq).
        cbn [num RNum fofZ] in *. rewrite Ef. cbn [app] in *. exists added. split; [|split; auto].
        assert (Q : @ratio_lt RNum (List.length added) n1 1 = false) by (apply RL; lra).
        destruct fuel; cbn [sg_search]; cbn [num RNum] in *; rewrite Q; reflexivity.
      + exfalso. unfold ratio_lt in E0. cbn [List.length l] in E0.
        assert (P : IZR (Z.of_nat (S (List.length ops))) > 0) by (apply IZR_lt; lia).
        replace (@feq RNum _ _) with false in E0 by (symmetry; apply feq_false; cbn [fofZ f0 RNum]; lra).
        apply flt_false in E0. cbn [fdiv fofZ RNum] in E0. unfold Rdiv in E0. rewrite Rmult_0_l in E0. lra.
  Qed.
End Uni.

(** ** the tables: operations in twelfths *)
Open Scope Z_scope.
Definition zop : Type := mat Z * vec Z.
Definition zcand (isa : bool) (code : Z) : option zop :=
  match decode_spg_op code with
  | Ok (mv, tv) =>
      match mat_from_iter mv, vec_from_iter tv with
      | Ok m, Ok t =>
          let r := transpose m in
          Some (if isa then (i8_mmul (i8_mmul c_to_a_transformation_inv r) c_to_a_transformation,
                             ZMapp c_to_a_transformation_inv t)
                else (r, t))
      | _, _ => None
      end
  | _ => None
  end.
Definition V12 (t : vec Z) : vec R := (V (IZR (vx t) / 12) (IZR (vy t) / 12) (IZR (vz t) / 12))%R.
Definition sop_of (o : zop) : sop := SymmOp (N := RNum) (fst o) (V12 (snd o)).
Lemma MofZ_V12 r t : Mapp (MofZ r) (V12 t) = V12 (ZMapp r t).
Proof. apply vec_ext; cbn; rewrite !plus_IZR, !mult_IZR; field. Qed.
Lemma candidate_op_R isa code o : zcand isa code = Some o -> @candidate_op RNum isa code = Ok (sop_of o).
Proof.
  unfold zcand, candidate_op. destruct (decode_spg_op code) as [[mv tv]| |]; try discriminate. cbn [bind].
  destruct (mat_from_iter mv) as [m| |]; try discriminate. cbn [bind].
  destruct (vec_from_iter tv) as [t| |]; try discriminate. cbn [bind].
  intro E. injection E as <-. f_equal. destruct isa; unfold sop_of; cbn [fst snd]; [|reflexivity].
  f_equal. rewrite mcast_R, mvmul_R, <- MofZ_V12. reflexivity.
Qed.

Definition zop_mul (a b : zop) : zop := (i8_mmul (fst a) (fst b), ZVadd (ZMapp (fst b) (snd a)) (snd b)).
Lemma sop_of_mul a b : @op_mul RNum (sop_of a) (sop_of b) = sop_of (zop_mul a b).
Proof.
  unfold op_mul, sop_of, zop_mul. cbn [rotation translation fst snd]. f_equal.
  rewrite mcast_R, mvmul_R, vadd_R, MofZ_V12. generalize (ZMapp (fst b) (snd a)) (snd b). intros. apply vec_ext; cbn; rewrite plus_IZR; field.
Qed.
Definition eq12 (s t : vec Z) : bool :=
  ((vx s - vx t) mod 12 =? 0) && ((vy s - vy t) mod 12 =? 0) && ((vz s - vz t) mod 12 =? 0).
Definition zop_eq (a b : zop) : bool := if zmat_eqb (fst a) (fst b) then eq12 (snd a) (snd b) else false.
Lemma zop_eq_and a b : zop_eq a b = zmat_eqb (fst a) (fst b) && eq12 (snd a) (snd b).
Proof. unfold zop_eq. now destruct (zmat_eqb _ _). Qed.
(** existsb that stops at the first hit under vm_compute *)
Fixpoint ex_if {A} (f : A -> bool) (l : list A) : bool :=
  match l with [] => false | a :: t => if f a then true else ex_if f t end.
Lemma ex_if_existsb {A} (f : A -> bool) l : ex_if f l = existsb f l.
Proof. induction l as [|a l IH]; cbn; [reflexivity|]. rewrite IH. now destruct (f a). Qed.
Lemma near1_12 (t : R) (x y : Z) : (0 < t <= 1/12)%R ->
  (near1 t (IZR x / 12) (IZR y / 12) <-> (x - y) mod 12 = 0).
Proof.
  intro Ht. split.
  - intros [z Hz]. apply Rabs_def2 in Hz.
    assert (E : (IZR x / 12 - IZR y / 12 - IZR z = IZR (x - y - 12 * z) / 12)%R).
    { rewrite !minus_IZR, mult_IZR. field. }
    rewrite E in Hz. assert (-1 < x - y - 12 * z < 1) as [A B].
    { split; apply lt_IZR; lra. }
    assert (x - y = z * 12) by lia. rewrite H. apply Z_mod_mult.
  - intro H. apply Z_div_exact_2 in H; [|lia]. exists ((x - y) / 12).
    replace (IZR x / 12 - IZR y / 12 - IZR ((x - y) / 12))%R with 0%R; [rewrite Rabs_R0; lra|].
    apply (f_equal IZR) in H. rewrite minus_IZR, mult_IZR in H. lra.
Qed.
Lemma zop_eq_equiv tols a b : tols_ok tols -> zop_eq a b = true -> sop_equiv tols (sop_of a) (sop_of b).
Proof.
  intros (T1 & T2 & T3) H. rewrite zop_eq_and in H. unfold eq12 in H. rewrite !andb_true_iff, zmat_eqb_spec, !Z.eqb_eq in H.
  destruct H as (Er & (H1 & H2) & H3). split; [exact Er|].
  assert (N : forall (t : R) x y, (0 < t)%R -> (x - y) mod 12 = 0 -> near1 t (IZR x / 12) (IZR y / 12)).
  { intros t x y Hp H. destruct (near1_12 (1/12) x y ltac:(lra)) as [_ Q]. destruct (Q H) as [z Hz].
    exists z. apply Rabs_def2 in Hz. clear Q.
    apply Z_div_exact_2 in H; [|lia]. apply (f_equal IZR) in H. rewrite minus_IZR, mult_IZR in H.
    assert (E : (IZR x / 12 - IZR y / 12 - IZR z = IZR ((x - y) / 12 - z))%R) by (rewrite minus_IZR; lra).
    rewrite E in *. assert ((x - y) / 12 - z = 0) as ->; [|rewrite Rabs_R0; lra].
    assert (-1 < (x - y) / 12 - z < 1) as [A B] by (split; apply lt_IZR; lra). lia. }
  repeat split; cbn; apply N; auto; lra.
Qed.
Lemma zop_equiv_eq tols a b : (0 < vx tols <= 1/12)%R -> (0 < vy tols <= 1/12)%R -> (0 < vz tols <= 1/12)%R ->
  sop_equiv tols (sop_of a) (sop_of b) -> zop_eq a b = true.
Proof.
  intros T1 T2 T3 [Er (N1 & N2 & N3)]. rewrite zop_eq_and. unfold eq12. cbn in N1, N2, N3.
  apply near1_12 in N1, N2, N3; auto. rewrite !andb_true_iff, zmat_eqb_spec, !Z.eqb_eq. auto.
Qed.

(** a list closed modulo whole periods is returned unchanged *)
Definition zclosed (l : list zop) : bool :=
  forallb (fun a => forallb (fun b => let c := zop_mul a b in ex_if (fun s => zop_eq s c) l) l) l.
Lemma fold_unchanged tols (ops gen : list sop) pairs : tols_ok tols ->
  (forall p, In p pairs -> exists s, In s ops /\ sop_equiv tols s (@op_mul RNum (fst p) (snd p))) ->
  fold_left (@sg_pair_step RNum tols) pairs (ops, gen) = (ops, gen).
Proof.
  intros Ht. induction pairs as [|p pairs IH]; intro Hp; [reflexivity|]. cbn [fold_left].
  destruct (sg_pair_step_cases tols Ht ops gen p) as [(s & _ & _ & ->)|[Q _]].
  - apply IH. intros q Hq. apply Hp. now right.
  - exfalso. destruct (Hp p (or_introl eq_refl)) as (s & Hs & E). exact (Q s Hs E).
Qed.
Lemma zclosed_unchanged tols (l : list zop) fuel : tols_ok tols -> zclosed l = true ->
  @from_generators RNum (S fuel) (map sop_of l) tols = Ok (map sop_of l).
Proof.
  intros Ht Hc. unfold from_generators. destruct l as [|x l]; [reflexivity|].
  set (L := x :: l) in *. cbn [sg_rounds]. rewrite (fold_unchanged tols); auto.
  - destruct fuel; reflexivity.
  - intros [a b] Hp. apply In_iproduct in Hp. destruct Hp as [Ha Hb].
    apply in_map_iff in Ha, Hb. destruct Ha as (za & <- & Ia), Hb as (zb & <- & Ib). cbn [fst snd].
    unfold zclosed in Hc. rewrite forallb_forall in Hc. specialize (Hc za Ia).
    rewrite forallb_forall in Hc. specialize (Hc zb Ib). cbv zeta in Hc. rewrite ex_if_existsb in Hc. apply existsb_exists in Hc. destruct Hc as (s & Is & E).
    exists (sop_of s). split; [now apply in_map|]. rewrite sop_of_mul. now apply zop_eq_equiv.
Qed.
Lemma zopen_changed tols (l : list zop) fuel : (0 < vx tols <= 1/12)%R -> (0 < vy tols <= 1/12)%R -> (0 < vz tols <= 1/12)%R ->
  zclosed l = false -> @from_generators RNum fuel (map sop_of l) tols <> Ok (map sop_of l).
Proof.
  intros T1 T2 T3 Hc E. assert (Ht : tols_ok tols) by (repeat split; lra).
  apply (from_generators_spec tols Ht) in E. destruct E as [_ C]. apply not_true_iff_false in Hc. apply Hc.
  unfold zclosed. apply forallb_forall. intros a Ia. apply forallb_forall. intros b Ib. cbv zeta. rewrite ex_if_existsb. apply existsb_exists.
  destruct (C (sop_of b)) as [[]|Q]; [now apply in_map|].
  destruct (Q (sop_of a)) as (s & Is & Eq); [now apply in_map|]. apply in_map_iff in Is. destruct Is as (zs & <- & Iz).
  exists zs. split; auto. rewrite sop_of_mul in Eq. now apply (zop_equiv_eq tols).
Qed.

(** decoding of a whole entry *)
Fixpoint zcands (isa : bool) (codes : list Z) : option (list zop) :=
  match codes with
  | [] => Some []
  | c :: t => match zcand isa c, zcands isa t with Some o, Some l => Some (o :: l) | _, _ => None end
  end.
Lemma zcands_R isa codes l : zcands isa codes = Some l ->
  map_res (@candidate_op RNum isa) codes = Ok (map sop_of l).
Proof.
  revert l. induction codes as [|c codes IH]; intros l E; cbn in E.
  - injection E as <-. reflexivity.
  - destruct (zcand isa c) eqn:Ec; [|discriminate]. destruct (zcands isa codes) as [l'|]; [|discriminate].
    injection E as <-. cbn [map_res]. rewrite (candidate_op_R _ _ _ Ec). cbn [bind].
    rewrite (IH l' eq_refl). reflexivity.
Qed.
(** all entries of the nested table, as (lattice system, order, number, codes) *)
Definition sg_entries : list (lattice_system * Z * Z * list Z) :=
  flat_map (fun p => flat_map (fun q => map (fun e => (fst p, fst q, fst e, snd e)) (snd q)) (snd p)) SG_NUM_TO_FULL_MATRICES.
Lemma sg_entries_In ls order n codes : In (ls, order, n, codes) sg_entries <->
  exists buckets groups, In (ls, buckets) SG_NUM_TO_FULL_MATRICES /\ In (order, groups) buckets /\ In (n, codes) groups.
Proof.
  unfold sg_entries. rewrite in_flat_map. split.
  - intros ([ls' bk] & H1 & H). apply in_flat_map in H. destruct H as ([o g] & H2 & H).
    apply in_map_iff in H. destruct H as ([n' c'] & E & H3). cbn in E. injection E as <- <- <- <-. exists bk, g. auto.
  - intros (bk & g & H1 & H2 & H3). exists (ls, bk). split; auto. apply in_flat_map. exists (order, g). split; auto.
    apply in_map_iff. exists (n, codes). auto.
Qed.
(** the groups whose tabulated list is not closed under the crate's product *)
Definition not_closed : list Z :=
  [91; 92; 95; 96; 151; 152; 153; 154; 178; 179; 180; 181; 198; 199; 205; 206; 212; 213; 214; 220; 230].
Definition closed_check (e : lattice_system * Z * Z * list Z) : bool :=
  let '(_, _, n, codes) := e in
  match am_get Z.eqb n SG_NUM_TO_SYMBOL with
  | Some sym =>
      match zcands (has_char "A"%char sym) codes with
      | Some l => Bool.eqb (zclosed l) (negb (existsb (Z.eqb n) not_closed))
      | None => false
      end
  | None => false
  end.
Lemma closed_all_checked : forallb closed_check sg_entries = true.
Proof. vm_compute. reflexivity. Qed.

Lemma table_entry ls order n codes : In (ls, order, n, codes) sg_entries ->
  exists sym l, am_get Z.eqb n SG_NUM_TO_SYMBOL = Some sym /\ zcands (has_char "A"%char sym) codes = Some l /\
    (zclosed l = true <-> ~ In n not_closed).
Proof.
  intro Hi. pose proof closed_all_checked as C. rewrite forallb_forall in C. specialize (C _ Hi).
  unfold closed_check in C. destruct (am_get Z.eqb n SG_NUM_TO_SYMBOL) as [sym|] eqn:Es; [|discriminate].
  destruct (zcands (has_char "A"%char sym) codes) as [l|] eqn:El; [|discriminate].
  exists sym, l. split; [reflexivity|]. split; [exact El|].
  apply Bool.eqb_prop in C. rewrite C, negb_true_iff, <- not_true_iff_false, existsb_exists.
  split; intros H Q; apply H; [exists n; split; auto; apply Z.eqb_refl|].
  destruct Q as (x & Hx & E). apply Z.eqb_eq in E. now subst.
Qed.
