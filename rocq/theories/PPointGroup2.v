(** Point group tables and their transformation to the primitive basis *)
From Coq Require Import ZArith Reals String List Bool Lia Lra Permutation.
From Flocq Require Import Core.Raux.
From Verif Require Import Num Mat DataCore DataPG PointGroup Analyzer RInst Spec RFacts PSymmOp PPointGroup.
Import ListNotations.
Open Scope Z_scope.


(** hash-independent part of from_number *)
Definition pg_gens (n : Z) : option (string * list (mat Z)) :=
  match am_get Z.eqb n PG_NUM_TO_SYMBOL, am_get Z.eqb n PG_NUM_TO_GENERATOR_MATRICES with
  | Some s, Some e => match map_res decode_generator e with Ok g => Some (s, g) | _ => None end
  | _, _ => None
  end.
Definition pg_table (n : Z) : list (mat Z) :=
  match pg_gens n with
  | Some (_, g) => match @generate_operations hid 48 [] g with Ok l => l | _ => [] end
  | None => []
  end.
Definition pg_check (n : Z) : bool :=
  match pg_gens n with
  | Some (s, g) =>
      match @generate_operations hid 48 [] g, nth_error point_groups (Z.to_nat (n - 1)) with
      | Ok l, Some (s', o) =>
          closedb g l && groupb l && Nat.eqb (List.length l) o && String.eqb s s' &&
          (List.length l <=? 48)%nat
      | _, _ => false
      end
  | None => false
  end.
Definition pg_numbers : list Z := map (fun i => Z.of_nat i + 1) (seq 0 32).
Lemma pg_numbers_In n : 1 <= n <= 32 -> In n pg_numbers.
Proof.
  intro H. unfold pg_numbers. apply in_map_iff. exists (Z.to_nat (n - 1)). split; [lia|]. apply in_seq. lia.
Qed.
Lemma pg_all_checked : forallb pg_check pg_numbers = true.
Proof. vm_compute. reflexivity. Qed.

Lemma pg_from_number_gens {H : HashOrd} fuel path n s g : pg_gens n = Some (s, g) ->
  pg_from_number fuel path n = do operations <- generate_operations fuel path g; Ok (PointGroup s operations g).
Proof.
  unfold pg_gens, pg_from_number. destruct (am_get Z.eqb n PG_NUM_TO_SYMBOL); [|discriminate].
  destruct (am_get Z.eqb n PG_NUM_TO_GENERATOR_MATRICES); [|discriminate]. cbn [of_opt bind].
  destruct (map_res decode_generator l); try discriminate. intro E. injection E as <- <-. reflexivity.
Qed.

(** for every hash order the operations are a permutation of the computed table *)
Lemma pg_from_number_spec {H : HashOrd} fuel path n : (48 <= fuel)%nat -> 1 <= n <= 32 ->
  exists s g ops o, pg_from_number fuel path n = Ok (PointGroup s ops g) /\
    pg_gens n = Some (s, g) /\
    nth_error point_groups (Z.to_nat (n - 1)) = Some (s, o) /\
    Permutation (pg_table n) ops /\ matrix_group (pg_table n) /\ List.length (pg_table n) = o /\
    (forall m, In m ops <-> product_of g m).
Proof.
  intros Hf Hn. pose proof (pg_numbers_In n Hn) as I.
  pose proof pg_all_checked as C. rewrite forallb_forall in C. specialize (C n I).
  unfold pg_check in C. destruct (pg_gens n) as [[s g]|] eqn:Eg; [|discriminate].
  unfold pg_table. rewrite Eg.
  destruct (@generate_operations hid 48 [] g) as [l| |] eqn:ES; try discriminate.
  destruct (nth_error point_groups (Z.to_nat (n - 1))) as [[s' o]|] eqn:En; try discriminate.
  rewrite !andb_true_iff in C. destruct C as ((((C1 & C2) & C3) & C4) & C5).
  apply Nat.leb_le in C5. apply Nat.eqb_eq in C3. apply String.eqb_eq in C4. subst s'.
  assert (Hfin := closedb_spec g l C1).
  destruct (generate_operations_spec (H := H) g l Hfin fuel path) as (ops & Eo & No & Io); [lia|].
  destruct (generate_operations_spec (H := hid) g l Hfin 48 []) as (l' & ES' & NS & IS); [lia|].
  rewrite ES in ES'. injection ES' as <-.
  exists s, g, ops, o. rewrite (pg_from_number_gens fuel path n s g Eg), Eo. cbn [bind].
  split; [reflexivity|]. split; [reflexivity|]. split; [reflexivity|].
  split; [|split; [now apply groupb_spec|split; [assumption|exact Io]]].
  apply same_members_perm; auto. intro m. rewrite IS, Io. tauto.
Qed.

Lemma am_get_none {B} (n : Z) (l : list (Z * B)) : (forall p, In p l -> fst p <> n) -> am_get Z.eqb n l = None.
Proof.
  induction l as [|[k v] l IH]; intro Hn; [reflexivity|]. cbn.
  destruct (Z.eqb_spec n k) as [->|Hne].
  - exfalso. apply (Hn (k, v)); cbn; auto.
  - apply IH. intros p Hp. apply Hn. cbn; auto.
Qed.
Lemma pg_from_number_panics {H : HashOrd} fuel path n : ~ (1 <= n <= 32) ->
  pg_from_number fuel path n = Panic PUnwrapNone.
Proof.
  intro Hn. unfold pg_from_number. rewrite am_get_none; [reflexivity|].
  intros p Hp E. apply Hn. rewrite <- E. clear -Hp.
  assert (C : forallb (fun p => (1 <=? fst p) && (fst p <=? 32)) PG_NUM_TO_SYMBOL = true) by (vm_compute; reflexivity).
  rewrite forallb_forall in C. specialize (C p Hp). rewrite andb_true_iff, !Z.leb_le in C. exact C.
Qed.

(** ** apply_transformation *)
Open Scope R_scope.
Lemma clamp_id lo hi z : (lo <= z <= hi)%Z -> clamp lo hi z = z.
Proof. unfold clamp. lia. Qed.
Lemma round_i8_IZR z : (-128 <= z <= 127)%Z -> @fto_i8 RNum (@fround RNum (IZR z)) = z.
Proof. intro H. cbn. rewrite Rround_IZR, Ztrunc_IZR. now apply clamp_id. Qed.
Lemma mround_i8_MofZ m : i8_range m -> @mround_i8 RNum (MofZ m) = m.
Proof.
  intro H. unfold i8_range, entries_within in H. unfold mround_i8, mmap, MofZ.
  cbn [m11 m12 m13 m21 m22 m23 m31 m32 m33]. rewrite !round_i8_IZR by lia. now destruct m.
Qed.

Lemma pg_transform_op_spec (T Ti : mat R) (r r' : mat Z) :
  inverse_of T Ti -> Mmul (Mmul Ti (MofZ r)) T = MofZ r' -> i8_range r' ->
  @pg_transform_op RNum (Madj_inv T) T r = r'.
Proof.
  intros HI E Hr. pose proof (inverse_det _ _ HI) as D.
  rewrite (inverse_unique T Ti (Madj_inv T) HI (Madj_inverse T D)) in E.
  unfold pg_transform_op. change (@mround_i8 RNum (Mmul (Mmul (Madj_inv T) (MofZ r)) T) = r').
  rewrite E. now apply mround_i8_MofZ.
Qed.

Lemma pg_apply_singular pg (T : mat R) : Mdet T = 0 ->
  @pg_apply_transformation RNum pg T = Panic PTransNotInvertible.
Proof.
  intro D. unfold pg_apply_transformation.
  replace (@try_inverse RNum T) with (@None (mat R)) by (symmetry; now apply try_inverse_none). reflexivity.
Qed.
Lemma pg_apply_ok pg (T : mat R) : Mdet T <> 0 ->
  @pg_apply_transformation RNum pg T =
  Ok (PointGroup (pg_symbol pg) (map (@pg_transform_op RNum (Madj_inv T) T) (pg_operations pg))
        (map (@pg_transform_op RNum (Madj_inv T) T) (pg_generators pg))).
Proof.
  intro D. unfold pg_apply_transformation.
  replace (@try_inverse RNum T) with (Some (Madj_inv T)) by (symmetry; now apply try_inverse_R). reflexivity.
Qed.

(** conjugation as a relation *)
Definition conj_rel (T Ti : mat R) (r r' : mat Z) : Prop := Mmul (Mmul Ti (MofZ r)) T = MofZ r'.
Lemma conj_rel_mul T Ti a a' b b' : inverse_of T Ti -> conj_rel T Ti a a' -> conj_rel T Ti b b' ->
  conj_rel T Ti (ZMmul a b) (ZMmul a' b').
Proof.
  intros [H1 H2] Ha Hb. unfold conj_rel in *. rewrite !MofZ_mul, <- Ha, <- Hb.
  rewrite !Mmul_assoc. f_equal. f_equal. rewrite <- (Mmul_assoc T Ti), H1, Mmul_id_l. reflexivity.
Qed.
Lemma conj_rel_id T Ti : inverse_of T Ti -> conj_rel T Ti ZMid ZMid.
Proof. intros [_ H]. unfold conj_rel. rewrite MofZ_id, Mmul_id_r. exact H. Qed.
Lemma conj_rel_fun T Ti a b c : conj_rel T Ti a b -> conj_rel T Ti a c -> b = c.
Proof. unfold conj_rel. intros H1 H2. apply MofZ_inj. congruence. Qed.
Lemma conj_rel_inj T Ti a b c : inverse_of T Ti -> conj_rel T Ti a c -> conj_rel T Ti b c -> a = b.
Proof.
  intros [H1 H2] Ha Hb. apply MofZ_inj. unfold conj_rel in *.
  assert (forall x, Mmul (Mmul T (Mmul (Mmul Ti x) T)) Ti = x).
  { intro x. rewrite !Mmul_assoc, H1, Mmul_id_r, <- Mmul_assoc, H1, Mmul_id_l. reflexivity. }
  rewrite <- (H (MofZ a)), <- (H (MofZ b)), Ha, Hb. reflexivity.
Qed.

Lemma conj_closed (T Ti : mat R) (ops ops' : list (mat Z)) :
  inverse_of T Ti -> Forall2 (conj_rel T Ti) ops ops' ->
  (forall a b, In a ops -> In b ops -> In (ZMmul a b) ops) ->
  forall a b, In a ops' -> In b ops' -> In (ZMmul a b) ops'.
Proof.
  intros HI F C a' b' Ha Hb.
  assert (Q : forall x', In x' ops' -> exists x, In x ops /\ conj_rel T Ti x x').
  { clear -F. induction F as [|x x' l l' Hx F IH]; intros y [].
    - subst. exists x. cbn; auto.
    - destruct (IH y H) as (z & Hz & E). exists z. cbn; auto. }
  assert (Q' : forall x, In x ops -> exists x', In x' ops' /\ conj_rel T Ti x x').
  { clear -F. induction F as [|x x' l l' Hx F IH]; intros y [].
    - subst. exists x'. cbn; auto.
    - destruct (IH y H) as (z & Hz & E). exists z. cbn; auto. }
  destruct (Q a' Ha) as (a & Ia & Ea). destruct (Q b' Hb) as (b & Ib & Eb).
  destruct (Q' _ (C a b Ia Ib)) as (c' & Ic & Ec).
  rewrite (conj_rel_fun T Ti _ _ _ (conj_rel_mul T Ti a a' b b' HI Ea Eb) Ec). exact Ic.
Qed.

(** ** integer conjugation with a rational matrix B/d *)
Open Scope Z_scope.
Definition zconj (b r : mat Z) : mat Z := mmap (fun z => z / ZMdet b) (ZMmul (ZMmul (zadj b) r) b).
Definition conjb (b : mat Z) (r : mat Z) : bool :=
  zmat_eqb (ZMmul b (zconj b r)) (ZMmul r b) && i8_rangeb (zconj b r).
Definition prim_block (b : bravais) : option (Z * (mat Z * Z)) :=
  match am_get bravais_eqb b BRAVAIS_TO_HOLOHEDRY_NUM, bravais_centering b with
  | Some n, Ok c => match am_get centering_eqb c CENTERING_TO_PRIM_TRANS with Some p => Some (n, p) | None => None end
  | _, _ => None
  end.
Definition holo_check (b : bravais) : bool :=
  match prim_block b with
  | Some (n, (blk, d)) =>
      (1 <=? n) && (n <=? 32) && (1 <=? d) && negb (ZMdet blk =? 0) &&
      forallb (conjb blk) (pg_table n) && groupb (map (zconj blk) (pg_table n))
  | None => false
  end.
Definition all_bravais : list bravais := [aP; mP; mC; mI; oP; oC; oI; oF; tP; tI; hR; hP; cP; cI; cF].
Lemma all_bravais_In b : In b all_bravais. Proof. destruct b; cbn; tauto. Qed.
Lemma holo_all : forallb holo_check all_bravais = true.
Proof. vm_compute. reflexivity. Qed.

Open Scope R_scope.
Lemma Mmul_scal_l k a b : Mmul (Mscal k a) b = Mscal k (Mmul a b). Proof. mat_ring. Qed.
Lemma Mmul_scal_r k a b : Mmul a (Mscal k b) = Mscal k (Mmul a b). Proof. mat_ring. Qed.
Lemma Mscal_inj k a b : k <> 0 -> Mscal k a = Mscal k b -> a = b.
Proof.
  intros Hk H. destruct a, b; unfold Mscal in H; cbn in H. injection H; intros.
  apply mat_ext; cbn; apply (Rmult_eq_reg_l k); auto.
Qed.
Lemma mdivs_R (m : mat R) (k : R) : @mdivs RNum m k = Mscal (/ k) m.
Proof. unfold mdivs, mmap, Mscal; cbn. apply mat_ext; cbn; unfold Rdiv; apply Rmult_comm. Qed.
Lemma Mdet_scal k m : Mdet (Mscal k m) = k * k * k * Mdet m.
Proof. destruct m; unfold Mdet, Mscal; cbn; ring. Qed.

Lemma conj_from_block (blk r r' : mat Z) (d : Z) (Ti : mat R) :
  let T := Mscal (/ IZR d) (MofZ blk) in
  inverse_of T Ti -> ZMmul blk r' = ZMmul r blk -> conj_rel T Ti r r'.
Proof.
  intros T [H1 H2] E. unfold conj_rel. apply (f_equal MofZ) in E. rewrite !MofZ_mul in E.
  assert (Q : Mmul (MofZ r) T = Mmul T (MofZ r')).
  { unfold T. rewrite Mmul_scal_l, Mmul_scal_r, E. reflexivity. }
  rewrite Mmul_assoc, Q, <- Mmul_assoc, H2, Mmul_id_l. reflexivity.
Qed.

Lemma prim_trans_block b n blk d : prim_block b = Some (n, (blk, d)) ->
  am_get bravais_eqb b BRAVAIS_TO_HOLOHEDRY_NUM = Some n /\
  exists c, bravais_centering b = Ok c /\ @prim_trans_of RNum c = Some (Mscal (/ IZR d) (MofZ blk)).
Proof.
  unfold prim_block. destruct (am_get bravais_eqb b BRAVAIS_TO_HOLOHEDRY_NUM) as [n'|]; [|discriminate].
  destruct (bravais_centering b) as [c| |]; try discriminate.
  destruct (am_get centering_eqb c CENTERING_TO_PRIM_TRANS) as [[b' d']|] eqn:E; [|discriminate].
  intro Q. injection Q as <- <- <-. split; auto. exists c. split; auto.
  unfold prim_trans_of. rewrite E. f_equal. apply mdivs_R.
Qed.

Lemma holo_spec {H : HashOrd} fuel path b : (48 <= fuel)%nat ->
  exists n c P Pi pg pg',
    am_get bravais_eqb b BRAVAIS_TO_HOLOHEDRY_NUM = Some n /\
    bravais_centering b = Ok c /\ @prim_trans_of RNum c = Some P /\ inverse_of P Pi /\
    pg_from_number fuel path n = Ok pg /\ matrix_group (pg_operations pg) /\
    @pg_apply_transformation RNum pg P = Ok pg' /\
    Forall2 (conj_rel P Pi) (pg_operations pg) (pg_operations pg') /\
    matrix_group (pg_operations pg').
Proof.
  intro Hf. pose proof holo_all as C. rewrite forallb_forall in C. specialize (C b (all_bravais_In b)).
  unfold holo_check in C. destruct (prim_block b) as [[n [blk d]]|] eqn:EB; [|discriminate].
  rewrite !andb_true_iff, !Z.leb_le, negb_true_iff, Z.eqb_neq in C.
  destruct C as (((((C1 & C2) & C3) & C4) & C5) & C6).
  destruct (prim_trans_block _ _ _ _ EB) as (En & c & Ec & EP).
  set (P := Mscal (/ IZR d) (MofZ blk)) in *.
  assert (DP : Mdet P <> 0).
  { unfold P. rewrite Mdet_scal, MofZ_det. assert (IZR d <> 0) by (apply not_0_IZR; lia).
    assert (/ IZR d <> 0) by now apply Rinv_neq_0_compat.
    assert (IZR (ZMdet blk) <> 0) by now apply not_0_IZR.
    repeat apply Rmult_integral_contrapositive_currified; auto. }
  assert (HI := Madj_inverse P DP).
  destruct (pg_from_number_spec fuel path n Hf ltac:(lia)) as (s & g & ops & o & E1 & _ & _ & Pm & G & _ & _).
  rewrite forallb_forall in C5.
  assert (CR : forall r, In r ops -> conj_rel P (Madj_inv P) r (zconj blk r) /\ i8_range (zconj blk r)).
  { intros r Hr. specialize (C5 r). unfold conjb in C5. rewrite andb_true_iff, zmat_eqb_spec in C5.
    destruct C5 as [C5 C7]; [eapply Permutation_in; [apply Permutation_sym|]; eauto|].
    split; [|now apply i8_rangeb_spec]. now apply conj_from_block. }
  assert (EM : map (@pg_transform_op RNum (Madj_inv P) P) ops = map (zconj blk) ops).
  { apply map_ext_in. intros r Hr. destruct (CR r Hr) as [Q1 Q2]. exact (pg_transform_op_spec P (Madj_inv P) r _ HI Q1 Q2). }
  exists n, c, P, (Madj_inv P), (PointGroup s ops g).
  eexists. repeat (split; [eassumption|]). split; [cbn [pg_operations]; eapply matrix_group_perm; eauto|].
  split; [rewrite pg_apply_ok by exact DP; reflexivity|]. cbn [pg_operations].
  rewrite EM. split.
  - clear -CR. induction ops as [|r ops IH]; cbn; constructor.
    + apply CR. cbn; auto.
    + apply IH. intros x Hx. apply CR. cbn; auto.
  - apply (matrix_group_perm (map (zconj blk) (pg_table n))); [now apply Permutation_map|]. now apply groupb_spec.
Qed.
