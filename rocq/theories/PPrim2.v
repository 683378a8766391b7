(** find_primitive_cell: the lattice it builds (reduce.rs 33-201). *)
From Coq Require Import ZArith Reals String List Bool Lia Lra Psatz Permutation Sorting.Sorted.
From Verif Require Import Num Mat Utils Structure RInst Spec RFacts PUtils PSymmOp PStructure PStructure2 PStructure3 PFormula PDelaunay PPrim PLattice Reduce.
Import ListNotations.
Open Scope R_scope.

Lemma nrm_le B u v : Vnorm (col B u) <= Vnorm (col B v) <-> nrm B u <= nrm B v.
Proof.
  unfold nrm. rewrite <- !Vnorm_sq. pose proof (Vnorm_nonneg (col B u)). pose proof (Vnorm_nonneg (col B v)). split; intro H1.
  - apply Rmult_le_compat; auto.
  - destruct (Rle_or_lt (Vnorm (col B u)) (Vnorm (col B v))) as [|C]; auto. nra.
Qed.
Lemma dirs26_split z : In z dirs26 -> exists d, In d dirs13 /\ (z = d \/ z = zneg d).
Proof.
  unfold dirs26. intro H. apply in_app_or in H. destruct H as [H|H]; [now exists z; split; [|left]|].
  apply in_map_iff in H. destruct H as (d & <- & Hd). exists d. auto.
Qed.
Lemma dirs13_26 z : In z dirs13 -> In z dirs26. Proof. intro H. unfold dirs26. apply in_or_app. now left. Qed.
Lemma zneg_neg z : zneg (zneg z) = z. Proof. unfold zneg. destruct z. cbn. f_equal; ring. Qed.
Lemma dirs26_nz z : In z dirs26 -> z <> V 0%Z 0%Z 0%Z.
Proof. intros H ->. unfold dirs26, dirs13, zneg in H. cbn in H. intuition discriminate. Qed.
Ltac zdets := unfold zdet, ZMdet, zcols, zneg, ZVcross, ze in *; cbn [m11 m12 m13 m21 m22 m23 m31 m32 m33 vx vy vz] in *.
Lemma zdet_neg1 a b c : zdet (zneg a) b c = (- zdet a b c)%Z. Proof. zdets. ring. Qed.
Lemma zdet_neg2 a b c : zdet a (zneg b) c = (- zdet a b c)%Z. Proof. zdets. ring. Qed.
Lemma zdet_neg3 a b c : zdet a b (zneg c) = (- zdet a b c)%Z. Proof. zdets. ring. Qed.
Definition e1 : vec Z := V 1%Z 0%Z 0%Z. Definition e2 : vec Z := V 0%Z 1%Z 0%Z. Definition e3 : vec Z := V 0%Z 0%Z 1%Z.
Lemma e_in k : In k [e1; e2; e3] -> In k dirs26.
Proof. intro H. apply dirs13_26. cbn in H. destruct H as [<-|[<-|[<-|[]]]]; cbn; tauto. Qed.
Lemma cross_det a b : ZVcross a b <> V 0%Z 0%Z 0%Z -> exists k, In k [e1; e2; e3] /\ zdet a b k <> 0%Z.
Proof.
  intro H. destruct (Z.eq_dec (zdet a b e1) 0) as [E1|E1]; [|exists e1; cbn; tauto].
  destruct (Z.eq_dec (zdet a b e2) 0) as [E2|E2]; [|exists e2; cbn; tauto].
  destruct (Z.eq_dec (zdet a b e3) 0) as [E3|E3]; [|exists e3; cbn; tauto].
  exfalso. apply H. unfold e1, e2, e3 in *. zdets. f_equal; lia.
Qed.
Lemma det_cross a b k : zdet a b k <> 0%Z -> ZVcross a b <> V 0%Z 0%Z 0%Z.
Proof. intros H E. apply H. unfold ZVcross in E. injection E. intros E3 E2 E1. zdets.
  transitivity ((vy a * vz b - vz a * vy b) * vx k + (vz a * vx b - vx a * vz b) * vy k + (vx a * vy b - vy a * vx b) * vz k)%Z; [ring|rewrite E1, E2, E3; ring]. Qed.

(** successively shortest among the 26 directions *)
Definition shortest3 (B : mat R) (z1 z2 z3 : vec Z) : Prop :=
  (forall z, In z dirs26 -> nrm B z1 <= nrm B z) /\
  (forall z, In z dirs26 -> ZVcross z1 z <> V 0%Z 0%Z 0%Z -> nrm B z2 <= nrm B z) /\
  (forall z, In z dirs26 -> zdet z1 z2 z <> 0%Z -> nrm B z3 <= nrm B z).
Section Choose26.
  Context (B : mat R) (dtol : R) (H0 : 0 <= dtol) (HD : dtol < Rabs (Mdet B))
    (HC : forall k, In k [e1; e2; e3] -> dtol * Vnorm (col B k) < Rabs (Mdet B)).
  Lemma detB : Mdet B <> 0. Proof. intro E. rewrite E, Rabs_R0 in HD. lra. Qed.
  Lemma big_det a b c : zdet a b c <> 0%Z -> Rabs (Mdet B) <= Rabs (Vdot (Vcross (col B a) (col B b)) (col B c)).
  Proof.
    intro H. unfold col. rewrite triple_Z, Rabs_mult, <- abs_IZR. rewrite <- (Rmult_1_r (Rabs (Mdet B))) at 1.
    apply Rmult_le_compat_l; [apply Rabs_pos|]. apply IZR_le. lia.
  Qed.
  Lemma big_cross a b : ZVcross a b <> V 0%Z 0%Z 0%Z -> dtol < Vnorm (Vcross (col B a) (col B b)).
  Proof.
    intro H. destruct (cross_det a b H) as (k & Hk & Hd). pose proof (big_det a b k Hd) as H1. pose proof (cauchy (Vcross (col B a) (col B b)) (col B k)) as H2.
    specialize (HC k Hk). pose proof (Vnorm_nonneg (col B k)).
    destruct (Rlt_or_le dtol (Vnorm (Vcross (col B a) (col B b)))) as [|C]; auto. exfalso.
    assert (Vnorm (Vcross (col B a) (col B b)) * Vnorm (col B k) <= dtol * Vnorm (col B k)) by (apply Rmult_le_compat_r; auto). lra.
  Qed.
  Lemma choose26 (cv : list (vec R)) a b c : (forall v, In v cv <-> exists z, In z dirs26 /\ v = col B z) ->
    rshort dtol cv = Ok (a, b, c) ->
    exists z1 z2 z3, In z1 dirs26 /\ In z2 dirs26 /\ In z3 dirs26 /\ a = col B z1 /\ b = col B z2 /\ c = col B z3 /\
      Z.abs (zdet z1 z2 z3) = 1%Z /\ dtol < Mdet (from_columns a b c) /\ shortest3 B z1 z2 z3.
  Proof.
    intros Hcv E. destruct (shortest_spec dtol cv a b c H0 E) as ((Ia & Ma) & Ib & Ic & S2 & S3).
    apply Hcv in Ia, Ib, Ic. destruct Ia as (z1 & Z1 & ->), Ib as (z2 & Z2 & ->), Ic as (z3 & Z3 & ->).
    assert (X2 : exists k, In k [e1; e2; e3] /\ ZVcross z1 k <> V 0%Z 0%Z 0%Z).
    { pose proof (dirs26_nz z1 Z1) as N.
      destruct (Z.eq_dec (zdet z1 e1 e2) 0) as [A1|A1]; [|exists e1; split; [cbn; tauto|now apply det_cross in A1]].
      destruct (Z.eq_dec (zdet z1 e1 e3) 0) as [A2|A2]; [|exists e1; split; [cbn; tauto|now apply det_cross in A2]].
      destruct (Z.eq_dec (zdet z1 e2 e3) 0) as [A3|A3]; [|exists e2; split; [cbn; tauto|now apply det_cross in A3]].
      exfalso. apply N. unfold e1, e2, e3 in *. clear - A1 A2 A3. zdets. apply vec_ext; cbn [vx vy vz]; lia. }
    destruct X2 as (k2 & K2 & C2).
    destruct S2 as [Hb Mb]; [exists (col B k2); split; [apply Hcv; exists k2; split; [now apply e_in|reflexivity]|now apply big_cross]|].
    assert (C12 : ZVcross z1 z2 <> V 0%Z 0%Z 0%Z).
    { intro Q. apply (cross_Z0 B) in Q. unfold col in Hb. rewrite Q, norm_0 in Hb. lra. }
    assert (MQ : forall z, In z dirs26 -> ZVcross z1 z <> V 0%Z 0%Z 0%Z -> nrm B z2 <= nrm B z).
    { intros z Hz Cz. apply nrm_le. apply Mb; [apply Hcv; now exists z|now apply big_cross]. }
    (* a vector of the right hand *)
    assert (RH : forall z, In z dirs26 -> zdet z1 z2 z <> 0%Z -> exists w, (w = z \/ w = zneg z) /\ dtol < Vdot (Vcross (col B z1) (col B z2)) (col B w)).
    { intros z Hz Dz. pose proof (big_det z1 z2 z Dz) as Q. destruct (Rle_or_lt 0 (Vdot (Vcross (col B z1) (col B z2)) (col B z))) as [S|S].
      - exists z. split; [now left|]. rewrite (Rabs_pos_eq _ S) in Q. lra.
      - exists (zneg z). split; [now right|]. rewrite (Rabs_left _ S) in Q. rewrite col_neg.
        replace (Vdot _ (Vscal (-1) _)) with (- Vdot (Vcross (col B z1) (col B z2)) (col B z)) by (unfold Vdot, Vscal; cbn; ring). lra. }
    assert (NP : forall z, zdet z1 z2 z <> 0%Z -> ZVcross z1 z <> V 0%Z 0%Z 0%Z).
    { intros z Dz Q. apply Dz. unfold ZVcross in Q. injection Q. intros Q3 Q2 Q1. zdets.
      transitivity (- ((vy z1 * vz z - vz z1 * vy z) * vx z2 + (vz z1 * vx z - vx z1 * vz z) * vy z2 + (vx z1 * vy z - vy z1 * vx z) * vz z2))%Z; [ring|rewrite Q1, Q2, Q3; ring]. }
    assert (NR : forall w, dtol < Vdot (Vcross (col B z1) (col B z2)) (col B w) -> zdet z1 z2 w <> 0%Z).
    { intros w Q D. unfold col in Q. rewrite triple_Z, D in Q. lra. }
    destruct (cross_det z1 z2 C12) as (k3 & K3 & D3).
    destruct (RH k3 (e_in _ K3) D3) as (w & Hw & Pw).
    assert (Iw : In w dirs26) by (destruct Hw as [->| ->]; [|apply dirs26_neg]; now apply e_in).
    destruct S3 as (Hc & Lbc & Mc).
    { exists (col B w). split; [apply Hcv; now exists w|]. split; [|exact Pw]. apply big_cross, NP, NR, Pw. }
    assert (D123 : zdet z1 z2 z3 <> 0%Z) by (now apply NR).
    assert (MR : forall z, In z dirs26 -> zdet z1 z2 z <> 0%Z -> nrm B z3 <= nrm B z).
    { intros z Hz Dz. destruct (RH z Hz Dz) as (u & Hu & Pu).
      replace (nrm B z) with (nrm B u) by (destruct Hu as [->| ->]; [reflexivity|apply nrm_neg]).
      apply nrm_le. apply Mc; [apply Hcv; exists u; split; [destruct Hu as [->| ->]; [exact Hz|now apply dirs26_neg]|reflexivity]| |exact Pu].
      apply big_cross, NP, NR, Pu. }
    exists z1, z2, z3. do 6 (split; [first [assumption|reflexivity]|]). split; [|split; [rewrite det_triple; exact Hc|]].
    2:{ split; [|split; [exact MQ|exact MR]]. intros z Hz. apply nrm_le. apply Ma. apply Hcv. now exists z. }
    destruct (dirs26_split z1 Z1) as (p & Hp & E1), (dirs26_split z2 Z2) as (q & Hq & E2), (dirs26_split z3 Z3) as (r & Hr & E3).
    assert (Np : nrm B z1 = nrm B p) by (destruct E1 as [->| ->]; [reflexivity|apply nrm_neg]).
    assert (Nq : nrm B z2 = nrm B q) by (destruct E2 as [->| ->]; [reflexivity|apply nrm_neg]).
    assert (Nr : nrm B z3 = nrm B r) by (destruct E3 as [->| ->]; [reflexivity|apply nrm_neg]).
    assert (Da : Z.abs (zdet z1 z2 z3) = Z.abs (zdet p q r)).
    { destruct E1 as [->| ->], E2 as [->| ->], E3 as [->| ->]; rewrite ?zdet_neg1, ?zdet_neg2, ?zdet_neg3; lia. }
    assert (Db : forall z, zdet p q z <> 0%Z -> zdet z1 z2 z <> 0%Z).
    { intros z Dz. destruct E1 as [->| ->], E2 as [->| ->]; rewrite ?zdet_neg1, ?zdet_neg2; lia. }
    assert (Dc : forall z, ZVcross p z <> V 0%Z 0%Z 0%Z -> ZVcross z1 z <> V 0%Z 0%Z 0%Z).
    { intros z Cz Q. apply Cz. destruct E1 as [->| ->]; [exact Q|]. unfold ZVcross, zneg in *. cbn [vx vy vz] in *. injection Q. intros. f_equal; lia. }
    rewrite Da. apply (minimal_basis B detB); auto.
    - lia.
    - rewrite <- Np, <- Nq. apply nrm_le. apply Ma. apply Hcv. now exists z2.
    - rewrite <- Nq, <- Nr. apply nrm_le. exact Lbc.
    - intros z Hz Cz. rewrite <- Nq. apply MQ; auto.
    - intros z Hz Dz. rewrite <- Nr. apply MR; auto.
  Qed.
End Choose26.

Lemma cols_cast A a b c : @from_columns R (Mapp A a) (Mapp A b) (Mapp A c) = Mmul A (from_columns a b c).
Proof. unfold Mmul, from_columns, Mapp. cbn. apply (@mat_ext R); reflexivity. Qed.

Lemma three_spec dtol (c1 c2 c3 : vec R) : 0 <= dtol ->
  (forall a b, In a [c1; c2; c3] -> In b [c1; c2; c3] -> a <> b -> dtol < Vnorm (Vcross a b)) -> NoDup [c1; c2; c3] ->
  exists a b c, rshort dtol [c1; c2; c3] = Ok (a, b, c) /\ Permutation [c1; c2; c3] [a; b; c].
Proof.
  intros H0 HC ND. pose proof (sort_by_perm len_le [c1; c2; c3]) as Pm. rewrite shortest_eq.
  set (l := sort_by len_le [c1; c2; c3]) in *.
  destruct l as [|a [|b [|c [|]]]]; try (apply Permutation_length in Pm; discriminate Pm).
  assert (ND' : NoDup [a; b; c]) by (eapply Permutation_NoDup; [apply Permutation_sym; exact Pm|exact ND]).
  assert (Cab : dtol < Vnorm (Vcross a b)).
  { apply HC; [apply (Permutation_in _ Pm); cbn; tauto..|]. inversion_clear ND' as [|? ? N1 _]. cbn in N1. intros ->. tauto. }
  cbv zeta. cbn [nth_error of_opt bind skipn List.length].
  replace (@scan_second RNum dtol a 1 (V 0 0 0) [b; c]) with (Vcross a b, 1%nat).
  2:{ cbn [scan_second]. change (@fabs RNum (@magnitude RNum (@cross RNum a b))) with (Rabs (@magnitude RNum (Vcross a b))). rewrite magnitude_R, abs_norm.
      replace (@flt RNum dtol (Vnorm (Vcross a b))) with true; [reflexivity|]. symmetry. now apply flt_true. }
  cbn [Nat.ltb Nat.leb].
  cbn [nth_error of_opt bind]. exists a, b, c. split; [|now apply Permutation_sym].
  cbn [skipn scan_third]. destruct (@flt RNum _ _); reflexivity.
Qed.

(** reordering the axes *)
Definition permuted (K : mat Z) : Prop := exists k1 k2 k3, K = zcols k1 k2 k3 /\ (k1 = e1 \/ k1 = e2 \/ k1 = e3) /\ (k2 = e1 \/ k2 = e2 \/ k2 = e3) /\
  (k3 = e1 \/ k3 = e2 \/ k3 = e3) /\ (zdet k1 k2 k3 = 1 \/ zdet k1 k2 k3 = -1)%Z.
Ltac perm_cases H := destruct H as (?k1 & ?k2 & ?k3 & -> & [->|[->| ->]] & [->|[->| ->]] & [->|[->| ->]] & [H|H]);
  try (exfalso; revert H; vm_compute; discriminate); clear H.
Lemma permuted_in K z : permuted K -> In z dirs26 -> In (ZMapp K z) dirs26.
Proof.
  intros H Hz. assert (G : forallb (fun K => forallb (fun z => existsb (zvec_eqb (ZMapp K z)) dirs26) dirs26)
    [zcols e1 e2 e3; zcols e1 e3 e2; zcols e2 e1 e3; zcols e2 e3 e1; zcols e3 e1 e2; zcols e3 e2 e1] = true) by (vm_compute; reflexivity).
  assert (HK : In K [zcols e1 e2 e3; zcols e1 e3 e2; zcols e2 e1 e3; zcols e2 e3 e1; zcols e3 e1 e2; zcols e3 e2 e1]) by (perm_cases H; cbn; tauto).
  rewrite forallb_forall in G. specialize (G K HK). rewrite forallb_forall in G. specialize (G z Hz). apply existsb_exists in G. destruct G as (w & Hw & E).
  assert (E' : ZMapp K z = w) by (unfold zvec_eqb in E; rewrite !andb_true_iff, !Z.eqb_eq in E; apply vec_ext; tauto). rewrite E'. exact Hw.
Qed.
Lemma permuted_det K z1 z2 z3 : zdet (ZMapp K z1) (ZMapp K z2) (ZMapp K z3) = (ZMdet K * zdet z1 z2 z3)%Z.
Proof. zdets. unfold ZMapp. cbn [m11 m12 m13 m21 m22 m23 m31 m32 m33 vx vy vz]. ring. Qed.
Lemma permuted_onto K : permuted K -> exists Ki, permuted Ki /\ forall z, ZMapp K (ZMapp Ki z) = z.
Proof.
  intro H. assert (G : forall A, In A [zcols e1 e2 e3; zcols e1 e3 e2; zcols e2 e1 e3; zcols e2 e3 e1; zcols e3 e1 e2; zcols e3 e2 e1] -> permuted A).
  { intros A HA. cbn in HA. unfold permuted. decompose [or] HA; try tauto; subst A; do 3 eexists; (split; [reflexivity|]); do 3 (split; [tauto|]); vm_compute; tauto. }
  perm_cases H; [exists (zcols e1 e2 e3)|exists (zcols e1 e3 e2)|exists (zcols e2 e1 e3)|exists (zcols e3 e1 e2)|exists (zcols e2 e3 e1)|exists (zcols e3 e2 e1)];
    (split; [apply G; cbn; tauto|]); intros [a b c]; unfold ZMapp, zcols, e1, e2, e3; cbn [m11 m12 m13 m21 m22 m23 m31 m32 m33 vx vy vz]; f_equal; ring.
Qed.
Lemma permuted_cross K u v : permuted K -> ZVcross u v = V 0%Z 0%Z 0%Z -> ZVcross (ZMapp K u) (ZMapp K v) = V 0%Z 0%Z 0%Z.
Proof.
  destruct u as [u1 u2 u3], v as [v1 v2 v3]. intros H E. unfold ZVcross in E. cbn [vx vy vz] in E. injection E as E1 E2 E3.
  perm_cases H; unfold ZVcross, ZMapp, zcols, e1, e2, e3; cbn [m11 m12 m13 m21 m22 m23 m31 m32 m33 vx vy vz]; f_equal; lia.
Qed.
Lemma permuted_shortest B L K z1 z2 z3 : permuted K -> (ZMdet K <> 0)%Z -> (forall z, col B z = col L (ZMapp K z)) -> shortest3 B z1 z2 z3 ->
  shortest3 L (ZMapp K z1) (ZMapp K z2) (ZMapp K z3).
Proof.
  intros HK D EC (S1 & S2 & S3). destruct (permuted_onto K HK) as (Ki & HKi & EI).
  assert (EN : forall z, nrm L (ZMapp K z) = nrm B z) by (intro z; unfold nrm; now rewrite EC).
  assert (EM : forall z, nrm L z = nrm B (ZMapp Ki z)) by (intro z; rewrite <- EN, EI; reflexivity).
  repeat split; intros z Hz; rewrite EN, EM.
  - apply S1. now apply permuted_in.
  - intro N. apply S2; [now apply permuted_in|]. intro Q. apply N. rewrite <- (EI z). now apply permuted_cross.
  - intro N. apply S3; [now apply permuted_in|]. intro Q. apply N. rewrite <- (EI z), permuted_det, Q. ring.
Qed.

Lemma in_combine_map {A B C} (f : A -> B) (l : list A) (m : list C) y e : In (y, e) (combine (map f l) m) -> exists x, y = f x /\ In (x, e) (combine l m).
Proof. revert m. induction l as [|a l IH]; intros [|c m]; cbn; try tauto. intros [E|H]; [injection E as <- <-; exists a; auto|]. destruct (IH m H) as (x & -> & Hx). exists x; auto. Qed.

Section Cell.
  Context (P : @Pinv RNum) (HO : HashOrd) (path : list nat) (dtol : R) (s : @structure RNum).
  Let L := lattice s.
  Let temp := @normalize_coords RNum s dtol.
  Hypothesis WF : List.length (species s) = List.length (frac_coords s).
  Lemma site_translation_shift t n : site_translation dtol s (Vadd t (VofZ n)) -> site_translation dtol s t.
  Proof.
    intros H x e Hx. destruct (H x e Hx) as (y & m & Hy & Hn). exists y, (ZVadd n m). split; [exact Hy|].
    replace (Vadd (Vsub (Vadd x t) y) (VofZ (ZVadd n m))) with (Vadd (Vsub (Vadd x (Vadd t (VofZ n))) y) (VofZ m)); [exact Hn|].
    unfold Vadd, Vsub, VofZ, ZVadd. cbn. rewrite !plus_IZR. f_equal; ring.
  Qed.
  Lemma temp_index : exists f : nat -> nat, (forall i j, f i = f j -> i = j) /\
    forall k x e, nth_error (frac_coords temp) k = Some x -> nth_error (species temp) k = Some e ->
      exists x0 n, nth_error (frac_coords s) (f k) = Some x0 /\ nth_error (species s) (f k) = Some e /\ x = Vadd x0 (VofZ n).
  Proof.
    destruct (normalize_coords_zip s dtol) as (z & Pm & _ & _ & E). fold temp in E.
    apply Permutation_sym, Permutation_nth_error in Pm. destruct Pm as (_ & f & If & Hf). exists f. split; [exact If|].
    intros k x e. rewrite E. cbn [frac_coords species]. rewrite !nth_error_map. intros Hx He. specialize (Hf k).
    destruct (nth_error z k) as [[e' x']|]; [|discriminate Hx]. cbn in Hx, He. injection Hx as ->. injection He as ->.
    symmetry in Hf. unfold normalize_frac_vectors in Hf. revert Hf. generalize (f k) as i. generalize (species s) as sp. generalize (frac_coords s) as fc. clear.
    intros fc sp i. revert fc sp. induction i as [|i IH]; intros [|y fc] [|e0 sp]; cbn; try discriminate.
    - intro E. injection E as -> E. destruct (normalize_vec_shift y (@frac_tols_of RNum (lattice s) dtol)) as (n & Hn).
      exists y, n. repeat split. rewrite <- E. exact Hn.
    - intro E. apply IH in E. exact E.
  Qed.
  Lemma lattice_temp : lattice temp = L.
  Proof. apply (normalize_coords_spec s dtol). Qed.

  (** the new lattice is spanned by accepted translations *)
  Lemma prim_lattice (s' : @structure RNum) : 0 <= dtol -> inverse_of L (@pinv RNum P L) -> @find_primitive_cell RNum P HO path dtol s = Ok s' ->
    exists t1 t2 t3 z1 z2 z3, site_translation dtol s t1 /\ site_translation dtol s t2 /\ site_translation dtol s t3 /\
      In z1 dirs26 /\ In z2 dirs26 /\ In z3 dirs26 /\ lattice s' = Mmul L (Mmul (from_columns t1 t2 t3) (MofZ (zcols z1 z2 z3))).
  Proof.
    intros H0 HP. rewrite prim_eq. fold temp.
    destruct (@get_min_element HO path (species temp)) as [[[me ei] tc]| |]; cbn [bind]; try discriminate.
    destruct (of_opt PUnwrapNone (am_get String.eqb me ei)) as [bi| |]; cbn [bind]; try discriminate.
    destruct (of_opt PIndex (nth_error (frac_coords temp) (Z.to_nat bi))) as [bs| |]; cbn [bind]; try discriminate.
    unfold prim_tail. fold L.
    assert (HT : forall v, In v (map (Mapp L) (tvecs dtol s me (Z.to_nat bi) bs)) -> exists t, v = Mapp L t /\ site_translation dtol s t).
    { intros v Hv. apply in_map_iff in Hv. destruct Hv as (t & <- & Ht). exists t. split; [reflexivity|]. unfold tvecs in Ht. apply filter_In in Ht.
      apply accepted; [exact WF|]. exact (proj2 Ht). }
    destruct (rshort dtol (map (Mapp L) (tvecs dtol s me (Z.to_nat bi) bs))) as [[[v1 v2] v3]| |] eqn:E1; cbn [bind]; try discriminate.
    destruct (shortest_spec dtol _ _ _ _ H0 E1) as ((I1 & _) & I2 & I3 & _).
    apply HT in I1, I2, I3. destruct I1 as (t1 & -> & T1), I2 as (t2 & -> & T2), I3 as (t3 & -> & T3).
    destruct HP as [HP1 HP2]. rewrite !(inv_app (@pinv RNum P L) L) by (split; assumption).
    match goal with |- context [rshort ?d ?l] => destruct (rshort d l) as [[[u1 u2] u3]| |] eqn:E2 end; cbn [bind]; try discriminate.
    destruct (shortest_spec dtol _ _ _ _ H0 E2) as ((I1 & _) & I2 & I3 & _).
    intro E. injection E as E. subst s'.
    assert (HZ : forall v, In v (map (Mapp L) (@combination_vecs RNum (from_columns t1 t2 t3))) -> exists z, In z dirs26 /\ v = Mapp L (Mapp (from_columns t1 t2 t3) (VofZ z))).
    { intros v Hv. apply in_map_iff in Hv. destruct Hv as (w & <- & Hw). apply combos_in in Hw. destruct Hw as (z & Hz & ->). now exists z. }
    apply HZ in I1, I2, I3. destruct I1 as (z1 & Z1 & ->), I2 as (z2 & Z2 & ->), I3 as (z3 & Z3 & ->).
    exists t1, t2, t3, z1, z2, z3. do 6 (split; [assumption|]).
    rewrite (proj1 (normalize_coords_spec _ dtol)). cbn [lattice]. rewrite cols_cast. now rewrite cols_app.
  Qed.

  (** the sites of the new cell *)
  Lemma prim_sites (s' : @structure RNum) : @find_primitive_cell RNum P HO path dtol s = Ok s' -> inverse_of (lattice s') (@pinv RNum P (lattice s')) ->
    coords s' = map (Mapp (lattice s')) (frac_coords s') /\ List.length (species s') = List.length (frac_coords s') /\
    forall k x e, nth_error (frac_coords s') k = Some x -> nth_error (species s') k = Some e ->
      exists y n m, In (y, e) (combine (frac_coords s) (species s)) /\
        Mapp (lattice s') x = Vadd (Mapp L (Vadd y (VofZ n))) (Mapp (lattice s') (VofZ m)).
  Proof.
    rewrite prim_eq. fold temp.
    destruct (@get_min_element HO path (species temp)) as [[[me ei] tc]| |]; cbn [bind]; try discriminate.
    destruct (of_opt PUnwrapNone (am_get String.eqb me ei)) as [bi| |]; cbn [bind]; try discriminate.
    destruct (of_opt PIndex (nth_error (frac_coords temp) (Z.to_nat bi))) as [bs| |]; cbn [bind]; try discriminate.
    unfold prim_tail. fold L.
    destruct (rshort dtol (map (Mapp L) (tvecs dtol s me (Z.to_nat bi) bs))) as [[[v1 v2] v3]| |] eqn:E1; cbn [bind]; try discriminate.
    match goal with |- context [rshort ?d ?l] => destruct (rshort d l) as [[[u1 u2] u3]| |] eqn:E2 end; cbn [bind]; try discriminate.
    intro E. injection E as E. subst s'. set (L' := from_columns u1 u2 u3).
    set (s0 := Structure (N := RNum) L' _ _ _).
    destruct (normalize_coords_spec s0 dtol) as (EL & El & _ & _ & Ec & _). rewrite EL. cbn [lattice s0]. intro HP.
    split; [exact Ec|]. split; [exact El|]. intros k x e Hx He.
    destruct (fold_sites L (@frac_tols_of RNum L dtol) dtol (combine (map (Mapp (@pinv RNum P L')) (coords temp)) (species temp)) ([], []) eq_refl) as [FL FI].
    fold (folded P dtol s L') in FL, FI.
    destruct (normalize_sites s0 dtol k e x) as (y & m & Hy & ->); [|exact He|exact Hx|].
    { cbn [species frac_coords s0]. symmetry. exact FL. }
    cbn [species frac_coords s0] in Hy. destruct (FI y e Hy) as [[]|Hy'].
    apply (in_combine_map) in Hy'. destruct Hy' as (c & -> & Hc).
    assert (Ect : coords temp = map (Mapp L) (frac_coords temp)) by apply (normalize_coords_spec s dtol).
    rewrite Ect in Hc. apply in_combine_map in Hc. destruct Hc as (w & -> & Hw).
    destruct (temp_site dtol s WF w e Hw) as (x0 & n & Hx0 & ->). exists x0, n, m. split; [exact Hx0|].
    rewrite Mapp_add. f_equal. now apply inv_app.
  Qed.

  (** no two atoms of the same species are related by a translation of the crystal *)
  Definition no_inner_translation : Prop :=
    forall i j x y e, i <> j -> nth_error (frac_coords s) i = Some x -> nth_error (frac_coords s) j = Some y ->
      nth_error (species s) i = Some e -> nth_error (species s) j = Some e -> ~ site_translation dtol s (Vsub x y).

  Lemma filter_none {A} (f : A -> bool) l : (forall x, In x l -> f x = false) -> filter f l = [].
  Proof. induction l as [|a l IH]; cbn; intro H; [reflexivity|]. rewrite (H a) by (now left). apply IH. intros; apply H; now right. Qed.
  Lemma filter_every {A} (f : A -> bool) l : (forall x, In x l -> f x = true) -> filter f l = l.
  Proof. induction l as [|a l IH]; cbn; intro H; [reflexivity|]. rewrite (H a) by (now left). f_equal. apply IH. intros; apply H; now right. Qed.
  Lemma nth_combine {A B} (l : list A) (m : list B) k x y : nth_error (combine l m) k = Some (x, y) -> nth_error l k = Some x /\ nth_error m k = Some y.
  Proof. revert l m. induction k as [|k IH]; intros [|a l] [|b m]; cbn; try discriminate; [intro E; injection E as -> ->; auto|apply IH]. Qed.
  Lemma seq_nth a n k x : nth_error (seq a n) k = Some x -> x = (a + k)%nat.
  Proof. revert a k. induction n as [|n IH]; intros a [|k]; cbn; try discriminate; [intro E; injection E; lia|]. intro E. apply IH in E. lia. Qed.

  Lemma unit_ok (z : vec Z) : 0 <= dtol -> (forall k, (k < 3)%nat -> 0 <= vnth (@frac_tols_of RNum L dtol) k <= 1) ->
    @fp_is_translation RNum dtol temp (@frac_tols_of RNum L dtol) (VofZ z) = true.
  Proof.
    intros H0 HT. unfold fp_is_translation. apply forallb_forall. intros [x e] Hx. apply existsb_exists. exists (x, e). split; [exact Hx|]. cbn [fst snd].
    rewrite String.eqb_refl. cbn [andb]. unfold same_site. apply fle_true. rewrite lattice_temp.
    assert (E : @vsub RNum (@vadd RNum x (VofZ z)) x = VofZ z).
    { apply (@vec_ext R); unfold vsub, vadd, vmap2, VofZ; cbn; ring. }
    assert (N : @normalize_vec RNum (VofZ z) (@frac_tols_of RNum L dtol) = V0).
    { unfold normalize_vec, vmap2, VofZ. cbn [vx vy vz].
      rewrite (normalize1_whole (vx z)) by (exact (HT 0%nat ltac:(lia))). rewrite (normalize1_whole (vy z)) by (exact (HT 1%nat ltac:(lia))).
      rewrite (normalize1_whole (vz z)) by (exact (HT 2%nat ltac:(lia))). reflexivity. }
    rewrite E, N. cbn [fabs RNum]. rewrite magnitude_R, abs_norm. change (@mvmul RNum L V0) with (Mapp L V0).
    replace (Mapp L V0) with V0 by (apply (@vec_ext R); unfold Mapp, V0; cbn; ring). rewrite Vnorm_V0. cbn. lra.
  Qed.
  Lemma tvecs_units me bi bs : 0 <= dtol -> (forall k, (k < 3)%nat -> 0 <= vnth (@frac_tols_of RNum L dtol) k <= 1) -> no_inner_translation ->
    nth_error (frac_coords temp) bi = Some bs -> nth_error (species temp) bi = Some me ->
    tvecs dtol s me bi bs = [VofZ e1; VofZ e2; VofZ e3].
  Proof.
    intros H0 HT NI Hb Hm. unfold tvecs. fold temp L. unfold fp_candidates. rewrite filter_app. rewrite (filter_every _ (@unit_vecs RNum)).
    2:{ intros x Hx. cbn in Hx. destruct Hx as [<-|[<-|[<-|[]]]]; [exact (unit_ok e1 H0 HT)|exact (unit_ok e2 H0 HT)|exact (unit_ok e3 H0 HT)]. }
    rewrite filter_none; [reflexivity|]. intros v Hv. apply in_map_iff in Hv. destruct Hv as ((k & x & e) & <- & Hk). cbn [fst snd] in Hk |- *.
    apply filter_In in Hk. cbn [fst snd] in Hk. destruct Hk as [Hk Hc]. apply andb_prop in Hc. destruct Hc as [He Hn]. apply String.eqb_eq in He. subst e.
    apply negb_true_iff, Nat.eqb_neq in Hn. apply In_nth_error in Hk. destruct Hk as (j & Hj). apply nth_combine in Hj. destruct Hj as [Hj1 Hj2].
    apply seq_nth in Hj1. cbn in Hj1. subst k. apply nth_combine in Hj2. destruct Hj2 as [Hx He].
    match goal with |- ?b = false => destruct b eqn:A; [exfalso|reflexivity] end.
    apply accepted in A; [|exact WF]. destruct (normalize_vec_shift (@vsub RNum x bs) (@frac_tols_of RNum L dtol)) as (n & En).
    rewrite En in A. apply site_translation_shift in A.
    destruct temp_index as (f & If & Hf). destruct (Hf j x me Hx He) as (x0 & n0 & A1 & A2 & ->). destruct (Hf bi bs me Hb Hm) as (y0 & m0 & B1 & B2 & ->).
    apply (NI (f j) (f bi) x0 y0 me); auto. apply (site_translation_shift _ (ZVadd n0 (zneg m0))).
    replace (Vadd (Vsub x0 y0) (VofZ (ZVadd n0 (zneg m0)))) with (@vsub RNum (Vadd x0 (VofZ n0)) (Vadd y0 (VofZ m0))); [exact A|].
    unfold vsub, vmap2, Vadd, Vsub, VofZ, ZVadd, zneg. cbn. rewrite !plus_IZR, !opp_IZR. f_equal; ring.
  Qed.

  (** a cell without inner translations keeps its lattice *)
  Lemma prim_keeps_shortest : 0 <= dtol -> species s <> [] -> (Z.of_nat (List.length (species s)) <= 65535)%Z ->
    (forall k, (k < 3)%nat -> 0 < Vnorm (Ccol L k) /\ dtol <= Vnorm (Ccol L k) /\ dtol * Vnorm (Ccol L k) < Rabs (Mdet L)) -> dtol < Rabs (Mdet L) ->
    inverse_of L (@pinv RNum P L) -> no_inner_translation ->
    exists y1 y2 y3, let L' := from_columns (col L y1) (col L y2) (col L y3) in
      @find_primitive_cell RNum P HO path dtol s =
        Ok (@normalize_coords RNum (Structure (N := RNum) L' (snd (folded P dtol s L')) (map (Mapp L') (fst (folded P dtol s L'))) (fst (folded P dtol s L'))) dtol) /\
      In y1 dirs26 /\ In y2 dirs26 /\ In y3 dirs26 /\ (zdet y1 y2 y3 = 1 \/ zdet y1 y2 y3 = -1)%Z /\ dtol < Mdet L' /\ shortest3 L y1 y2 y3.
  Proof.
    intros H0 HN HM HC HD HP NI. rewrite prim_eq. fold temp.
    destruct (normalize_coords_spec s dtol) as (_ & Lt & Ls & _). fold temp in Lt, Ls. rewrite <- WF, Nat.min_id in Ls.
    destruct (@get_min_element_spec HO path (species temp)) as (me & ei & tc & -> & Hin & _ & Hei & _).
    { rewrite Ls. destruct (species s); [congruence|]. cbn [List.length] in *. lia. }
    cbn [bind]. apply In_nth_error in Hin. 
    destruct Hei as [NDe Hei]. destruct (am_get String.eqb me ei) as [bi|] eqn:Eb.
    2:{ exfalso. apply am_get_none_iff in Eb. destruct Hin as (j & Hj).
        assert (F : exists j0, nth_error (species temp) j0 = Some me /\ forall j', (j' < j0)%nat -> nth_error (species temp) j' <> Some me).
        { revert j Hj. induction j as [j IH] using lt_wf_ind. intro Hj.
          destruct (existsb (fun i => match nth_error (species temp) i with Some e => String.eqb e me | None => false end) (seq 0 j)) eqn:X.
          - apply existsb_exists in X. destruct X as (i & Hi & X). apply in_seq in Hi. destruct (nth_error (species temp) i) as [e|] eqn:Y; [|discriminate].
            apply String.eqb_eq in X. subst e. apply (IH i); [lia|exact Y].
          - exists j. split; [exact Hj|]. intros j' Hj' C. assert (Q : existsb (fun i => match nth_error (species temp) i with Some e => String.eqb e me | None => false end) (seq 0 j) = true).
            { apply existsb_exists. exists j'. split; [apply in_seq; lia|]. rewrite C. apply String.eqb_refl. } congruence. }
        destruct F as (j0 & F1 & F2). apply Eb. apply (in_map fst ei (me, Z.of_nat j0)). apply Hei. exists j0. auto. }
    apply (am_get_In ei me bi NDe) in Eb. apply Hei in Eb. destruct Eb as (j & -> & Hj & _). cbn [of_opt bind]. rewrite Nat2Z.id.
    assert (Hb : exists bs, nth_error (frac_coords temp) j = Some bs).
    { destruct (nth_error (frac_coords temp) j) eqn:Q; [eauto|]. apply nth_error_None in Q. rewrite <- Lt in Q. apply nth_error_None in Q. congruence. }
    destruct Hb as (bs & Hb). rewrite Hb. cbn [of_opt bind]. unfold prim_tail. fold L.
    assert (HT : forall k, (k < 3)%nat -> 0 <= vnth (@frac_tols_of RNum L dtol) k <= 1).
    { intros k Hk. assert (E : vnth (@frac_tols_of RNum L dtol) k = dtol / Vnorm (Ccol L k)).
      { destruct k as [|[|[|k]]]; [..|lia]; unfold frac_tols_of; cbn [vnth vx vy vz]; rewrite magnitude_R; reflexivity. }
      rewrite E. destruct (HC k Hk) as (A1 & A2 & _). split; [apply Rmult_le_pos; [lra|left; now apply Rinv_0_lt_compat]|].
      apply (Rmult_le_reg_r (Vnorm (Ccol L k))); [exact A1|]. unfold Rdiv. rewrite Rmult_assoc, Rinv_l by lra. lra. }
    rewrite (tvecs_units me j bs H0 HT NI Hb Hj). cbn [map].
    assert (HL0 : Mdet L <> 0) by (intro E; rewrite E, Rabs_R0 in HD; lra).
    assert (CC : forall k, In k [e1; e2; e3] -> dtol * Vnorm (col L k) < Rabs (Mdet L)).
    { intros k Hk. assert (E : exists i, (i < 3)%nat /\ col L k = Ccol L i).
      { cbn in Hk. destruct Hk as [<-|[<-|[<-|[]]]]; [exists 0%nat|exists 1%nat|exists 2%nat]; (split; [lia|]);
          unfold col, Mapp, VofZ, Ccol, e1, e2, e3; cbn; apply (@vec_ext R); cbn; ring. }
      destruct E as (i & Hi & ->). apply HC. exact Hi. }
    destruct (three_spec dtol (col L e1) (col L e2) (col L e3) H0) as (a & b & c & E1 & Pm).
    { intros x y Hx Hy N. apply (in_map_iff (col L) [e1; e2; e3]) in Hx. apply (in_map_iff (col L) [e1; e2; e3]) in Hy.
      destruct Hx as (u & <- & Hu), Hy as (v & <- & Hv). apply (big_cross L dtol CC).
      cbn in Hu, Hv. destruct Hu as [<-|[<-|[<-|[]]]], Hv as [<-|[<-|[<-|[]]]]; try (exfalso; now apply N); cbv; discriminate. }
    { assert (IJ : forall u v, zdet u v (ZVcross u v) <> 0%Z -> col L u <> col L v).
      { intros u v Hd E. apply Hd. apply eq_IZR, (Rmult_eq_reg_l (Mdet L)); [|exact HL0]. rewrite <- triple_Z. fold (col L u). fold (col L v). rewrite E, cross_self.
        unfold Vdot, V0. cbn. ring. }
      constructor; [|constructor; [|constructor; [|constructor]]]; cbn [In]; intro Q;
        repeat match goal with H : _ \/ _ |- _ => destruct H as [H|H] end; try exact Q; revert Q; apply IJ; cbv; discriminate. }
    change (rshort dtol [Mapp L (VofZ e1); Mapp L (VofZ e2); Mapp L (VofZ e3)]) with (rshort dtol [col L e1; col L e2; col L e3]).
    rewrite E1. cbn [bind].
    (* the three selected vectors are the columns of L in some order *)
    assert (PZ : exists k1 k2 k3, a = col L k1 /\ b = col L k2 /\ c = col L k3 /\ Permutation [e1; e2; e3] [k1; k2; k3]).
    { change [col L e1; col L e2; col L e3] with (map (col L) [e1; e2; e3]) in Pm. apply Permutation_sym, Permutation_map_inv in Pm.
      destruct Pm as (l & El & Pl). destruct l as [|k1 [|k2 [|k3 [|]]]]; try discriminate El. cbn in El. injection El as -> -> ->.
      exists k1, k2, k3. repeat split; auto. }
    destruct PZ as (k1 & k2 & k3 & -> & -> & -> & PK).
    unfold col at 1 2 3. rewrite !(inv_app (@pinv RNum P L) L) by (split; apply HP).
    set (W := from_columns (VofZ k1) (VofZ k2) (VofZ k3)).
    assert (EW : W = MofZ (zcols k1 k2 k3)) by reflexivity.
    set (B := Mmul L W).
    assert (Dk : (zdet k1 k2 k3 = 1 \/ zdet k1 k2 k3 = -1)%Z).
    { assert (IK : forall k, In k [k1; k2; k3] -> k = e1 \/ k = e2 \/ k = e3).
      { intros k Hk. apply (Permutation_in _ (Permutation_sym PK)) in Hk. cbn in Hk. intuition congruence. }
      assert (NK : NoDup [k1; k2; k3]).
      { apply (Permutation_NoDup PK). constructor; [|constructor; [|constructor; [|constructor]]]; cbn; intuition discriminate. }
      inversion_clear NK as [|? ? N1 NK']. inversion_clear NK' as [|? ? N2 _]. cbn in N1, N2.
      destruct (IK k1 ltac:(cbn; tauto)) as [->|[->| ->]]; destruct (IK k2 ltac:(cbn; tauto)) as [->|[->| ->]]; try tauto;
      destruct (IK k3 ltac:(cbn; tauto)) as [->|[->| ->]]; try tauto; cbv; tauto. }
    assert (DB : Rabs (Mdet B) = Rabs (Mdet L)).
    { unfold B. rewrite EW, Mdet_mul, MofZ_det, Rabs_mult. fold (zdet k1 k2 k3). destruct Dk as [-> | ->]; rewrite <- abs_IZR; cbn; ring. }
    assert (CB : forall k, In k [e1; e2; e3] -> dtol * Vnorm (col B k) < Rabs (Mdet B)).
    { intros k Hk. rewrite DB. assert (E : exists k', In k' [e1; e2; e3] /\ col B k = col L k').
      { cbn in Hk. destruct Hk as [<-|[<-|[<-|[]]]]; [exists k1|exists k2|exists k3];
          (split; [apply (Permutation_in _ (Permutation_sym PK)); cbn; tauto|]);
          unfold col, B; rewrite Mapp_Mmul; f_equal; unfold W, e1, e2, e3, Mapp, from_columns, VofZ; cbn; apply (@vec_ext R); cbn; ring. }
      destruct E as (k' & Hk' & ->). now apply CC. }
    set (cv := map (Mapp L) (@combination_vecs RNum W)).
    assert (Hcv : forall v, In v cv <-> exists z, In z dirs26 /\ v = col B z).
    { intro v. unfold cv. rewrite in_map_iff. split.
      - intros (w & <- & Hw). apply combos_in in Hw. destruct Hw as (z & Hz & ->). exists z. split; [exact Hz|]. unfold col, B. now rewrite Mapp_Mmul.
      - intros (z & Hz & ->). exists (Mapp W (VofZ z)). split; [unfold col, B; now rewrite Mapp_Mmul|]. apply combos_in. now exists z. }
    destruct (shortest_total dtol cv) as ([[u1 u2] u3] & E2); [unfold cv; rewrite map_length; apply combos_len|].
    change (rshort dtol (map (Mapp L) (@combination_vecs RNum W))) with (rshort dtol cv). rewrite E2. cbn [bind].
    assert (HDB : dtol < Rabs (Mdet B)) by (rewrite DB; exact HD).
    destruct (choose26 B dtol H0 HDB CB cv u1 u2 u3 Hcv E2) as (z1 & z2 & z3 & Z1 & Z2 & Z3 & -> & -> & -> & DZ & DP & SH).
    set (K := zcols k1 k2 k3) in *.
    assert (EC : forall z, col B z = col L (ZMapp K z)) by (intro z; unfold col, B; rewrite EW, Mapp_Mmul, MofZ_app; reflexivity).
    assert (PR : permuted K).
    { assert (IK : forall k, In k [k1; k2; k3] -> k = e1 \/ k = e2 \/ k = e3).
      { intros k Hk. apply (Permutation_in _ (Permutation_sym PK)) in Hk. cbn in Hk. intuition congruence. }
      exists k1, k2, k3. split; [reflexivity|]. split; [apply IK; cbn; tauto|]. split; [apply IK; cbn; tauto|]. split; [apply IK; cbn; tauto|exact Dk]. }
    exists (ZMapp K z1), (ZMapp K z2), (ZMapp K z3). cbv zeta. rewrite <- !EC.
    split; [reflexivity|]. do 3 (split; [now apply permuted_in|]). split; [|split; [exact DP|]].
    - rewrite permuted_det. unfold K at 1 2. change (ZMdet (zcols k1 k2 k3)) with (zdet k1 k2 k3). destruct Dk as [-> | ->]; lia.
    - apply permuted_shortest with (B := B); auto. unfold K. change (ZMdet (zcols k1 k2 k3)) with (zdet k1 k2 k3). lia.
  Qed.
  Lemma prim_keeps : 0 <= dtol -> species s <> [] -> (Z.of_nat (List.length (species s)) <= 65535)%Z ->
    (forall k, (k < 3)%nat -> 0 < Vnorm (Ccol L k) /\ dtol <= Vnorm (Ccol L k) /\ dtol * Vnorm (Ccol L k) < Rabs (Mdet L)) -> dtol < Rabs (Mdet L) ->
    inverse_of L (@pinv RNum P L) -> no_inner_translation ->
    exists s' T, @find_primitive_cell RNum P HO path dtol s = Ok s' /\ lattice s' = Mmul L (MofZ T) /\
      (ZMdet T = 1 \/ ZMdet T = -1)%Z /\ dtol < Mdet (lattice s').
  Proof.
    intros H0 HN HM HC HD HP NI. destruct (prim_keeps_shortest H0 HN HM HC HD HP NI) as (y1 & y2 & y3 & E & _ & _ & _ & D & DP & _).
    eexists. exists (zcols y1 y2 y3). split; [exact E|]. rewrite (proj1 (normalize_coords_spec _ dtol)). cbn [lattice]. split; [|split; [exact D|exact DP]].
    unfold col. now rewrite cols_app.
  Qed.
End Cell.

Lemma dirs26_entries z1 z2 z3 : In z1 dirs26 -> In z2 dirs26 -> In z3 dirs26 -> entries_within (-1) 1 (zcols z1 z2 z3).
Proof.
  assert (H : forall z, In z dirs26 -> (-1 <= vx z <= 1 /\ -1 <= vy z <= 1 /\ -1 <= vz z <= 1)%Z).
  { intros z Hz. assert (Q : forallb (fun z => (-1 <=? vx z) && (vx z <=? 1) && (-1 <=? vy z) && (vy z <=? 1) && (-1 <=? vz z) && (vz z <=? 1))%Z dirs26 = true) by reflexivity.
    rewrite forallb_forall in Q. specialize (Q z Hz). rewrite !andb_true_iff, !Z.leb_le in Q. tauto. }
  intros H1 H2 H3. apply H in H1, H2, H3. unfold entries_within, zcols. cbn [m11 m12 m13 m21 m22 m23 m31 m32 m33]. tauto.
Qed.
Lemma well_conditioned_col L k : well_conditioned L -> (k < 3)%nat -> 0 < Vnorm (Ccol L k).
Proof.
  intros W Hk. assert (E : exists v, v <> V0 /\ Mapp L v = Ccol L k).
  { destruct k as [|[|[|k]]]; [exists (V 1 0 0)|exists (V 0 1 0)|exists (V 0 0 1)|lia];
      (split; [unfold V0; intro E; injection E; lra|unfold Mapp, Ccol; apply (@vec_ext R); cbn; ring]). }
  destruct E as (v & Hv & E). specialize (W v Hv). rewrite E in W. pose proof (Vnorm_nonneg v). lra.
Qed.
Lemma nth_error_map_inv {A B} (f : A -> B) l k y : nth_error (map f l) k = Some y -> exists x, nth_error l k = Some x /\ y = f x.
Proof. rewrite nth_error_map. destruct (nth_error l k) as [x|]; cbn; [|discriminate]. intro E. injection E as <-. eauto. Qed.

(** every folded site has a representative within the function's own distance *)
Lemma fold_covers (L : mat R) (ft : vec R) (dtol : R) (l : list (vec R * string)) : forall st,
  let r := fold_left (@fp_fold_step RNum L ft dtol) l st in
  (forall y, In y (fst st) -> In y (fst r)) /\
  (forall x e, In (x, e) l -> exists y, In y (fst r) /\ (y = x \/ @same_site RNum L ft (dtol * 2) x y = true)).
Proof.
  induction l as [|[x e] l IH]; intros [a b]; cbn [fold_left]; [split; [auto|intros ? ? []]|].
  assert (C : (@fp_fold_step RNum L ft dtol (a, b) (x, e) = (a, b) /\ exists y, In y a /\ @same_site RNum L ft (dtol * 2) x y = true) \/
              @fp_fold_step RNum L ft dtol (a, b) (x, e) = (a ++ [x], b ++ [e])).
  { unfold fp_fold_step. cbn [fst snd].
    destruct (existsb (fun nc => @same_site RNum L ft (@fmul RNum dtol (@f2 RNum)) x nc) a) eqn:X; [left|right; reflexivity].
    split; [reflexivity|]. apply existsb_exists in X. destruct X as (y & Hy & X). exists y. split; [exact Hy|exact X]. }
  destruct C as [(-> & y0 & Hy0 & S0)| ->].
  - destruct (IH (a, b)) as [A B]. split; [exact A|]. intros y f [E|Hy]; [|now apply (B y f)]. injection E as <- <-. exists y0. split; [now apply A|now right].
  - destruct (IH (a ++ [x], b ++ [e])) as [A B]. split; [intros y Hy; apply A; cbn [fst]; apply in_or_app; now left|].
    intros y f [E|Hy]; [|now apply (B y f)]. injection E as <- <-. exists x. split; [apply A; cbn [fst]; apply in_or_app; right; now left|now left].
Qed.
Lemma in_first {A B} (l : list A) (m : list B) y : List.length l = List.length m -> In y l -> exists f, In (y, f) (combine l m).
Proof.
  revert m. induction l as [|a l IH]; intros [|b m] E; cbn; try tauto; try discriminate E.
  intros [<-|H]; [exists b; now left|]. destruct (IH m) as (f & Hf); [now injection E|exact H|]. exists f. now right.
Qed.
Lemma prim_covers (P : @Pinv RNum) (HO : HashOrd) path (dtol : R) (s s' : @structure RNum) : 0 <= dtol ->
  List.length (species s) = List.length (frac_coords s) -> @find_primitive_cell RNum P HO path dtol s = Ok s' ->
  forall x e, In (x, e) (combine (frac_coords s) (species s)) ->
    exists y n m, In y (frac_coords s') /\
      Vnorm (Mapp (lattice s) (Vadd (Vsub (Mapp (@pinv RNum P (lattice s')) (Mapp (lattice s) (Vadd x (VofZ n)))) y) (VofZ m))) <= 2 * dtol.
Proof.
  intros H0 WF. rewrite prim_eq. set (temp := @normalize_coords RNum s dtol). set (L := lattice s).
  destruct (@get_min_element HO path (species temp)) as [[[me ei] tc]| |]; cbn [bind]; try discriminate.
  destruct (of_opt PUnwrapNone (am_get String.eqb me ei)) as [bi| |]; cbn [bind]; try discriminate.
  destruct (of_opt PIndex (nth_error (frac_coords temp) (Z.to_nat bi))) as [bs| |]; cbn [bind]; try discriminate.
  unfold prim_tail. fold L.
  destruct (rshort dtol (map (Mapp L) (tvecs dtol s me (Z.to_nat bi) bs))) as [[[v1 v2] v3]| |] eqn:E1; cbn [bind]; try discriminate.
  match goal with |- context [rshort ?d ?l] => destruct (rshort d l) as [[[u1 u2] u3]| |] eqn:E2 end; cbn [bind]; try discriminate.
  intro E. injection E as E. subst s'. set (L' := from_columns u1 u2 u3).
  set (s0 := Structure (N := RNum) L' _ _ _). intros x e Hx.
  rewrite (proj1 (normalize_coords_spec s0 dtol)). cbn [lattice s0].
  destruct (temp_site_all dtol s x e Hx) as (n & Hn). fold temp in Hn.
  destruct (fold_covers L (@frac_tols_of RNum L dtol) dtol (combine (map (Mapp (@pinv RNum P L')) (coords temp)) (species temp)) ([], [])) as [_ FC].
  fold temp in FC. change (fold_left _ _ _) with (folded P dtol s L') in FC.
  destruct (FC (Mapp (@pinv RNum P L') (Mapp L (Vadd x (VofZ n)))) e) as (y & Hy & HS).
  { assert (Ect : coords temp = map (Mapp L) (frac_coords temp)) by apply (normalize_coords_spec s dtol). rewrite Ect, map_map.
    revert Hn. generalize (species temp) as sp. generalize (frac_coords temp) as fc. clear. induction fc as [|a fc IH]; intros [|b sp]; cbn; try tauto.
    intros [E|H]; [left; congruence|right; now apply IH]. }
  destruct (fold_sites L (@frac_tols_of RNum L dtol) dtol (combine (map (Mapp (@pinv RNum P L')) (coords temp)) (species temp)) ([], []) eq_refl) as [FL _].
  change (fold_left _ _ _) with (folded P dtol s L') in FL.
  destruct (in_first _ _ y FL Hy) as (f & HY).
  destruct (normalize_sites_all s0 dtol f y) as (k & y' & n' & _ & Hk & ->); [exact HY|].
  apply nth_error_In in Hk.
  assert (HB : exists m, Vnorm (Mapp L (Vadd (Vsub (Mapp (@pinv RNum P L') (Mapp L (Vadd x (VofZ n)))) y) (VofZ m))) <= 2 * dtol).
  { destruct HS as [-> | HS].
    - exists (V 0 0 0)%Z. replace (Mapp L _) with V0; [rewrite norm_0; lra|]. unfold Vadd, Vsub, VofZ, V0. cbn. unfold Mapp. apply (@vec_ext R); cbn; ring.
    - apply same_site_R in HS. destruct HS as (m & HS). exists m. rewrite (Rmult_comm 2). exact HS. }
  destruct HB as (m & HB). exists (Vadd y (VofZ n')), n, (ZVadd m n'). split; [exact Hk|]. eapply Rle_trans; [|exact HB]. right. do 2 f_equal.
  unfold Vadd, Vsub, VofZ, ZVadd. cbn. rewrite !plus_IZR. f_equal; ring.
Qed.
