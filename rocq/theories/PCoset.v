(** Integer sublattices T Z^3 of Z^3: exactly |det T| classes. *)
From Coq Require Import ZArith List Bool Lia Znumtheory.
From Verif Require Import Num Mat Spec RFacts PSymmOp.
Import ListNotations.
Open Scope Z_scope.

Definition zequiv (T : mat Z) (a b : vec Z) : Prop := exists n, a = ZVadd b (ZMapp T n).

Ltac zvec_ring := intros;
  repeat match goal with m : mat Z |- _ => destruct m | v : vec Z |- _ => destruct v end;
  unfold ZMmul, ZMapp, ZMid, ZVadd; cbn [m11 m12 m13 m21 m22 m23 m31 m32 m33 vx vy vz];
  apply vec_ext; cbn [vx vy vz]; ring.

Lemma ZMapp_mul a b v : ZMapp (ZMmul a b) v = ZMapp a (ZMapp b v). Proof. zvec_ring. Qed.
Lemma ZMapp_add a v w : ZMapp a (ZVadd v w) = ZVadd (ZMapp a v) (ZMapp a w). Proof. zvec_ring. Qed.
Lemma ZMapp_id v : ZMapp ZMid v = v. Proof. zvec_ring. Qed.
Lemma ZVadd_assoc a b c : ZVadd (ZVadd a b) c = ZVadd a (ZVadd b c). Proof. zvec_ring. Qed.
Lemma ZVadd_comm a b : ZVadd a b = ZVadd b a. Proof. zvec_ring. Qed.
Definition ZVopp (v : vec Z) : vec Z := V (- vx v) (- vy v) (- vz v).
Definition ZVscal (k : Z) (v : vec Z) : vec Z := V (k * vx v) (k * vy v) (k * vz v).
Lemma ZMapp_opp a v : ZMapp a (ZVopp v) = ZVopp (ZMapp a v).
Proof. unfold ZVopp. zvec_ring. Qed.
Lemma ZVadd_opp a b : ZVadd (ZVadd a b) (ZVopp b) = a. Proof. unfold ZVopp; zvec_ring. Qed.

Lemma zequiv_refl T a : zequiv T a a.
Proof. exists (V 0 0 0). zvec_ring. Qed.
Lemma zequiv_sym T a b : zequiv T a b -> zequiv T b a.
Proof. intros [n ->]. exists (ZVopp n). rewrite ZMapp_opp, ZVadd_opp. reflexivity. Qed.
Lemma zequiv_trans T a b c : zequiv T a b -> zequiv T b c -> zequiv T a c.
Proof. intros [n ->] [m ->]. exists (ZVadd m n). rewrite ZMapp_add, ZVadd_assoc. reflexivity. Qed.

(** extended gcd as a unimodular pair of columns *)
Lemma bezout2 a b : exists p q r s, p * s - q * r = 1 /\ 0 <= a * p + b * r /\ a * q + b * s = 0.
Proof.
  destruct (Z.eq_dec (Z.gcd a b) 0) as [E|E].
  - apply Z.gcd_eq_0 in E. destruct E; subst. exists 1, 0, 0, 1. lia.
  - destruct (Z.gcd_bezout a b _ eq_refl) as (u & v & H).
    set (g := Z.gcd a b) in *.
    assert (Ha : a = a / g * g) by (rewrite Z.mul_comm; apply Z_div_exact_full_2; [auto|apply Z.mod_divide; auto; apply Z.gcd_divide_l]).
    assert (Hb : b = b / g * g) by (rewrite Z.mul_comm; apply Z_div_exact_full_2; [auto|apply Z.mod_divide; auto; apply Z.gcd_divide_r]).
    set (a' := a / g) in *. set (b' := b / g) in *.
    pose proof (Z.gcd_nonneg a b). fold g in H0.
    exists u, (- b'), v, a'. split; [|split].
    + apply (Z.mul_cancel_r _ _ g); auto. rewrite Ha, Hb in H at 1. nia.
    + lia.
    + rewrite Ha, Hb. ring.
Qed.

Lemma vec_Z_dec (a b : vec Z) : {a = b} + {a <> b}.
Proof.
  destruct a as [a1 a2 a3], b as [b1 b2 b3]. destruct (Z.eq_dec a1 b1), (Z.eq_dec a2 b2), (Z.eq_dec a3 b3); subst; auto;
    right; intro E; injection E; auto.
Defined.
Definition unimodular_pair (U U' : mat Z) : Prop := ZMmul U U' = ZMid /\ ZMmul U' U = ZMid.
Lemma unimod_mul U U' W W' : unimodular_pair U U' -> unimodular_pair W W' ->
  unimodular_pair (ZMmul U W) (ZMmul W' U').
Proof.
  intros [H1 H2] [H3 H4]. split.
  - rewrite ZMmul_assoc, <- (ZMmul_assoc W), H3, ZMmul_id_l. exact H1.
  - rewrite ZMmul_assoc, <- (ZMmul_assoc U'), H2, ZMmul_id_l. exact H4.
Qed.
Lemma E12_unimod p q r s : p * s - q * r = 1 ->
  unimodular_pair (M p q 0 r s 0 0 0 1) (M s (-q) 0 (-r) p 0 0 0 1).
Proof. intro H. split; apply mat_ext; cbn [ZMmul ZMid m11 m12 m13 m21 m22 m23 m31 m32 m33]; lia. Qed.
Lemma E13_unimod p q r s : p * s - q * r = 1 ->
  unimodular_pair (M p 0 q 0 1 0 r 0 s) (M s 0 (-q) 0 1 0 (-r) 0 p).
Proof. intro H. split; apply mat_ext; cbn [ZMmul ZMid m11 m12 m13 m21 m22 m23 m31 m32 m33]; lia. Qed.
Lemma E23_unimod p q r s : p * s - q * r = 1 ->
  unimodular_pair (M 1 0 0 0 p q 0 r s) (M 1 0 0 0 s (-q) 0 (-r) p).
Proof. intro H. split; apply mat_ext; cbn [ZMmul ZMid m11 m12 m13 m21 m22 m23 m31 m32 m33]; lia. Qed.

(** Hermite normal form: column operations bring T to lower triangular form with positive diagonal *)
Lemma hermite (T : mat Z) : ZMdet T <> 0 ->
  exists U U' H, unimodular_pair U U' /\ ZMmul T U = H /\
    m12 H = 0 /\ m13 H = 0 /\ m23 H = 0 /\ 0 < m11 H /\ 0 < m22 H /\ 0 < m33 H /\
    m11 H * m22 H * m33 H = Z.abs (ZMdet T).
Proof.
  intro D.
  destruct (bezout2 (m11 T) (m12 T)) as (p & q & r & s & H1 & H2 & H3).
  pose proof (E12_unimod _ _ _ _ H1) as U1. set (T1 := ZMmul T (M p q 0 r s 0 0 0 1)).
  assert (A12 : m12 T1 = 0) by (unfold T1; cbn [ZMmul m12 m11 m13 m22 m32]; lia).
  destruct (bezout2 (m11 T1) (m13 T1)) as (p' & q' & r' & s' & H1' & H2' & H3').
  pose proof (E13_unimod _ _ _ _ H1') as U2. set (T2 := ZMmul T1 (M p' 0 q' 0 1 0 r' 0 s')).
  assert (B11 : 0 <= m11 T2) by (unfold T2; cbn [ZMmul m11 m12 m13 m21 m31]; lia).
  assert (B12 : m12 T2 = 0) by (unfold T2; cbn [ZMmul m12 m11 m13 m22 m32]; lia).
  assert (B13 : m13 T2 = 0) by (unfold T2; cbn [ZMmul m13 m11 m12 m23 m33]; lia).
  destruct (bezout2 (m22 T2) (m23 T2)) as (p2 & q2 & r2 & s2 & G1 & G2 & G3).
  pose proof (E23_unimod _ _ _ _ G1) as U3. set (T3 := ZMmul T2 (M 1 0 0 0 p2 q2 0 r2 s2)).
  assert (C11 : m11 T3 = m11 T2) by (unfold T3; cbn [ZMmul m11 m12 m13 m21 m31]; lia).
  assert (C12 : m12 T3 = 0) by (unfold T3; cbn [ZMmul m12 m11 m13 m22 m32]; rewrite B12, B13; lia).
  assert (C13 : m13 T3 = 0) by (unfold T3; cbn [ZMmul m13 m11 m12 m23 m33]; rewrite B12, B13; lia).
  assert (C22 : 0 <= m22 T3) by (unfold T3; cbn [ZMmul m22 m21 m12 m23 m32]; lia).
  assert (C23 : m23 T3 = 0) by (unfold T3; cbn [ZMmul m23 m21 m13 m22 m33]; lia).
  assert (Hd : ZMdet T3 = ZMdet T).
  { unfold T3, T2, T1. rewrite !ZMdet_mul.
    assert (E1 : ZMdet (M p q 0 r s 0 0 0 1) = 1) by (unfold ZMdet; cbn [m11 m12 m13 m21 m22 m23 m31 m32 m33]; lia).
    assert (E2 : ZMdet (M p' 0 q' 0 1 0 r' 0 s') = 1) by (unfold ZMdet; cbn [m11 m12 m13 m21 m22 m23 m31 m32 m33]; lia).
    assert (E3 : ZMdet (M 1 0 0 0 p2 q2 0 r2 s2) = 1) by (unfold ZMdet; cbn [m11 m12 m13 m21 m22 m23 m31 m32 m33]; lia).
    rewrite E1, E2, E3. ring. }
  assert (Hp : m11 T3 * m22 T3 * m33 T3 = ZMdet T).
  { rewrite <- Hd. unfold ZMdet. rewrite C12, C13, C23. ring. }
  set (sg := Z.sgn (m33 T3)).
  assert (N33 : m33 T3 <> 0) by (intro E; rewrite E in Hp; lia).
  assert (Us : unimodular_pair (M 1 0 0 0 1 0 0 0 sg) (M 1 0 0 0 1 0 0 0 sg)).
  { split; apply mat_ext; cbn [ZMmul ZMid m11 m12 m13 m21 m22 m23 m31 m32 m33]; unfold sg; lia. }
  exists (ZMmul (ZMmul (ZMmul (M p q 0 r s 0 0 0 1) (M p' 0 q' 0 1 0 r' 0 s')) (M 1 0 0 0 p2 q2 0 r2 s2)) (M 1 0 0 0 1 0 0 0 sg)).
  eexists. exists (ZMmul T3 (M 1 0 0 0 1 0 0 0 sg)).
  split; [apply unimod_mul; [apply unimod_mul; [apply unimod_mul|]|]; eassumption|].
  split; [unfold T3, T2, T1; rewrite !ZMmul_assoc; reflexivity|].
  cbn [ZMmul m11 m12 m13 m21 m22 m23 m31 m32 m33]. rewrite C12, C13, C23.
  assert (m11 T3 <> 0) by (intro E; rewrite E in Hp; lia).
  assert (m22 T3 <> 0) by (intro E; rewrite E in Hp; lia).
  repeat split; try lia; unfold sg; nia.
Qed.

Definition zr (n : Z) : list Z := map Z.of_nat (seq 0 (Z.to_nat n)).
Lemma zr_In n z : In z (zr n) <-> 0 <= z < n.
Proof.
  unfold zr. rewrite in_map_iff. split.
  - intros (i & <- & Hi). apply in_seq in Hi. lia.
  - intro H. exists (Z.to_nat z). split; [lia|]. apply in_seq. lia.
Qed.
Lemma zr_NoDup n : NoDup (zr n).
Proof. unfold zr. apply FinFun.Injective_map_NoDup; [intros a b; lia|apply seq_NoDup]. Qed.
Lemma zr_length n : List.length (zr n) = Z.to_nat n.
Proof. unfold zr. rewrite map_length, seq_length. reflexivity. Qed.

Lemma NoDup_app_intro {A} (l m : list A) : NoDup l -> NoDup m -> (forall x, In x l -> ~ In x m) -> NoDup (l ++ m).
Proof.
  intros Hl Hm H. induction Hl as [|a l Ha Hl IH]; cbn; auto. constructor.
  - rewrite in_app_iff. intros [E|E]; [auto|apply (H a); cbn; auto].
  - apply IH. intros x Hx. apply H. now right.
Qed.
Lemma NoDup_list_prod {A B} (l : list A) (m : list B) : NoDup l -> NoDup m -> NoDup (list_prod l m).
Proof.
  intros Hl Hm. induction Hl as [|a l Ha Hl IH]; cbn; [constructor|].
  apply NoDup_app_intro; auto.
  - apply FinFun.Injective_map_NoDup; auto. intros x y E. now injection E.
  - intros [x y] H1 H2. apply in_map_iff in H1. destruct H1 as (z & E & _). injection E as -> ->.
    apply in_prod_iff in H2. tauto.
Qed.

Definition tri_reps (H : mat Z) : list (vec Z) :=
  map (fun p => V (fst (fst p)) (snd (fst p)) (snd p))
      (list_prod (list_prod (zr (m11 H)) (zr (m22 H))) (zr (m33 H))).
(** reduction modulo the columns of a lower triangular matrix *)
Definition tri_red (H : mat Z) (v : vec Z) : vec Z :=
  let n1 := vx v / m11 H in
  let y := vy v - m21 H * n1 in
  let n2 := y / m22 H in
  let z := vz v - m31 H * n1 - m32 H * n2 in
  V (vx v mod m11 H) (y mod m22 H) (z mod m33 H).

Section Tri.
  Variable H : mat Z.
  Hypothesis (h12 : m12 H = 0) (h13 : m13 H = 0) (h23 : m23 H = 0).
  Hypothesis (h1 : 0 < m11 H) (h2 : 0 < m22 H) (h3 : 0 < m33 H).

  Lemma tri_reps_In v : In v (tri_reps H) <->
    0 <= vx v < m11 H /\ 0 <= vy v < m22 H /\ 0 <= vz v < m33 H.
  Proof.
    unfold tri_reps. rewrite in_map_iff. split.
    - intros ([[a b] c] & <- & Hp). apply in_prod_iff in Hp. destruct Hp as [Hp Hc].
      apply in_prod_iff in Hp. rewrite !zr_In in *. cbn. lia.
    - intros (Ha & Hb & Hc). exists ((vx v, vy v), vz v). split; [now destruct v|].
      apply in_prod_iff. split; [apply in_prod_iff; split|]; now apply zr_In.
  Qed.
  Lemma tri_reps_length : List.length (tri_reps H) = Z.to_nat (m11 H * m22 H * m33 H).
  Proof.
    unfold tri_reps. rewrite map_length, !prod_length, !zr_length, !Z2Nat.inj_mul by nia. reflexivity.
  Qed.
  Lemma tri_reps_NoDup : NoDup (tri_reps H).
  Proof.
    unfold tri_reps. apply FinFun.Injective_map_NoDup.
    - intros [[a b] c] [[a' b'] c']; cbn. intro E. injection E as -> -> ->. reflexivity.
    - repeat apply NoDup_list_prod; apply zr_NoDup.
  Qed.
  Lemma tri_red_In v : In (tri_red H v) (tri_reps H).
  Proof.
    apply tri_reps_In. unfold tri_red; cbn [vx vy vz].
    repeat split; apply Z.mod_pos_bound; auto.
  Qed.
  Lemma tri_red_equiv v : zequiv H v (tri_red H v).
  Proof.
    unfold tri_red. set (n1 := vx v / m11 H). set (y := vy v - m21 H * n1). set (n2 := y / m22 H).
    set (z := vz v - m31 H * n1 - m32 H * n2).
    exists (V n1 n2 (z / m33 H)).
    pose proof (Z.div_mod (vx v) (m11 H)). pose proof (Z.div_mod y (m22 H)). pose proof (Z.div_mod z (m33 H)).
    fold n1 in H0. fold n2 in H1.
    apply vec_ext; cbn [ZVadd ZMapp vx vy vz]; rewrite ?h12, ?h13, ?h23; subst y z; lia.
  Qed.
  Lemma small_multiple h n a b : 0 < h -> 0 <= a < h -> 0 <= b < h -> a = b + h * n -> n = 0.
  Proof. intros. nia. Qed.
  Lemma tri_reps_inj a b : In a (tri_reps H) -> In b (tri_reps H) -> zequiv H a b -> a = b.
  Proof.
    rewrite !tri_reps_In. intros (A1 & A2 & A3) (B1 & B2 & B3) [n E].
    assert (E1 := f_equal vx E). assert (E2 := f_equal vy E). assert (E3 := f_equal vz E).
    cbn [ZVadd ZMapp vx vy vz] in E1, E2, E3. rewrite ?h12, ?h13, ?h23 in *.
    assert (N1 : vx n = 0) by (apply (small_multiple (m11 H) _ (vx a) (vx b)); lia). rewrite N1 in *.
    assert (N2 : vy n = 0) by (apply (small_multiple (m22 H) _ (vy a) (vy b)); lia). rewrite N2 in *.
    assert (N3 : vz n = 0) by (apply (small_multiple (m33 H) _ (vz a) (vz b)); lia). rewrite N3 in *.
    apply vec_ext; lia.
  Qed.
End Tri.

Lemma prod3_bound a b c : 0 < a -> 0 < b -> 0 < c -> a <= a * b * c /\ b <= a * b * c /\ c <= a * b * c.
Proof.
  intros. assert (1 <= b * c) by nia. assert (1 <= a * c) by nia. assert (1 <= a * b) by nia. nia.
Qed.

(** Z^3 / T Z^3 has exactly |det T| classes, with representatives in the box [0, |det T|)^3. *)
Lemma cosets (T : mat Z) : ZMdet T <> 0 ->
  exists (reps : list (vec Z)) (rp : vec Z -> vec Z),
    NoDup reps /\ List.length reps = Z.to_nat (Z.abs (ZMdet T)) /\
    (forall v, In (rp v) reps) /\ (forall v, zequiv T v (rp v)) /\
    (forall a b, zequiv T a b <-> rp a = rp b) /\
    (forall r, In r reps -> rp r = r) /\
    (forall r, In r reps -> 0 <= vx r < Z.abs (ZMdet T) /\ 0 <= vy r < Z.abs (ZMdet T) /\
                            0 <= vz r < Z.abs (ZMdet T)).
Proof.
  intro D. destruct (hermite T D) as (U & U' & H & [HU1 HU2] & HT & h12 & h13 & h23 & h1 & h2 & h3 & HD).
  assert (EQ : forall a b, zequiv T a b <-> zequiv H a b).
  { intros a b. split; intros [n E].
    - exists (ZMapp U' n). rewrite <- HT, ZMapp_mul, <- (ZMapp_mul U), HU1, ZMapp_id. exact E.
    - exists (ZMapp U n). rewrite <- ZMapp_mul, HT. exact E. }
  assert (RI : forall a b, zequiv T a b <-> tri_red H a = tri_red H b).
  { intros a b. rewrite EQ. split.
    - intro E. apply (tri_reps_inj H); auto; try (now apply tri_red_In).
      eapply zequiv_trans; [apply zequiv_sym, tri_red_equiv; auto|].
      eapply zequiv_trans; [exact E|apply tri_red_equiv; auto].
    - intro E. eapply zequiv_trans; [apply tri_red_equiv; auto|]. rewrite E.
      apply zequiv_sym, tri_red_equiv; auto. }
  exists (tri_reps H), (tri_red H).
  split; [apply tri_reps_NoDup|]. split; [rewrite tri_reps_length, HD; auto|].
  split; [intro; now apply tri_red_In|].
  split; [intro; apply EQ, tri_red_equiv; auto|].
  split; [exact RI|].
  split.
  - intros r Hr. apply (tri_reps_inj H); auto; [now apply tri_red_In|]. apply zequiv_sym, tri_red_equiv; auto.
  - intros r Hr. apply tri_reps_In in Hr; auto.
    pose proof (prod3_bound _ _ _ h1 h2 h3). rewrite <- HD. lia.
Qed.

(** |det T| times anything lies in T Z^3 *)
Lemma det_multiple (T : mat Z) (v : vec Z) :
  exists n, ZVscal (Z.abs (ZMdet T)) v = ZMapp T n.
Proof.
  assert (E : ZVscal (ZMdet T) v = ZMapp T (ZMapp (zadj T) v)).
  { unfold ZVscal, ZMapp, zadj, ZMdet; cbn [m11 m12 m13 m21 m22 m23 m31 m32 m33 vx vy vz].
    apply vec_ext; cbn [vx vy vz]; ring. }
  destruct (Z.abs_spec (ZMdet T)) as [[_ ->]|[_ ->]]; [eexists; exact E|].
  exists (ZVopp (ZMapp (zadj T) v)). rewrite ZMapp_opp, <- E.
  unfold ZVscal, ZVopp; apply vec_ext; cbn [vx vy vz]; ring.
Qed.
Lemma mult_det_succ (T : mat Z) (v : vec Z) :
  zequiv T (ZVscal (Z.abs (ZMdet T) + 1) v) v.
Proof.
  destruct (det_multiple T v) as [n E]. exists n. rewrite <- E.
  unfold ZVscal, ZVadd; apply vec_ext; cbn [vx vy vz]; ring.
Qed.
