(** Reducer::niggli_reduce ends on metrics with a common unit and a small trace. *)
From Coq Require Import ZArith Reals String List Bool Lia Lra Psatz.
From Verif Require Import Num Mat Utils Structure Reduce RInst Spec RFacts PUtils PStructure PNiggli PNiggli2.
Import ListNotations.
Open Scope R_scope.

(** ** The loop *)
Section Loop.
  Context (u eps : R).
  Hypothesis Hu : 0 < u.
  Hypothesis He : 0 < eps < u.
  Hypothesis E1 : eps < 1.
  Definition good (n : nat) (g : z6) : Prop := forall T : mat R, exists st : mat R * mat R, @niggli_loop RNum n eps (zmet u g, T) = Ok st.
  Lemma loop_S n (st : mat R * mat R) c (st' : mat R * mat R) : @niggli_step RNum eps st = (c, st') -> @niggli_loop RNum (S n) eps st = if c then @niggli_loop RNum n eps st' else Ok st'.
  Proof. intro H. cbn [niggli_loop]. change (@niggli_step RNum eps st) with (@niggli_step RNum eps st) in H. replace (@niggli_step RNum eps st) with (c, st'); reflexivity. Qed.
  (** positive whenever reached *)
  Definition okst (K : z6 -> Prop) : Prop := forall g c g', K g -> (c = true /\ zsort g g') \/ zmain g c g' -> K g'.
  Lemma good_step n g : (forall g', zsort g g' -> good n g') -> (forall g', zmain g true g' -> good n g') -> good (S n) g.
  Proof using Type*.
    intros H1 H2 T. destruct (zstep u eps Hu He g T E1) as (c & g' & T' & EQ & H). rewrite (loop_S n _ _ _ EQ). destruct c; [|now eexists].
    destruct H as [[_ H]|H]; [now apply H1|now apply H2].
  Qed.
  Lemma good_mono n m g : (n <= m)%nat -> good n g -> good m g.
  Proof using Type*.
    intros L H T. destruct (H T) as [st E]. exists st. clear H. revert m L T g E. induction n as [|n IH]; intros m L T g E; [discriminate|].
    destruct m as [|m]; [lia|]. destruct (zstep u eps Hu He g T E1) as (c & g' & T' & EQ & _). rewrite (loop_S n _ _ _ EQ) in E. rewrite (loop_S m _ _ _ EQ). destruct c; [|exact E].
    apply IH; [lia|exact E].
  Qed.
  Lemma good_loop (K : z6 -> Prop) : okst K -> (forall g, K g -> zpos g) -> forall t g, K g -> (ztr g <= Z.of_nat t + 3)%Z -> good (4 * t + 4) g.
  Proof using Type*.
    intros HK KP. induction t as [|t IH]; intros g Kg Ht.
    - assert (DR : forall g', K g' -> (ztr g' < ztr g)%Z -> good 0 g') by (intros g' Kg' L; apply KP in Kg'; unfold zpos, ztr in *; lia).
      assert (G3 : forall g', K g' -> ztr g' = ztr g -> ph3 g' -> good 1 g').
      { intros g' Kg' E (A & B). apply good_step; intros x Hx; [destruct (A x Hx)|]. apply DR; [eapply HK; eauto|]. rewrite <- E. now apply B. }
      assert (G2 : forall g', K g' -> ztr g' = ztr g -> ph2 g' -> good 2 g').
      { intros g' Kg' E (A & B). apply good_step; intros x Hx; assert (Kx : K x) by (eapply HK; eauto).
        - destruct (A x Hx) as [P3 T3]. apply G3; auto; congruence.
        - destruct (B x Hx) as [D|[P3 T3]]; [apply (good_mono 0); [lia|]; apply DR; auto; lia|]. apply G3; auto; congruence. }
      assert (G1 : forall g', K g' -> ztr g' = ztr g -> ph1 g' -> good 3 g').
      { intros g' Kg' E (A & B). apply good_step; intros x Hx; assert (Kx : K x) by (eapply HK; eauto); [destruct (A x Hx)|].
        destruct (B x Hx) as [D|[P3 T3]]; [apply (good_mono 0); [lia|]; apply DR; auto; lia|]. apply G2; auto; congruence. }
      apply good_step; intros x Hx; assert (Kx : K x) by (eapply HK; eauto).
      + destruct (after_sort g x (KP g Kg) Hx). now apply G1.
      + destruct (after_main g x (KP g Kg) Hx) as [D|[P2 T2]]; [apply (good_mono 0); [lia|]; apply DR; auto|]. apply (good_mono 2); [lia|]. now apply G2.
    - replace (4 * S t + 4)%nat with (S (S (S (S (4 * t + 4))))) by lia. set (n := (4 * t + 4)%nat) in *.
      assert (DR : forall g' m, (n <= m)%nat -> K g' -> (ztr g' < ztr g)%Z -> good m g') by (intros g' m Lm Kg' L; apply (good_mono n); [exact Lm|]; apply IH; [exact Kg'|lia]).
      assert (G3 : forall g', K g' -> ztr g' = ztr g -> ph3 g' -> good (S n) g').
      { intros g' Kg' E (A & B). apply good_step; intros x Hx; [destruct (A x Hx)|]. apply DR; [lia|eapply HK; eauto|]. rewrite <- E. now apply B. }
      assert (G2 : forall g', K g' -> ztr g' = ztr g -> ph2 g' -> good (S (S n)) g').
      { intros g' Kg' E (A & B). apply good_step; intros x Hx; assert (Kx : K x) by (eapply HK; eauto).
        - destruct (A x Hx) as [P3 T3]. apply G3; auto; congruence.
        - destruct (B x Hx) as [D|[P3 T3]]; [apply DR; auto; lia|]. apply G3; auto; congruence. }
      assert (G1 : forall g', K g' -> ztr g' = ztr g -> ph1 g' -> good (S (S (S n))) g').
      { intros g' Kg' E (A & B). apply good_step; intros x Hx; assert (Kx : K x) by (eapply HK; eauto); [destruct (A x Hx)|].
        destruct (B x Hx) as [D|[P3 T3]]; [apply DR; auto; lia|]. apply G2; auto; congruence. }
      apply good_step; intros x Hx; assert (Kx : K x) by (eapply HK; eauto).
      + destruct (after_sort g x (KP g Kg) Hx). now apply G1.
      + destruct (after_main g x (KP g Kg) Hx) as [D|[P2 T2]]; [apply DR; auto|]. apply (good_mono (S (S n))); [lia|]. now apply G2.
  Qed.
End Loop.

(** ** Positive definite integer forms stay so *)
Section Form.
  Local Open Scope Z_scope.
  Definition form (g : z6) (x y z : Z) : Z := za g * x * x + zb g * y * y + zc g * z * z + 2 * zd g * y * z + 2 * ze g * x * z + 2 * zf g * x * y.
  Definition definite (g : z6) : Prop := forall x y z, (x <> 0 \/ y <> 0 \/ z <> 0) -> 0 < form g x y z.
  Lemma definite_pos g : definite g -> zpos g.
  Proof.
    intro H. unfold zpos. pose proof (H 1 0 0 ltac:(lia)) as A. pose proof (H 0 1 0 ltac:(lia)) as B. pose proof (H 0 0 1 ltac:(lia)) as C. unfold form in *. lia.
  Qed.
  Lemma definite_swap12 g : definite g -> definite (swap12 g).
  Proof. intros H x y z N. replace (form (swap12 g) x y z) with (form g y x z) by (unfold form, swap12; cbn [za zb zc zd ze zf]; ring). apply H. tauto. Qed.
  Lemma definite_swap23 g : definite g -> definite (swap23 g).
  Proof. intros H x y z N. replace (form (swap23 g) x y z) with (form g x z y) by (unfold form, swap23; cbn [za zb zc zd ze zf]; ring). apply H. tauto. Qed.
  Lemma definite_pre g h : definite g -> zpre g h -> definite h.
  Proof. intros H [[_ ->]|[_ ->]]; auto using definite_swap12. Qed.
  Lemma definite_mid g h : definite g -> zmid g h -> definite h.
  Proof.
    intros H ((i & j & k & Hi & Hj & Hk & Hp & ->) & _) x y z N.
    replace (form _ x y z) with (form g (i * x) (j * y) (k * z)); [apply H; destruct Hi as [-> | ->], Hj as [-> | ->], Hk as [-> | ->]; lia|].
    unfold form. cbn [za zb zc zd ze zf]. destruct Hi as [-> | ->], Hj as [-> | ->], Hk as [-> | ->]; try discriminate Hp; ring.
  Qed.
  Lemma definite_post g c h : definite g -> zpost g c h -> definite h.
  Proof.
    intros H Q x y z N. destruct Q as [(_ & _ & ->)|[(_ & _ & _ & ->)|[(_ & _ & _ & _ & ->)|[(_ & _ & _ & _ & _ & ->)|(_ & _ & _ & _ & _ & ->)]]]].
    - replace (form _ x y z) with (form g x (y - zsg (zd g) * z) z); [apply H; nia|]. unfold form, m5, zsg. cbn [za zb zc zd ze zf]. destruct (zd g <? 0); ring.
    - replace (form _ x y z) with (form g (x - zsg (ze g) * z) y z); [apply H; nia|]. unfold form, m6, zsg. cbn [za zb zc zd ze zf]. destruct (ze g <? 0); ring.
    - replace (form _ x y z) with (form g (x - zsg (zf g) * y) y z); [apply H; nia|]. unfold form, m7, zsg. cbn [za zb zc zd ze zf]. destruct (zf g <? 0); ring.
    - replace (form _ x y z) with (form g (x + z) (y + z) z); [apply H; nia|]. unfold form, m8, zsum. cbn [za zb zc zd ze zf]. ring.
    - now apply H.
  Qed.
  Lemma definite_step g c g' : definite g -> (c = true /\ zsort g g') \/ zmain g c g' -> definite g'.
  Proof.
    intros H [[_ (h & P1 & _ & ->)]|(h & N & P1 & _ & M1 & Q)].
    - apply definite_swap23. now apply (definite_pre g).
    - apply (definite_post N c); [|exact Q]. apply (definite_mid h); [|exact M1]. now apply (definite_pre g).
  Qed.
End Form.

Lemma loop_ends (u eps : R) (g : z6) (T : mat R) (n : nat) : 0 < u -> 0 < eps < u -> eps < 1 -> definite g -> (4 * ztr g - 8 <= Z.of_nat n)%Z ->
  exists st, @niggli_loop RNum n eps (zmet u g, T) = Ok st.
Proof.
  intros Hu He E1 D Hn. pose proof (definite_pos g D) as P. unfold zpos, ztr in *.
  assert (Q : good u eps (4 * Z.to_nat (ztr g - 3) + 4) g).
  { apply (good_loop u eps Hu He E1 definite); auto using definite_pos; [|unfold ztr; lia]. intros a c b. apply definite_step. }
  apply (good_mono u eps Hu He E1 _ n) in Q; [exact (Q T)|unfold ztr; lia].
Qed.
(** the metric of a nonsingular lattice is definite *)
Lemma unit_form u L : 0 < u -> Mdet L <> 0 -> unit_metric u L -> exists g, gram L = zmet u g /\ definite g.
Proof.
  intros Hu HD (K & E).
  assert (S : forall m : mat R, Mtr (gram m) = gram m) by (intro m; unfold gram; rewrite Mtr_mul; f_equal; now destruct m).
  assert (S12 : m12 (gram L) = m21 (gram L)) by (rewrite <- (S L) at 1; reflexivity).
  assert (S13 : m13 (gram L) = m31 (gram L)) by (rewrite <- (S L) at 1; reflexivity).
  assert (S23 : m23 (gram L) = m32 (gram L)) by (rewrite <- (S L) at 1; reflexivity).
  exists (Z6 (m11 K) (m22 K) (m33 K) (m23 K) (m13 K) (m12 K)).
  assert (EG : gram L = zmet u (Z6 (m11 K) (m22 K) (m33 K) (m23 K) (m13 K) (m12 K))).
  { unfold zmet. cbn [za zb zc zd ze zf]. rewrite E in *. cbn [m11 m12 m13 m21 m22 m23 m31 m32 m33] in *. now rewrite S12, S13, S23. }
  split; [exact EG|]. intros x y z N. set (v := V (IZR x) (IZR y) (IZR z)).
  assert (Q : Vdot (Mapp L v) (Mapp L v) = u * IZR (form (Z6 (m11 K) (m22 K) (m33 K) (m23 K) (m13 K) (m12 K)) x y z)).
  { transitivity (vx v * (m11 (gram L) * vx v + m12 (gram L) * vy v + m13 (gram L) * vz v) + vy v * (m21 (gram L) * vx v + m22 (gram L) * vy v + m23 (gram L) * vz v) + vz v * (m31 (gram L) * vx v + m32 (gram L) * vy v + m33 (gram L) * vz v)).
    - unfold Vdot, Mapp, gram, Mmul, Mtr. cbn. ring.
    - rewrite EG. unfold zmet, form, v. cbn [za zb zc zd ze zf m11 m12 m13 m21 m22 m23 m31 m32 m33 vx vy vz]. repeat first [rewrite plus_IZR|rewrite mult_IZR]. ring. }
  assert (P : 0 < Vdot (Mapp L v) (Mapp L v)).
  { destruct (Rle_lt_or_eq_dec 0 (Vdot (Mapp L v) (Mapp L v))) as [H|H]; [unfold Vdot; nra|exact H|exfalso].
    assert (Z : Mapp L v = V0). { destruct (Mapp L v) as [p q r]. unfold Vdot in H. cbn in H. unfold V0. f_equal; nra. }
    assert (ZV : v = V0).
    { rewrite <- (Mapp_id v), <- (proj2 (Madj_inverse L HD)), Mapp_Mmul, Z. apply Mapp_V0. }
    unfold v, V0 in ZV. injection ZV as Zx Zy Zz. apply eq_IZR in Zx, Zy, Zz. lia. }
  rewrite Q in P. apply lt_IZR. nra.
Qed.
