(** A rational instance of [Num], used only to execute the model inside proofs: on the functions that use no
    square root, cube root, arc cosine or remainder its runs are the runs of the exact-real instance. *)
From Coq Require Import ZArith QArith Qreals Reals List Bool Lia Lra.
From Flocq Require Import Core.Raux.
From Verif Require Import Num Mat Utils RInst RFacts.
Import ListNotations.
Open Scope Z_scope.

Definition Qltb (a b : Q) : bool := (Qnum a * Z.pos (Qden b) <? Qnum b * Z.pos (Qden a)).
Definition Qleb (a b : Q) : bool := (Qnum a * Z.pos (Qden b) <=? Qnum b * Z.pos (Qden a)).
Definition Qeqb (a b : Q) : bool := (Qnum a * Z.pos (Qden b) =? Qnum b * Z.pos (Qden a)).
(** The operations the crate performs through [Num] that have no rational meaning are constants here and are
    not covered by the transfer lemmas below. *)
Definition QNum : Num := {|
  num := Q;
  fofZ := inject_Z;
  fadd := fun a b => Qred (a + b); fsub := fun a b => Qred (a - b); fmul := fun a b => Qred (a * b);
  fdiv := fun a b => Qred (a / b);
  fneg := Qopp; fabs := fun a => if Qltb a 0%Q then Qopp a else a; fsqrt := fun _ => 0%Q;
  flt := Qltb; fle := Qleb; feq := Qeqb;
  frem1 := fun x => 0%Q; fround := fun x => 0%Q;
  fsignum := fun x => if Qltb x 0%Q then inject_Z (-1) else inject_Z 1;
  fcbrt := fun x => 0%Q; facos := fun x => 0%Q; fpi := 0%Q;
  fto_i8 := fun x => 0; fto_i64 := fun x => 0 |}.

Definition mQ (m : mat Q) : mat R := mmap Q2R m.
Definition vQ (v : vec Q) : vec R := vmap Q2R v.

Lemma Q2R_red q : Q2R (Qred q) = Q2R q.
Proof. apply Qeq_eqR, Qred_correct. Qed.
Lemma q_ofZ z : Q2R (@fofZ QNum z) = @fofZ RNum z.
Proof. unfold Q2R. cbn. field. Qed.
Lemma q_add a b : Q2R (@fadd QNum a b) = @fadd RNum (Q2R a) (Q2R b).
Proof. cbn [fadd fsub fmul fneg QNum RNum]. rewrite Q2R_red. apply Q2R_plus. Qed.
Lemma q_sub a b : Q2R (@fsub QNum a b) = @fsub RNum (Q2R a) (Q2R b).
Proof. cbn [fadd fsub fmul fneg QNum RNum]. rewrite Q2R_red. apply Q2R_minus. Qed.
Lemma q_mul a b : Q2R (@fmul QNum a b) = @fmul RNum (Q2R a) (Q2R b).
Proof. cbn [fadd fsub fmul fneg QNum RNum]. rewrite Q2R_red. apply Q2R_mult. Qed.
Lemma q_neg a : Q2R (@fneg QNum a) = @fneg RNum (Q2R a).
Proof. cbn. apply Q2R_opp. Qed.
Lemma Qltb_spec a b : Qltb a b = true <-> (Q2R a < Q2R b)%R.
Proof.
  unfold Qltb. rewrite Z.ltb_lt. split; intro H; [apply Qlt_Rlt | apply Rlt_Qlt in H]; exact H.
Qed.
Lemma Qleb_spec a b : Qleb a b = true <-> (Q2R a <= Q2R b)%R.
Proof.
  unfold Qleb. rewrite Z.leb_le. split; intro H; [apply Qle_Rle | apply Rle_Qle in H]; exact H.
Qed.
Lemma bool_eq_iff a b : (a = true <-> b = true) -> a = b.
Proof. destruct a, b; intuition congruence. Qed.
Lemma q_lt a b : @flt RNum (Q2R a) (Q2R b) = @flt QNum a b.
Proof. apply bool_eq_iff. rewrite flt_true. symmetry. apply Qltb_spec. Qed.
Lemma q_le a b : @fle RNum (Q2R a) (Q2R b) = @fle QNum a b.
Proof. apply bool_eq_iff. rewrite fle_true. symmetry. apply Qleb_spec. Qed.
Lemma Q2R_0 : Q2R 0 = 0%R. Proof. unfold Q2R; cbn; lra. Qed.
Lemma q_abs a : Q2R (@fabs QNum a) = @fabs RNum (Q2R a).
Proof.
  cbn. destruct (Qltb a 0) eqn:E.
  - apply Qltb_spec in E. rewrite Q2R_0 in E. rewrite Q2R_opp, Rabs_left; auto.
  - rewrite Rabs_right; auto. apply Rle_ge. destruct (Rle_or_lt 0 (Q2R a)) as [H|H]; auto.
    rewrite <- Q2R_0 in H. apply Qltb_spec in H. congruence.
Qed.
Lemma q_signum a : Q2R (@fsignum QNum a) = @fsignum RNum (Q2R a).
Proof.
  cbn. unfold Rsignum. replace (Rlt_bool (Q2R a) 0) with (Qltb a 0).
  - destruct (Qltb a 0); unfold Q2R; cbn; lra.
  - rewrite <- Q2R_0. symmetry. apply (q_lt a 0).
Qed.

Lemma q_mvmul m v : vQ (@mvmul QNum m v) = @mvmul RNum (mQ m) (vQ v).
Proof. unfold vQ, mvmul, vmap, mQ, mmap. cbn [vx vy vz m11 m12 m13 m21 m22 m23 m31 m32 m33]. now rewrite !q_add, !q_mul. Qed.
Lemma q_mmul a b : mQ (@mmul QNum a b) = @mmul RNum (mQ a) (mQ b).
Proof.
  unfold mmul. change (col0 (mQ b)) with (vQ (col0 b)). change (col1 (mQ b)) with (vQ (col1 b)).
  change (col2 (mQ b)) with (vQ (col2 b)). rewrite <- !q_mvmul. reflexivity.
Qed.
Lemma q_transpose a : mQ (transpose a) = transpose (mQ a). Proof. reflexivity. Qed.
Lemma q_dot a b : Q2R (@dot QNum a b) = @dot RNum (vQ a) (vQ b).
Proof. unfold dot. now rewrite !q_add, !q_mul. Qed.
Lemma q_vadd a b : vQ (@vadd QNum a b) = @vadd RNum (vQ a) (vQ b).
Proof. unfold vadd, vQ, vmap2, vmap. cbn [vx vy vz]. now rewrite !q_add. Qed.
Lemma q_vscale_r a k : vQ (@vscale_r QNum a k) = @vscale_r RNum (vQ a) (Q2R k).
Proof. unfold vscale_r, vQ, vmap. cbn [vx vy vz]. now rewrite !q_mul. Qed.
Lemma q_vscale a k : vQ (@vscale QNum k a) = @vscale RNum (Q2R k) (vQ a).
Proof. unfold vscale, vQ, vmap. cbn [vx vy vz]. now rewrite !q_mul. Qed.
Lemma q_cust_eq a b e : @cust_eq RNum (Q2R a) (Q2R b) (Q2R e) = @cust_eq QNum a b e.
Proof. unfold cust_eq. now rewrite <- !q_sub, !q_lt. Qed.
Lemma q_nnz l e : @num_negative_zero RNum (map Q2R l) (Q2R e) = @num_negative_zero QNum l e.
Proof.
  unfold num_negative_zero. generalize (0, 0). induction l as [|x l IH]; intro c; cbn [fold_left map]; [reflexivity|].
  rewrite IH. f_equal. unfold nnz_step. destruct c as [n z]. unfold fm1. rewrite <- q_ofZ, <- q_mul, !q_lt. reflexivity.
Qed.
