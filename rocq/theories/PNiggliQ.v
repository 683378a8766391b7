(** Exact runs of the Niggli iteration on rational metrics. *)
From Coq Require Import ZArith QArith Qreals Reals List Bool Lia Lra.
From Verif Require Import Num Mat Utils Structure Reduce RInst Spec QInst PNiggli.
Import ListNotations.
Open Scope Z_scope.

Ltac qcond := unfold g_a, g_b, g_c, g_xi, g_eta, g_zeta, f0, f1, f2, fm1;
  cbn [mQ mmap m11 m12 m13 m21 m22 m23 m31 m32 m33];
  rewrite <- ?q_ofZ, <- ?q_mul, <- ?q_add, <- ?q_abs, <- ?q_neg, <- ?q_mul, <- ?q_add, <- ?q_sub, ?q_lt, ?q_cust_eq, ?q_lt.

Lemma q_a1 e g : @a1_cond RNum (Q2R e) (mQ g) = @a1_cond QNum e g. Proof. unfold a1_cond. qcond. reflexivity. Qed.
Lemma q_a2 e g : @a2_cond RNum (Q2R e) (mQ g) = @a2_cond QNum e g. Proof. unfold a2_cond. qcond. reflexivity. Qed.
Lemma q_a5 e g : @a5_cond RNum (Q2R e) (mQ g) = @a5_cond QNum e g. Proof. unfold a5_cond. qcond. reflexivity. Qed.
Lemma q_a6 e g : @a6_cond RNum (Q2R e) (mQ g) = @a6_cond QNum e g. Proof. unfold a6_cond. qcond. reflexivity. Qed.
Lemma q_a7 e g : @a7_cond RNum (Q2R e) (mQ g) = @a7_cond QNum e g. Proof. unfold a7_cond. qcond. reflexivity. Qed.
Lemma q_a8 e g : @a8_cond RNum (Q2R e) (mQ g) = @a8_cond QNum e g. Proof. unfold a8_cond. qcond. reflexivity. Qed.
Definition q3 (p : Q * Q * Q) : R * R * R := (Q2R (fst (fst p)), Q2R (snd (fst p)), Q2R (snd p)).
Lemma q_a3s e a b c : @a3_signs RNum (Q2R e) (Q2R a) (Q2R b) (Q2R c) = q3 (@a3_signs QNum e a b c).
Proof.
  unfold a3_signs. rewrite <- !q_neg, !q_lt. unfold f1, fm1. rewrite <- !q_ofZ.
  destruct (@flt QNum a _), (@flt QNum b _), (@flt QNum c _); reflexivity.
Qed.
Lemma q_a4s e a b c : @a4_signs RNum (Q2R e) (Q2R a) (Q2R b) (Q2R c) = q3 (@a4_signs QNum e a b c).
Proof.
  unfold a4_signs, f1, fm1, f0. rewrite <- !q_ofZ, <- !q_neg, <- !q_sub, !q_lt.
  destruct (@flt QNum (@fofZ QNum 0) (@fsub QNum a e)), (@flt QNum (@fofZ QNum 0) (@fsub QNum b e)),
    (@flt QNum (@fofZ QNum 0) (@fsub QNum c e)); rewrite <- ?q_mul, ?q_lt;
  match goal with |- context [if @flt QNum ?p (@fneg QNum e) then _ else _] => destruct (@flt QNum p (@fneg QNum e)) end;
  unfold q3; cbn [fst snd];
  repeat match goal with |- context [if (?n =? ?m)%nat then _ else _] => destruct (n =? m)%nat end; reflexivity.
Qed.
Lemma q_c34 e g : @c34_mat RNum (Q2R e) (mQ g) = mQ (@c34_mat QNum e g).
Proof.
  unfold c34_mat.
  change [@g_xi RNum (mQ g); @g_eta RNum (mQ g); @g_zeta RNum (mQ g)] with
    [@fmul RNum (@fofZ RNum 2) (Q2R (m23 g)); @fmul RNum (@fofZ RNum 2) (Q2R (m13 g)); @fmul RNum (@fofZ RNum 2) (Q2R (m12 g))].
  change (@g_xi RNum (mQ g)) with (@fmul RNum (@fofZ RNum 2) (Q2R (m23 g))).
  change (@g_eta RNum (mQ g)) with (@fmul RNum (@fofZ RNum 2) (Q2R (m13 g))).
  change (@g_zeta RNum (mQ g)) with (@fmul RNum (@fofZ RNum 2) (Q2R (m12 g))).
  rewrite <- !q_ofZ, <- !q_mul.
  change (@fmul QNum (@fofZ QNum 2) (m23 g)) with (@g_xi QNum g).
  change (@fmul QNum (@fofZ QNum 2) (m13 g)) with (@g_eta QNum g).
  change (@fmul QNum (@fofZ QNum 2) (m12 g)) with (@g_zeta QNum g).
  change [Q2R (@g_xi QNum g); Q2R (@g_eta QNum g); Q2R (@g_zeta QNum g)] with (map Q2R [@g_xi QNum g; @g_eta QNum g; @g_zeta QNum g]).
  rewrite q_nnz. destruct (@num_negative_zero QNum _ e) as [nn nz]. rewrite q_a3s, q_a4s.
  destruct ((Z.rem nn 2 =? 0) && (nz =? 0)).
  - destruct (@a3_signs QNum _ _ _ _) as [[i j] k]. unfold q3, mQ, mmap, f0. cbn [fst snd m11 m12 m13 m21 m22 m23 m31 m32 m33].
    now rewrite !q_ofZ.
  - destruct (@a4_signs QNum _ _ _ _) as [[i j] k]. unfold q3, mQ, mmap, f0. cbn [fst snd m11 m12 m13 m21 m22 m23 m31 m32 m33].
    now rewrite !q_ofZ.
Qed.
Definition stQ (st : mat Q * mat Q) : mat R * mat R := (mQ (fst st), mQ (snd st)).
Lemma q_congr c st : @congr RNum (mQ c) (stQ st) = stQ (@congr QNum c st).
Proof. unfold congr, stQ. cbn [fst snd]. now rewrite !q_mmul. Qed.
Lemma q_mcast z : @mcast RNum z = mQ (@mcast QNum z).
Proof. unfold mcast, mQ, mmap. cbn [m11 m12 m13 m21 m22 m23 m31 m32 m33]. now rewrite !q_ofZ. Qed.
Lemma q_c5 g : @c5_mat RNum (mQ g) = mQ (@c5_mat QNum g).
Proof. unfold c5_mat, g_xi, f0, f1, f2, fm1, mQ, mmap. cbn [m11 m12 m13 m21 m22 m23 m31 m32 m33]. now rewrite !q_mul, q_signum, !q_mul, !q_ofZ. Qed.
Lemma q_c6 g : @c6_mat RNum (mQ g) = mQ (@c6_mat QNum g).
Proof. unfold c6_mat, g_eta, f0, f1, f2, fm1, mQ, mmap. cbn [m11 m12 m13 m21 m22 m23 m31 m32 m33]. now rewrite !q_mul, q_signum, !q_mul, !q_ofZ. Qed.
Lemma q_c7 g : @c7_mat RNum (mQ g) = mQ (@c7_mat QNum g).
Proof. unfold c7_mat, g_zeta, f0, f1, f2, fm1, mQ, mmap. cbn [m11 m12 m13 m21 m22 m23 m31 m32 m33]. now rewrite !q_mul, q_signum, !q_mul, !q_ofZ. Qed.

Definition preQ (eps : Q) (st : mat Q * mat Q) : mat Q * mat Q :=
  if @a1_cond QNum eps (fst st) then @congr QNum (@c1_mat QNum) st else st.
Definition midQ (eps : Q) (st : mat Q * mat Q) : mat Q * mat Q := @congr QNum (@c34_mat QNum eps (fst st)) st.
Definition postQ (eps : Q) (st : mat Q * mat Q) : bool * (mat Q * mat Q) :=
  if @a5_cond QNum eps (fst st) then (true, @congr QNum (@c5_mat QNum (fst st)) st)
  else if @a6_cond QNum eps (fst st) then (true, @congr QNum (@c6_mat QNum (fst st)) st)
  else if @a7_cond QNum eps (fst st) then (true, @congr QNum (@c7_mat QNum (fst st)) st)
  else if @a8_cond QNum eps (fst st) then (true, @congr QNum (@c8_mat QNum) st)
  else (false, st).
Lemma step_eqQ (eps : Q) (st : mat Q * mat Q) : @niggli_step QNum eps st =
  if @a2_cond QNum eps (fst (preQ eps st)) then (true, @congr QNum (@c2_mat QNum) (preQ eps st))
  else postQ eps (midQ eps (preQ eps st)).
Proof. unfold niggli_step, postQ, midQ, preQ. cbv zeta. reflexivity. Qed.
Lemma q_step e st : @niggli_step RNum (Q2R e) (stQ st) = (fst (@niggli_step QNum e st), stQ (snd (@niggli_step QNum e st))).
Proof.
  rewrite step_eq, step_eqQ.
  assert (E1 : pre (Q2R e) (stQ st) = stQ (preQ e st)).
  { unfold pre, preQ. change (fst (stQ st)) with (mQ (fst st)). rewrite q_a1. unfold c1_mat. rewrite q_mcast, q_congr.
    destruct (@a1_cond QNum e (fst st)); reflexivity. }
  rewrite E1. generalize (preQ e st) as s1. clear E1. intro s1.
  change (fst (stQ s1)) with (mQ (fst s1)). rewrite q_a2. unfold c2_mat. rewrite q_mcast, q_congr.
  destruct (@a2_cond QNum e (fst s1)); [reflexivity|].
  assert (E2 : mid (Q2R e) (stQ s1) = stQ (midQ e s1)).
  { unfold mid, midQ. change (fst (stQ s1)) with (mQ (fst s1)). rewrite q_c34, q_congr. reflexivity. }
  rewrite E2. generalize (midQ e s1) as s2. clear E2. intro s2. unfold post, postQ.
  change (fst (stQ s2)) with (mQ (fst s2)). rewrite q_a5, q_a6, q_a7, q_a8, q_c5, q_c6, q_c7. unfold c8_mat. rewrite q_mcast, !q_congr.
  destruct (@a5_cond QNum e (fst s2)), (@a6_cond QNum e (fst s2)), (@a7_cond QNum e (fst s2)), (@a8_cond QNum e (fst s2)); reflexivity.
Qed.
Lemma q_loop n e : forall st, @niggli_loop RNum n (Q2R e) (stQ st) =
  match @niggli_loop QNum n e st with Ok s => Ok (stQ s) | Panic p => Panic p | OutOfFuel => OutOfFuel end.
Proof.
  induction n as [|n IH]; intro st; cbn [niggli_loop]; [reflexivity|]. rewrite q_step.
  destruct (@niggli_step QNum e st) as [c st']. cbn [fst snd]. destruct c; [apply IH|reflexivity].
Qed.
Definition zgram (L : mat Z) : mat Q := let m := @mcast QNum L in @mmul QNum (transpose m) m.
Lemma niggli_run (P : @Pinv RNum) (dtol tol : R) (s : @structure RNum) (L : mat Z) (e : Q) :
  lattice s = MofZ L -> (tol * Rcbrt (Mdet (lattice s)))%R = Q2R e ->
  @niggli_reduce RNum P dtol s tol =
  match @niggli_loop QNum 100 e (zgram L, @midentity QNum) with
  | Ok st => Ok (rebuilt P (Mmul (MofZ L) (mQ (snd st))) (species s) (coords s) dtol)
  | Panic p => Panic p
  | OutOfFuel => OutOfFuel
  end.
Proof.
  intros HL He. rewrite niggli_reduce_eq, He, HL.
  assert (E : (gram (MofZ L), Mid) = stQ (zgram L, @midentity QNum)).
  { unfold stQ. cbn [fst snd]. f_equal.
    - unfold zgram. rewrite q_mmul, q_transpose, <- q_mcast. reflexivity.
    - unfold mQ, mmap, midentity, f0, f1. cbn [m11 m12 m13 m21 m22 m23 m31 m32 m33]. rewrite !q_ofZ. reflexivity. }
  rewrite E, q_loop. destruct (@niggli_loop QNum 100 e _) as [st| |]; reflexivity.
Qed.
Lemma cbrt_1 : Rcbrt 1 = 1%R.
Proof. rewrite cbrt_pos by lra. unfold Rpower. rewrite ln_1, Rmult_0_r. apply exp_0. Qed.
