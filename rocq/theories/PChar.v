(** The lattice characters of 44 integral metrics, one of each character *)
From Coq Require Import ZArith Reals String List Bool Lia Lra.
From Flocq Require Import Core.Raux.
From Verif Require Import Num Mat Utils Analyzer RInst PUtils PNiggli PAnalyzer PAnalyzer2 PEnd10.
Import ListNotations.
Open Scope R_scope.

Lemma extra_a_yes (a b d e f eps : R) : 0 < eps -> d + e + f <= 0 -> (d + e + f) * -2 = a + b -> @extra_eval_a RNum a b d e f eps = true.
Proof. intros H0 H1 H2. apply cust_eq_spec. cbn. rewrite (Rabs_left1 (d + e + f)) by lra. apply Rabs_le. lra. Qed.
Lemma extra_a_no (a b d e f eps : R) : 0 < eps -> d + e + f <= 0 -> eps < a + b + (d + e + f) * 2 -> @extra_eval_a RNum a b d e f eps = false.
Proof. intros H0 H1 H2. apply cust_eq_false. cbn. rewrite (Rabs_left1 (d + e + f)) by lra. rewrite Rabs_left1; lra. Qed.
Lemma extra_b_no (a b d e f eps : R) : 0 < eps -> d + e + f <= 0 -> eps < a + b + (d + e + f) * 2 -> @extra_eval_b RNum a b d e f eps = false.
Proof. intros H0 H1 H2. unfold extra_eval_b. change (cust_eq _ _ _) with (@extra_eval_a RNum a b d e f eps) at 1. rewrite extra_a_no by assumption. reflexivity. Qed.
Lemma extra_b_yes (a b d e f eps : R) : 0 < eps -> d + e + f <= 0 -> (d + e + f) * -2 = a + b -> 2 * d + f <= 0 -> 2 * d + f = - b -> @extra_eval_b RNum a b d e f eps = true.
Proof.
  intros H0 H1 H2 H3 H4. unfold extra_eval_b. change (cust_eq _ _ _) with (@extra_eval_a RNum a b d e f eps) at 1. rewrite extra_a_yes by assumption. cbn [andb]. apply cust_eq_spec. cbn. rewrite (Rabs_left1 (2 * d + f)) by lra. apply Rabs_le. lra.
Qed.
Ltac extras := repeat match goal with
  | |- context [@extra_eval_a RNum ?a ?b ?d ?e ?f ?z] => first [rewrite (extra_a_yes a b d e f z) by lra|rewrite (extra_a_no a b d e f z) by lra]
  | |- context [@extra_eval_b RNum ?a ?b ?d ?e ?f ?z] => first [rewrite (extra_b_yes a b d e f z) by lra|rewrite (extra_b_no a b d e f z) by lra]
  end.
Ltac character_of_metric x y z u eps nn nz :=
  unfold character_of;
  let EN := fresh "EN" in
  assert (EN : @num_negative_zero RNum [u * x; u * y; u * z] eps = (nn, nz)%Z);
  [rewrite num_negative_zero_spec by (cbn; lia); unfold countb; cbn [filter];
   repeat match goal with |- context [Rlt_bool ?p ?q] => first [rewrite (Rlt_bool_true p q) by lra|rewrite (Rlt_bool_false p q) by lra] end; reflexivity|];
  match goal with |- context [@num_negative_zero RNum ?l eps] => change (@num_negative_zero RNum l eps) with (@num_negative_zero RNum [u * x; u * y; u * z] eps) end;
  rewrite EN; match goal with |- context [(Z.rem ?p 2 =? 0)%Z && (?q =? 0)%Z] => let r := eval vm_compute in ((Z.rem p 2 =? 0)%Z && (q =? 0)%Z) in change ((Z.rem p 2 =? 0)%Z && (q =? 0)%Z) with r end;
  cust_lra; cbn [andb];
  unfold get_first_set, get_second_set, get_third_set, get_fourth_set; extras; cbn [app first_match vdivs vmap vx vy vz]; cust_lra; cbn [andb]; extras; reflexivity.
Lemma ch01 (u eps : R) : 0 < u -> 0 < eps <= u / 10 -> @character_of RNum eps (u * 2) (u * 2) (u * 2) (u * 1) (u * 1) (u * 1) = Ok 1%Z.
Proof. intros Hu He. character_of_metric (1) (1) (1) u eps 0%Z 0%Z. Qed.
Lemma ch02 (u eps : R) : 0 < u -> 0 < eps <= u / 10 -> @character_of RNum eps (u * 3) (u * 3) (u * 3) (u * 1) (u * 1) (u * 1) = Ok 2%Z.
Proof. intros Hu He. character_of_metric (1) (1) (1) u eps 0%Z 0%Z. Qed.
Lemma ch03 (u eps : R) : 0 < u -> 0 < eps <= u / 10 -> @character_of RNum eps (u * 1) (u * 1) (u * 1) (u * 0) (u * 0) (u * 0) = Ok 3%Z.
Proof. intros Hu He. character_of_metric (0) (0) (0) u eps 0%Z 3%Z. Qed.
Lemma ch04 (u eps : R) : 0 < u -> 0 < eps <= u / 10 -> @character_of RNum eps (u * 4) (u * 4) (u * 4) (u * -1) (u * -1) (u * -1) = Ok 4%Z.
Proof. intros Hu He. character_of_metric (-1) (-1) (-1) u eps 3%Z 0%Z. Qed.
Lemma ch05 (u eps : R) : 0 < u -> 0 < eps <= u / 10 -> @character_of RNum eps (u * 3) (u * 3) (u * 3) (u * -1) (u * -1) (u * -1) = Ok 5%Z.
Proof. intros Hu He. character_of_metric (-1) (-1) (-1) u eps 3%Z 0%Z. Qed.
Lemma ch06 (u eps : R) : 0 < u -> 0 < eps <= u / 10 -> @character_of RNum eps (u * 7) (u * 7) (u * 7) (u * -2) (u * -2) (u * -3) = Ok 6%Z.
Proof. intros Hu He. character_of_metric (-2) (-2) (-3) u eps 3%Z 0%Z. Qed.
Lemma ch07 (u eps : R) : 0 < u -> 0 < eps <= u / 10 -> @character_of RNum eps (u * 5) (u * 5) (u * 5) (u * -1) (u * -2) (u * -2) = Ok 7%Z.
Proof. intros Hu He. character_of_metric (-1) (-2) (-2) u eps 3%Z 0%Z. Qed.
Lemma ch08 (u eps : R) : 0 < u -> 0 < eps <= u / 10 -> @character_of RNum eps (u * 9) (u * 9) (u * 9) (u * -2) (u * -3) (u * -4) = Ok 8%Z.
Proof. intros Hu He. character_of_metric (-2) (-3) (-4) u eps 3%Z 0%Z. Qed.
Lemma ch09 (u eps : R) : 0 < u -> 0 < eps <= u / 10 -> @character_of RNum eps (u * 2) (u * 2) (u * 3) (u * 1) (u * 1) (u * 1) = Ok 9%Z.
Proof. intros Hu He. character_of_metric (1) (1) (1) u eps 0%Z 0%Z. Qed.
Lemma ch10 (u eps : R) : 0 < u -> 0 < eps <= u / 10 -> @character_of RNum eps (u * 3) (u * 3) (u * 4) (u * 1) (u * 1) (u * 1) = Ok 10%Z.
Proof. intros Hu He. character_of_metric (1) (1) (1) u eps 0%Z 0%Z. Qed.
Lemma ch11 (u eps : R) : 0 < u -> 0 < eps <= u / 10 -> @character_of RNum eps (u * 1) (u * 1) (u * 2) (u * 0) (u * 0) (u * 0) = Ok 11%Z.
Proof. intros Hu He. character_of_metric (0) (0) (0) u eps 0%Z 3%Z. Qed.
Lemma ch12 (u eps : R) : 0 < u -> 0 < eps <= u / 10 -> @character_of RNum eps (u * 2) (u * 2) (u * 3) (u * 0) (u * 0) (u * -1) = Ok 12%Z.
Proof. intros Hu He. character_of_metric (0) (0) (-1) u eps 1%Z 2%Z. Qed.
Lemma ch13 (u eps : R) : 0 < u -> 0 < eps <= u / 10 -> @character_of RNum eps (u * 3) (u * 3) (u * 4) (u * 0) (u * 0) (u * -1) = Ok 13%Z.
Proof. intros Hu He. character_of_metric (0) (0) (-1) u eps 1%Z 2%Z. Qed.
Lemma ch14 (u eps : R) : 0 < u -> 0 < eps <= u / 10 -> @character_of RNum eps (u * 3) (u * 3) (u * 4) (u * -1) (u * -1) (u * 0) = Ok 14%Z.
Proof. intros Hu He. character_of_metric (-1) (-1) (0) u eps 2%Z 1%Z. Qed.
Lemma ch15 (u eps : R) : 0 < u -> 0 < eps <= u / 10 -> @character_of RNum eps (u * 2) (u * 2) (u * 3) (u * -1) (u * -1) (u * 0) = Ok 15%Z.
Proof. intros Hu He. character_of_metric (-1) (-1) (0) u eps 2%Z 1%Z. Qed.
Lemma ch16 (u eps : R) : 0 < u -> 0 < eps <= u / 10 -> @character_of RNum eps (u * 3) (u * 3) (u * 4) (u * -1) (u * -1) (u * -1) = Ok 16%Z.
Proof. intros Hu He. character_of_metric (-1) (-1) (-1) u eps 3%Z 0%Z. Qed.
Lemma ch17 (u eps : R) : 0 < u -> 0 < eps <= u / 10 -> @character_of RNum eps (u * 5) (u * 5) (u * 6) (u * -1) (u * -2) (u * -2) = Ok 17%Z.
Proof. intros Hu He. character_of_metric (-1) (-2) (-2) u eps 3%Z 0%Z. Qed.
Lemma ch18 (u eps : R) : 0 < u -> 0 < eps <= u / 10 -> @character_of RNum eps (u * 4) (u * 5) (u * 5) (u * 1) (u * 2) (u * 2) = Ok 18%Z.
Proof. intros Hu He. character_of_metric (1) (2) (2) u eps 0%Z 0%Z. Qed.
Lemma ch19 (u eps : R) : 0 < u -> 0 < eps <= u / 10 -> @character_of RNum eps (u * 2) (u * 3) (u * 3) (u * 1) (u * 1) (u * 1) = Ok 19%Z.
Proof. intros Hu He. character_of_metric (1) (1) (1) u eps 0%Z 0%Z. Qed.
Lemma ch20 (u eps : R) : 0 < u -> 0 < eps <= u / 10 -> @character_of RNum eps (u * 3) (u * 4) (u * 4) (u * 1) (u * 1) (u * 1) = Ok 20%Z.
Proof. intros Hu He. character_of_metric (1) (1) (1) u eps 0%Z 0%Z. Qed.
Lemma ch21 (u eps : R) : 0 < u -> 0 < eps <= u / 10 -> @character_of RNum eps (u * 1) (u * 2) (u * 2) (u * 0) (u * 0) (u * 0) = Ok 21%Z.
Proof. intros Hu He. character_of_metric (0) (0) (0) u eps 0%Z 3%Z. Qed.
Lemma ch22 (u eps : R) : 0 < u -> 0 < eps <= u / 10 -> @character_of RNum eps (u * 1) (u * 2) (u * 2) (u * -1) (u * 0) (u * 0) = Ok 22%Z.
Proof. intros Hu He. character_of_metric (-1) (0) (0) u eps 1%Z 2%Z. Qed.
Lemma ch23 (u eps : R) : 0 < u -> 0 < eps <= u / 10 -> @character_of RNum eps (u * 1) (u * 3) (u * 3) (u * -1) (u * 0) (u * 0) = Ok 23%Z.
Proof. intros Hu He. character_of_metric (-1) (0) (0) u eps 1%Z 2%Z. Qed.
Lemma ch24 (u eps : R) : 0 < u -> 0 < eps <= u / 10 -> @character_of RNum eps (u * 3) (u * 5) (u * 5) (u * -2) (u * -1) (u * -1) = Ok 24%Z.
Proof. intros Hu He. character_of_metric (-2) (-1) (-1) u eps 3%Z 0%Z. Qed.
Lemma ch25 (u eps : R) : 0 < u -> 0 < eps <= u / 10 -> @character_of RNum eps (u * 3) (u * 4) (u * 4) (u * -1) (u * -1) (u * -1) = Ok 25%Z.
Proof. intros Hu He. character_of_metric (-1) (-1) (-1) u eps 3%Z 0%Z. Qed.
Lemma ch26 (u eps : R) : 0 < u -> 0 < eps <= u / 10 -> @character_of RNum eps (u * 4) (u * 5) (u * 6) (u * 1) (u * 2) (u * 2) = Ok 26%Z.
Proof. intros Hu He. character_of_metric (1) (2) (2) u eps 0%Z 0%Z. Qed.
Lemma ch27 (u eps : R) : 0 < u -> 0 < eps <= u / 10 -> @character_of RNum eps (u * 2) (u * 3) (u * 4) (u * 1) (u * 1) (u * 1) = Ok 27%Z.
Proof. intros Hu He. character_of_metric (1) (1) (1) u eps 0%Z 0%Z. Qed.
Lemma ch28 (u eps : R) : 0 < u -> 0 < eps <= u / 10 -> @character_of RNum eps (u * 6) (u * 7) (u * 8) (u * 1) (u * 3) (u * 2) = Ok 28%Z.
Proof. intros Hu He. character_of_metric (1) (3) (2) u eps 0%Z 0%Z. Qed.
Lemma ch29 (u eps : R) : 0 < u -> 0 < eps <= u / 10 -> @character_of RNum eps (u * 6) (u * 7) (u * 8) (u * 1) (u * 2) (u * 3) = Ok 29%Z.
Proof. intros Hu He. character_of_metric (1) (2) (3) u eps 0%Z 0%Z. Qed.
Lemma ch30 (u eps : R) : 0 < u -> 0 < eps <= u / 10 -> @character_of RNum eps (u * 4) (u * 6) (u * 7) (u * 3) (u * 1) (u * 2) = Ok 30%Z.
Proof. intros Hu He. character_of_metric (3) (1) (2) u eps 0%Z 0%Z. Qed.
Lemma ch31 (u eps : R) : 0 < u -> 0 < eps <= u / 10 -> @character_of RNum eps (u * 3) (u * 4) (u * 5) (u * 1) (u * 1) (u * 1) = Ok 31%Z.
Proof. intros Hu He. character_of_metric (1) (1) (1) u eps 0%Z 0%Z. Qed.
Lemma ch32 (u eps : R) : 0 < u -> 0 < eps <= u / 10 -> @character_of RNum eps (u * 1) (u * 2) (u * 3) (u * 0) (u * 0) (u * 0) = Ok 32%Z.
Proof. intros Hu He. character_of_metric (0) (0) (0) u eps 0%Z 3%Z. Qed.
Lemma ch33 (u eps : R) : 0 < u -> 0 < eps <= u / 10 -> @character_of RNum eps (u * 3) (u * 4) (u * 5) (u * 0) (u * -1) (u * 0) = Ok 33%Z.
Proof. intros Hu He. character_of_metric (0) (-1) (0) u eps 1%Z 2%Z. Qed.
Lemma ch34 (u eps : R) : 0 < u -> 0 < eps <= u / 10 -> @character_of RNum eps (u * 3) (u * 4) (u * 5) (u * 0) (u * 0) (u * -1) = Ok 34%Z.
Proof. intros Hu He. character_of_metric (0) (0) (-1) u eps 1%Z 2%Z. Qed.
Lemma ch35 (u eps : R) : 0 < u -> 0 < eps <= u / 10 -> @character_of RNum eps (u * 1) (u * 3) (u * 4) (u * -1) (u * 0) (u * 0) = Ok 35%Z.
Proof. intros Hu He. character_of_metric (-1) (0) (0) u eps 1%Z 2%Z. Qed.
Lemma ch36 (u eps : R) : 0 < u -> 0 < eps <= u / 10 -> @character_of RNum eps (u * 2) (u * 3) (u * 4) (u * 0) (u * -1) (u * 0) = Ok 36%Z.
Proof. intros Hu He. character_of_metric (0) (-1) (0) u eps 1%Z 2%Z. Qed.
Lemma ch37 (u eps : R) : 0 < u -> 0 < eps <= u / 10 -> @character_of RNum eps (u * 2) (u * 3) (u * 4) (u * -1) (u * -1) (u * 0) = Ok 37%Z.
Proof. intros Hu He. character_of_metric (-1) (-1) (0) u eps 2%Z 1%Z. Qed.
Lemma ch38 (u eps : R) : 0 < u -> 0 < eps <= u / 10 -> @character_of RNum eps (u * 2) (u * 3) (u * 4) (u * 0) (u * 0) (u * -1) = Ok 38%Z.
Proof. intros Hu He. character_of_metric (0) (0) (-1) u eps 1%Z 2%Z. Qed.
Lemma ch39 (u eps : R) : 0 < u -> 0 < eps <= u / 10 -> @character_of RNum eps (u * 2) (u * 3) (u * 4) (u * -1) (u * 0) (u * -1) = Ok 39%Z.
Proof. intros Hu He. character_of_metric (-1) (0) (-1) u eps 2%Z 1%Z. Qed.
Lemma ch40 (u eps : R) : 0 < u -> 0 < eps <= u / 10 -> @character_of RNum eps (u * 1) (u * 2) (u * 3) (u * -1) (u * 0) (u * 0) = Ok 40%Z.
Proof. intros Hu He. character_of_metric (-1) (0) (0) u eps 1%Z 2%Z. Qed.
Lemma ch41 (u eps : R) : 0 < u -> 0 < eps <= u / 10 -> @character_of RNum eps (u * 3) (u * 4) (u * 5) (u * -2) (u * -1) (u * 0) = Ok 41%Z.
Proof. intros Hu He. character_of_metric (-2) (-1) (0) u eps 2%Z 1%Z. Qed.
Lemma ch42 (u eps : R) : 0 < u -> 0 < eps <= u / 10 -> @character_of RNum eps (u * 2) (u * 4) (u * 5) (u * -2) (u * -1) (u * 0) = Ok 42%Z.
Proof. intros Hu He. character_of_metric (-2) (-1) (0) u eps 2%Z 1%Z. Qed.
Lemma ch43 (u eps : R) : 0 < u -> 0 < eps <= u / 10 -> @character_of RNum eps (u * 3) (u * 5) (u * 6) (u * -2) (u * -1) (u * -1) = Ok 43%Z.
Proof. intros Hu He. character_of_metric (-2) (-1) (-1) u eps 3%Z 0%Z. Qed.
Lemma ch44 (u eps : R) : 0 < u -> 0 < eps <= u / 10 -> @character_of RNum eps (u * 3) (u * 4) (u * 5) (u * -1) (u * -1) (u * -1) = Ok 44%Z.
Proof. intros Hu He. character_of_metric (-1) (-1) (-1) u eps 3%Z 0%Z. Qed.
