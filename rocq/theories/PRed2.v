(** Strictly reduced cells: lattice characters, sizes and the stages of the run (analyzer.rs 286-551) *)
From Coq Require Import ZArith Reals String Ascii List Bool Lia Lra Psatz Permutation.
From Flocq Require Import Core.
From Verif Require Import Num Mat Utils DataCore DataPG DataSG SymmOp PointGroup SpaceGroup Structure Reduce Analyzer RInst Spec Spec2 Spec3 Spec5 Spec6 Spec8 Spec10 RFacts
  PUtils PSymmOp PStructure PStructure2 PStructure3 PNiggli PDelaunay PPrim PPrim2 PLattice PAnalyzer PAnalyzer2 PPointGroup PPointGroup2 PSpaceGroup PSpaceGroup2 PCode PTables PIdentify
  PSearch PSearch3 PSearch4 PSearch6 PSearch7 PEnd PEnd2 PEnd3 PEnd4 PEnd11 PEnd12 PEnd13 PEnd14 PEnd15 Prop5 PRun PRun2 PHex PHex2 PHex3 PHex4 PRed.
Import ListNotations.
Open Scope R_scope.

(** ** Lattice characters *)
Lemma fm_skip (eps : R) (def v : vec R) n l : eps < Rabs (vx v - vx def) \/ eps < Rabs (vy v - vy def) \/ eps < Rabs (vz v - vz def) -> @first_match RNum eps def ((v, n) :: l) = @first_match RNum eps def l.
Proof. intro H. destruct v as [a b c], def as [x y z]. cbn [vx vy vz] in H. cbn [first_match vx vy vz]. destruct H as [H|[H|H]]; apply cust_eq_false in H; rewrite H, ?andb_false_r; reflexivity. Qed.
Lemma fm_hit (eps : R) (v : vec R) n l : 0 <= eps -> @first_match RNum eps v ((v, n) :: l) = n.
Proof. intro H. destruct v as [a b c]. cbn [first_match vx vy vz]. rewrite !cust_same by exact H. reflexivity. Qed.
Ltac off := unfold Rabs; destruct (Rcase_abs _); lra.
Section Characters.
  Context (eps A B C D E F : R).
  Hypothesis (He : 0 < eps) (S1 : A + eps < B) (S2 : B + eps < C).
  Lemma fourth_set t : @num_negative_zero RNum [D; E; F] eps = t ->
    @character_of RNum eps A B C D E F = let n := @first_match RNum eps (V D E F) (@get_fourth_set RNum ((Z.rem (fst t) 2 =? 0)%Z && (snd t =? 0)%Z) A B D E F) in
      let n := if (n =? 14)%Z && @extra_eval_a RNum A B D E F eps then (n + 2)%Z else if (n =? 44)%Z && @extra_eval_b RNum A B D E F eps then (n - 1)%Z else n in if (n =? 0)%Z then Panic PLatticeChar else Ok n.
  Proof using He S1 S2.
    intro ET. unfold character_of. match goal with |- context [@num_negative_zero RNum ?l eps] => change (@num_negative_zero RNum l eps) with (@num_negative_zero RNum [D; E; F] eps) end. rewrite ET. destruct t as [x y].
    replace (@cust_eq RNum A B eps) with false by (symmetry; apply cust_eq_false; off). replace (@cust_eq RNum B C eps) with false by (symmetry; apply cust_eq_false; off). reflexivity.
  Qed.
  Lemma char_acute : eps < D -> eps < E -> eps < F -> 2 * D + 2 * eps < B -> 2 * E + 2 * eps < A -> 2 * F + 2 * eps < A -> @character_of RNum eps A B C D E F = Ok 31%Z.
  Proof using He S1 S2.
    intros HD HE HF H1 H2 H3. rewrite (fourth_set (0, 0)%Z).
    - cbn [fst snd]. change ((Z.rem 0 2 =? 0)%Z && (0 =? 0)%Z) with true.
      change (@get_fourth_set RNum true A B D E F) with [(V (A / 4) (A / 2) (A / 2), 26%Z); (V D (A / 2) (A / 2), 27%Z); (V D (A / 2) (D * 2), 28%Z); (V D (D * 2) (A / 2), 29%Z); (V (B / 2) E (E * 2), 30%Z); (V D E F, 31%Z)].
      rewrite fm_skip by (cbn [vx vy vz]; right; left; off). rewrite fm_skip by (cbn [vx vy vz]; right; left; off). rewrite fm_skip by (cbn [vx vy vz]; right; left; off). rewrite fm_skip by (cbn [vx vy vz]; right; right; off).
      rewrite fm_skip by (cbn [vx vy vz]; left; off). rewrite fm_hit by lra. reflexivity.
    - rewrite num_negative_zero_spec by (cbn; lia). unfold countb. cbn [filter]. rewrite !(Rlt_bool_false _ (- eps)) by lra. rewrite !(Rlt_bool_false _ eps) by lra. rewrite !andb_false_r. reflexivity.
  Qed.
  Hypothesis (HD : zero_or_below eps D) (HE : zero_or_below eps E) (HF : zero_or_below eps F).
  Hypothesis (H1 : - 2 * D + 2 * eps < B) (H2 : - 2 * E + 2 * eps < A) (H3 : - 2 * F + 2 * eps < A) (H4 : 2 * eps < A + B + 2 * (D + E + F)).
  Lemma obtuse_rows : exists t, @num_negative_zero RNum [D; E; F] eps = t /\ (Z.rem (fst t) 2 =? 0)%Z && (snd t =? 0)%Z = false.
  Proof using All.
    eexists. split; [reflexivity|]. rewrite num_negative_zero_spec by (cbn; lia). unfold countb. cbn [filter fst snd].
    destruct HD as [-> |X], HE as [-> |Y], HF as [-> |Z0]; rewrite ?(Rlt_bool_false 0 (- eps)), ?(Rlt_bool_true 0 eps) by lra; cbn [andb negb];
      rewrite ?(Rlt_bool_true D (- eps)), ?(Rlt_bool_true E (- eps)), ?(Rlt_bool_true F (- eps)) by lra; cbn [andb negb List.length Z.of_nat]; try reflexivity.
  Qed.
  Lemma obtuse_list : @character_of RNum eps A B C D E F = let n := @first_match RNum eps (V D E F)
      [(V 0 0 0, 32%Z); (V (B / -2) (0 / -2) (0 / -2), 40%Z); (V D 0 0, 35%Z); (V (0 / -2) (A / -2) (0 / -2), 36%Z); (V 0 E 0, 33%Z); (V (0 / -2) (0 / -2) (A / -2), 38%Z); (V 0 0 F, 34%Z);
       (V (B / -2) (A / -2) (0 / -2), 42%Z); (V (B / -2) E 0, 41%Z); (V D (A / -2) 0, 37%Z); (V D 0 (A / -2), 39%Z); (V D E F, 44%Z)] in
      let n := if (n =? 14)%Z && @extra_eval_a RNum A B D E F eps then (n + 2)%Z else if (n =? 44)%Z && @extra_eval_b RNum A B D E F eps then (n - 1)%Z else n in if (n =? 0)%Z then Panic PLatticeChar else Ok n.
  Proof using All. destruct obtuse_rows as (t & ET & Q). rewrite (fourth_set t ET), Q. reflexivity. Qed.
  Lemma char_44 : no_two_zero D E F -> @character_of RNum eps A B C D E F = Ok 44%Z.
  Proof using All.
    intros (N1 & N2 & N3). rewrite obtuse_list.
    assert (DE : D < - eps \/ E < - eps) by (destruct HD as [X|X]; [|tauto]; destruct HE as [Y|Y]; tauto). assert (DF : D < - eps \/ F < - eps) by (destruct HD as [X|X]; [|tauto]; destruct HF as [Y|Y]; tauto).
    assert (EF : E < - eps \/ F < - eps) by (destruct HE as [X|X]; [|tauto]; destruct HF as [Y|Y]; tauto).
    rewrite fm_skip by (cbn [vx vy vz]; destruct DE; [left|right; left]; off). rewrite fm_skip by (cbn [vx vy vz]; left; off). rewrite fm_skip by (cbn [vx vy vz]; destruct EF; [right; left|right; right]; off).
    rewrite fm_skip by (cbn [vx vy vz]; right; left; off). rewrite fm_skip by (cbn [vx vy vz]; destruct DF; [left|right; right]; off). rewrite fm_skip by (cbn [vx vy vz]; right; right; off).
    rewrite fm_skip by (cbn [vx vy vz]; destruct DE; [left|right; left]; off). rewrite fm_skip by (cbn [vx vy vz]; left; off). rewrite fm_skip by (cbn [vx vy vz]; left; off).
    rewrite fm_skip by (cbn [vx vy vz]; right; left; off). rewrite fm_skip by (cbn [vx vy vz]; right; right; off). rewrite fm_hit by lra.
    replace (@extra_eval_b RNum A B D E F eps) with false; [reflexivity|]. symmetry. unfold extra_eval_b. apply andb_false_iff. left. apply cust_eq_false.
    change (eps < Rabs (Rabs (D + E + F) * 2 - (A + B))). assert (D <= 0) by (destruct HD; lra). assert (E <= 0) by (destruct HE; lra). assert (F <= 0) by (destruct HF; lra). rewrite (Rabs_left1 (D + E + F)) by lra. off.
  Qed.
  Lemma char_35 : D <> 0 -> E = 0 -> F = 0 -> @character_of RNum eps A B C D E F = Ok 35%Z.
  Proof using All.
    intros ND E0 F0. rewrite obtuse_list. assert (D < - eps) by (destruct HD; tauto).
    rewrite fm_skip by (cbn [vx vy vz]; left; off). rewrite fm_skip by (cbn [vx vy vz]; left; off). rewrite E0, F0. rewrite fm_hit by lra. reflexivity.
  Qed.
  Lemma char_33 : D = 0 -> E <> 0 -> F = 0 -> @character_of RNum eps A B C D E F = Ok 33%Z.
  Proof using All.
    intros D0 NE F0. rewrite obtuse_list. assert (E < - eps) by (destruct HE; tauto).
    rewrite fm_skip by (cbn [vx vy vz]; right; left; off). rewrite fm_skip by (cbn [vx vy vz]; left; off). rewrite fm_skip by (cbn [vx vy vz]; right; left; off). rewrite fm_skip by (cbn [vx vy vz]; right; left; off). rewrite D0, F0. rewrite fm_hit by lra. reflexivity.
  Qed.
  Lemma char_34 : D = 0 -> E = 0 -> F <> 0 -> @character_of RNum eps A B C D E F = Ok 34%Z.
  Proof using All.
    intros D0 E0 NF. rewrite obtuse_list. assert (F < - eps) by (destruct HF; tauto).
    rewrite fm_skip by (cbn [vx vy vz]; right; right; off). rewrite fm_skip by (cbn [vx vy vz]; left; off). rewrite fm_skip by (cbn [vx vy vz]; right; right; off). rewrite fm_skip by (cbn [vx vy vz]; right; left; off).
    rewrite fm_skip by (cbn [vx vy vz]; right; right; off). rewrite fm_skip by (cbn [vx vy vz]; right; right; off). rewrite D0, E0. rewrite fm_hit by lra. reflexivity.
  Qed.
End Characters.

(** ** Sizes *)
Lemma Vcross_le a b : Vnorm (Vcross a b) <= Vnorm a * Vnorm b.
Proof.
  apply Rsqr_incr_0_var; [|apply Rmult_le_pos; apply Vnorm_nonneg]. unfold Rsqr. replace (Vnorm a * Vnorm b * (Vnorm a * Vnorm b)) with ((Vnorm a * Vnorm a) * (Vnorm b * Vnorm b)) by ring. rewrite !Vnorm_sq.
  destruct a as [a1 a2 a3], b as [b1 b2 b3]. unfold Vcross, Vdot. cbn [vx vy vz]. pose proof (Rle_0_sqr (a1 * b1 + a2 * b2 + a3 * b3)) as Q. unfold Rsqr in Q. lra.
Qed.
Lemma coord_le v : Rabs (vx v) <= Vnorm v /\ Rabs (vy v) <= Vnorm v /\ Rabs (vz v) <= Vnorm v.
Proof.
  pose proof (Vnorm_nonneg v) as N. pose proof (Vnorm_sq v) as Q. destruct v as [x y z]. unfold Vdot in Q. cbn [vx vy vz] in *.
  repeat split; apply Rsqr_incr_0_var; try exact N; unfold Rsqr; rewrite Q, <- Rabs_mult, Rabs_pos_eq by nra; nra.
Qed.
Lemma VofZ_ge1 z : z <> V 0%Z 0%Z 0%Z -> 1 <= Vnorm (VofZ z).
Proof.
  intro N. apply Rsqr_incr_0_var; [|apply Vnorm_nonneg]. unfold Rsqr. rewrite Vnorm_sq. destruct z as [x y z]. unfold Vdot, VofZ. cbn [vx vy vz]. rewrite <- !mult_IZR, <- !plus_IZR. apply (IZR_le (1 * 1)).
  assert (x <> 0 \/ y <> 0 \/ z <> 0)%Z as [H|[H|H]] by (destruct (Z.eq_dec x 0) as [-> |]; [|tauto]; destruct (Z.eq_dec y 0) as [-> |]; [|tauto]; destruct (Z.eq_dec z 0) as [-> |]; tauto); nia.
Qed.
Lemma Ccol_app L k : (k < 3)%nat -> exists e, In e units3 /\ Ccol L k = Mapp L (VofZ e).
Proof.
  intro Hk. destruct k as [|[|[|k]]]; [exists (V 1 0 0)%Z|exists (V 0 1 0)%Z|exists (V 0 0 1)%Z|lia]; (split; [cbn; tauto|]); destruct L as [p q r x y z l n o]; unfold Ccol, Mapp, VofZ; cbn [vx vy vz m11 m12 m13 m21 m22 m23 m31 m32 m33]; apply (@vec_ext R); cbn [vx vy vz]; ring.
Qed.
Section Flat.
  Context (L : mat R) (NF : not_flat L).
  Lemma flat_vector z : z <> V 0%Z 0%Z 0%Z -> 1 <= Vnorm (Mapp L (VofZ z)).
  Proof using NF. intro N. pose proof (VofZ_ge1 z N). pose proof (NF (VofZ z)). lra. Qed.
  Let r1 := Vcross (Ccol L 1) (Ccol L 2). Let r2 := Vcross (Ccol L 2) (Ccol L 0). Let r3 := Vcross (Ccol L 0) (Ccol L 1).
  Lemma adj_le w : Vnorm (V (Vdot r1 w) (Vdot r2 w) (Vdot r3 w)) <= Rabs (Mdet L) * Vnorm w.
  Proof using NF.
    rewrite <- Vnorm_scal. replace (Vscal (Mdet L) w) with (Mapp L (V (Vdot r1 w) (Vdot r2 w) (Vdot r3 w))); [apply NF|].
    unfold r1, r2, r3. clear. destruct L as [a b c d e f g h i], w as [x y z]. unfold Mapp, Vscal, Vdot, Vcross, Ccol, Mdet. cbn [vx vy vz m11 m12 m13 m21 m22 m23 m31 m32 m33]. apply (@vec_ext R); cbn [vx vy vz]; ring.
  Qed.
  Lemma self_le r : (forall w, Rabs (Vdot r w) <= Rabs (Mdet L) * Vnorm w) -> Vnorm r <= Rabs (Mdet L).
  Proof using.
    intro H. specialize (H r). rewrite <- Vnorm_sq, Rabs_pos_eq in H by (apply Rmult_le_pos; apply Vnorm_nonneg). destruct (Req_dec (Vnorm r) 0) as [E|E]; [rewrite E; apply Rabs_pos|].
    pose proof (Vnorm_nonneg r). apply (Rmult_le_reg_r (Vnorm r)); lra.
  Qed.
  Lemma rows_le : Vnorm r1 <= Rabs (Mdet L) /\ Vnorm r2 <= Rabs (Mdet L) /\ Vnorm r3 <= Rabs (Mdet L).
  Proof using NF.
    split; [|split]; apply self_le; intro w; pose proof (adj_le w) as H; pose proof (coord_le (V (Vdot r1 w) (Vdot r2 w) (Vdot r3 w))) as (C1 & C2 & C3); cbn [vx vy vz] in *; lra.
  Qed.
  Lemma flat_det : 0 < Rabs (Mdet L).
  Proof using NF.
    destruct rows_le as (H1 & H2 & H3). pose proof (Rabs_pos (Mdet L)) as P0. destruct (Req_dec (Rabs (Mdet L)) 0) as [E|E]; [|lra]. exfalso. rewrite E in *.
    assert (N1 : Vnorm r1 = 0) by (pose proof (Vnorm_nonneg r1); lra). assert (Q : Vdot r1 r1 = 0) by (rewrite <- Vnorm_sq, N1; ring).
    assert (F1 : 1 <= Vnorm (Ccol L 1)) by (destruct (Ccol_app L 1 ltac:(lia)) as (e & He & ->); apply flat_vector; unfold units3 in He; cbn [In] in He; intros ->; destruct He as [X|[X|[X|[]]]]; discriminate X).
    (* two columns with vanishing cross product are dependent *)
    set (a := Ccol L 1) in *. set (b := Ccol L 2) in *. assert (AB : Vscal (Vdot a a) b = Vscal (Vdot a b) a).
    { clear - Q. unfold r1 in Q. fold a b in Q. clearbody a b. destruct a as [a1 a2 a3], b as [b1 b2 b3]. unfold Vdot, Vcross, Vscal in *. cbn [vx vy vz] in *.
      set (p := a2 * b3 - a3 * b2) in *. set (q := a3 * b1 - a1 * b3) in *. set (r := a1 * b2 - a2 * b1) in *. assert (X1 : p = 0) by nra. assert (X2 : q = 0) by nra. assert (X3 : r = 0) by nra. unfold p, q, r in *. clear - X1 X2 X3.
      apply (@vec_ext R); cbn [vx vy vz]; apply Rminus_diag_uniq.
      - transitivity (a3 * (a3 * b1 - a1 * b3) - a2 * (a1 * b2 - a2 * b1)); [ring|rewrite X2, X3; ring].
      - transitivity (a1 * (a1 * b2 - a2 * b1) - a3 * (a2 * b3 - a3 * b2)); [ring|rewrite X1, X3; ring].
      - transitivity (a2 * (a2 * b3 - a3 * b2) - a1 * (a3 * b1 - a1 * b3)); [ring|rewrite X1, X2; ring]. }
    assert (Z0 : Mapp L (V 0 (- Vdot a b) (Vdot a a)) = V 0 0 0).
    { assert (X : Mapp L (V 0 (- Vdot a b) (Vdot a a)) = Vsub (Vscal (Vdot a a) b) (Vscal (Vdot a b) a)).
      { generalize (Vdot a b) (Vdot a a). unfold a, b. clear. intros x y. destruct L as [a b c d e f g h i]. unfold Mapp, Vscal, Vsub, Ccol. cbn [vx vy vz m11 m12 m13 m21 m22 m23 m31 m32 m33]. apply (@vec_ext R); cbn [vx vy vz]; ring. }
      rewrite X, AB. unfold Vsub. apply (@vec_ext R); cbn [vx vy vz]; ring. }
    pose proof (NF (V 0 (- Vdot a b) (Vdot a a))) as K. rewrite Z0 in K. replace (Vnorm (V 0 0 0)) with 0 in K by (unfold Vnorm, Vdot; cbn [vx vy vz]; replace (0 * 0 + 0 * 0 + 0 * 0) with 0 by ring; now rewrite sqrt_0).
    destruct (coord_le (V 0 (- Vdot a b) (Vdot a a))) as (_ & _ & C3). cbn [vz] in C3. rewrite <- Vnorm_sq in *. assert (1 <= Vnorm a * Vnorm a) by nra. rewrite Rabs_pos_eq in C3 by lra. lra.
  Qed.
  Lemma flat_cols k : (k < 3)%nat -> Vnorm (Ccol L k) <= Rabs (Mdet L).
  Proof using NF.
    intro Hk. destruct rows_le as (H1 & H2 & H3). pose proof flat_det as D. apply (Rmult_le_reg_l (Rabs (Mdet L))); [exact D|]. rewrite <- Vnorm_scal.
    assert (X : Vscal (Mdet L) (Ccol L 0) = Vcross r2 r3 /\ Vscal (Mdet L) (Ccol L 1) = Vcross r3 r1 /\ Vscal (Mdet L) (Ccol L 2) = Vcross r1 r2).
    { unfold r1, r2, r3. clear. destruct L as [a b c d e f g h i]. unfold Vscal, Vcross, Ccol, Mdet. cbn [vx vy vz m11 m12 m13 m21 m22 m23 m31 m32 m33]. repeat split; apply (@vec_ext R); cbn [vx vy vz]; ring. }
    pose proof (Vnorm_nonneg r1). pose proof (Vnorm_nonneg r2). pose proof (Vnorm_nonneg r3).
    destruct X as (X1 & X2 & X3). destruct k as [|[|[|k]]]; [rewrite X1|rewrite X2|rewrite X3|lia]; (eapply Rle_trans; [apply Vcross_le|apply Rmult_le_compat; auto]).
  Qed.
  Lemma flat_det1 : 1 <= Rabs (Mdet L).
  Proof using NF.
    pose proof (flat_cols 0 ltac:(lia)) as H. destruct (Ccol_app L 0 ltac:(lia)) as (e & He & E). rewrite E in H. assert (1 <= Vnorm (Mapp L (VofZ e))); [|lra]. apply flat_vector. unfold units3 in He. cbn [In] in He. intros ->. destruct He as [X|[X|[X|[]]]]; discriminate X.
  Qed.
End Flat.
