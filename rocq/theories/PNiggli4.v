(** Reducer::niggli_reduce on metrics with a common unit: the loop computed on the integers (reduce.rs 214-398) *)
From Coq Require Import ZArith Reals String List Bool Lia Lra Psatz.
From Verif Require Import Num Mat Utils Structure Reduce RInst Spec RFacts PUtils PStructure PNiggli PNiggli2 PNiggli3.
Import ListNotations.
Open Scope R_scope.

Section Compute.
  Local Open Scope Z_scope.
  Definition zc1b g := (zb g <? za g) || ((za g =? zb g) && (Z.abs (ze g) <? Z.abs (zd g))).
  Definition zc2b g := (zc g <? zb g) || ((zb g =? zc g) && (Z.abs (zf g) <? Z.abs (ze g))).
  Definition zc5b g := (zb g <? 2 * Z.abs (zd g)) || ((2 * zd g =? zb g) && (2 * ze g <? zf g)) || ((2 * zd g =? - zb g) && (zf g <? 0)).
  Definition zc6b g := (za g <? 2 * Z.abs (ze g)) || ((2 * ze g =? za g) && (2 * zd g <? zf g)) || ((2 * ze g =? - za g) && (zf g <? 0)).
  Definition zc7b g := (za g <? 2 * Z.abs (zf g)) || ((2 * zf g =? za g) && (2 * zd g <? ze g)) || ((2 * zf g =? - za g) && (ze g <? 0)).
  Definition zc8b g := (zsum g <? 0) || ((zsum g =? 0) && (0 <? za g + 2 * ze g + zf g)).
  Lemma zc1b_spec g : reflect (zc1 g) (zc1b g).
  Proof. apply iff_reflect. unfold zc1, zc1b. rewrite orb_true_iff, andb_true_iff, !Z.ltb_lt, Z.eqb_eq. tauto. Qed.
  Lemma zc2b_spec g : reflect (zc2 g) (zc2b g).
  Proof. apply iff_reflect. unfold zc2, zc2b. rewrite orb_true_iff, andb_true_iff, !Z.ltb_lt, Z.eqb_eq. tauto. Qed.
  Lemma zc5b_spec g : reflect (zc5 g) (zc5b g).
  Proof. apply iff_reflect. unfold zc5, zc5b. rewrite !orb_true_iff, !andb_true_iff, !Z.ltb_lt, !Z.eqb_eq. tauto. Qed.
  Lemma zc6b_spec g : reflect (zc6 g) (zc6b g).
  Proof. apply iff_reflect. unfold zc6, zc6b. rewrite !orb_true_iff, !andb_true_iff, !Z.ltb_lt, !Z.eqb_eq. tauto. Qed.
  Lemma zc7b_spec g : reflect (zc7 g) (zc7b g).
  Proof. apply iff_reflect. unfold zc7, zc7b. rewrite !orb_true_iff, !andb_true_iff, !Z.ltb_lt, !Z.eqb_eq. tauto. Qed.
  Lemma zc8b_spec g : reflect (zc8 g) (zc8b g).
  Proof. apply iff_reflect. unfold zc8, zc8b. rewrite !orb_true_iff, !andb_true_iff, !Z.ltb_lt, !Z.eqb_eq. tauto. Qed.
  Definition zpre_f g := if zc1b g then swap12 g else g.
  Definition zmid_f g := if 0 <? zd g * ze g * zf g then absI g else absII g.
  Definition zpost_f g := if zc5b g then (true, m5 g (zsg (zd g))) else if zc6b g then (true, m6 g (zsg (ze g))) else if zc7b g then (true, m7 g (zsg (zf g)))
    else if zc8b g then (true, m8 g) else (false, g).
  Definition zstep_f g := let g1 := zpre_f g in if zc2b g1 then (true, swap23 g1) else zpost_f (zmid_f g1).
  Fixpoint znig (n : nat) (g : z6) : option z6 :=
    match n with O => None | S k => let '(c, g') := zstep_f g in if c then znig k g' else Some g' end.
  Lemma zpre_eq g h : zpre g h -> h = zpre_f g.
  Proof. unfold zpre, zpre_f. destruct (zc1b_spec g); tauto. Qed.
  Lemma zmid_eq g h : zmid g h -> h = zmid_f g.
  Proof.
    intros [(i & j & k & Hi & Hj & Hk & Hp & ->) S]. cbn [zd ze zf] in S. unfold zmid_f, absI, absII.
    destruct (Z.ltb_spec 0 (zd g * ze g * zf g)) as [L|L].
    - assert (X : 0 < (i * zd g) * (j * ze g) * (k * zf g)) by (replace ((i * zd g) * (j * ze g) * (k * zf g)) with (i * j * k * (zd g * ze g * zf g)) by ring; rewrite Hp; lia).
      destruct S as [S|S]; [|exfalso; assert (0 <= (i * zd g) * (j * ze g)) by nia; nia].
      f_equal; lia.
    - assert (X : (i * zd g) * (j * ze g) * (k * zf g) <= 0) by (replace ((i * zd g) * (j * ze g) * (k * zf g)) with (i * j * k * (zd g * ze g * zf g)) by ring; rewrite Hp; lia).
      destruct S as [S|S]; [exfalso; assert (0 < (i * zd g) * (j * ze g)) by nia; nia|]. f_equal; lia.
  Qed.
  Lemma zpost_eq g c h : zpost g c h -> (c, h) = zpost_f g.
  Proof.
    unfold zpost, zpost_f. destruct (zc5b_spec g), (zc6b_spec g), (zc7b_spec g), (zc8b_spec g); intros [Q|[Q|[Q|[Q|Q]]]]; try tauto; destruct Q as (? & Q);
      repeat match goal with H : _ /\ _ |- _ => destruct H end; subst; reflexivity.
  Qed.
  Lemma zstep_eq g c h : (c = true /\ zsort g h) \/ zmain g c h -> (c, h) = zstep_f g.
  Proof.
    unfold zstep_f. intros [[-> (g1 & P1 & C2 & ->)]|(g1 & g2 & P1 & C2 & M & Po)]; apply zpre_eq in P1; subst g1; cbv zeta; destruct (zc2b_spec (zpre_f g)); try tauto.
    apply zmid_eq in M. subst g2. now apply zpost_eq.
  Qed.
End Compute.

Lemma niggli_loop_Z (u eps : R) n : 0 < u -> 0 < eps < u -> eps < 1 -> forall g (T : mat R),
  match znig n g with Some g' => exists T', @niggli_loop RNum n eps (zmet u g, T) = Ok (zmet u g', T') | None => @niggli_loop RNum n eps (zmet u g, T) = Panic PNiggli end.
Proof.
  intros Hu He E1. induction n as [|n IH]; intros g T; [reflexivity|]. destruct (zstep u eps Hu He g T E1) as (c & g' & T' & EQ & H). apply zstep_eq in H.
  cbn [znig]. rewrite <- H. rewrite (loop_S eps n _ _ _ EQ). destruct c; [apply IH|eauto].
Qed.
Lemma niggli_reduce_Z (P : @Pinv RNum) (dtol u : R) (s : @structure RNum) (tol : R) g g' : 0 < u -> gram (lattice s) = zmet u g -> 0 < Mdet (lattice s) ->
  let eps := tol * Rpower (Mdet (lattice s)) (1 / 3) in 0 < eps < u -> eps < 1 -> znig 100 g = Some g' ->
  exists q, @niggli_reduce RNum P dtol s tol = Ok q /\ gram (lattice q) = zmet u g'.
Proof.
  intros Hu EG HD eps He H1 EZ. pose proof (niggli_loop_Z u eps 100 Hu He H1 g Mid) as Q. rewrite EZ in Q. destruct Q as (T' & EL).
  rewrite niggli_reduce_eq, cbrt_pos by exact HD. fold eps. rewrite EG, EL. cbn [snd]. eexists. split; [reflexivity|].
  rewrite rebuilt_lattice. rewrite <- EG in EL. apply (loop_spec 100 eps (gram (lattice s))) in EL; [|lra|].
  - destruct EL as ((T & _ & E1 & E2) & _). cbn [fst snd] in E1, E2. rewrite E2. rewrite E1. unfold gram. rewrite Mtr_mul. unfold rcongr. now rewrite !Mmul_assoc.
  - exists ZMid. split; [reflexivity|]. rewrite MofZ_id. split; [reflexivity|]. unfold rcongr. cbn [fst]. change (Mtr Mid) with Mid. now rewrite Mmul_id_l, Mmul_id_r.
Qed.
