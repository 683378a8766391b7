(** get_space_group_info taken apart *)
From Coq Require Import ZArith Reals String Ascii List Bool Lia Lra Permutation.
From Verif Require Import Num Mat Utils DataCore DataPG DataSG SymmOp PointGroup SpaceGroup Structure Reduce Analyzer RInst
  Spec Spec2 RFacts PUtils PSymmOp PPointGroup PPointGroup2 PStructure PStructure2 PAnalyzer PAnalyzer2 Prop5.
Import ListNotations.
Open Scope R_scope.

(** the first half, up to the search *)
Record stages {N : Num} {P : Pinv} {H : HashOrd} (fuel : nat) (path : list nat) (dtol : num) (s p q std : structure)
    (Tm Pm : mat num) (n : Z) (b : bravais) : Prop := {
  st_prim : find_primitive_cell (0%nat :: path) dtol s = Ok p;
  st_niggli : niggli_reduce dtol p tol_1em5 = Ok q;
  st_conv : conventional_transformation_matrix q = Ok (Tm, n);
  st_bravais : primitive_transformation_matrix n = Ok (Pm, b);
  st_std : exists c, apply_transformation fuel q Tm dtol = Ok c /\ apply_transformation fuel c Pm dtol = Ok std }.

Lemma info_stages {N : Num} {P : Pinv} {H : HashOrd} fuel path (dtol : num) (s : structure) n sym ops :
  get_space_group_info fuel path dtol s = Ok (n, sym, ops) ->
  exists p q std Tm Pm ch b gens sg ls m1 m2 i1 i2,
    stages fuel path dtol s p q std Tm Pm ch b /\
    get_standard_primitive_structure fuel (0%nat :: path) dtol s = Ok std /\
    get_primitive_space_group_ops fuel (1%nat :: path) dtol std b = Ok gens /\
    from_generators fuel gens (frac_tols_of (lattice std) dtol) = Ok sg /\
    bravais_lattice_system b = Ok ls /\
    identify_space_group (2%nat :: path) sg ls (frac_tols_of (lattice std) dtol) = Ok (Some (n, sym)) /\
    get_transformation_matrix p s = Ok m1 /\ get_transformation_matrix q p = Ok m2 /\
    try_inverse Pm = Some i1 /\ try_inverse Tm = Some i2 /\
    sg_apply_transformation fuel sg (mmul (mmul (mmul i1 i2) m2) m1) (frac_tols_of (lattice std) dtol) = Ok ops.
Proof.
  unfold get_space_group_info. intro E. inv_bind E. inv_bind E. inv_bind E. destruct x1 as [ct lc]. inv_bind E. inv_bind E. destruct x2 as [pt b].
  inv_bind E. inv_bind E. cbv zeta in E. inv_bind E. inv_bind E. inv_bind E. inv_bind E. destruct x7 as [n' sym']. inv_bind E. inv_bind E. inv_bind E. inv_bind E. cbv zeta in E. inv_bind E.
  injection E as <- <- <-.
  repeat match goal with Q : of_opt _ _ = Ok _ |- _ => apply of_opt_ok in Q; subst end.
  exists x, x0, x2, ct, pt, lc, b. do 7 eexists.
  split; [constructor; [eassumption..|]; eexists; split; eassumption|].
  split; [|repeat (split; [eassumption|]); eassumption].
  unfold get_standard_primitive_structure. rewrite E0. cbn [bind]. rewrite E1. cbn [bind]. rewrite E2. cbn [bind].
  rewrite E3. cbn [bind]. rewrite E4. cbn [bind]. assumption.
Qed.

Lemma inverse_mul a b ai bi : inverse_of a ai -> inverse_of b bi -> inverse_of (Mmul a b) (Mmul bi ai).
Proof.
  intros [H1 H2] [H3 H4]. split.
  - rewrite Mmul_assoc, <- (Mmul_assoc b), H3, Mmul_id_l. exact H1.
  - rewrite Mmul_assoc, <- (Mmul_assoc ai), H2, Mmul_id_l. exact H4.
Qed.
Lemma try_inverse_inv (m i : mat R) : @try_inverse RNum m = Some i -> inverse_of m i.
Proof. intro E. apply try_inverse_some in E. destruct E as [D ->]. now apply Madj_inverse. Qed.
Lemma trans_matrix_inv (P : @Pinv RNum) (s s' : @structure RNum) T : pinv_inverts P -> well_conditioned (lattice s) ->
  @get_transformation_matrix RNum P s s' = Ok T -> Mmul (lattice s) T = lattice s'.
Proof.
  intros HP W E. destruct (HP _ W) as [I1 I2].
  assert (E' : @get_transformation_matrix RNum P s s' = Ok (Mmul (Madj_inv (lattice s)) (lattice s'))).
  { apply C28_transformation_matrix_recovered; [exact HP|exact W|]. left. rewrite <- Mmul_assoc.
    destruct (Madj_inverse (lattice s)) as [-> _]; [now apply well_conditioned_det|]. now rewrite Mmul_id_l. }
  rewrite E' in E. injection E as <-. rewrite <- Mmul_assoc. destruct (Madj_inverse (lattice s)) as [-> _]; [now apply well_conditioned_det|]. now rewrite Mmul_id_l.
Qed.
Lemma total_transformation (P : @Pinv RNum) (H : HashOrd) fuel path (dtol : R) (s p q std : @structure RNum) Tm Pm ch b m1 m2 i1 i2 :
  @stages RNum P H fuel path dtol s p q std Tm Pm ch b -> pinv_inverts P ->
  well_conditioned (lattice p) -> well_conditioned (lattice q) ->
  @get_transformation_matrix RNum P p s = Ok m1 -> @get_transformation_matrix RNum P q p = Ok m2 ->
  @try_inverse RNum Pm = Some i1 -> @try_inverse RNum Tm = Some i2 ->
  Mmul (lattice std) (Mmul (Mmul (Mmul i1 i2) m2) m1) = lattice s.
Proof.
  intros [_ _ _ _ (c & A1 & A2)] HP W1 W2 G1 G2 T1 T2.
  apply apply_transformation_sound in A1. destruct A1 as (_ & A1 & _).
  apply apply_transformation_sound in A2. destruct A2 as (_ & A2 & _).
  apply try_inverse_inv in T1. apply try_inverse_inv in T2. destruct T1 as [T1 _]. destruct T2 as [T2 _].
  apply trans_matrix_inv in G1; [|exact HP|exact W1]. apply trans_matrix_inv in G2; [|exact HP|exact W2].
  rewrite A2, A1. rewrite !Mmul_assoc. rewrite <- (Mmul_assoc Pm), T1, Mmul_id_l, <- (Mmul_assoc Tm), T2, Mmul_id_l.
  rewrite <- Mmul_assoc, G2. exact G1.
Qed.
