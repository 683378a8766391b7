(** One lattice of each of the 44 lattice characters: the symmetry assumed for a character is that of its lattices. *)
From Coq Require Import ZArith Reals String List Bool Lia Lra.
From Verif Require Import Num Mat DataCore SymmOp SpaceGroup Structure Analyzer RInst Spec Spec3 Spec5 Spec6 Spec9 RFacts PSymmOp PStructure PSearch4 Prop5 PEnd9 PChar2.
Import ListNotations.
Open Scope R_scope.

(** C113.  Each row of the table of characters is met, and its Bravais type has as many isometries as the lattice. *)
Theorem C113_character_symmetry :
  forall n symbol g (u : R) (s : @structure RNum), In (n, symbol, g) character_metrics -> metric_is u g (lattice s) -> 1 <= u -> 0 < Mdet (lattice s) ->
    @get_lattice_character RNum s (1 / 100000) = Ok n /\
    (exists b, am_get Z.eqb n LATTICE_CHAR_TO_BRAVAIS = Some b /\ bravais_to_string b = symbol) /\
    exists rots, NoDup rots /\ List.length rots = holohedry_order symbol /\ forall r, lattice_isometry (lattice s) r <-> In r rots.
Proof.
  intros n symbol g u s H EG Hu HD. split; [exact (metric_character_found n symbol g u s H Hu EG HD)|]. destruct (metric_facts n symbol g H) as (b & EB & ES & _ & L1 & _ & ND & IS & _).
  split; [exists b; auto|]. exists (isometries (as6 g) (as6 g) 2). split; [exact ND|]. split; [exact L1|]. intro r. rewrite <- IS. apply (metric_isometry u); [lra|]. apply metric_as6, EG.
Qed.
Print Assumptions C113_character_symmetry.
(** C113, the whole run: a one-atom crystal with that lattice is answered the largest group of its Bravais type, with all isometries of the lattice. *)
Theorem C113_elements_identified :
  forall (P : @Pinv RNum) (HO : HashOrd) fuel path (dtol u : R) (s : @structure RNum) (e : string) n symbol g (k : vec Z) N sym,
    pinv_inverts P -> (48 <= fuel)%nat -> 1 <= u <= 10000 -> 1 / 100000 <= dtol <= 1 / 40 ->
    In (n, symbol, g) character_metrics -> metric_is u g (lattice s) -> frac_coords s = [VofZ k] -> species s = [e] ->
    lattice_group symbol = Some (N, sym) ->
    exists ops, @get_space_group_info RNum P HO fuel path dtol s = Ok (N, sym, ops) /\ List.length ops = holohedry_order symbol /\
      (forall op, In op ops -> lattice_isometry (lattice s) (rotation op) /\ modulo_within (1 / 100000000) (translation op) (V 0 0 0)) /\
      (forall r, lattice_isometry (lattice s) r -> exists op, In op ops /\ rotation op = r).
Proof. intros. eapply metric_run; eassumption. Qed.
Print Assumptions C113_elements_identified.
(** all 44 characters are there *)
Theorem C113_all_characters : forall n, (1 <= n <= 44)%Z -> exists symbol g, In (n, symbol, g) character_metrics.
Proof.
  intros n Hn. assert (Q : forallb (fun n => existsb (fun row => (fst (fst row) =? n)%Z) character_metrics) (map Z.of_nat (seq 1 44)) = true) by (vm_compute; reflexivity).
  rewrite forallb_forall in Q. specialize (Q n). rewrite existsb_exists in Q. destruct Q as (((n' & symbol) & g) & H & E).
  - apply in_map_iff. exists (Z.to_nat n). split; [lia|]. apply in_seq. lia.
  - apply Z.eqb_eq in E. cbn [fst] in E. subst n'. eauto.
Qed.
Print Assumptions C113_all_characters.

(** a body-centred tetragonal lattice of character 6 (metric 14, 14, 14, -4, -4, -6): I4/mmm with 16 operations *)
Definition character_6_cell : @structure RNum := Structure (N := RNum) (M (-3) 3 (-1) (-2) (-2) 2 (-1) 1 3) ["In"%string] [] [V 2 0 0].
Lemma character_6_metric : metric_is 2 (7, 7, 7, -2, -2, -3)%Z (lattice character_6_cell).
Proof. unfold metric_is, Mmul, Mtr. cbn. apply (@mat_ext R); cbn; lra. Qed.
Lemma character_6_in : In (6%Z, "tI"%string, (7, 7, 7, -2, -2, -3)%Z) character_metrics. Proof. unfold character_metrics. cbn [In]. tauto. Qed.
Example C113_example (HO : HashOrd) : exists ops, @get_space_group_info RNum cofactor_pinv HO 48 [] (1 / 50) character_6_cell = Ok (139%Z, "I4/mmm"%string, ops) /\ List.length ops = 16%nat.
Proof.
  destruct (C113_elements_identified cofactor_pinv HO 48 [] (1 / 50) 2 character_6_cell "In" 6 "tI" (7, 7, 7, -2, -2, -3)%Z (V 2 0 0)%Z 139 "I4/mmm") as (ops & O1 & O2 & _);
    [exact cofactor_pinv_ok|lia|lra|lra|exact character_6_in|exact character_6_metric|reflexivity|reflexivity|reflexivity|]. exists ops. split; [exact O1|exact O2].
Qed.
