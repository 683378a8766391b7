(** C54, C56, C76, C77: the space group table and identification *)
From Coq Require Import ZArith Reals String Ascii List Bool Lia Lra Permutation.
From Verif Require Import Num Mat DataCore DataSG SymmOp Analyzer RInst Spec Spec2 PSymmOp PSpaceGroup2 PCode PTables PIdentify Prop4.
Import ListNotations.
Open Scope R_scope.

(** C54. *)
Theorem C54_tabulated_groups :
  forall ls order n codes, tabulated ls order n codes ->
    (1 <= n <= 230)%Z /\ order = Z.of_nat (List.length codes) /\ (order <= 48)%Z /\
    (exists symbol, am_get Z.eqb n SG_NUM_TO_SYMBOL = Some symbol /\ operation_group (map (code_op (has_char "A"%char symbol)) codes)) /\
    (forall ls' order' codes', tabulated ls' order' n codes' -> ls' = ls /\ order' = order /\ codes' = codes).
Proof.
  intros ls order n codes H. apply sg_entries_In in H. destruct (entry_facts _ _ _ _ H) as (sym & E & G & L & B & R1).
  split; [exact R1|]. split; [exact L|]. split; [exact B|]. split; [eauto|].
  intros ls' order' codes' H'. apply sg_entries_In in H'. pose proof (number_unique _ _ H H' eq_refl) as Q. now injection Q as <- <- <-.
Qed.
Print Assumptions C54_tabulated_groups.
Theorem C54_every_number_tabulated :
  forall n, (1 <= n <= 230)%Z -> exists ls order codes, tabulated ls order n codes.
Proof.
  intros n Hn. destruct (numbers_all n Hn) as (ls & order & codes & H). exists ls, order, codes. now apply sg_entries_In.
Qed.
Print Assumptions C54_every_number_tabulated.
(** I4_1/amd (number 141): sixteen operations, the product of its 4_1 axis with itself is in the list *)
Example C54_example : exists ls order codes, tabulated ls order 141 codes /\ order = 16%Z.
Proof.
  destruct (C54_every_number_tabulated 141 ltac:(lia)) as (ls & order & codes & H). exists ls, order, codes. split; [exact H|].
  apply sg_entries_In in H. assert (E : existsb (fun e => (snd (fst e) =? 141)%Z && (snd (fst (fst e)) =? 16)%Z) sg_entries = true) by (vm_compute; reflexivity).
  apply existsb_exists in E. destruct E as ([[[l o] m] c] & HI & E). cbn in E. apply andb_true_iff in E. destruct E as [E1 E2].
  apply Z.eqb_eq in E1, E2. subst. pose proof (number_unique _ _ H HI eq_refl) as Q. now injection Q as _ -> _.
Qed.

(** C56. *)
Theorem C56_identify_order_independent :
  forall (tols : vec R) (HO HO' : HashOrd) path path' (ops : list (@symmop RNum)) ls,
    0 < vx tols <= 1 / 24 -> 0 < vy tols <= 1 / 24 -> 0 < vz tols <= 1 / 24 -> NoDup (map (@rotation RNum) ops) ->
    @identify_space_group RNum HO path ops ls tols = @identify_space_group RNum HO' path' ops ls tols.
Proof. intros tols HO HO' path path' ops ls T1 T2 T3 HN. now apply identify_any_order. Qed.
Print Assumptions C56_identify_order_independent.

(** C76. *)
Theorem C76_identify_complete :
  forall (tols : vec R) (HO : HashOrd) path (ops : list (@symmop RNum)) ls order n codes sym,
    0 < vx tols <= 1 / 24 -> 0 < vy tols <= 1 / 24 -> 0 < vz tols <= 1 / 24 ->
    tabulated ls order n codes -> am_get Z.eqb n SG_NUM_TO_SYMBOL = Some sym ->
    NoDup (map (@rotation RNum) ops) -> List.length ops = List.length codes ->
    (forall op, In op ops -> exists code, In code codes /\ rotation op = fst (code_op (has_char "A"%char sym) code) /\
       near3 tols (translation op) (in_twelfths (snd (code_op (has_char "A"%char sym) code)))) ->
    @identify_space_group RNum HO path ops ls tols = Ok (Some (n, sym)).
Proof.
  intros tols HO path ops ls order n codes sym T1 T2 T3 HT ES HN HL HF.
  apply (identify_complete HO path tols ops ls order n codes sym); auto; [now apply sg_entries_In|].
  intros op Hop. destruct (HF op Hop) as (code & Hc & E1 & E2). exists (code_op (has_char "A"%char sym) code).
  split; [unfold group_ops; now apply in_map|auto].
Qed.
Print Assumptions C76_identify_complete.

(** C77.  Every one of the 230 tabulated lists is identified as its own number, for every hash order. *)
Theorem C77_tables_identified :
  forall (tols : vec R) (HO : HashOrd) path ls order n codes sym,
    0 < vx tols <= 1 / 24 -> 0 < vy tols <= 1 / 24 -> 0 < vz tols <= 1 / 24 ->
    tabulated ls order n codes -> am_get Z.eqb n SG_NUM_TO_SYMBOL = Some sym ->
    @identify_space_group RNum HO path
      (map (fun c => SymmOp (N := RNum) (fst (code_op (has_char "A"%char sym) c)) (in_twelfths (snd (code_op (has_char "A"%char sym) c)))) codes)
      ls tols = Ok (Some (n, sym)).
Proof.
  intros tols HO path ls order n codes sym T1 T2 T3 HT ES.
  destruct (C54_tabulated_groups _ _ _ _ HT) as (_ & _ & _ & (sym' & ES' & G) & _). rewrite ES in ES'. injection ES' as <-.
  apply (C76_identify_complete tols HO path _ ls order n codes sym); auto.
  - rewrite map_map. cbn [rotation]. rewrite <- (map_map (code_op (has_char "A"%char sym)) fst). exact (og_rotations _ G).
  - now rewrite map_length.
  - intros op Hop. apply in_map_iff in Hop. destruct Hop as (c & <- & Hc). exists c. split; [exact Hc|]. split; [reflexivity|].
    apply near3_refl. repeat split; lra.
Qed.
Print Assumptions C77_tables_identified.
(** C56, C76 and C77 for P-1, the centre of symmetry displaced by 1/100 *)
Example C56_C76_example : forall (HO : HashOrd) path,
  @identify_space_group RNum HO path
    [SymmOp (N := RNum) ZMid (V 0 0 0); SymmOp (N := RNum) (M (-1) 0 0 0 (-1) 0 0 0 (-1))%Z (V (1 / 100) 0 3)] Triclinic
    (V (1 / 24) (1 / 24) (1 / 24)) = Ok (Some (2%Z, "P-1"%string)).
Proof.
  intros HO path. apply (C76_identify_complete _ HO path _ Triclinic 2 2 [16484; 3198]%Z); cbn [vx vy vz]; try lra.
  - apply sg_entries_In, existsb_entry. vm_compute. reflexivity.
  - vm_compute. reflexivity.
  - cbn [map rotation]. constructor; [intros [Q|[]]; discriminate|]. constructor; [intros []|constructor].
  - reflexivity.
  - intros op [<-|[<-|[]]].
    + exists 16484%Z. split; [now left|]. split; [reflexivity|]. change (snd _) with (V 0 0 0)%Z. unfold near3, near1, in_twelfths. cbn.
      repeat split; exists 0%Z; apply Rabs_def1; lra.
    + exists 3198%Z. split; [right; now left|]. split; [reflexivity|]. change (snd _) with (V 0 0 0)%Z. unfold near3, near1, in_twelfths. cbn.
      repeat split; [exists 0%Z|exists 0%Z|exists 3%Z]; apply Rabs_def1; lra.
Qed.
