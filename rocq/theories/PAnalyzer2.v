(** Proofs about the tables of the lattice characters, the standard cells and the identification. *)
From Coq Require Import ZArith Reals String Ascii List Bool Lia Lra Psatz Permutation.
From Flocq Require Import Core.Raux.
From Verif Require Import Num Mat Utils DataCore DataSG SymmOp Structure Reduce Analyzer RInst Spec Spec2 RFacts PUtils PSymmOp PStructure2 PNiggli PAnalyzer.
Import ListNotations.
Open Scope R_scope.

(** ** Tables *)
Definition zdivm (m : mat Z) (d : Z) : mat Z := mmap (fun x => Z.div x d) m.
Definition zscal (d : Z) (m : mat Z) : mat Z := mmap (Z.mul d) m.
(** everything the later stages look up for character [n] *)
Definition table_row (n : Z) : option (mat Z * bravais * ascii * centering * (mat Z * Z)) :=
  match am_get Z.eqb n LATTICE_CHAR_TO_CONV_TRANS, am_get Z.eqb n LATTICE_CHAR_TO_BRAVAIS with
  | Some T, Some b =>
      match last_char (bravais_to_string b), bravais_centering b with
      | Some l, Ok c => match am_get centering_eqb c CENTERING_TO_PRIM_TRANS with Some bd => Some (T, b, l, c, bd) | None => None end
      | _, _ => None
      end
  | _, _ => None
  end.
Definition row_check (n : Z) : bool :=
  match table_row n with
  | Some (T, b, l, c, (blk, d)) =>
      let W := ZMmul (transpose T) blk in let U := zdivm W d in
      zmat_eqb W (zscal d U) && (Z.abs (ZMdet U) =? 1)%Z && negb (d =? 0)%Z &&
      (ZMdet T =? (if n =? 17 then -1 else 1) * centering_multiplicity l)%Z && negb (ZMdet T =? 0)%Z
  | None => false
  end.
Lemma rows_checked : forallb row_check (map Z.of_nat (seq 1 44)) = true.
Proof. vm_compute. reflexivity. Qed.
Lemma in_numbers n : (1 <= n <= 44)%Z -> In n (map Z.of_nat (seq 1 44)).
Proof. intro H. apply in_map_iff. exists (Z.to_nat n). split; [apply Z2Nat.id; lia|apply in_seq; lia]. Qed.
Lemma row_facts n : (1 <= n <= 44)%Z -> exists T b l c blk d U,
  am_get Z.eqb n LATTICE_CHAR_TO_CONV_TRANS = Some T /\ am_get Z.eqb n LATTICE_CHAR_TO_BRAVAIS = Some b /\
  last_char (bravais_to_string b) = Some l /\ bravais_centering b = Ok c /\
  am_get centering_eqb c CENTERING_TO_PRIM_TRANS = Some (blk, d) /\
  ZMmul (transpose T) blk = zscal d U /\ d <> 0%Z /\ (ZMdet U = 1%Z \/ ZMdet U = (-1)%Z) /\ ZMdet T <> 0%Z /\
  ZMdet T = ((if n =? 17 then -1 else 1) * centering_multiplicity l)%Z.
Proof.
  intro H. pose proof (proj1 (forallb_forall _ _) rows_checked n (in_numbers n H)) as C. unfold row_check, table_row in C.
  destruct (am_get Z.eqb n LATTICE_CHAR_TO_CONV_TRANS) as [T|]; [|discriminate C].
  destruct (am_get Z.eqb n LATTICE_CHAR_TO_BRAVAIS) as [b|]; [|discriminate C].
  destruct (last_char (bravais_to_string b)) as [l|] eqn:EL; [|discriminate C].
  destruct (bravais_centering b) as [c|p|] eqn:EC; try discriminate C.
  destruct (am_get centering_eqb c CENTERING_TO_PRIM_TRANS) as [[blk d]|] eqn:EP; [|discriminate C].
  rewrite !andb_true_iff, !negb_true_iff in C. destruct C as ((((C1 & C2) & C3) & C4) & C5).
  exists T, b, l, c, blk, d, (zdivm (ZMmul (transpose T) blk) d). repeat (split; [auto; fail|]).
  split; [now apply zmat_eqb_spec|]. split; [now apply Z.eqb_neq|]. split; [apply Z.eqb_eq in C2; lia|].
  split; [now apply Z.eqb_neq|now apply Z.eqb_eq].
Qed.
Lemma prim_trans_R c blk d T U : am_get centering_eqb c CENTERING_TO_PRIM_TRANS = Some (blk, d) -> d <> 0%Z ->
  ZMmul (transpose T) blk = zscal d U ->
  exists P, @prim_trans_of RNum c = Some P /\ Mmul (Mtr (MofZ T)) P = MofZ U.
Proof.
  intros E D EU. unfold prim_trans_of. rewrite E. eexists. split; [reflexivity|].
  assert (D' : IZR d <> 0) by (intro X; apply D; now apply eq_IZR in X).
  change (@mdivs RNum (@mcast RNum blk) (@fofZ RNum d)) with (mmap (fun x => x / IZR d) (MofZ blk)).
  pose proof (f_equal MofZ EU) as ER. rewrite MofZ_mul in ER. change (MofZ (transpose T)) with (Mtr (MofZ T)) in ER.
  transitivity (Mscal (/ IZR d) (Mmul (Mtr (MofZ T)) (MofZ blk))).
  - unfold Mmul, Mscal, mmap. apply mat_ext; cbn [m11 m12 m13 m21 m22 m23 m31 m32 m33]; unfold Rdiv; ring.
  - rewrite ER. unfold Mscal, MofZ, zscal, mmap. apply mat_ext; cbn [m11 m12 m13 m21 m22 m23 m31 m32 m33];
      rewrite mult_IZR; field; exact D'.
Qed.

(** ** The epsilon of get_lattice_character *)
Lemma lattice_character_R (s : @structure RNum) (tol : R) : 0 < Mdet (lattice s) ->
  @get_lattice_character RNum s tol =
  let g := gram (lattice s) in
  @character_of RNum (tol * Rpower (Mdet (lattice s)) (1 / 3)) (m11 g) (m22 g) (m33 g) (m23 g) (m13 g) (m12 g).
Proof.
  intro H. unfold get_lattice_character, epsilon_of, volume. rewrite det_R. cbv zeta.
  change (@fcbrt RNum (Mdet (lattice s))) with (Rcbrt (Mdet (lattice s))). rewrite cbrt_pos by exact H.
  f_equal; unfold magnitude_squared, dot, gram, Mmul, Mtr, col0, col1, col2; cbn; ring.
Qed.
Lemma root_bounds V : 1 < V -> 0 < Rpower V (1 / 3) <= V.
Proof.
  intro H. split; [apply exp_pos|]. rewrite <- (Rpower_1 V) at 2 by lra. apply Rle_Rpower; lra.
Qed.
Ltac cust_lra :=
  repeat match goal with
  | |- context [@cust_eq RNum ?x ?y ?e] =>
      first [replace (@cust_eq RNum x y e) with true by (symmetry; apply cust_eq_spec; apply Rabs_le; cbn; lra)
            |replace (@cust_eq RNum x y e) with false
               by (symmetry; apply cust_eq_false; first [rewrite Rabs_pos_eq by (cbn; lra); cbn; lra
                                                        |rewrite Rabs_left by (cbn; lra); cbn; lra])]
  end.

(** ** Standard cells *)
Lemma bind_ok {A B} (r : res A) (k : A -> res B) b : bind r k = Ok b -> exists a, r = Ok a /\ k a = Ok b.
Proof. destruct r as [a|p|]; cbn [bind]; try discriminate. eauto. Qed.
Lemma of_opt_ok {A} p (o : option A) a : of_opt p o = Ok a -> o = Some a.
Proof. destruct o; cbn; congruence. Qed.
Ltac inv_bind H :=
  match type of H with
  | bind _ _ = Ok _ => let x := fresh "x" in let E := fresh "E" in apply bind_ok in H; destruct H as (x & E & H)
  end.
Lemma conventional_inv {N : Num} (s : structure) Tm n : conventional_transformation_matrix s = Ok (Tm, n) ->
  get_lattice_character s tol_1em5 = Ok n /\ (1 <= n <= 44)%Z /\
  exists T, am_get Z.eqb n LATTICE_CHAR_TO_CONV_TRANS = Some T /\ Tm = transpose (mcast T).
Proof.
  intro H. unfold conventional_transformation_matrix in H. inv_bind H. inv_bind H.
  apply of_opt_ok in E0. injection H as <- ->. split; [exact E|]. split; [|eauto].
  unfold get_lattice_character in E.
  match type of E with character_of ?a ?b ?c ?d ?e ?f ?g = _ =>
    destruct (character_of_range a b c d e f g) as [X|(m & X & HR)]; rewrite X in E; [discriminate E|] end.
  injection E as ->. exact HR.
Qed.
Lemma primitive_inv {N : Num} n Pm b : primitive_transformation_matrix n = Ok (Pm, b) ->
  am_get Z.eqb n LATTICE_CHAR_TO_BRAVAIS = Some b /\ exists c, bravais_centering b = Ok c /\ prim_trans_of c = Some Pm.
Proof.
  intro H. unfold primitive_transformation_matrix in H. inv_bind H. inv_bind H. inv_bind H. injection H as <- ->.
  apply of_opt_ok in E. apply of_opt_ok in E1. eauto.
Qed.
Lemma tol_R : @tol_1em5 RNum = 1 / 100000. Proof. reflexivity. Qed.
Lemma in_lattice_mul L T v : in_lattice (Mmul L (MofZ T)) v -> in_lattice L v.
Proof. intros (n & ->). exists (ZMapp T n). now rewrite MofZ_app, Mapp_Mmul. Qed.
Lemma same_lattice_trans a b c : same_lattice a b -> same_lattice b c -> same_lattice a c.
Proof. intros H1 H2 v. now rewrite (H1 v), (H2 v). Qed.

Lemma standard_conventional (P : @Pinv RNum) (H : HashOrd) fuel path (dtol : R) (s s' : @structure RNum) :
  @get_standard_conventional_structure RNum P H fuel path dtol s = Ok s' ->
  exists p r Tm n T b l, @find_primitive_cell RNum P H path dtol s = Ok p /\ @niggli_reduce RNum P dtol p (1 / 100000) = Ok r /\
    @conventional_transformation_matrix RNum r = Ok (Tm, n) /\
    Tm = Mtr (MofZ T) /\ lattice s' = Mmul (lattice r) Tm /\ am_get Z.eqb n LATTICE_CHAR_TO_BRAVAIS = Some b /\
    last_char (bravais_to_string b) = Some l /\ ZMdet T = ((if n =? 17 then -1 else 1) * centering_multiplicity l)%Z.
Proof.
  intro E0. unfold get_standard_conventional_structure in E0. inv_bind E0. inv_bind E0. inv_bind E0. destruct x1 as [Tm n].
  apply apply_transformation_sound in E0. destruct E0 as (_ & EL & _).
  destruct (conventional_inv _ _ _ E2) as (_ & HR & T & ET & EM).
  destruct (row_facts n HR) as (T' & b & l & c & blk & d & U & E3 & E4 & E5 & _ & _ & _ & _ & _ & _ & E6).
  rewrite ET in E3. injection E3 as <-. exists x, x0, Tm, n, T, b, l. rewrite <- tol_R. auto 10.
Qed.
Lemma standard_primitive (P : @Pinv RNum) (H : HashOrd) fuel path (dtol : R) (s s' : @structure RNum) :
  @get_standard_primitive_structure RNum P H fuel path dtol s = Ok s' ->
  exists p r U, @find_primitive_cell RNum P H path dtol s = Ok p /\ @niggli_reduce RNum P dtol p (1 / 100000) = Ok r /\
    (ZMdet U = 1%Z \/ ZMdet U = (-1)%Z) /\ lattice s' = Mmul (lattice r) (MofZ U).
Proof.
  intro E0. unfold get_standard_primitive_structure in E0. inv_bind E0. inv_bind E0. inv_bind E0. destruct x1 as [Tm n].
  inv_bind E0. inv_bind E0. destruct x2 as [Pm b].
  apply apply_transformation_sound in E0. destruct E0 as (_ & EL & _).
  apply apply_transformation_sound in E3. destruct E3 as (_ & EL' & _).
  destruct (conventional_inv _ _ _ E2) as (_ & HR & T & ET & EM).
  destruct (primitive_inv _ _ _ E4) as (Eb & c & Ec & Ep).
  destruct (row_facts n HR) as (T' & b' & l & c' & blk & d & U & F1 & F2 & F3 & F4 & F5 & F6 & F7 & F8 & _ & _).
  rewrite ET in F1. injection F1 as <-. rewrite Eb in F2. injection F2 as <-. rewrite Ec in F4. injection F4 as <-.
  destruct (prim_trans_R c blk d T U F5 F7 F6) as (Pm' & EP' & EU). rewrite Ep in EP'. injection EP' as <-.
  exists x, x0, U. rewrite <- tol_R. split; [exact E|]. split; [exact E1|]. split; [exact F8|].
  rewrite EL, EL', Mmul_assoc, EM. change (transpose (@mcast RNum T)) with (Mtr (MofZ T)). now rewrite EU.
Qed.

(** ** Identification *)
Lemma identify_loop_some {N : Num} (ops : list symmop) (tols : vec num) groups n sym :
  identify_loop ops tols groups = Ok (Some (n, sym)) ->
  exists codes cands, In (n, codes) groups /\ am_get Z.eqb n SG_NUM_TO_SYMBOL = Some sym /\
    map_res (candidate_op (has_char "A"%char sym)) codes = Ok cands /\ all_found ops cands tols = true.
Proof.
  induction groups as [|[k codes] t IH]; cbn [identify_loop]; intro E; [discriminate E|].
  inv_bind E. inv_bind E. apply of_opt_ok in E0. destruct (all_found ops x0 tols) eqn:EA.
  - injection E as -> ->. exists codes, x0. split; [now left|auto].
  - destruct (IH E) as (c & cs & HI & Q). exists c, cs. split; [now right|exact Q].
Qed.
Lemma map_res_in {A B} (f : A -> res B) l ys y : map_res f l = Ok ys -> In y ys -> exists x, In x l /\ f x = Ok y.
Proof.
  revert ys. induction l as [|a l IH]; cbn [map_res]; intros ys E Hy; [injection E as <-; destruct Hy|].
  inv_bind E. inv_bind E. injection E as <-. destruct Hy as [<-|Hy]; [exists a; split; [now left|auto]|].
  destruct (IH _ E1 Hy) as (z & Hz & Ez). exists z. split; [now right|auto].
Qed.
Lemma identify_some {N : Num} {H : HashOrd} path (ops : list symmop) ls (tols : vec num) n sym :
  identify_space_group path ops ls tols = Ok (Some (n, sym)) ->
  exists buckets groups codes, am_get lattice_system_eqb ls SG_NUM_TO_FULL_MATRICES = Some buckets /\
    am_get Z.eqb (Z.of_nat (List.length ops) mod 256)%Z buckets = Some groups /\ In (n, codes) groups /\
    am_get Z.eqb n SG_NUM_TO_SYMBOL = Some sym /\
    forall op, In op ops -> exists code c, In code codes /\ candidate_op (has_char "A"%char sym) code = Ok c /\
      is_approx_eq op c tols = true.
Proof.
  intro E. unfold identify_space_group in E. inv_bind E. inv_bind E. apply of_opt_ok in E0. apply of_opt_ok in E1.
  apply identify_loop_some in E. destruct E as (codes & cands & HI & ES & EC & EA).
  exists x, x0, codes. split; [exact E0|]. split; [exact E1|].
  split; [apply (Permutation_in _ (hord_perm path _ x0)); exact HI|]. split; [exact ES|].
  intros op Hop. unfold all_found in EA. rewrite forallb_forall in EA. specialize (EA op Hop).
  apply existsb_exists in EA. destruct EA as (c & Hc & EQ). destruct (map_res_in _ _ _ _ EC Hc) as (code & Hcode & Ecode). eauto.
Qed.
Lemma am_get_in {K V} (keq : K -> K -> bool) k m (v : V) : am_get keq k m = Some v -> exists k', keq k k' = true /\ In (k', v) m.
Proof.
  induction m as [|[k' v'] t IH]; cbn [am_get]; [discriminate|]. destruct (keq k k') eqn:E.
  - intros [= ->]. exists k'. split; [exact E|now left].
  - intro H. destruct (IH H) as (k2 & H1 & H2). exists k2. split; [exact H1|now right].
Qed.
Definition rhombohedral_numbers : list Z := [146; 148; 155; 160; 161; 166; 167]%Z.
Definition bucket_check (p : lattice_system * list (Z * list (Z * list Z))) : bool :=
  forallb (fun q => forallb (fun g => Bool.eqb (lattice_system_eqb (fst p) Rhombohedral) (existsb (Z.eqb (fst g)) rhombohedral_numbers)) (snd q)) (snd p).
Lemma buckets_checked : forallb bucket_check SG_NUM_TO_FULL_MATRICES = true.
Proof. vm_compute. reflexivity. Qed.
Lemma lattice_system_eqb_spec a b : lattice_system_eqb a b = true <-> a = b.
Proof. split; [destruct a, b; (reflexivity || discriminate)|intros ->; now destruct b]. Qed.
Lemma bucket_numbers ls buckets k groups n codes :
  am_get lattice_system_eqb ls SG_NUM_TO_FULL_MATRICES = Some buckets -> am_get Z.eqb k buckets = Some groups -> In (n, codes) groups ->
  (ls = Rhombohedral <-> In n rhombohedral_numbers).
Proof.
  intros H1 H2 H3. apply am_get_in in H1. destruct H1 as (ls' & E1 & H1). apply lattice_system_eqb_spec in E1. subst ls'.
  apply am_get_in in H2. destruct H2 as (k' & _ & H2).
  pose proof (proj1 (forallb_forall _ _) buckets_checked _ H1) as C. unfold bucket_check in C.
  pose proof (proj1 (forallb_forall _ _) C _ H2) as C'. pose proof (proj1 (forallb_forall _ _) C' _ H3) as C''. cbn [fst snd] in C''.
  apply eqb_prop in C''. rewrite <- lattice_system_eqb_spec. rewrite C''. rewrite existsb_exists. split.
  - intros (x & Hx & E). apply Z.eqb_eq in E. now subst.
  - intro Hn. exists n. split; [exact Hn|apply Z.eqb_refl].
Qed.
Lemma never_rhombohedral b : bravais_lattice_system b <> Ok Rhombohedral.
Proof. destruct b; vm_compute; discriminate. Qed.
(** ** The number and symbol returned come from identify_space_group *)
Lemma info_inv {N : Num} {P : Pinv} {HO : HashOrd} fuel path (dtol : num) (s : structure) n sym ops :
  get_space_group_info fuel path dtol s = Ok (n, sym, ops) ->
  exists b sg ls tols, bravais_lattice_system b = Ok ls /\ identify_space_group (2%nat :: path) sg ls tols = Ok (Some (n, sym)).
Proof.
  unfold get_space_group_info. intro E. inv_bind E. inv_bind E. inv_bind E. destruct x1 as [ct lc]. inv_bind E. inv_bind E. destruct x2 as [pt b].
  inv_bind E. inv_bind E. cbv zeta in E. inv_bind E. inv_bind E. inv_bind E. inv_bind E. destruct x7 as [n' sym']. inv_bind E. inv_bind E. inv_bind E. inv_bind E. inv_bind E.
  injection E as <- <- <-. exists b. do 3 eexists. split; [eassumption|].
  match goal with Q : of_opt PIdentify _ = Ok _ |- _ => apply of_opt_ok in Q; subst end. eassumption.
Qed.
