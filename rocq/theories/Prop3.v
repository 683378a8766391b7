(** C13 - C16: pointgroup.rs *)
From Coq Require Import ZArith Reals String List Bool Lia Lra Permutation.
From Verif Require Import Num Mat DataCore DataPG PointGroup Analyzer RInst Spec RFacts PPointGroup PPointGroup2.
Import ListNotations.
Open Scope Z_scope.

(** C13.  [universe] is any finite list holding all the products; its length bounds the rounds. *)
Theorem C13_generation_is_the_generated_set :
  forall (gens universe : list (mat Z)),
    (forall m, product_of gens m -> In m universe /\ i8_range m) ->
    (forall (H : HashOrd) path fuel, (List.length universe <= fuel)%nat ->
       exists ops, generate_operations fuel path gens = Ok ops /\ NoDup ops /\
                   forall m, In m ops <-> product_of gens m) /\
    (forall (H H' : HashOrd) path path' fuel fuel' ops ops',
       (List.length universe <= fuel)%nat -> (List.length universe <= fuel')%nat ->
       @generate_operations H fuel path gens = Ok ops -> @generate_operations H' fuel' path' gens = Ok ops' ->
       Permutation ops ops').
Proof.
  intros gens universe Hfin. split.
  - intros H path fuel Hf. exact (generate_operations_spec gens universe Hfin fuel path Hf).
  - intros H H' path path' fuel fuel' ops ops' Hf Hf' E E'.
    destruct (generate_operations_spec (H := H) gens universe Hfin fuel path Hf) as (o & Eo & No & Io).
    destruct (generate_operations_spec (H := H') gens universe Hfin fuel' path' Hf') as (o' & Eo' & No' & Io').
    rewrite E in Eo. rewrite E' in Eo'. injection Eo as <-. injection Eo' as <-.
    apply same_members_perm; auto. intro m. rewrite Io, Io'. tauto.
Qed.
Print Assumptions C13_generation_is_the_generated_set.
(** the fourfold axis with a mirror: the eight matrices of 4mm *)
Example C13_example :
  let gens := [M 0 (-1) 0 1 0 0 0 0 1; M (-1) 0 0 0 1 0 0 0 1] in
  exists universe, List.length universe = 8%nat /\
    (forall m, product_of gens m -> In m universe /\ i8_range m).
Proof.
  cbv zeta. set (gens := [M 0 (-1) 0 1 0 0 0 0 1; M (-1) 0 0 0 1 0 0 0 1]).
  exists (match @generate_operations hid 8 [] gens with Ok l => l | _ => [] end).
  split; [vm_compute; reflexivity|]. apply closedb_spec. vm_compute. reflexivity.
Qed.

(** C14. *)
Theorem C14_from_number_is_a_point_group :
  forall (H : HashOrd) (fuel : nat) (path : list nat) (n : Z), (48 <= fuel)%nat ->
    (1 <= n <= 32 ->
       exists pg order, pg_from_number fuel path n = Ok pg /\
         nth_error point_groups (Z.to_nat (n - 1)) = Some (pg_symbol pg, order) /\
         matrix_group (pg_operations pg) /\ List.length (pg_operations pg) = order /\
         incl (pg_generators pg) (pg_operations pg) /\
         (forall m, In m (pg_operations pg) -> product_of (pg_generators pg) m)) /\
    (~ (1 <= n <= 32) -> pg_from_number fuel path n = Panic PUnwrapNone).
Proof.
  intros H fuel path n Hf. split; [|apply pg_from_number_panics].
  intro Hn. destruct (pg_from_number_spec fuel path n Hf Hn) as (s & g & ops & o & E1 & E2 & E3 & P & G & L & I).
  exists (PointGroup s ops g), o. cbn [pg_symbol pg_operations pg_generators].
  repeat (split; [assumption|]). split; [eapply matrix_group_perm; eauto|].
  split; [rewrite <- L; symmetry; now apply Permutation_length|].
  split; [intros x Hx; apply I; now constructor|]. intros m Hm. now apply I.
Qed.
Print Assumptions C14_from_number_is_a_point_group.
(** number 30 is m-3m with 48 operations whatever the hash order *)
Example C14_example (H : HashOrd) :
  exists pg, pg_from_number 48 [] 30 = Ok pg /\ pg_symbol pg = "m-3m"%string /\ List.length (pg_operations pg) = 48%nat.
Proof.
  destruct (C14_from_number_is_a_point_group H 48 [] 30 (le_n _)) as [C _].
  destruct C as (pg & o & E & N & _ & L & _); [lia|]. exists pg. cbn in N. injection N as N1 N2. subst o. auto.
Qed.

(** C15. *)
Theorem C15_apply_transformation_conjugates :
  forall (pg : point_group) (T : mat R),
    (Mdet T = 0%R -> @pg_apply_transformation RNum pg T = Panic PTransNotInvertible) /\
    (forall Ti, inverse_of T Ti ->
       exists pg', @pg_apply_transformation RNum pg T = Ok pg' /\ pg_symbol pg' = pg_symbol pg /\
         List.length (pg_operations pg') = List.length (pg_operations pg) /\
         List.length (pg_generators pg') = List.length (pg_generators pg) /\
         (forall i r r', nth_error (pg_operations pg) i = Some r ->
            Mmul (Mmul Ti (MofZ r)) T = MofZ r' -> i8_range r' -> nth_error (pg_operations pg') i = Some r') /\
         (forall i r r', nth_error (pg_generators pg) i = Some r ->
            Mmul (Mmul Ti (MofZ r)) T = MofZ r' -> i8_range r' -> nth_error (pg_generators pg') i = Some r') /\
         ((forall r, In r (pg_operations pg) -> exists r', Mmul (Mmul Ti (MofZ r)) T = MofZ r' /\ i8_range r') ->
          (forall a b, In a (pg_operations pg) -> In b (pg_operations pg) -> In (ZMmul a b) (pg_operations pg)) ->
          (forall a b, In a (pg_operations pg') -> In b (pg_operations pg') -> In (ZMmul a b) (pg_operations pg')))).
Proof.
  intros pg T. split; [apply pg_apply_singular|]. intros Ti HI.
  pose proof (inverse_det _ _ HI) as D.
  eexists. split; [now apply pg_apply_ok|]. cbn [pg_symbol pg_operations pg_generators].
  split; [reflexivity|]. split; [apply map_length|]. split; [apply map_length|].
  assert (NE : forall l i r r', nth_error l i = Some r -> Mmul (Mmul Ti (MofZ r)) T = MofZ r' -> i8_range r' ->
     nth_error (map (@pg_transform_op RNum (Madj_inv T) T) l) i = Some r').
  { intros l i r r' Hi E Hr. rewrite <- (pg_transform_op_spec T Ti r r' HI E Hr).
    exact (map_nth_error (@pg_transform_op RNum (Madj_inv T) T) i l Hi). }
  split; [apply NE|]. split; [apply NE|].
  intros Hc. apply (conj_closed T Ti _ _ HI).
  induction (pg_operations pg) as [|r l IH]; constructor.
  - destruct (Hc r (or_introl eq_refl)) as (r' & E & Hr).
    unfold conj_rel. rewrite (pg_transform_op_spec T Ti r r' HI E Hr). exact E.
  - apply IH. intros x Hx. apply Hc. now right.
Qed.
Print Assumptions C15_apply_transformation_conjugates.
(** the fourfold axis of an F lattice, expressed in the primitive basis *)
Example C15_example :
  let T := (M 0 (/2) (/2) (/2) 0 (/2) (/2) (/2) 0)%R in
  let Ti := (M (-1) 1 1 1 (-1) 1 1 1 (-1))%R in
  inverse_of T Ti /\ Mmul (Mmul Ti (MofZ (M 0 (-1) 0 1 0 0 0 0 1))) T = MofZ (M 1 1 1 0 0 (-1) (-1) 0 0).
Proof. cbv zeta. split; [split|]; apply mat_ext; cbn; lra. Qed.

(** C16. *)
Theorem C16_holohedries_integral_in_primitive_basis :
  forall (H : HashOrd) (fuel : nat) (path : list nat) (b : bravais), (48 <= fuel)%nat ->
    exists n c P Pi pg pg',
      am_get bravais_eqb b BRAVAIS_TO_HOLOHEDRY_NUM = Some n /\
      bravais_centering b = Ok c /\ @prim_trans_of RNum c = Some P /\ inverse_of P Pi /\
      pg_from_number fuel path n = Ok pg /\ @pg_apply_transformation RNum pg P = Ok pg' /\
      matrix_group (pg_operations pg) /\ matrix_group (pg_operations pg') /\
      Forall2 (fun r r' => Mmul (Mmul Pi (MofZ r)) P = MofZ r') (pg_operations pg) (pg_operations pg').
Proof.
  intros H fuel path b Hf. destruct (holo_spec fuel path b Hf) as (n & c & P & Pi & pg & pg' & Q).
  exists n, c, P, Pi, pg, pg'. unfold conj_rel in Q. tauto.
Qed.
Print Assumptions C16_holohedries_integral_in_primitive_basis.
(** for cF: 48 operations, all entries of the primitive matrices in {-1,0,1} *)
Example C16_example :
  match prim_block cF with
  | Some (n, (blk, _)) => n = 30 /\ List.length (map (zconj blk) (pg_table n)) = 48%nat /\
                          existsb (zmat_eqb (M 1 1 1 0 0 (-1) (-1) 0 0)) (map (zconj blk) (pg_table n)) = true
  | None => False
  end.
Proof. vm_compute. auto. Qed.
