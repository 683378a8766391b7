(** C86 - C88: which centred or doubled cells find_primitive_cell reduces *)
From Coq Require Import ZArith Reals String List Bool Lia Lra Psatz Permutation Sorting.Sorted.
From Verif Require Import Num Mat Utils Structure RInst Spec Spec4 RFacts PUtils PStructure PNiggli PDelaunay PPrim PPrim2 PLattice PPrim3 PPrim4 PStructure3 Prop5 Reduce.
Import ListNotations.
Open Scope R_scope.

(** C86. *)
Theorem C86_body_centring_found :
  forall (P : @Pinv RNum) (HO : HashOrd) (path : list nat) (dtol : R) (s : @structure RNum),
    pinv_inverts P -> well_conditioned (lattice s) -> List.length (species s) = List.length (frac_coords s) ->
    species s <> [] -> (Z.of_nat (List.length (species s)) <= 65535)%Z -> 0 < dtol -> tolerance_small dtol (lattice s) ->
    let t := V (1 / 2) (1 / 2) (1 / 2) in
    only_translation (2 * dtol) (lattice s) (frac_coords s) (species s) t ->
    (Vnorm (Mapp (lattice s) t) < Vnorm (Ccol (lattice s) 0) \/
     Vnorm (Mapp (lattice s) t) < Vnorm (Ccol (lattice s) 1) \/
     Vnorm (Mapp (lattice s) t) < Vnorm (Ccol (lattice s) 2)) ->
    exists s', @find_primitive_cell RNum P HO path dtol s = Ok s' /\ Mdet (lattice s') = Rabs (Mdet (lattice s)) / 2 /\
      forall v, in_lattice (lattice s') v <-> extended_lattice (lattice s) t v.
Proof.
  intros P HO path dtol s HP HW WF HN HM H0 [HT1 HT2] t HI HL.
  assert (ET : t = halfv (V 1 1 1)%Z) by (unfold t, halfv; cbn [vx vy vz]; f_equal; lra).
  rewrite ET in *. clear ET t. destruct (clen_axes (lattice s)) as (A1 & A2 & A3).
  destruct (sign_of (lattice s)) as (sg & HS).
  apply (found_case P HO path dtol s (V 1 1 1)%Z sg WF HN HM H0 HT2 HT1 (HP _ HW)) with
    (cond := dnf (V 1 1 1)%Z [[((V 1 1 1)%Z, dbl e1)]; [((V 1 1 1)%Z, dbl e2)]; [((V 1 1 1)%Z, dbl e3)]]); auto.
  - unfold half_dir; cbn [vx vy vz]; repeat (split; [first [left; reflexivity|right; reflexivity]|]); discriminate.
  - destruct HS as [[-> | ->] _]; vm_compute; reflexivity.
  - intros l Pl Sl. apply (dnf_sorted (lattice s)); [clear l Pl Sl|exact Pl|exact Sl]. clear HS HI. rewrite <- (clen_half (lattice s)), <- ?A1, <- ?A2, <- ?A3 in *.
    destruct HL as [HL | [HL | HL]].
    + exists [((V 1 1 1)%Z, dbl e1)]. split; [cbn [In]; tauto|]. intros x y Hxy. cbn [In] in Hxy. repeat destruct Hxy as [Hxy|Hxy]; try (destruct Hxy; fail); injection Hxy as <- <-; (split; [cbn [In four]; tauto|]; split; [cbn [In four]; tauto|]); lra.
    + exists [((V 1 1 1)%Z, dbl e2)]. split; [cbn [In]; tauto|]. intros x y Hxy. cbn [In] in Hxy. repeat destruct Hxy as [Hxy|Hxy]; try (destruct Hxy; fail); injection Hxy as <- <-; (split; [cbn [In four]; tauto|]; split; [cbn [In four]; tauto|]); lra.
    + exists [((V 1 1 1)%Z, dbl e3)]. split; [cbn [In]; tauto|]. intros x y Hxy. cbn [In] in Hxy. repeat destruct Hxy as [Hxy|Hxy]; try (destruct Hxy; fail); injection Hxy as <- <-; (split; [cbn [In four]; tauto|]; split; [cbn [In four]; tauto|]); lra.
Qed.
Print Assumptions C86_body_centring_found.
Theorem C86_body_centring_missed :
  forall (P : @Pinv RNum) (HO : HashOrd) (path : list nat) (dtol : R) (s : @structure RNum),
    pinv_inverts P -> well_conditioned (lattice s) -> List.length (species s) = List.length (frac_coords s) ->
    species s <> [] -> (Z.of_nat (List.length (species s)) <= 65535)%Z -> 0 < dtol -> tolerance_small dtol (lattice s) ->
    let t := V (1 / 2) (1 / 2) (1 / 2) in
    only_translation (2 * dtol) (lattice s) (frac_coords s) (species s) t ->
    ((Vnorm (Ccol (lattice s) 0) < Vnorm (Mapp (lattice s) t) /\ Vnorm (Ccol (lattice s) 1) < Vnorm (Mapp (lattice s) t) /\ Vnorm (Ccol (lattice s) 2) < Vnorm (Mapp (lattice s) t))) ->
    exists s', @find_primitive_cell RNum P HO path dtol s = Ok s' /\ Mdet (lattice s') = Rabs (Mdet (lattice s)) /\ same_lattice (lattice s) (lattice s').
Proof.
  intros P HO path dtol s HP HW WF HN HM H0 [HT1 HT2] t HI HL.
  assert (ET : t = halfv (V 1 1 1)%Z) by (unfold t, halfv; cbn [vx vy vz]; f_equal; lra).
  rewrite ET in *. clear ET t. destruct (clen_axes (lattice s)) as (A1 & A2 & A3).
  destruct (sign_of (lattice s)) as (sg & HS).
  apply (missed_case P HO path dtol s (V 1 1 1)%Z sg WF HN HM H0 HT2 HT1 (HP _ HW)) with
    (cond := dnf (V 1 1 1)%Z [[(dbl e1, (V 1 1 1)%Z); (dbl e2, (V 1 1 1)%Z); (dbl e3, (V 1 1 1)%Z)]]); auto.
  - unfold half_dir; cbn [vx vy vz]; repeat (split; [first [left; reflexivity|right; reflexivity]|]); discriminate.
  - destruct HS as [[-> | ->] _]; vm_compute; reflexivity.
  - intros l Pl Sl. apply (dnf_sorted (lattice s)); [clear l Pl Sl|exact Pl|exact Sl]. clear HS HI. rewrite <- (clen_half (lattice s)), <- ?A1, <- ?A2, <- ?A3 in *.
    idtac.
    + exists [(dbl e1, (V 1 1 1)%Z); (dbl e2, (V 1 1 1)%Z); (dbl e3, (V 1 1 1)%Z)]. split; [cbn [In]; tauto|]. intros x y Hxy. cbn [In] in Hxy. repeat destruct Hxy as [Hxy|Hxy]; try (destruct Hxy; fail); injection Hxy as <- <-; (split; [cbn [In four]; tauto|]; split; [cbn [In four]; tauto|]); lra.
Qed.
Print Assumptions C86_body_centring_missed.

(** C87. *)
Theorem C87_face_centring_found :
  forall (P : @Pinv RNum) (HO : HashOrd) (path : list nat) (dtol : R) (s : @structure RNum),
    pinv_inverts P -> well_conditioned (lattice s) -> List.length (species s) = List.length (frac_coords s) ->
    species s <> [] -> (Z.of_nat (List.length (species s)) <= 65535)%Z -> 0 < dtol -> tolerance_small dtol (lattice s) ->
    0 < Mdet (lattice s) ->
    let t := V (1 / 2) (1 / 2) 0 in
    only_translation (2 * dtol) (lattice s) (frac_coords s) (species s) t ->
    (Vnorm (Ccol (lattice s) 2) < Vnorm (Ccol (lattice s) 0) \/
     Vnorm (Ccol (lattice s) 2) < Vnorm (Ccol (lattice s) 1) \/
     (Vnorm (Mapp (lattice s) t) < Vnorm (Ccol (lattice s) 1) /\ Vnorm (Ccol (lattice s) 1) < Vnorm (Ccol (lattice s) 0) /\ Vnorm (Ccol (lattice s) 0) < Vnorm (Ccol (lattice s) 2)) \/
     (Vnorm (Ccol (lattice s) 0) < Vnorm (Mapp (lattice s) t) /\ Vnorm (Mapp (lattice s) t) < Vnorm (Ccol (lattice s) 1) /\ Vnorm (Ccol (lattice s) 1) < Vnorm (Ccol (lattice s) 2))) ->
    exists s', @find_primitive_cell RNum P HO path dtol s = Ok s' /\ Mdet (lattice s') = Rabs (Mdet (lattice s)) / 2 /\
      forall v, in_lattice (lattice s') v <-> extended_lattice (lattice s) t v.
Proof.
  intros P HO path dtol s HP HW WF HN HM H0 [HT1 HT2] HR t HI HL.
  assert (ET : t = halfv (V 1 1 0)%Z) by (unfold t, halfv; cbn [vx vy vz]; f_equal; lra).
  pose proof (face_shorter (lattice s) ltac:(lra)) as HE. fold t in HE.
  rewrite ET in *. clear ET t. destruct (clen_axes (lattice s)) as (A1 & A2 & A3).
  assert (HS : (1 = 1 \/ 1 = -1)%Z /\ Mdet (lattice s) = Rabs (Mdet (lattice s)) * IZR 1) by (split; [now left|rewrite Rabs_pos_eq by lra; cbn; ring]).
  apply (found_case P HO path dtol s (V 1 1 0)%Z 1 WF HN HM H0 HT2 HT1 (HP _ HW)) with
    (cond := dnf (V 1 1 0)%Z [[(dbl e3, dbl e1); ((V 1 1 0)%Z, dbl e1)]; [(dbl e3, dbl e1); ((V 1 1 0)%Z, dbl e2)]; [(dbl e3, dbl e2); ((V 1 1 0)%Z, dbl e1)]; [(dbl e3, dbl e2); ((V 1 1 0)%Z, dbl e2)]; [((V 1 1 0)%Z, dbl e2); (dbl e2, dbl e1); (dbl e1, dbl e3); ((V 1 1 0)%Z, dbl e1)]; [((V 1 1 0)%Z, dbl e2); (dbl e2, dbl e1); (dbl e1, dbl e3); ((V 1 1 0)%Z, dbl e2)]; [(dbl e1, (V 1 1 0)%Z); ((V 1 1 0)%Z, dbl e2); (dbl e2, dbl e3); ((V 1 1 0)%Z, dbl e1)]; [(dbl e1, (V 1 1 0)%Z); ((V 1 1 0)%Z, dbl e2); (dbl e2, dbl e3); ((V 1 1 0)%Z, dbl e2)]]); auto.
  - unfold half_dir; cbn [vx vy vz]; repeat (split; [first [left; reflexivity|right; reflexivity]|]); discriminate.
  - intros l Pl Sl. apply (dnf_sorted (lattice s)); [clear l Pl Sl|exact Pl|exact Sl]. clear HS HI. rewrite <- (clen_half (lattice s)), <- ?A1, <- ?A2, <- ?A3 in *.
    destruct HL as [HL | [HL | [HL | HL]]]; destruct HE as [HE | HE].
    + exists [(dbl e3, dbl e1); ((V 1 1 0)%Z, dbl e1)]. split; [cbn [In]; tauto|]. intros x y Hxy. cbn [In] in Hxy. repeat destruct Hxy as [Hxy|Hxy]; try (destruct Hxy; fail); injection Hxy as <- <-; (split; [cbn [In four]; tauto|]; split; [cbn [In four]; tauto|]); lra.
    + exists [(dbl e3, dbl e1); ((V 1 1 0)%Z, dbl e2)]. split; [cbn [In]; tauto|]. intros x y Hxy. cbn [In] in Hxy. repeat destruct Hxy as [Hxy|Hxy]; try (destruct Hxy; fail); injection Hxy as <- <-; (split; [cbn [In four]; tauto|]; split; [cbn [In four]; tauto|]); lra.
    + exists [(dbl e3, dbl e2); ((V 1 1 0)%Z, dbl e1)]. split; [cbn [In]; tauto|]. intros x y Hxy. cbn [In] in Hxy. repeat destruct Hxy as [Hxy|Hxy]; try (destruct Hxy; fail); injection Hxy as <- <-; (split; [cbn [In four]; tauto|]; split; [cbn [In four]; tauto|]); lra.
    + exists [(dbl e3, dbl e2); ((V 1 1 0)%Z, dbl e2)]. split; [cbn [In]; tauto|]. intros x y Hxy. cbn [In] in Hxy. repeat destruct Hxy as [Hxy|Hxy]; try (destruct Hxy; fail); injection Hxy as <- <-; (split; [cbn [In four]; tauto|]; split; [cbn [In four]; tauto|]); lra.
    + exists [((V 1 1 0)%Z, dbl e2); (dbl e2, dbl e1); (dbl e1, dbl e3); ((V 1 1 0)%Z, dbl e1)]. split; [cbn [In]; tauto|]. intros x y Hxy. cbn [In] in Hxy. repeat destruct Hxy as [Hxy|Hxy]; try (destruct Hxy; fail); injection Hxy as <- <-; (split; [cbn [In four]; tauto|]; split; [cbn [In four]; tauto|]); lra.
    + exists [((V 1 1 0)%Z, dbl e2); (dbl e2, dbl e1); (dbl e1, dbl e3); ((V 1 1 0)%Z, dbl e2)]. split; [cbn [In]; tauto|]. intros x y Hxy. cbn [In] in Hxy. repeat destruct Hxy as [Hxy|Hxy]; try (destruct Hxy; fail); injection Hxy as <- <-; (split; [cbn [In four]; tauto|]; split; [cbn [In four]; tauto|]); lra.
    + exists [(dbl e1, (V 1 1 0)%Z); ((V 1 1 0)%Z, dbl e2); (dbl e2, dbl e3); ((V 1 1 0)%Z, dbl e1)]. split; [cbn [In]; tauto|]. intros x y Hxy. cbn [In] in Hxy. repeat destruct Hxy as [Hxy|Hxy]; try (destruct Hxy; fail); injection Hxy as <- <-; (split; [cbn [In four]; tauto|]; split; [cbn [In four]; tauto|]); lra.
    + exists [(dbl e1, (V 1 1 0)%Z); ((V 1 1 0)%Z, dbl e2); (dbl e2, dbl e3); ((V 1 1 0)%Z, dbl e2)]. split; [cbn [In]; tauto|]. intros x y Hxy. cbn [In] in Hxy. repeat destruct Hxy as [Hxy|Hxy]; try (destruct Hxy; fail); injection Hxy as <- <-; (split; [cbn [In four]; tauto|]; split; [cbn [In four]; tauto|]); lra.
Qed.
Print Assumptions C87_face_centring_found.
Theorem C87_face_centring_singular :
  forall (P : @Pinv RNum) (HO : HashOrd) (path : list nat) (dtol : R) (s : @structure RNum),
    pinv_inverts P -> well_conditioned (lattice s) -> List.length (species s) = List.length (frac_coords s) ->
    species s <> [] -> (Z.of_nat (List.length (species s)) <= 65535)%Z -> 0 < dtol -> tolerance_small dtol (lattice s) ->
    0 < Mdet (lattice s) ->
    let t := V (1 / 2) (1 / 2) 0 in
    only_translation (2 * dtol) (lattice s) (frac_coords s) (species s) t ->
    ((Vnorm (Mapp (lattice s) t) < Vnorm (Ccol (lattice s) 0) /\ Vnorm (Ccol (lattice s) 0) < Vnorm (Ccol (lattice s) 1) /\ Vnorm (Ccol (lattice s) 1) < Vnorm (Ccol (lattice s) 2)) \/
     (Vnorm (Ccol (lattice s) 1) < Vnorm (Mapp (lattice s) t) /\ Vnorm (Mapp (lattice s) t) < Vnorm (Ccol (lattice s) 0) /\ Vnorm (Ccol (lattice s) 0) < Vnorm (Ccol (lattice s) 2))) ->
    exists s', @find_primitive_cell RNum P HO path dtol s = Ok s' /\ Mdet (lattice s') = 0.
Proof.
  intros P HO path dtol s HP HW WF HN HM H0 [HT1 HT2] HR t HI HL.
  assert (ET : t = halfv (V 1 1 0)%Z) by (unfold t, halfv; cbn [vx vy vz]; f_equal; lra).
  rewrite ET in *. clear ET t. destruct (clen_axes (lattice s)) as (A1 & A2 & A3).
  assert (HS : (1 = 1 \/ 1 = -1)%Z /\ Mdet (lattice s) = Rabs (Mdet (lattice s)) * IZR 1) by (split; [now left|rewrite Rabs_pos_eq by lra; cbn; ring]).
  apply (flat_case P HO path dtol s (V 1 1 0)%Z 1 WF HN HM H0 HT2 HT1 (HP _ HW)) with
    (cond := dnf (V 1 1 0)%Z [[((V 1 1 0)%Z, dbl e1); (dbl e1, dbl e2); (dbl e2, dbl e3)]; [(dbl e2, (V 1 1 0)%Z); ((V 1 1 0)%Z, dbl e1); (dbl e1, dbl e3)]]); auto.
  - unfold half_dir; cbn [vx vy vz]; repeat (split; [first [left; reflexivity|right; reflexivity]|]); discriminate.
  - intros l Pl Sl. apply (dnf_sorted (lattice s)); [clear l Pl Sl|exact Pl|exact Sl]. clear HS HI. rewrite <- (clen_half (lattice s)), <- ?A1, <- ?A2, <- ?A3 in *.
    destruct HL as [HL | HL].
    + exists [((V 1 1 0)%Z, dbl e1); (dbl e1, dbl e2); (dbl e2, dbl e3)]. split; [cbn [In]; tauto|]. intros x y Hxy. cbn [In] in Hxy. repeat destruct Hxy as [Hxy|Hxy]; try (destruct Hxy; fail); injection Hxy as <- <-; (split; [cbn [In four]; tauto|]; split; [cbn [In four]; tauto|]); lra.
    + exists [(dbl e2, (V 1 1 0)%Z); ((V 1 1 0)%Z, dbl e1); (dbl e1, dbl e3)]. split; [cbn [In]; tauto|]. intros x y Hxy. cbn [In] in Hxy. repeat destruct Hxy as [Hxy|Hxy]; try (destruct Hxy; fail); injection Hxy as <- <-; (split; [cbn [In four]; tauto|]; split; [cbn [In four]; tauto|]); lra.
Qed.
Print Assumptions C87_face_centring_singular.

(** C88. *)
Theorem C88_doubled_cell_found :
  forall (P : @Pinv RNum) (HO : HashOrd) (path : list nat) (dtol : R) (s : @structure RNum),
    pinv_inverts P -> well_conditioned (lattice s) -> List.length (species s) = List.length (frac_coords s) ->
    species s <> [] -> (Z.of_nat (List.length (species s)) <= 65535)%Z -> 0 < dtol -> tolerance_small dtol (lattice s) ->
    0 < Mdet (lattice s) ->
    let t := V (1 / 2) 0 0 in
    only_translation (2 * dtol) (lattice s) (frac_coords s) (species s) t ->
    (Vnorm (Ccol (lattice s) 2) < Vnorm (Mapp (lattice s) t) \/
     (Vnorm (Mapp (lattice s) t) < Vnorm (Ccol (lattice s) 1) /\ Vnorm (Ccol (lattice s) 1) < Vnorm (Ccol (lattice s) 2)) \/
     (Vnorm (Ccol (lattice s) 2) < Vnorm (Ccol (lattice s) 1) /\ Vnorm (Ccol (lattice s) 1) < Vnorm (Ccol (lattice s) 0)) \/
     (Vnorm (Ccol (lattice s) 1) < Vnorm (Mapp (lattice s) t) /\ Vnorm (Ccol (lattice s) 2) < Vnorm (Ccol (lattice s) 0))) ->
    exists s', @find_primitive_cell RNum P HO path dtol s = Ok s' /\ Mdet (lattice s') = Rabs (Mdet (lattice s)) / 2 /\
      forall v, in_lattice (lattice s') v <-> extended_lattice (lattice s) t v.
Proof.
  intros P HO path dtol s HP HW WF HN HM H0 [HT1 HT2] HR t HI HL.
  assert (ET : t = halfv (V 1 0 0)%Z) by (unfold t, halfv; cbn [vx vy vz]; f_equal; lra).
  assert (HE : Vnorm (Mapp (lattice s) t) < Vnorm (Ccol (lattice s) 0)) by (apply halved_shorter; lra).
  rewrite ET in *. clear ET t. destruct (clen_axes (lattice s)) as (A1 & A2 & A3).
  assert (HS : (1 = 1 \/ 1 = -1)%Z /\ Mdet (lattice s) = Rabs (Mdet (lattice s)) * IZR 1) by (split; [now left|rewrite Rabs_pos_eq by lra; cbn; ring]).
  apply (found_case P HO path dtol s (V 1 0 0)%Z 1 WF HN HM H0 HT2 HT1 (HP _ HW)) with
    (cond := dnf (V 1 0 0)%Z [[(dbl e3, (V 1 0 0)%Z); ((V 1 0 0)%Z, dbl e1)]; [((V 1 0 0)%Z, dbl e2); (dbl e2, dbl e3); ((V 1 0 0)%Z, dbl e1)]; [(dbl e3, dbl e2); (dbl e2, dbl e1); ((V 1 0 0)%Z, dbl e1)]; [(dbl e2, (V 1 0 0)%Z); (dbl e3, dbl e1); ((V 1 0 0)%Z, dbl e1)]]); auto.
  - unfold half_dir; cbn [vx vy vz]; repeat (split; [first [left; reflexivity|right; reflexivity]|]); discriminate.
  - intros l Pl Sl. apply (dnf_sorted (lattice s)); [clear l Pl Sl|exact Pl|exact Sl]. clear HS HI. rewrite <- (clen_half (lattice s)), <- ?A1, <- ?A2, <- ?A3 in *.
    destruct HL as [HL | [HL | [HL | HL]]].
    + exists [(dbl e3, (V 1 0 0)%Z); ((V 1 0 0)%Z, dbl e1)]. split; [cbn [In]; tauto|]. intros x y Hxy. cbn [In] in Hxy. repeat destruct Hxy as [Hxy|Hxy]; try (destruct Hxy; fail); injection Hxy as <- <-; (split; [cbn [In four]; tauto|]; split; [cbn [In four]; tauto|]); lra.
    + exists [((V 1 0 0)%Z, dbl e2); (dbl e2, dbl e3); ((V 1 0 0)%Z, dbl e1)]. split; [cbn [In]; tauto|]. intros x y Hxy. cbn [In] in Hxy. repeat destruct Hxy as [Hxy|Hxy]; try (destruct Hxy; fail); injection Hxy as <- <-; (split; [cbn [In four]; tauto|]; split; [cbn [In four]; tauto|]); lra.
    + exists [(dbl e3, dbl e2); (dbl e2, dbl e1); ((V 1 0 0)%Z, dbl e1)]. split; [cbn [In]; tauto|]. intros x y Hxy. cbn [In] in Hxy. repeat destruct Hxy as [Hxy|Hxy]; try (destruct Hxy; fail); injection Hxy as <- <-; (split; [cbn [In four]; tauto|]; split; [cbn [In four]; tauto|]); lra.
    + exists [(dbl e2, (V 1 0 0)%Z); (dbl e3, dbl e1); ((V 1 0 0)%Z, dbl e1)]. split; [cbn [In]; tauto|]. intros x y Hxy. cbn [In] in Hxy. repeat destruct Hxy as [Hxy|Hxy]; try (destruct Hxy; fail); injection Hxy as <- <-; (split; [cbn [In four]; tauto|]; split; [cbn [In four]; tauto|]); lra.
Qed.
Print Assumptions C88_doubled_cell_found.
Theorem C88_doubled_cell_singular :
  forall (P : @Pinv RNum) (HO : HashOrd) (path : list nat) (dtol : R) (s : @structure RNum),
    pinv_inverts P -> well_conditioned (lattice s) -> List.length (species s) = List.length (frac_coords s) ->
    species s <> [] -> (Z.of_nat (List.length (species s)) <= 65535)%Z -> 0 < dtol -> tolerance_small dtol (lattice s) ->
    0 < Mdet (lattice s) ->
    let t := V (1 / 2) 0 0 in
    only_translation (2 * dtol) (lattice s) (frac_coords s) (species s) t ->
    ((Vnorm (Ccol (lattice s) 1) < Vnorm (Mapp (lattice s) t) /\ Vnorm (Ccol (lattice s) 0) < Vnorm (Ccol (lattice s) 2)) \/
     (Vnorm (Mapp (lattice s) t) < Vnorm (Ccol (lattice s) 2) /\ Vnorm (Ccol (lattice s) 2) < Vnorm (Ccol (lattice s) 1) /\ Vnorm (Ccol (lattice s) 0) < Vnorm (Ccol (lattice s) 1))) ->
    exists s', @find_primitive_cell RNum P HO path dtol s = Ok s' /\ Mdet (lattice s') = 0.
Proof.
  intros P HO path dtol s HP HW WF HN HM H0 [HT1 HT2] HR t HI HL.
  assert (ET : t = halfv (V 1 0 0)%Z) by (unfold t, halfv; cbn [vx vy vz]; f_equal; lra).
  assert (HE : Vnorm (Mapp (lattice s) t) < Vnorm (Ccol (lattice s) 0)) by (apply halved_shorter; lra).
  rewrite ET in *. clear ET t. destruct (clen_axes (lattice s)) as (A1 & A2 & A3).
  assert (HS : (1 = 1 \/ 1 = -1)%Z /\ Mdet (lattice s) = Rabs (Mdet (lattice s)) * IZR 1) by (split; [now left|rewrite Rabs_pos_eq by lra; cbn; ring]).
  apply (flat_case P HO path dtol s (V 1 0 0)%Z 1 WF HN HM H0 HT2 HT1 (HP _ HW)) with
    (cond := dnf (V 1 0 0)%Z [[(dbl e2, (V 1 0 0)%Z); (dbl e1, dbl e3); ((V 1 0 0)%Z, dbl e1)]; [((V 1 0 0)%Z, dbl e3); (dbl e3, dbl e2); (dbl e1, dbl e2); ((V 1 0 0)%Z, dbl e1)]]); auto.
  - unfold half_dir; cbn [vx vy vz]; repeat (split; [first [left; reflexivity|right; reflexivity]|]); discriminate.
  - intros l Pl Sl. apply (dnf_sorted (lattice s)); [clear l Pl Sl|exact Pl|exact Sl]. clear HS HI. rewrite <- (clen_half (lattice s)), <- ?A1, <- ?A2, <- ?A3 in *.
    destruct HL as [HL | HL].
    + exists [(dbl e2, (V 1 0 0)%Z); (dbl e1, dbl e3); ((V 1 0 0)%Z, dbl e1)]. split; [cbn [In]; tauto|]. intros x y Hxy. cbn [In] in Hxy. repeat destruct Hxy as [Hxy|Hxy]; try (destruct Hxy; fail); injection Hxy as <- <-; (split; [cbn [In four]; tauto|]; split; [cbn [In four]; tauto|]); lra.
    + exists [((V 1 0 0)%Z, dbl e3); (dbl e3, dbl e2); (dbl e1, dbl e2); ((V 1 0 0)%Z, dbl e1)]. split; [cbn [In]; tauto|]. intros x y Hxy. cbn [In] in Hxy. repeat destruct Hxy as [Hxy|Hxy]; try (destruct Hxy; fail); injection Hxy as <- <-; (split; [cbn [In four]; tauto|]; split; [cbn [In four]; tauto|]); lra.
Qed.
Print Assumptions C88_doubled_cell_singular.

(** tungsten-like: the body-centred cube is reduced *)
Example C86_found_example : forall (HO : HashOrd) path, exists s',
  @find_primitive_cell RNum cofactor_pinv HO path (1 / 20) (two_atoms (box 3 3 3) (V (1 / 2) (1 / 2) (1 / 2))) = Ok s' /\ Mdet (lattice s') = 27 / 2.
Proof.
  intros HO path.
  destruct (C86_body_centring_found cofactor_pinv HO path (1 / 20) (two_atoms (box 3 3 3) (V (1 / 2) (1 / 2) (1 / 2)))) as (s' & E & D & _).
  - exact cofactor_pinv_ok.
  - apply box_wc; lra.
  - reflexivity.
  - discriminate.
  - cbn. lia.
  - lra.
  - small 27.
  - apply (two_atoms_translation _ _ _ (V 1 1 1)%Z). unfold Vadd, VofZ. cbn. apply (@vec_ext R); cbn; lra.
  - left. shorter.
  - exists s'. split; [exact E|]. rewrite D. unfold Mdet. cbn. rewrite Rabs_pos_eq by lra. lra.
Qed.

(** C89: the cell returned has no inner translation.  Refuted. *)
Theorem C89_primitive_refuted :
  exists (dtol : R) (s : @structure RNum) (t : vec R), well_conditioned (lattice s) /\ 0 < dtol /\ tolerance_small dtol (lattice s) /\
    translation_within 0 (lattice s) (combine (frac_coords s) (species s)) t /\
    forall (P : @Pinv RNum) (HO : HashOrd) (path : list nat), pinv_inverts P ->
      exists s', @find_primitive_cell RNum P HO path dtol s = Ok s' /\ ~ in_lattice (lattice s') (Mapp (lattice s) t).
Proof.
  exists (1 / 20), (two_atoms sharp (V (1 / 2) (1 / 2) (1 / 2))), (V (1 / 2) (1 / 2) (1 / 2)).
  assert (OT : only_translation (2 * (1 / 20)) sharp [V 0 0 0; V (1 / 2) (1 / 2) (1 / 2)] ["Po"; "Po"]%string (V (1 / 2) (1 / 2) (1 / 2))).
  { apply (two_atoms_translation _ sharp _ (V 1 1 1)%Z). unfold Vadd, VofZ. cbn. apply (@vec_ext R); cbn; lra. }
  assert (TS : tolerance_small (1 / 20) sharp) by small 32.
  split; [exact sharp_wc|]. split; [lra|]. split; [exact TS|]. split.
  - intros x e Hx. destruct (proj1 OT x e Hx) as (y & n & Hy & E). exists y, (V (- vx n) (- vy n) (- vz n))%Z. split; [exact Hy|].
    rewrite E. match goal with |- Vnorm (Mapp _ ?v) <= _ => replace v with V0 end; [rewrite Mapp_V0, Vnorm_V0; lra|].
    unfold Vadd, Vsub, VofZ, V0. cbn. rewrite !opp_IZR. apply (@vec_ext R); cbn; ring.
  - intros P HO path HP.
    destruct (C86_body_centring_missed P HO path (1 / 20) (two_atoms sharp (V (1 / 2) (1 / 2) (1 / 2)))) as (s' & E & _ & SL).
    + exact HP.
    + exact sharp_wc.
    + reflexivity.
    + discriminate.
    + cbn. lia.
    + lra.
    + exact TS.
    + exact OT.
    + split; [|split]; shorter.
    + exists s'. split; [exact E|]. intro C. apply SL in C. destruct C as (n & C). cbn [lattice two_atoms] in C. unfold Mapp, sharp, VofZ in C. cbn in C. injection C as C1 C2 C3.
      assert (Q : 2 * IZR (vx n) = 1) by lra. assert (X : IZR (2 * vx n) = IZR 1) by (rewrite mult_IZR; lra). apply eq_IZR in X. lia.
Qed.
Print Assumptions C89_primitive_refuted.

(** a C-centred orthorhombic box: with c the longest edge the cell comes back flat, with c the shortest it is reduced *)
Example C87_singular_example : forall (HO : HashOrd) path, exists s',
  @find_primitive_cell RNum cofactor_pinv HO path (1 / 20) (two_atoms (box 4 5 6) (V (1 / 2) (1 / 2) 0)) = Ok s' /\ Mdet (lattice s') = 0.
Proof.
  intros HO path. apply C87_face_centring_singular.
  - exact cofactor_pinv_ok.
  - apply box_wc; lra.
  - reflexivity.
  - discriminate.
  - cbn. lia.
  - lra.
  - small 120.
  - unfold Mdet. cbn. lra.
  - apply (two_atoms_translation _ _ _ (V 1 1 0)%Z). unfold Vadd, VofZ. cbn. apply (@vec_ext R); cbn; lra.
  - left. split; [|split]; shorter.
Qed.
Example C87_found_example : forall (HO : HashOrd) path, exists s',
  @find_primitive_cell RNum cofactor_pinv HO path (1 / 20) (two_atoms (box 5 6 4) (V (1 / 2) (1 / 2) 0)) = Ok s' /\ Mdet (lattice s') = 60.
Proof.
  intros HO path.
  destruct (C87_face_centring_found cofactor_pinv HO path (1 / 20) (two_atoms (box 5 6 4) (V (1 / 2) (1 / 2) 0))) as (s' & E & D & _).
  - exact cofactor_pinv_ok.
  - apply box_wc; lra.
  - reflexivity.
  - discriminate.
  - cbn. lia.
  - lra.
  - small 120.
  - unfold Mdet. cbn. lra.
  - apply (two_atoms_translation _ _ _ (V 1 1 0)%Z). unfold Vadd, VofZ. cbn. apply (@vec_ext R); cbn; lra.
  - left. shorter.
  - exists s'. split; [exact E|]. rewrite D. unfold Mdet. cbn. rewrite Rabs_pos_eq by lra. lra.
Qed.
(** a box doubled along its first axis *)
Example C88_singular_example : forall (HO : HashOrd) path, exists s',
  @find_primitive_cell RNum cofactor_pinv HO path (1 / 20) (two_atoms (box 4 6 5) (V (1 / 2) 0 0)) = Ok s' /\ Mdet (lattice s') = 0.
Proof.
  intros HO path. apply C88_doubled_cell_singular.
  - exact cofactor_pinv_ok.
  - apply box_wc; lra.
  - reflexivity.
  - discriminate.
  - cbn. lia.
  - lra.
  - small 120.
  - unfold Mdet. cbn. lra.
  - apply (two_atoms_translation _ _ _ (V 1 0 0)%Z). unfold Vadd, VofZ. cbn. apply (@vec_ext R); cbn; lra.
  - right. split; [|split]; shorter.
Qed.
Example C88_found_example : forall (HO : HashOrd) path, exists s',
  @find_primitive_cell RNum cofactor_pinv HO path (1 / 20) (two_atoms (box 4 5 6) (V (1 / 2) 0 0)) = Ok s' /\ Mdet (lattice s') = 60.
Proof.
  intros HO path.
  destruct (C88_doubled_cell_found cofactor_pinv HO path (1 / 20) (two_atoms (box 4 5 6) (V (1 / 2) 0 0))) as (s' & E & D & _).
  - exact cofactor_pinv_ok.
  - apply box_wc; lra.
  - reflexivity.
  - discriminate.
  - cbn. lia.
  - lra.
  - small 120.
  - unfold Mdet. cbn. lra.
  - apply (two_atoms_translation _ _ _ (V 1 0 0)%Z). unfold Vadd, VofZ. cbn. apply (@vec_ext R); cbn; lra.
  - right. left. split; shorter.
  - exists s'. split; [exact E|]. rewrite D. unfold Mdet. cbn. rewrite Rabs_pos_eq by lra. lra.
Qed.
