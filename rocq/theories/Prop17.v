(** C93, C94: SpaceGroup::apply_transformation for cells of any volume (spacegroup.rs 38-133) *)
From Coq Require Import ZArith Reals String List Bool Lia Lra.
From Verif Require Import Num Mat SymmOp SpaceGroup RInst FInst Spec Spec4 RFacts PSymmOp PCoset PSpaceGroup PSpaceGroup2 PStructure PStructure2 PStructure3 PSGTrans Prop4.
Import ListNotations.
Open Scope R_scope.

(** C93.  [T] is an integer matrix with determinant D <> 0 and every conjugate T^-1 R T is an integer matrix in the i8 range
    with an entry 0 or +-1; no two of the wanted operations are within tolerance.  Then the call returns after at most |D| passes;
    every old operation followed by every old lattice vector is listed, nothing else is, and the list has |D| entries per
    old operation. *)
Theorem C93_operations_of_a_supercell :
  forall (T : mat Z) (tols : vec R) (ops : list (@symmop RNum)) (fuel : nat),
    ZMdet T <> 0%Z ->
    0 < vx tols <= / 2 -> 0 < vy tols <= / 2 -> 0 < vz tols <= / 2 ->
    (Z.to_nat (Z.abs (ZMdet T)) <= fuel)%nat ->
    (forall op, In op ops -> exists r, ZMmul T r = ZMmul (rotation op) T /\ i8_range r /\ has_unit_entry r = true) ->
    (forall i j a b m u v, nth_error ops i = Some a -> nth_error ops j = Some b -> rotation a = rotation b ->
       i <> j \/ ~ (exists n, m = ZMapp T n) ->
       Mapp (MofZ T) u = Vadd (translation a) (VofZ m) -> Mapp (MofZ T) v = translation b -> ~ near3 tols u v) ->
    exists ops',
      @sg_apply_transformation RNum fuel ops (MofZ T) tols = Ok ops' /\
      List.length ops' = (List.length ops * Z.to_nat (Z.abs (ZMdet T)))%nat /\
      (forall op', In op' ops' -> exists op m, In op ops /\ moved_operation T (rotation op) (translation op) m (rotation op') (translation op')) /\
      (forall op m, In op ops -> exists op', In op' ops' /\ moved_operation T (rotation op) (translation op) m (rotation op') (translation op')) /\
      (forall op' c, In op' ops' -> - vnth tols c <= vnth (translation op') c <= 1 - vnth tols c).
Proof.
  intros T tols ops fuel HD T1 T2 T3 Hf HC Hs. assert (Tk : tols_ok tols) by (repeat split; tauto).
  destruct (conj_choice T ops HC) as (cr & K1 & K2 & K3).
  assert (D0 : Mdet (MofZ T) <> 0) by (rewrite MofZ_det; intro E; apply HD; now apply eq_IZR in E).
  pose proof (Madj_inverse _ D0) as IV.
  destruct (cosets T HD) as (reps & rp & R1 & R2 & R3 & _ & R4 & R5 & R6).
  destruct (sg_apply_complete T tols ops cr HD Tk K1 K2 K3) with (reps := reps) (rp := rp) (fuel := fuel) as (tags & E & G & HL & HI); auto.
  { intros i j m Hi Hj Er Q. apply (Hs i j _ _ m _ _ (nth_error_nth' _ _ Hi) (nth_error_nth' _ _ Hj) Er Q); apply inv_app; exact IV. }
  exists (map (t_op T tols ops cr) tags). split; [exact E|]. split; [now rewrite map_length|]. split; [|split].
  - intros op' Ho. apply in_map_iff in Ho. destruct Ho as ([i m] & <- & Hin). pose proof (proj2 G _ Hin) as Hi. cbn [fst] in Hi.
    exists (nth i ops (SymmOp (N := RNum) ZMid V0)), m. split; [now apply nth_In|]. apply (t_op_moved T tols ops cr HD K1 i m m); [exact Hi|apply zequiv_refl].
  - intros op m Ho. apply In_nth with (d := SymmOp (N := RNum) ZMid V0) in Ho. destruct Ho as (i & Hi & <-).
    assert (Q : In (i, rp m) (map (skey rp) tags)) by (apply HI; apply in_prod_iff; split; [apply in_seq; lia|apply R3]).
    apply in_map_iff in Q. destruct Q as ([j m'] & Ek & Hin). unfold skey in Ek. cbn [fst snd] in Ek. injection Ek as -> Er.
    exists (t_op T tols ops cr (i, m')). split; [now apply in_map|]. apply (t_op_moved T tols ops cr HD K1 i m m'); [exact Hi|]. now apply R4.
  - intros op' c Ho. apply in_map_iff in Ho. destruct Ho as (t & <- & _). now apply t_op_range.
Qed.
Print Assumptions C93_operations_of_a_supercell.

(** the body-centred cell of the lattice with basis (0 1 1)/2, (1 0 1)/2, (1 1 0)/2 and a group {1, -1} *)
Example C93_example :
  let T := (M 0 1 1 1 0 1 1 1 0)%Z in
  let ops := [SymmOp (N := RNum) ZMid (V 0 0 0); SymmOp (N := RNum) (M (-1) 0 0 0 (-1) 0 0 0 (-1))%Z (V (1/3) 0 0)] in
  ZMdet T = 2%Z /\
  exists ops', @sg_apply_transformation RNum 2 ops (MofZ T) (V (1/10) (1/10) (1/10)) = Ok ops' /\ List.length ops' = 4%nat.
Proof.
  cbv zeta. split; [reflexivity|].
  destruct (C93_operations_of_a_supercell (M 0 1 1 1 0 1 1 1 0)%Z (V (1/10) (1/10) (1/10))
    [SymmOp (N := RNum) ZMid (V 0 0 0); SymmOp (N := RNum) (M (-1) 0 0 0 (-1) 0 0 0 (-1))%Z (V (1/3) 0 0)] 2) as (ops' & E & L & _);
    try (cbn; lra); try (cbn; lia).
  - intros op [<-|[<-|[]]]; [exists ZMid|exists (M (-1) 0 0 0 (-1) 0 0 0 (-1))%Z]; (split; [reflexivity|split; [|reflexivity]]); unfold i8_range, entries_within; cbn; lia.
  - intros i j a b m u v Ha Hb Er [Hij|Hm] Hu Hv (N1 & N2 & N3).
    + destruct i as [|[|i]], j as [|[|j]]; cbn [nth_error] in *; try (exfalso; now apply Hij); try (destruct i; discriminate); try (destruct j; discriminate);
        injection Ha as <-; injection Hb as <-; discriminate.
    + assert (Eij : translation a = translation b).
      { destruct i as [|[|i]], j as [|[|j]]; cbn [nth_error] in *; try (destruct i; discriminate); try (destruct j; discriminate);
        injection Ha as <-; injection Hb as <-; try discriminate; reflexivity. }
      rewrite Eij, <- Hv in Hu. destruct N1 as (z1 & N1), N2 as (z2 & N2), N3 as (z3' & N3). destruct u as [u1 u2 u3], v as [v1 v2 v3], m as [a1 a2 a3].
      unfold Mapp, MofZ, Vadd, VofZ in Hu. cbn [m11 m12 m13 m21 m22 m23 m31 m32 m33 vx vy vz] in *. injection Hu as A1 A2 A3.
      apply Rabs_def2 in N1, N2, N3.
      assert (B1 : 2 * (u1 - v1) = IZR (a2 + a3 - a1)) by (rewrite minus_IZR, plus_IZR; lra).
      assert (B2 : 2 * (u2 - v2) = IZR (a1 + a3 - a2)) by (rewrite minus_IZR, plus_IZR; lra).
      assert (B3 : 2 * (u3 - v3) = IZR (a1 + a2 - a3)) by (rewrite minus_IZR, plus_IZR; lra).
      assert (C : forall x z t, 2 * x = IZR z -> x - IZR t < 1 / 10 /\ - (1 / 10) < x - IZR t -> z = (2 * t)%Z).
      { intros x z t Hx [P1 P2]. assert (Q : IZR (z - 2 * t) = 2 * x - 2 * IZR t) by (rewrite minus_IZR, mult_IZR; lra).
        assert (- 1 < IZR (z - 2 * t) < 1) as [Q1 Q2] by lra. apply lt_IZR in Q2. apply (lt_IZR (-1)) in Q1. lia. }
      apply C with (t := z1) in B1; [|lra]. apply C with (t := z2) in B2; [|lra]. apply C with (t := z3') in B3; [|lra].
      apply Hm. exists (V z1 z2 z3'). unfold ZMapp. cbn [m11 m12 m13 m21 m22 m23 m31 m32 m33 vx vy vz]. apply vec_ext; cbn [vx vy vz]; lia.
  - exists ops'. split; [exact E|]. rewrite L. reflexivity.
Qed.

Lemma three_of_four (L : Libm) :
  rots_of (@sg_apply_transformation (@FNum L) 2 (map (fun m => SymmOp (N := @FNum L) m z3) [ZMid; (M (-1) 0 0 0 (-1) 0 0 0 1)%Z])
    (@mcast (@FNum L) (M 2 (-1) 0 3 0 (-1) 8 4 (-4))%Z) tol3) = Some [ZMid; ZMid; ZMid].
Proof. vm_compute. reflexivity. Qed.
(** C94 is false: the two-element group {1, 2} and a matrix T of determinant 4 for which the twofold axis is discarded.
    [initial_num_ops] is lowered by one in every pass, so the second pass makes it 0 and the search ends
    with three of the four translations of the new cell. *)
Theorem C94_kept_operations_complete_refuted :
  exists (T r : mat Z), ZMdet T = 4%Z /\ ZMmul r r = ZMid /\
    (exists r', ZMmul T r' = ZMmul r T /\ i8_range r') /\
    forall (L : Libm) (fuel : nat), (2 <= fuel)%nat -> exists ops',
      @sg_apply_transformation (@FNum L) fuel (map (fun m => SymmOp (N := @FNum L) m z3) [ZMid; r])
         (@mcast (@FNum L) T) tol3 = Ok ops' /\ map (@rotation (@FNum L)) ops' = [ZMid; ZMid; ZMid].
Proof.
  exists (M 2 (-1) 0 3 0 (-1) 8 4 (-4))%Z, (M (-1) 0 0 0 (-1) 0 0 0 1)%Z.
  split; [reflexivity|]. split; [reflexivity|].
  split; [exists (M 3 2 (-2) 8 3 (-4) 12 6 (-7))%Z; split; [reflexivity|unfold i8_range, entries_within; cbn; lia]|].
  intros L fuel Hf. destruct (rots_of_spec _ _ (three_of_four L)) as (ops' & E & Er). exists ops'. split; [|exact Er].
  rewrite <- E. apply sg_apply_fuel; [exact Hf|]. rewrite E. discriminate.
Qed.
Print Assumptions C94_kept_operations_complete_refuted.
