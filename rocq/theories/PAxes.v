(** The axes chosen by find_primitive_cell and by the first pass of niggli_reduce, computed on the integers (reduce.rs 33-201, 223-380, 512-539) *)
From Coq Require Import ZArith Reals String List Bool Lia Lra Psatz.
From Verif Require Import Num Mat Utils SpaceGroup Structure Reduce RInst Spec RFacts PUtils PSymmOp PStructure PStructure2 PStructure3 PFormula PNiggli PNiggli2 PNiggli3 PNiggli4 PDelaunay PPrim PPrim2 PLattice PEnd8.
Import ListNotations.
Open Scope R_scope.

(** ** get_shortest_translation_vecs *)
Definition zlen (g : z6) (a b : vec Z) : bool := (zval g a <=? zval g b)%Z.
Fixpoint zscan2 (a : vec Z) (i : nat) (l : list (vec Z)) : option (vec Z * nat) :=
  match l with [] => None | v :: t => if zveqb (ZVcross a v) (V 0 0 0)%Z then zscan2 a (S i) t else Some (v, i) end.
Fixpoint zscan3 (sg : Z) (a b : vec Z) (i : nat) (l : list (vec Z)) : nat :=
  match l with [] => 2%nat | v :: t => if (0 <? sg * zdet a b v)%Z then i else zscan3 sg a b (S i) t end.
Definition zshort (g : z6) (sg : Z) (zs : list (vec Z)) : option (vec Z * vec Z * vec Z) :=
  let l := sort_by (zlen g) zs in
  match l with
  | [] => None
  | a :: t =>
      match zscan2 a 1 t with
      | None => None
      | Some (b, k) => match nth_error l k, nth_error l (zscan3 sg a b (S k) (skipn (S k) l)) with Some b', Some c => Some (a, b', c) | _, _ => None end
      end
  end.
Lemma insert_map {A B} (f : A -> B) le1 le2 x l : (forall a b, le2 (f a) (f b) = le1 a b) -> insert_by le2 (f x) (map f l) = map f (insert_by le1 x l).
Proof. intro H. induction l as [|y l IH]; [reflexivity|]. cbn [map insert_by]. rewrite H. destruct (le1 x y); [reflexivity|]. cbn [map]. now rewrite IH. Qed.
Lemma sort_map {A B} (f : A -> B) le1 le2 l : (forall a b, le2 (f a) (f b) = le1 a b) -> sort_by le2 (map f l) = map f (sort_by le1 l).
Proof. intro H. induction l as [|y l IH]; [reflexivity|]. cbn [map]. unfold sort_by in *. cbn [fold_right]. rewrite IH. now apply insert_map. Qed.
Section Short.
  Context (L : mat R) (u : R) (g : z6) (dtol : R) (sg : Z).
  Hypothesis (Hu : 0 < u) (EG : gram L = zmet u g) (H0 : 0 <= dtol) (HD : dtol < Rabs (Mdet L)).
  Hypothesis HC : forall k, In k [e1; e2; e3] -> dtol * Vnorm (col L k) < Rabs (Mdet L).
  Hypothesis SG : (sg = 1 \/ sg = -1)%Z /\ Mdet L = IZR sg * Rabs (Mdet L).
  Lemma len_Z a b : len_le (col L a) (col L b) = zlen g a b.
  Proof using Hu EG.
    apply eq_true_iff_eq. rewrite len_le_iff, nrm_le, !(nrm_val u g L _ EG). unfold zlen. rewrite Z.leb_le. split; intro H.
    - apply le_IZR, (Rmult_le_reg_l u); assumption.
    - apply Rmult_le_compat_l; [lra|]. now apply IZR_le.
  Qed.
  Lemma scan2_Z a l : forall i cv b k, zscan2 a i l = Some (b, k) -> @scan_second RNum dtol (col L a) i cv (map (col L) l) = (Vcross (col L a) (col L b), k).
  Proof using H0 HC.
    induction l as [|v t IH]; intros i cv b k E; [discriminate|]. cbn [zscan2] in E. cbn [map scan_second].
    change (@fabs RNum (@magnitude RNum (@cross RNum (col L a) (col L v)))) with (Rabs (@magnitude RNum (Vcross (col L a) (col L v)))). rewrite magnitude_R, abs_norm.
    destruct (zveqb (ZVcross a v) (V 0 0 0)%Z) eqn:Q.
    - apply zveqb_eq in Q. replace (@flt RNum dtol (Vnorm (Vcross (col L a) (col L v)))) with false; [now apply IH|]. symmetry. apply flt_false. unfold col. rewrite (cross_Z0 L a v Q), norm_0. exact H0.
    - injection E as <- <-. replace (@flt RNum dtol (Vnorm (Vcross (col L a) (col L v)))) with true; [reflexivity|]. symmetry. apply flt_true. apply (big_cross L dtol HC). intro X. rewrite X in Q. discriminate Q.
  Qed.
  Lemma scan3_Z a b l : forall i, @scan_third RNum dtol (Vcross (col L a) (col L b)) i (map (col L) l) = zscan3 sg a b i l.
  Proof using H0 HD SG.
    induction l as [|v t IH]; intro i; [reflexivity|]. cbn [zscan3 map scan_third].
    change (@dot RNum (Vcross (col L a) (col L b)) (col L v)) with (Vdot (Vcross (col L a) (col L b)) (col L v)). unfold col at 1 2 3. rewrite triple_Z. destruct SG as (S1 & S2).
    replace (@flt RNum dtol (Mdet L * IZR (zdet a b v))) with (0 <? sg * zdet a b v)%Z; [destruct (0 <? _)%Z; [reflexivity|apply IH]|].
    rewrite S2, Rmult_comm, <- Rmult_assoc, <- mult_IZR, (Z.mul_comm (zdet a b v)). set (d := (sg * zdet a b v)%Z). destruct (Z.ltb_spec 0 d) as [P|P]; symmetry.
    - apply flt_true. assert (1 <= IZR d) by (apply (IZR_le 1); lia). assert (1 * Rabs (Mdet L) <= IZR d * Rabs (Mdet L)) by (apply Rmult_le_compat_r; [apply Rabs_pos|assumption]). lra.
    - apply flt_false. assert (IZR d <= 0) by (apply (IZR_le _ 0); lia). assert (IZR d * Rabs (Mdet L) <= 0 * Rabs (Mdet L)) by (apply Rmult_le_compat_r; [apply Rabs_pos|assumption]). lra.
  Qed.
  Lemma zscan2_le a l : forall i b k, zscan2 a i l = Some (b, k) -> (i <= k < i + List.length l)%nat.
  Proof using Type. induction l as [|v t IH]; intros i b k E; [discriminate|]. cbn [zscan2 List.length] in *. destruct (zveqb _ _); [apply IH in E; lia|injection E as _ <-; lia]. Qed.
  Lemma short_Z zs a b c : zshort g sg zs = Some (a, b, c) -> rshort dtol (map (col L) zs) = Ok (col L a, col L b, col L c).
  Proof using All.
    intro E. rewrite shortest_eq. cbv zeta. rewrite (sort_map (col L) (zlen g) len_le zs len_Z). unfold zshort in E. cbv zeta in E. set (l := sort_by (zlen g) zs) in *. clearbody l.
    destruct l as [|x t]; [discriminate|]. destruct (zscan2 x 1 t) as [[y k]|] eqn:E2; [|discriminate]. cbn [map nth_error of_opt bind]. change (skipn 1 (col L x :: map (col L) t)) with (map (col L) t).
    rewrite (scan2_Z x t 1 (V 0 0 0) y k E2). pose proof (zscan2_le x t 1 y k E2) as LK.
    change (col L x :: map (col L) t) with (map (col L) (x :: t)). rewrite map_length. replace (List.length (x :: t) <? S k)%nat with false by (symmetry; apply Nat.ltb_ge; cbn [List.length]; lia).
    rewrite skipn_map, scan3_Z, !nth_error_map. destruct (nth_error (x :: t) k) as [b'|]; [|discriminate]. destruct (nth_error (x :: t) (zscan3 sg x y (S k) (skipn (S k) (x :: t)))) as [c'|]; [|discriminate].
    injection E as <- <- <-. reflexivity.
  Qed.
End Short.

(** ** find_primitive_cell *)
Definition zcombos : list (vec Z) := flat_map (fun z => [z; zneg z; zneg z]) dirs13.
Lemma combos_Z : @combination_vecs RNum (MofZ ZMid) = map VofZ zcombos.
Proof.
  unfold combination_vecs, zcombos. assert (EB : @base_comb_vecs RNum = map VofZ dirs13) by reflexivity. rewrite EB. clear EB.
  assert (NZ : forall z, In z dirs13 -> (1 <= vx z * vx z + vy z * vy z + vz z * vz z)%Z) by (intros z Hz; cbn in Hz; repeat (destruct Hz as [<-|Hz]; [cbn; lia|]); destruct Hz).
  revert NZ. generalize dirs13. intro l. induction l as [|z l IH]; intro NZ; [reflexivity|]. cbn [map flat_map]. rewrite map_app. rewrite IH by (intros y Hy; apply NZ; now right). f_equal.
  assert (E1 : @mvmul RNum (MofZ ZMid) (VofZ z) = VofZ z) by (change (Mapp (MofZ ZMid) (VofZ z) = VofZ z); now rewrite MofZ_id, Mapp_id). rewrite E1.
  assert (E2 : @vscale RNum (@fm1 RNum) (VofZ z) = VofZ (zneg z)) by (rewrite VofZ_neg; reflexivity). rewrite E2.
  change (@fabs RNum (@magnitude RNum (VofZ (zneg z)))) with (Rabs (@magnitude RNum (VofZ (zneg z)))). rewrite magnitude_R, abs_norm.
  replace (@flt RNum (@ZERO_TOL RNum) (Vnorm (VofZ (zneg z)))) with true; [reflexivity|]. symmetry. apply flt_true.
  assert (N1 : 1 <= Vnorm (VofZ (zneg z))).
  { unfold Vnorm. rewrite <- sqrt_1. apply sqrt_le_1_alt. unfold Vdot, VofZ, zneg. cbn [vx vy vz]. rewrite <- !mult_IZR, <- !plus_IZR. apply (IZR_le 1). pose proof (NZ z (or_introl eq_refl)). lia. }
  rewrite tolD_eq. unfold tolD. lra.
Qed.
Lemma prim_exact (P : @Pinv RNum) (HO : HashOrd) path (dtol : R) (s p : @structure RNum) y1 y2 y3 :
  List.length (species s) = List.length (frac_coords s) -> 0 <= dtol -> (0 < Z.of_nat (List.length (species s)) <= 65535)%Z ->
  (forall k, (k < 3)%nat -> 0 < Vnorm (Ccol (lattice s) k) /\ dtol <= Vnorm (Ccol (lattice s) k)) -> inverse_of (lattice s) (@pinv RNum P (lattice s)) -> no_inner_translation dtol s ->
  rshort dtol (map (col (lattice s)) [e1; e2; e3]) = Ok (col (lattice s) e1, col (lattice s) e2, col (lattice s) e3) ->
  rshort dtol (map (col (lattice s)) zcombos) = Ok (col (lattice s) y1, col (lattice s) y2, col (lattice s) y3) ->
  @find_primitive_cell RNum P HO path dtol s = Ok p -> lattice p = Mmul (lattice s) (MofZ (zcols y1 y2 y3)).
Proof.
  intros WF H0 HM HC HP NI R1 R2. set (L := lattice s) in *. set (temp := @normalize_coords RNum s dtol). rewrite prim_eq. fold temp.
  destruct (normalize_coords_spec s dtol) as (_ & Lt & Ls & _). fold temp in Lt, Ls. rewrite <- WF, Nat.min_id in Ls.
  destruct (@get_min_element_spec HO path (species temp)) as (me & ei & tc & -> & _ & _ & (NDe & Hei) & _); [rewrite Ls; exact HM|].
  cbn [bind]. destruct (am_get String.eqb me ei) as [bi|] eqn:Eb; [|discriminate]. apply (am_get_In ei me bi NDe) in Eb. apply Hei in Eb. destruct Eb as (j & -> & Hj & _). cbn [of_opt bind]. rewrite Nat2Z.id.
  destruct (nth_error (frac_coords temp) j) as [bs|] eqn:Hb; [|discriminate]. cbn [of_opt bind]. unfold prim_tail. fold L.
  assert (HT : forall k, (k < 3)%nat -> 0 <= vnth (@frac_tols_of RNum L dtol) k <= 1).
  { intros k Hk. assert (E : vnth (@frac_tols_of RNum L dtol) k = dtol / Vnorm (Ccol L k)).
    { destruct k as [|[|[|k]]]; [..|lia]; unfold frac_tols_of; cbn [vnth vx vy vz]; rewrite magnitude_R; reflexivity. }
    rewrite E. destruct (HC k Hk) as (A1 & A2). split; [apply Rmult_le_pos; [lra|left; now apply Rinv_0_lt_compat]|].
    apply (Rmult_le_reg_r (Vnorm (Ccol L k))); [exact A1|]. unfold Rdiv. rewrite Rmult_assoc, Rinv_l by lra. lra. }
  rewrite (tvecs_units dtol s WF me j bs H0 HT NI Hb Hj). cbn [map] in R1 |- *.
  change (rshort dtol [Mapp L (VofZ e1); Mapp L (VofZ e2); Mapp L (VofZ e3)]) with (rshort dtol [col L e1; col L e2; col L e3]). rewrite R1. cbn [bind].
  unfold col at 1 2 3. rewrite !(inv_app (@pinv RNum P L) L) by (split; apply HP).
  change (@from_columns R (VofZ e1) (VofZ e2) (VofZ e3)) with (MofZ ZMid). rewrite combos_Z, map_map.
  change (rshort dtol (map (fun x => Mapp L (VofZ x)) zcombos)) with (rshort dtol (map (col L) zcombos)). rewrite R2. cbn [bind].
  intro E. injection E as <-. rewrite (proj1 (normalize_coords_spec _ dtol)). cbn [lattice]. reflexivity.
Qed.

(** ** One pass of niggli_reduce that only changes signs *)
Lemma loop_signs (u eps : R) n g h (T : mat R) : 0 < u -> 0 < eps < u -> eps < 1 -> zc1b g = false -> zc2b g = false -> zpost_f (zmid_f g) = (false, h) ->
  exists i j k, pm1 i /\ pm1 j /\ pm1 k /\ (i * j * k = 1)%Z /\ @niggli_loop RNum (S n) eps (zmet u g, T) = Ok (zmet u h, Mmul T (MofZ (zdiag i j k))).
Proof.
  intros Hu He E1 C1 C2 CP. destruct (c34_spec eps (zmet u g)) as (i & j & k & Hi & Hj & Hk & Hp & E & _); [lra|]. exists i, j, k. do 4 (split; [assumption|]).
  rewrite (loop_S eps n (zmet u g, T) false (zmet u h, Mmul T (MofZ (zdiag i j k)))); [reflexivity|]. rewrite step_eq.
  assert (Q1 : @a1_cond RNum eps (zmet u g) = false) by (apply z1; [exact Hu|exact He|]; destruct (zc1b_spec g); [discriminate|assumption]).
  assert (Q2 : @a2_cond RNum eps (zmet u g) = false) by (apply z2; [exact Hu|exact He|]; destruct (zc2b_spec g); [discriminate|assumption]).
  unfold pre. cbn [fst]. rewrite Q1. cbn [fst]. rewrite Q2. unfold mid. rewrite congr_R. cbn [fst snd].
  destruct (g34 u eps Hu He g E1) as (N & EN & M1). rewrite EN. apply zmid_eq in M1. rewrite <- M1 in CP. rewrite E. clear M1 EN.
  unfold zpost_f in CP. destruct (zc5b_spec N) as [|X5]; [discriminate|]. destruct (zc6b_spec N) as [|X6]; [discriminate|]. destruct (zc7b_spec N) as [|X7]; [discriminate|]. destruct (zc8b_spec N) as [|X8]; [discriminate|]. injection CP as ->.
  unfold post. cbn [fst]. rewrite (proj2 (z5 u eps Hu He h) X5), (proj2 (z6' u eps Hu He h) X6), (proj2 (z7 u eps Hu He h) X7), (proj2 (z8 u eps Hu He h) X8). reflexivity.
Qed.
