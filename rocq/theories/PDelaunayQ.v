(** The Delaunay loop on rational data: running it over Q gives the run over R. *)
From Coq Require Import ZArith QArith Qreals Reals String List Bool Lia Lra Psatz.
From Flocq Require Import Core.
From Verif Require Import Num Mat SpaceGroup Structure Reduce RInst QInst Spec RFacts PNiggli PDelaunay.
Import ListNotations.

Import Reduce.
Definition qq (q : @quad QNum) : @quad RNum := Quad (N := RNum) (vQ (q0 q)) (vQ (q1 q)) (vQ (q2 q)) (vQ (q3 q)).
Lemma q_prods q : @get_scalar_prods RNum (qq q) = map Q2R (@get_scalar_prods QNum q).
Proof. unfold get_scalar_prods. cbn [map]. rewrite !q_dot. reflexivity. Qed.
Lemma q_ztol : @ZERO_TOL RNum = Q2R (@ZERO_TOL QNum).
Proof. unfold ZERO_TOL, flit. cbn [fdiv fofZ RNum]. change (@fdiv QNum _ _) with (1 # 1000000)%Q. unfold Q2R. cbn [Qnum Qden]. lra. Qed.
Lemma q_max_scan l : forall i m mi, @max_scan RNum i (Q2R m) mi (map Q2R l) = @max_scan QNum i m mi l.
Proof.
  induction l as [|h t IH]; intros i m mi; [reflexivity|]. cbn [map max_scan]. rewrite q_ztol, !q_lt.
  destruct (@flt QNum _ h && @flt QNum m h)%bool; apply IH.
Qed.
Lemma q_fm1 : @fm1 RNum = Q2R (@fm1 QNum).
Proof. unfold fm1. rewrite q_ofZ. reflexivity. Qed.
Lemma q_transform i q : @delaunay_transform RNum i (qq q) = qq (@delaunay_transform QNum i q).
Proof.
  destruct i as [|[|[|[|[|i]]]]]; unfold delaunay_transform, qq; cbn [q0 q1 q2 q3]; rewrite q_fm1, ?q_vadd, ?q_vscale_r; reflexivity.
Qed.
Lemma q_existsb l : existsb (fun v => @flt RNum (@ZERO_TOL RNum) v) (map Q2R l) = existsb (fun v => @flt QNum (@ZERO_TOL QNum) v) l.
Proof. induction l as [|h t IH]; [reflexivity|]. cbn [map existsb]. now rewrite IH, q_ztol, q_lt. Qed.
Lemma q_dloop f : forall n q, @delaunay_loop RNum f n (qq q) =
  match @delaunay_loop QNum f n q with Ok (q', c) => Ok (qq q', c) | Panic p => Panic p | OutOfFuel => OutOfFuel end.
Proof.
  induction f as [|f IH]; intros n q; cbn [delaunay_loop]; rewrite q_prods, q_existsb;
    destruct (existsb _ _ && _)%bool; try reflexivity.
  assert (E : @max_scan RNum 0 (@f0 RNum) 0 (map Q2R (@get_scalar_prods QNum q)) = @max_scan QNum 0 (@f0 QNum) 0 (@get_scalar_prods QNum q)).
  { rewrite <- q_max_scan. f_equal. unfold f0. now rewrite q_ofZ. }
  rewrite E, q_transform. apply IH.
Qed.
Definition zquad (L : mat Z) : @quad QNum :=
  match @delaunay_matrix QNum (Structure (N := QNum) (@mcast QNum L) [] [] []) with
  | [a; b; c; d] => Quad (N := QNum) a b c d | _ => Quad (N := QNum) (V 0 0 0) (V 0 0 0) (V 0 0 0) (V 0 0 0) end%Q.
Lemma zquad_R L : quadof (MofZ L) = qq (zquad L).
Proof.
  unfold zquad, delaunay_matrix, quadof, qq. cbn [lattice q0 q1 q2 q3]. rewrite q_vscale, !q_vadd, <- q_fm1. apply quad_ext.
  1-3: apply vec_ext; unfold vQ, vmap, mcast, mmap, col0, col1, col2, Ccol, MofZ; cbn [vx vy vz m11 m12 m13 m21 m22 m23 m31 m32 m33]; now rewrite q_ofZ.
  apply vec_ext; unfold fourth, vscale, vadd, vmap2, vQ, vmap, mcast, mmap, col0, col1, col2, Vscal, Vadd, Ccol, MofZ, fm1; cbn [vx vy vz m11 m12 m13 m21 m22 m23 m31 m32 m33]; now rewrite !q_ofZ.
Qed.
(** The plain reduction of a lattice with integer entries, run over Q. *)
Lemma delaunay_run (P : @Pinv RNum) (dtol : R) (s : @structure RNum) (L : mat Z) : lattice s = MofZ L ->
  @delaunay_reduce RNum P dtol s false =
  match @delaunay_loop QNum 102 0 (zquad L) with
  | Ok (q, c) => if (c =? 100)%Z then Panic PDelaunay else Ok (rebuilt P (from_columns (vQ (q0 q)) (vQ (q1 q)) (vQ (q2 q))) (species s) (coords s) dtol)
  | Panic p => Panic p
  | OutOfFuel => OutOfFuel
  end.
Proof.
  intro HL. transitivity (do (q, count) <- @delaunay_loop RNum 102 0 (quadof (lattice s));
     if (count =? 100)%Z then Panic PDelaunay else
     do new_frac_coords <- @get_frac_coords RNum P (@from_columns R (q0 q) (q1 q) (q2 q)) (coords s);
     do new_structure <- @structure_new RNum P (@from_columns R (q0 q) (q1 q) (q2 q)) (species s) new_frac_coords false;
     Ok (@normalize_coords RNum new_structure dtol)); [reflexivity|].
  rewrite HL, zquad_R, q_dloop. destruct (@delaunay_loop QNum 102 0 (zquad L)) as [[q c]| |]; cbn [bind]; try reflexivity.
  destruct (c =? 100)%Z; [reflexivity|]. apply build_eq.
Qed.
