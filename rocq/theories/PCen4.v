(** Cubic crystals on centred lattices with fractional positions *)
From Coq Require Import ZArith Reals String Ascii List Bool Lia Lra Psatz Permutation.
From Flocq Require Import Core.
From Verif Require Import Num Mat Utils DataCore DataPG DataSG SymmOp PointGroup SpaceGroup Structure Reduce Analyzer RInst Spec Spec2 Spec3 Spec5 Spec6 Spec8 Spec10 Spec11 RFacts
  PUtils PSymmOp PStructure PStructure2 PStructure3 PNiggli PDelaunay PPrim PPrim2 PLattice PAnalyzer PAnalyzer2 PPointGroup PPointGroup2 PSpaceGroup PSpaceGroup2 PCode PTables PIdentify
  PSearch PSearch3 PSearch4 PSearch6 PSearch7 PEnd PEnd2 PEnd3 PEnd4 PEnd11 PEnd12 PEnd13 PEnd14 PEnd15 PEnd16 PEnd17 PEnd18 Prop4 Prop5 PRun PRun2 PHex PHex2 PHex3 PHex4 PHex5 PHex6 PHex7 PRed4 PRed5 PPrim5 PNiggli2 PNiggli3 PNiggli4 PEnd8 PEnd9 PEnd10 PCen PCen2 PCen3.
Import ListNotations.
Open Scope R_scope.

Lemma face_gram a L : face_centred_cell a L -> gram L = zmet (a * a / 4) (km true).
Proof. intro H. unfold gram. unfold face_centred_cell in H. rewrite H. unfold metric, zmet, km. cbn [za zb zc zd ze zf]. apply (@mat_ext R); cbn [m11 m12 m13 m21 m22 m23 m31 m32 m33]; lra. Qed.
Lemma body_gram a L : body_centred_cell a L -> gram L = zmet (a * a / 4) (km false).
Proof. intro H. unfold gram. unfold body_centred_cell in H. rewrite H. unfold metric, zmet, km. cbn [za zb zc zd ze zf]. apply (@mat_ext R); cbn [m11 m12 m13 m21 m22 m23 m31 m32 m33]; lra. Qed.
Lemma cen_isos f (a : R) L : 0 < a -> gram L = zmet (a * a / 4) (km f) -> forall r, In r (krots f) <-> lattice_isometry L r.
Proof.
  intros Ha EG r. assert (U : 0 < a * a / 4) by nra. apply (iff_trans (krots_iff f r)). split; intro H.
  - apply (proj2 (isometry_gram _ _)). rewrite EG, (gram_mul _ _ L r EG), H. reflexivity.
  - apply (zmet_inj (a * a / 4)); [exact U|]. rewrite <- EG. rewrite <- (proj1 (isometry_gram _ _) H). symmetry. exact (gram_mul _ _ L r EG).
Qed.
Lemma cen_conditions f dtol a m L sites : (0 < m)%Z -> gram L = zmet (a * a / 4) (km f) -> 2 <= a -> 1 / 100000 <= dtol -> fractions_of m sites -> 72 * IZR m * dtol <= a ->
  spread (1 / (2 * IZR m)) sites /\ rigid (2 * dtol) L sites (lattice_isometry L) /\ 36 * dtol <= 1 / (2 * IZR m) * a.
Proof.
  intros Hm EG Ba Hd FR Ma. assert (Pm : 0 < IZR m) by (apply (IZR_lt 0), Hm). split; [now apply fractions_spread|]. split.
  - assert (PP : 0 < IZR m * dtol) by (apply Rmult_lt_0_compat; lra). apply (fractions_rigid_gen m Hm L (a / 2) (2 * dtol) sites); [|lra|lra|exact FR].
    intro v. pose proof (klength f (a * a / 4) L v ltac:(nra) EG) as Q. replace (a * a / 4) with ((a / 2) * (a / 2)) in Q by field. rewrite sqrt_square in Q by lra. exact Q.
  - apply (Rmult_le_reg_l (2 * IZR m)); [lra|]. replace (2 * IZR m * (1 / (2 * IZR m) * a)) with a by (field; lra). lra.
Qed.
Definition cen_check (f : bool) (m w : Z) (pts : list (vec Z * string)) (sym : string) (codes : list Z) : bool :=
  match pts with
  | (k0, e0) :: _ =>
      let G := group_ops sym codes in
      if (m =? 12 * w)%Z then if (0 <? m)%Z then if distinct_check m pts then if check_only m pts w ZMid ZMid (krots f) G k0 e0 then check_has m pts w ZMid ZMid (krots f) G else false else false else false else false
  | [] => false
  end.
Lemma cen_group_of f m w pts (a : R) L sym codes : 0 < a -> gram L = zmet (a * a / 4) (km f) -> cen_check f m w pts sym codes = true ->
  (0 < m)%Z /\ fractions_of m (grid_sites m pts) /\
  forall r t, (lattice_isometry L r /\ exact_operation (grid_sites m pts) r t) <->
    exists code, In code codes /\ r = fst (code_op (has_char "A"%char sym) code) /\ Vcongr t (in_twelfths (snd (code_op (has_char "A"%char sym) code))).
Proof.
  intros Ha EG Q. unfold cen_check in Q. destruct pts as [|[k0 e0] rest] eqn:EP; [discriminate|]. rewrite <- EP in *. cbv zeta in Q.
  destruct (m =? 12 * w)%Z eqn:Q1; [|discriminate]. destruct (0 <? m)%Z eqn:Q2; [|discriminate]. destruct (distinct_check m pts) eqn:Q3; [|discriminate].
  destruct (check_only m pts w ZMid ZMid (krots f) (group_ops sym codes) k0 e0) eqn:Q4; [|discriminate]. apply Z.eqb_eq in Q1. apply Z.ltb_lt in Q2.
  split; [exact Q2|]. split; [now apply grid_fractions|]. intros r t.
  assert (C1 : forall r, conj ZMid r ZMid = r) by (intro r0; apply MofZ_eq_from_action; intro x; rewrite conj_app, !MofZ_id, !Mapp_id; reflexivity).
  assert (IS : forall r, In r (krots f) <-> lattice_isometry L (conj ZMid r ZMid)) by (intro r0; rewrite C1; exact (cen_isos f a L Ha EG r0)).
  apply (iff_trans (grid_group m pts Q2 w ZMid ZMid (krots f) (group_ops sym codes) (lattice_isometry L) k0 e0 Q1 ltac:(rewrite EP; now left) eq_refl IS Q4 Q r t)).
  split.
  - intros (o & Ho & A1 & A2). rewrite C1 in A1. rewrite MofZ_id, Mapp_id in A2. unfold group_ops in Ho. apply in_map_iff in Ho. destruct Ho as (code & <- & H). exists code. split; [exact H|]. split; [exact A1|exact A2].
  - intros (code & H & A1 & A2). exists (code_op (has_char "A"%char sym) code). split; [unfold group_ops; apply (in_map (code_op (has_char "A"%char sym))); exact H|]. rewrite C1, MofZ_id, Mapp_id. split; [exact A1|exact A2].
Qed.
(** ** Crystals *)
Definition face_axes (a : R) : mat R := M 0 (a / 2) (a / 2) (a / 2) 0 (a / 2) (a / 2) (a / 2) 0.
Definition body_axes (a : R) : mat R := M (- a / 2) (a / 2) (a / 2) (a / 2) (- a / 2) (a / 2) (a / 2) (a / 2) (- a / 2).
Lemma face_axes_cell a : face_centred_cell a (face_axes a).
Proof. unfold face_centred_cell, face_axes, metric, Mmul, Mtr. cbn [m11 m12 m13 m21 m22 m23 m31 m32 m33]. apply (@mat_ext R); cbn [m11 m12 m13 m21 m22 m23 m31 m32 m33]; field. Qed.
Lemma body_axes_cell a : body_centred_cell a (body_axes a).
Proof. unfold body_centred_cell, body_axes, metric, Mmul, Mtr. cbn [m11 m12 m13 m21 m22 m23 m31 m32 m33]. apply (@mat_ext R); cbn [m11 m12 m13 m21 m22 m23 m31 m32 m33]; field. Qed.
(** points in units of 1/m of the primitive axes *)
Definition grid_crystal (m : Z) (L : mat R) (pts : list (vec Z * string)) : @structure RNum := Structure (N := RNum) L (map snd pts) [] (map (fun p => fracM m (fst p)) pts).
Lemma grid_crystal_sites m L pts : combine (frac_coords (grid_crystal m L pts)) (species (grid_crystal m L pts)) = grid_sites m pts.
Proof. unfold grid_crystal, grid_sites. cbn [frac_coords species]. induction pts as [|p pts IH]; [reflexivity|]. cbn [map combine fst snd]. f_equal. exact IH. Qed.
Lemma grid_crystal_len m L pts : List.length (frac_coords (grid_crystal m L pts)) = List.length (species (grid_crystal m L pts)).
Proof. unfold grid_crystal. cbn [frac_coords species]. now rewrite !map_length. Qed.
(** rock salt, zinc blende and diamond *)
Definition rock_salt : list (vec Z * string) := [(V 0 0 0, "Na"); (V 6 6 6, "Cl")]%Z%string.
Definition zinc_blende : list (vec Z * string) := [(V 0 0 0, "Zn"); (V 3 3 3, "S")]%Z%string.
Definition diamond : list (vec Z * string) := [(V 0 0 0, "C"); (V 3 3 3, "C")]%Z%string.
(** the oxide Pt3O4 *)
Definition platinum_oxide : list (vec Z * string) := [(V 0 6 6, "Pt"); (V 6 0 6, "Pt"); (V 6 6 0, "Pt"); (V 6 6 6, "O"); (V 6 0 0, "O"); (V 0 6 0, "O"); (V 0 0 6, "O")]%Z%string.
(** Th3P4, in units of 1/24: thorium on 12a and phosphorus on 16c (x = 1/12) of I-43d *)
Definition thorium_phosphide : list (vec Z * string) :=
  [(V 15 9 6, "Th"); (V 3 18 21, "Th"); (V 18 21 3, "Th"); (V 6 15 9, "Th"); (V 9 6 15, "Th"); (V 21 3 18, "Th");
   (V 0 20 12, "P"); (V 20 12 0, "P"); (V 12 0 8, "P"); (V 16 16 16, "P"); (V 0 8 12, "P"); (V 4 4 4, "P"); (V 8 12 0, "P"); (V 12 0 20, "P")]%Z%string.
Lemma rock_salt_checked : checked_entry 225 Cubic 48 "Fm-3m" (cen_check true 12 1 rock_salt "Fm-3m") = true. Proof. vm_compute. reflexivity. Qed.
Lemma zinc_blende_checked : checked_entry 216 Cubic 24 "F-43m" (cen_check true 12 1 zinc_blende "F-43m") = true. Proof. vm_compute. reflexivity. Qed.
Lemma diamond_checked : checked_entry 227 Cubic 48 "Fd-3m1" (cen_check true 12 1 diamond "Fd-3m1") = true. Proof. vm_compute. reflexivity. Qed.
Lemma platinum_oxide_checked : checked_entry 229 Cubic 48 "Im-3m" (cen_check false 12 1 platinum_oxide "Im-3m") = true. Proof. vm_compute. reflexivity. Qed.
Lemma thorium_phosphide_checked : checked_entry 220 Cubic 24 "I-43d" (cen_check false 24 2 thorium_phosphide "I-43d") = true. Proof. vm_compute. reflexivity. Qed.
