(** Hexagonal crystals with fractional positions, and which axes keep all operations *)
From Coq Require Import ZArith Reals String Ascii List Bool Lia Lra Psatz Permutation.
From Flocq Require Import Core.
From Verif Require Import Num Mat Utils DataCore DataPG DataSG SymmOp PointGroup SpaceGroup Structure Reduce Analyzer RInst Spec Spec2 Spec3 Spec5 Spec6 Spec8 RFacts
  PUtils PSymmOp PStructure PStructure2 PStructure3 PNiggli PDelaunay PPrim PPrim2 PLattice PAnalyzer PAnalyzer2 PPointGroup PPointGroup2 PSpaceGroup PSpaceGroup2 PCode PTables PIdentify
  PSearch PSearch3 PSearch4 PSearch6 PSearch7 PEnd PEnd2 PEnd3 PEnd4 PEnd11 PEnd12 PEnd13 PEnd14 PEnd15 PEnd17 PEnd18 Prop4 Prop5 PRun PRun2 PHex PHex2 PHex3 PHex4 PHex5.
Import ListNotations.
Open Scope R_scope.

Lemma along_conj_inv u ui r0 t0 r t : ZMmul u ui = ZMid -> along u r0 t0 r t <-> (r = conj u r0 ui /\ Vcongr t (Mapp (MofZ u) t0)).
Proof.
  intro UI. pose proof (zinv_comm _ _ UI) as IU. unfold along. split; intros [E C]; (split; [|exact C]).
  - apply MofZ_eq_from_action. intro v. rewrite conj_app. rewrite <- (Mapp_Mmul (MofZ u)), <- E, Mapp_Mmul, (app_inv u _ v UI). reflexivity.
  - subst r. unfold conj. rewrite !MofZ_mul, !Mmul_assoc, <- (MofZ_mul ui u), IU, MofZ_id, Mmul_id_r. reflexivity.
Qed.
Lemma hex_spec a c L : hexagonal_cell a c L <-> gram L = hexm (a * a) (c * c). Proof. reflexivity. Qed.
Lemma near_small u : near_axes u -> small 1 u /\ (ZMdet u = 1%Z \/ ZMdet u = (-1)%Z) /\ ZMmul u (zinv u) = ZMid.
Proof. intros [H1 H2]. split; [exact H1|]. split; [exact H2|now apply zinv_r]. Qed.

(** ** Which axes keep every operation *)
Definition trits : list Z := [-1; 0; 1]%Z.
Definition rows3 : list (Z * Z * Z) := flat_map (fun x => flat_map (fun y => map (fun z => (x, y, z)) trits) trits) trits.
Definition keeps (hr : list (mat Z)) (u : mat Z) : bool :=
  if (skewness u <=? 6)%Z then if if (ZMdet u =? 1)%Z then true else (ZMdet u =? -1)%Z then let ui := zinv u in forallb (fun r => has_unit_entry (conj u r ui)) hr else true else true.
Definition of_rows (p q r : Z * Z * Z) : mat Z := let '(a, b, c) := p in let '(d, e, f) := q in let '(g, h, i) := r in M a b c d e f g h i.
Lemma keeps_checked : forallb (fun p => forallb (fun q => forallb (fun r => keeps hexrots (of_rows p q r)) rows3) rows3) rows3 = true.
Proof. vm_compute. reflexivity. Qed.
Lemma trit_in x : (-1 <= x <= 1)%Z -> In x trits. Proof. intro H. assert (x = -1 \/ x = 0 \/ x = 1)%Z as [-> | [-> | ->]] by lia; cbn; tauto. Qed.
Lemma row_in x y z : (-1 <= x <= 1)%Z -> (-1 <= y <= 1)%Z -> (-1 <= z <= 1)%Z -> In (x, y, z) rows3.
Proof. intros Hx Hy Hz. unfold rows3. apply in_flat_map. exists x. split; [now apply trit_in|]. apply in_flat_map. exists y. split; [now apply trit_in|]. apply in_map_iff. exists z. split; [reflexivity|now apply trit_in]. Qed.
Lemma all_kept u ui r : near_axes u -> (skewness u <= 6)%Z -> ZMmul u ui = ZMid -> In r hexrots -> has_unit_entry (conj u r ui) = true.
Proof.
  intros NA SK UI Hr. destruct (near_small u NA) as (SM & DU & UZ). rewrite (Zinv_unique u ui (zinv u) UI UZ). clear UI.
  destruct u as [a b c d e f g h i] eqn:EU. unfold small, entries_within in SM. cbn [m11 m12 m13 m21 m22 m23 m31 m32 m33] in SM.
  pose proof (proj1 (forallb_forall _ _) keeps_checked (a, b, c) (row_in a b c ltac:(lia) ltac:(lia) ltac:(lia))) as Q1. cbv beta in Q1.
  pose proof (proj1 (forallb_forall _ _) Q1 (d, e, f) (row_in d e f ltac:(lia) ltac:(lia) ltac:(lia))) as Q2. cbv beta in Q2.
  pose proof (proj1 (forallb_forall _ _) Q2 (g, h, i) (row_in g h i ltac:(lia) ltac:(lia) ltac:(lia))) as Q3. cbv beta in Q3. clear Q1 Q2. unfold of_rows in Q3. rewrite <- EU in *. unfold keeps in Q3.
  replace (skewness u <=? 6)%Z with true in Q3 by (symmetry; now apply Z.leb_le). replace (if (ZMdet u =? 1)%Z then true else (ZMdet u =? -1)%Z) with true in Q3 by (destruct DU as [-> | ->]; reflexivity).
  cbv zeta in Q3. exact (proj1 (forallb_forall _ _) Q3 r Hr).
Qed.

(** ** Fractional positions *)
Lemma hex_conditions dtol a c m L u sites : (0 < m)%Z -> near_axes u -> hexagonal_cell a c (Mmul L (MofZ u)) -> 1 <= a <= 1000 -> 1 <= c <= 1000 -> 1 / 100000 <= dtol <= 1 / 24 ->
  fractions_of m sites -> 52 * IZR m * dtol <= a -> 52 * IZR m * dtol <= c ->
  spread (1 / (2 * IZR m)) sites /\ rigid (2 * dtol) L sites (lattice_isometry L) /\ 26 * dtol <= 1 / (2 * IZR m) * a /\ 26 * dtol <= 1 / (2 * IZR m) * c.
Proof.
  intros Hm NA EL Ba Bc Hd FR Ma Mc. assert (Pm : 0 < IZR m) by (apply (IZR_lt 0), Hm). destruct (near_small u NA) as (SU & DU & UI).
  split; [now apply fractions_spread|].
  assert (G : forall x, 52 * IZR m * dtol <= x -> 26 * dtol <= 1 / (2 * IZR m) * x).
  { intros x Hx. apply (Rmult_le_reg_l (2 * IZR m)); [lra|]. replace (2 * IZR m * (1 / (2 * IZR m) * x)) with x by (field; lra). lra. }
  split; [|split; [exact (G a Ma)|exact (G c Mc)]].
  assert (PP : 0 < IZR m * dtol) by (apply Rmult_lt_0_compat; lra). set (e := Rmin a c). assert (E0 : 52 * IZR m * dtol <= e) by (unfold e; apply Rmin_glb; assumption).
  apply (fractions_rigid_gen m Hm L (7 / 30 * e) (2 * dtol) sites); [|lra|lra|exact FR].
  intro v. assert (M0 : 1 <= e) by (unfold e; apply Rmin_glb; lra). assert (Ea : e <= a) by apply Rmin_l. assert (Ec : e <= c) by apply Rmin_r. assert (MA : e * e <= a * a) by (apply Rmult_le_compat; lra). assert (MC : e * e <= c * c) by (apply Rmult_le_compat; lra).
  assert (E : Mapp L v = Mapp (Mmul L (MofZ u)) (Mapp (MofZ (zinv u)) v)) by (rewrite Mapp_Mmul, (app_inv u _ v UI); reflexivity). rewrite E.
  pose proof (hex_norm _ _ _ e (Mapp (MofZ (zinv u)) v) EL ltac:(lra) MA MC) as N1. pose proof (small_norm 1 u (Mapp (MofZ (zinv u)) v) ltac:(lia) SU) as N2. rewrite (app_inv u _ v UI) in N2.
  pose proof (Rmult_le_compat_l (7 / 30 * e) _ _ ltac:(lra) N2) as N3. lra.
Qed.
Definition hex_check (m w : Z) (pts : list (vec Z * string)) (u : mat Z) (sym : string) (codes : list Z) : bool :=
  match pts with
  | (k0, e0) :: _ =>
      let G := group_ops sym codes in let ui := zinv u in
      if (m =? 12 * w)%Z then if (0 <? m)%Z then if distinct_check m pts then if check_only m pts w u ui hexrots G k0 e0 then check_has m pts w u ui hexrots G else false else false else false else false
  | [] => false
  end.
(** the matrices of the isometries of a hexagonal lattice, along its axes *)
Lemma hex_isos a c L u ui : 0 < a -> 0 < c -> ZMmul u ui = ZMid -> hexagonal_cell a c (Mmul L (MofZ u)) -> forall r, In r hexrots <-> lattice_isometry L (conj u r ui).
Proof.
  intros Ha Hc UI EL r. pose proof (zinv_comm _ _ UI) as IU. rewrite <- hexrots_eq, (hex_iso _ (a * a) (c * c) EL ltac:(nra) ltac:(nra)). rewrite !isometry_gram, !Mmul_assoc, <- !MofZ_mul. assert (EC : ZMmul u r = ZMmul (conj u r ui) u).
  { apply MofZ_eq_from_action. intro x. rewrite !MofZ_mul, !Mapp_Mmul, conj_app, (app_inv ui u _ IU). reflexivity. }
  rewrite EC, MofZ_mul, <- Mmul_assoc, (gram_app (Mmul L (MofZ (conj u r ui))) u), (gram_app L u). split; intro E; [|rewrite E; reflexivity].
  assert (X : Mmul (Mmul (Mtr (MofZ ui)) (Mmul (Mtr (MofZ u)) (Mmul (gram (Mmul L (MofZ (conj u r ui)))) (MofZ u)))) (MofZ ui) = Mmul (Mmul (Mtr (MofZ ui)) (Mmul (Mtr (MofZ u)) (Mmul (gram L) (MofZ u)))) (MofZ ui)) by now rewrite E.
  assert (Y : forall g, Mmul (Mmul (Mtr (MofZ ui)) (Mmul (Mtr (MofZ u)) (Mmul g (MofZ u)))) (MofZ ui) = g).
  { intro g. rewrite !Mmul_assoc, <- MofZ_mul, UI, MofZ_id, Mmul_id_r, <- Mmul_assoc, <- Mtr_mul, <- MofZ_mul, UI, MofZ_id. change (Mtr Mid) with (@Mid). apply Mmul_id_l. }
  now rewrite !Y in X.
Qed.
Lemma hex_group_of m w pts a c L u sym codes : 0 < a -> 0 < c -> near_axes u -> hexagonal_cell a c (Mmul L (MofZ u)) -> hex_check m w pts u sym codes = true ->
  (0 < m)%Z /\ fractions_of m (grid_sites m pts) /\
  forall r t, (lattice_isometry L r /\ exact_operation (grid_sites m pts) r t) <->
    exists code, In code codes /\ along u (fst (code_op (has_char "A"%char sym) code)) (in_twelfths (snd (code_op (has_char "A"%char sym) code))) r t.
Proof.
  intros Ha Hc NA EL Q. destruct (near_small u NA) as (_ & _ & VI). unfold hex_check in Q. destruct pts as [|[k0 e0] rest] eqn:EP; [discriminate|]. rewrite <- EP in *. cbv zeta in Q.
  destruct (m =? 12 * w)%Z eqn:Q1; [|discriminate]. destruct (0 <? m)%Z eqn:Q2; [|discriminate]. destruct (distinct_check m pts) eqn:Q3; [|discriminate].
  destruct (check_only m pts w u (zinv u) hexrots (group_ops sym codes) k0 e0) eqn:Q4; [|discriminate]. apply Z.eqb_eq in Q1. apply Z.ltb_lt in Q2.
  split; [exact Q2|]. split; [now apply grid_fractions|]. intros r t.
  rewrite (grid_group m pts Q2 w u (zinv u) hexrots (group_ops sym codes) (lattice_isometry L) k0 e0 Q1 ltac:(rewrite EP; now left) VI (hex_isos a c L u (zinv u) Ha Hc VI EL) Q4 Q r t).
  split.
  - intros (o & Ho & A). unfold group_ops in Ho. apply in_map_iff in Ho. destruct Ho as (code & <- & H). exists code. split; [exact H|]. apply (along_conj_inv u (zinv u)); [exact VI|exact A].
  - intros (code & H & A). apply (along_conj_inv u (zinv u)) in A; [|exact VI]. exists (code_op (has_char "A"%char sym) code). split; [now apply in_map|exact A].
Qed.

(** ** Crystals *)
(** hexagonal axes with edges [a] and [c] *)
Definition hex_axes (a c : R) : mat R := M a (- a / 2) 0 0 (a * sqrt 3 / 2) 0 0 0 c.
(** the crystal with the points [pts] (in units of 1/m along hexagonal axes), given along the basis in which the hexagonal axes are the columns of [u] *)
Definition hex_crystal (m : Z) (a c : R) (u : mat Z) (pts : list (vec Z * string)) : @structure RNum :=
  Structure (N := RNum) (Mmul (hex_axes a c) (MofZ (zinv u))) (map snd pts) [] (map (fun p => fracM m (ZMapp u (fst p))) pts).
Lemma hex_axes_cell a c : hexagonal_cell a c (hex_axes a c).
Proof.
  unfold hexagonal_cell, hex_axes, Mmul, Mtr. cbn [m11 m12 m13 m21 m22 m23 m31 m32 m33]. assert (S : sqrt 3 * sqrt 3 = 3) by (apply sqrt_sqrt; lra).
  apply (@mat_ext R); cbn [m11 m12 m13 m21 m22 m23 m31 m32 m33]; try lra; try field. transitivity (a * a / 4 + a * a / 4 * (sqrt 3 * sqrt 3)); [field|rewrite S; field].
Qed.
Definition turned (u : mat Z) (pts : list (vec Z * string)) : list (vec Z * string) := map (fun p => (ZMapp u (fst p), snd p)) pts.
Lemma hex_crystal_sites m a c u pts : combine (frac_coords (hex_crystal m a c u pts)) (species (hex_crystal m a c u pts)) = grid_sites m (turned u pts).
Proof. unfold hex_crystal, grid_sites, turned. cbn [frac_coords species]. induction pts as [|p pts IH]; [reflexivity|]. cbn [map combine fst snd]. f_equal. exact IH. Qed.
Lemma hex_crystal_len m a c u pts : List.length (frac_coords (hex_crystal m a c u pts)) = List.length (species (hex_crystal m a c u pts)).
Proof. unfold hex_crystal. cbn [frac_coords species]. now rewrite !map_length. Qed.
Lemma hex_crystal_cell m a c u pts : near_axes u -> hexagonal_cell a c (Mmul (lattice (hex_crystal m a c u pts)) (MofZ u)).
Proof.
  intro NA. destruct (near_small u NA) as (_ & _ & UI). pose proof (zinv_comm _ _ UI) as IU. unfold hex_crystal. cbn [lattice]. rewrite Mmul_assoc, <- MofZ_mul, IU, MofZ_id. rewrite Mmul_id_r. apply hex_axes_cell.
Qed.
Lemma hex_crystal_det m a c u pts : near_axes u -> 0 < a -> 0 < c -> Rabs (Mdet (lattice (hex_crystal m a c u pts))) = a * a * c * (sqrt 3 / 2).
Proof.
  intros NA Ha Hc. destruct (near_small u NA) as (_ & DU & UI). unfold hex_crystal. cbn [lattice]. rewrite Mdet_mul, MofZ_det, Rabs_mult.
  assert (D : (ZMdet u * ZMdet (zinv u) = 1)%Z) by (rewrite <- ZMdet_mul, UI; reflexivity). assert (E : Rabs (IZR (ZMdet (zinv u))) = 1).
  { assert (ZMdet (zinv u) = 1 \/ ZMdet (zinv u) = -1)%Z as [-> | ->] by (destruct DU as [Q|Q]; rewrite Q in D; lia); [apply Rabs_R1|rewrite Rabs_left; lra]. }
  rewrite E, Rmult_1_r. unfold hex_axes, Mdet. cbn [m11 m12 m13 m21 m22 m23 m31 m32 m33]. assert (S : 0 < sqrt 3) by (apply sqrt_lt_R0; lra).
  assert (P1 : 0 < a * a * c * sqrt 3) by (repeat apply Rmult_lt_0_compat; lra). rewrite Rabs_pos_eq; [field|]. lra.
Qed.
Lemma hex_crystal_apart m a c u pts : near_axes u -> 0 < a -> 0 < c -> a * a * c <= 1000 -> 1 / 10000 < Rabs (a * a - c * c) -> told_apart a c (lattice (hex_crystal m a c u pts)).
Proof.
  intros NA Ha Hc LE H. unfold told_apart. rewrite (hex_crystal_det m a c u pts NA Ha Hc). assert (S1 : 0 < sqrt 3) by (apply sqrt_lt_R0; lra). assert (S2 : sqrt 3 <= 2) by (replace 2 with (sqrt (2 * 2)) by (rewrite sqrt_square; lra); apply sqrt_le_1_alt; lra).
  assert (P0 : 0 < a * a * c) by (repeat apply Rmult_lt_0_compat; lra). assert (P1 : 0 < a * a * c * (sqrt 3 / 2)) by (apply Rmult_lt_0_compat; lra).
  assert (P2 : a * a * c * (sqrt 3 / 2) <= 1000) by (pose proof (Rmult_le_compat_l (a * a * c) (sqrt 3 / 2) 1 ltac:(lra) ltac:(lra)); lra).
  pose proof (small_eps _ (Logic.conj P1 P2)) as [_ Q]. lra.
Qed.
(** hexagonal close packing, and axes along which an operation of it has no entry among -1, 0, 1 *)
Definition close_packed (e : string) : list (vec Z * string) := [(V 4 8 3, e); (V 8 4 9, e)]%Z.
Definition skewed : mat Z := (M (-1) (-1) (-1) (-1) (-1) 0 (-1) 0 (-1))%Z.
Lemma skewed_near : near_axes skewed. Proof. split; [unfold entries_within; cbn; lia|left; reflexivity]. Qed.
Lemma id_near : near_axes ZMid. Proof. split; [unfold entries_within; cbn; lia|left; reflexivity]. Qed.
Lemma close_packed_checked : checked_entry 194 Hexagonal 24 "P6_3/mmc" (hex_check 12 1 (turned ZMid (close_packed "Mg")) ZMid "P6_3/mmc") = true.
Proof. vm_compute. reflexivity. Qed.
Lemma skewed_checked : checked_entry 194 Hexagonal 24 "P6_3/mmc" (hex_check 12 1 (turned skewed (close_packed "Mg")) skewed "P6_3/mmc") = true.
Proof. vm_compute. reflexivity. Qed.

(** ** For the statements *)
Lemma filter_map_length {A B} (g : A -> B) (f : B -> bool) l : List.length (filter f (map g l)) = List.length (filter (fun x => f (g x)) l).
Proof. induction l as [|x l IH]; [reflexivity|]. cbn [map filter]. destruct (f (g x)); cbn [List.length]; rewrite IH; reflexivity. Qed.
Lemma nanos_congr_r e x t t' : nanos e x t' -> Vcongr t t' -> nanos e x t.
Proof. intros N1 C. replace e with (e + 0) by ring. exact (nanos_trans _ _ _ _ _ N1 (nanos_congr _ _ (PSymmOp.Vcongr_sym _ _ C))). Qed.
Definition hex_rots_of (hr : list (mat Z)) (e : lattice_system * Z * Z * list Z) : bool :=
  let '(ls, _, N, codes) := e in
  match ls with
  | Hexagonal => match am_get Z.eqb N SG_NUM_TO_SYMBOL with Some sym => forallb (fun code => let r := fst (code_op (has_char "A"%char sym) code) in ex_if (zmat_eqb r) hr) codes | None => false end
  | _ => true
  end.
Lemma hex_rots_checked : forallb (hex_rots_of hexrots) sg_entries = true. Proof. vm_compute. reflexivity. Qed.
Lemma hex_entry_rots order N codes sym code : tabulated Hexagonal order N codes -> am_get Z.eqb N SG_NUM_TO_SYMBOL = Some sym -> In code codes -> In (fst (code_op (has_char "A"%char sym) code)) hexrots.
Proof.
  intros HT ES Hc. apply sg_entries_In in HT. pose proof (proj1 (forallb_forall _ _) hex_rots_checked _ HT) as Q. unfold hex_rots_of in Q. rewrite ES in Q.
  pose proof (proj1 (forallb_forall _ _) Q code Hc) as K. cbv beta zeta in K. rewrite ex_if_existsb in K. apply existsb_exists in K. destruct K as (r & Hr & E). apply zmat_eqb_spec in E. rewrite E. exact Hr.
Qed.
Lemma filter_all {A} (f : A -> bool) l : (forall x, In x l -> f x = true) -> filter f l = l.
Proof. induction l as [|x l IH]; intro H; [reflexivity|]. cbn [filter]. rewrite (H x (or_introl eq_refl)), IH; [reflexivity|]. intros y Hy. apply H. now right. Qed.
Lemma hex_all_kept order N codes sym (u ui : mat Z) : tabulated Hexagonal order N codes -> am_get Z.eqb N SG_NUM_TO_SYMBOL = Some sym -> near_axes u -> (skewness u <= 6)%Z -> ZMmul u ui = ZMid ->
  filter (fun code => has_unit_entry (ZMmul (ZMmul u (fst (code_op (has_char "A"%char sym) code))) ui)) codes = codes.
Proof. intros HT ES NA SK UI. apply filter_all. intros code Hc. apply (all_kept u ui _ NA SK UI). exact (hex_entry_rots order N codes sym code HT ES Hc). Qed.
Lemma hex_mineral_facts m w a c u pts N order sym : 0 < a -> 0 < c -> a * a * c <= 1000 -> 1 / 10000 < Rabs (a * a - c * c) -> near_axes u ->
  checked_entry N Hexagonal order sym (hex_check m w (turned u pts) u sym) = true -> let s := hex_crystal m a c u pts in
  exists codes, tabulated Hexagonal order N codes /\ am_get Z.eqb N SG_NUM_TO_SYMBOL = Some sym /\ (0 < m)%Z /\ fractions_of m (combine (frac_coords s) (species s)) /\
  (forall r t, (lattice_isometry (lattice s) r /\ exact_operation (combine (frac_coords s) (species s)) r t) <->
    exists code, In code codes /\ along u (fst (code_op (has_char "A"%char sym) code)) (in_twelfths (snd (code_op (has_char "A"%char sym) code))) r t) /\
  hexagonal_cell a c (Mmul (lattice s) (MofZ u)) /\ told_apart a c (lattice s) /\ List.length (frac_coords s) = List.length (species s) /\ Z.of_nat (List.length codes) = order.
Proof.
  intros Ha Hc LE AP NA CK s. destruct (checked_entry_ok _ _ _ _ _ CK) as (codes & HT & ES & CH). exists codes.
  pose proof (hex_crystal_cell m a c u pts NA) as CE. destruct (hex_group_of m w (turned u pts) a c (lattice s) u sym codes Ha Hc NA CE CH) as (M0 & FR & IFF).
  split; [exact HT|]. split; [exact ES|]. split; [exact M0|]. unfold s in *. rewrite hex_crystal_sites. split; [exact FR|]. split; [exact IFF|]. split; [exact CE|]. split; [now apply hex_crystal_apart|].
  split; [apply hex_crystal_len|]. symmetry. apply sg_entries_In in HT. destruct (entry_facts _ _ _ _ HT) as (sym' & _ & _ & L & _). exact L.
Qed.
Definition dropped : mat Z := (M (-4) 3 3 (-3) 2 3 (-3) 2 2)%Z.
Lemma skewed_operation_checked : checked_entry 194 Hexagonal 24 "P6_3/mmc" (fun codes => ex_if (fun code => zmat_eqb (conj skewed (fst (code_op (has_char "A"%char "P6_3/mmc") code)) (zinv skewed)) dropped) codes) = true.
Proof. vm_compute. reflexivity. Qed.
Lemma skewed_operation codes : tabulated Hexagonal 24 194 codes ->
  exists code, In code codes /\ exists t, along skewed (fst (code_op (has_char "A"%char "P6_3/mmc") code)) (in_twelfths (snd (code_op (has_char "A"%char "P6_3/mmc") code))) dropped t.
Proof.
  intro HT. destruct (checked_entry_ok _ _ _ _ _ skewed_operation_checked) as (codes' & HT' & _ & Q). apply sg_entries_In in HT. apply sg_entries_In in HT'.
  assert (EQ : codes = codes').
  { pose proof (number_unique _ _ HT HT' eq_refl) as X. now injection X. }
  subst codes'. rewrite ex_if_existsb in Q. apply existsb_exists in Q. destruct Q as (code & Hc & E). apply zmat_eqb_spec in E. exists code. split; [exact Hc|].
  exists (Mapp (MofZ skewed) (in_twelfths (snd (code_op (has_char "A"%char "P6_3/mmc") code)))). apply (along_conj_inv skewed (zinv skewed)); [reflexivity|]. split; [symmetry; exact E|apply Vcongr_refl].
Qed.
