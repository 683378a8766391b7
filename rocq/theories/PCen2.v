(** Cubic crystals in the primitive cell of a face-centred or body-centred lattice: the stages of the run (analyzer.rs 286-360) *)
From Coq Require Import ZArith Reals String Ascii List Bool Lia Lra Psatz Permutation.
From Flocq Require Import Core.
From Verif Require Import Num Mat Utils DataCore DataPG DataSG SymmOp PointGroup SpaceGroup Structure Reduce Analyzer RInst Spec Spec2 Spec3 Spec5 Spec6 Spec8 Spec10 Spec11 RFacts
  PUtils PSymmOp PStructure PStructure2 PStructure3 PNiggli PDelaunay PPrim PPrim2 PLattice PAnalyzer PAnalyzer2 PPointGroup PPointGroup2 PSpaceGroup PSpaceGroup2 PCode PTables PIdentify
  PSearch PSearch3 PSearch4 PSearch6 PSearch7 PEnd PEnd2 PEnd3 PEnd4 PEnd11 PEnd12 PEnd13 PEnd14 PEnd15 Prop5 PRun PRun2 PHex PHex2 PHex3 PHex4 PHex5 PRed4 PRed5 PPrim5 PNiggli2 PNiggli3 PNiggli4 PEnd8 PEnd9 PEnd10 PCen.
Import ListNotations.
Open Scope R_scope.

(** ** The two lattices: face-centred ([true]) and body-centred ([false]) *)
Definition km (f : bool) : z6 := if f then Z6 2 2 2 1 1 1 else Z6 3 3 3 (-1) (-1) (-1).
Definition kn (f : bool) : Z := if f then 1%Z else 5%Z.
Definition kb (f : bool) : bravais := if f then cF else cI.
Definition kT (f : bool) : mat Z := if f then (M 1 (-1) 1 1 1 (-1) (-1) 1 1)%Z else (M 1 0 1 1 1 0 0 1 1)%Z.
Definition kU : mat Z := (M 0 0 1 1 0 0 0 1 0)%Z.
Definition krots (f : bool) : list (mat Z) := isometries (km f) (km f) 1.
Lemma kinds f : am_get Z.eqb (kn f) LATTICE_CHAR_TO_CONV_TRANS = Some (kT f) /\ bravais_lattice_system (kb f) = Ok Cubic /\ (1 <= kn f <= 44)%Z /\ row_U (kn f) = Some (kb f, kU).
Proof. destruct f; vm_compute; repeat split; discriminate. Qed.
Lemma kboxes f : boxb (km f) (za (km f)) 1 = true /\ boxb (km f) (zb (km f)) 1 = true /\ boxb (km f) (zc (km f)) 1 = true.
Proof. destruct f; vm_compute; repeat split. Qed.
Lemma krots_iff f r : In r (krots f) <-> kform (km f) r = km f.
Proof. destruct (kboxes f) as (A & B & C). split; [exact (isometries_out (km f) (km f) 1 r)|exact (isometries_in (km f) (km f) 1 r A B C)]. Qed.
Lemma kholo_checked : forallb (fun f => let h := holo_rots (kb f) in let k := krots f in forallb (fun r => mem_rot r k) h && forallb (fun r => mem_rot r h) k) [true; false] = true.
Proof. vm_compute. reflexivity. Qed.
Lemma kholo f r : In r (holo_rots (kb f)) <-> kform (km f) r = km f.
Proof.
  rewrite <- krots_iff. pose proof kholo_checked as Q. assert (Hf : In f [true; false]) by (destruct f; cbn; tauto). pose proof (proj1 (forallb_forall _ _) Q f Hf) as Q'. clear Q. cbv beta zeta in Q'. apply andb_true_iff in Q'. destruct Q' as [Q1 Q2].
  split; intro H; apply mem_rot_In; [exact (proj1 (forallb_forall _ _) Q1 r H)|exact (proj1 (forallb_forall _ _) Q2 r H)].
Qed.
Lemma ksmall_checked : forallb (fun f => forallb (fun r => smallb 1 r && ((ZMdet r =? 1)%Z || (ZMdet r =? -1)%Z)) (krots f)) [true; false] = true.
Proof. vm_compute. reflexivity. Qed.
Lemma ksmall f r : kform (km f) r = km f -> small 1 r /\ (ZMdet r = 1%Z \/ ZMdet r = (-1)%Z).
Proof.
  intro H. apply krots_iff in H. pose proof ksmall_checked as Q. assert (Hf : In f [true; false]) by (destruct f; cbn; tauto). pose proof (proj1 (forallb_forall _ _) Q f Hf) as Q'. clear Q. cbv beta in Q'.
  pose proof (proj1 (forallb_forall _ _) Q' r H) as Q. cbv beta in Q. apply andb_true_iff in Q. destruct Q as [Q1 Q2]. split; [now apply smallb_spec|]. apply orb_true_iff in Q2. destruct Q2 as [Q2|Q2]; apply Z.eqb_eq in Q2; auto.
Qed.
(** the axes of the primitive cell are reduced to the standard metric *)
Definition kpick (f : bool) (Z1 : mat Z) : bool :=
  let g := kform (km f) Z1 in smallb 1 Z1 && (ztr g <=? 100)%Z && match znig 100 g with Some g' => z6_eqb g' (km f) | None => false end.
Lemma kpicks_checked : forallb (fun f => forallb (kpick f) (picks (km f))) [true; false] = true.
Proof. vm_compute. reflexivity. Qed.
Lemma kpicks f Z1 : In Z1 (picks (km f)) -> small 1 Z1 /\ (ztr (kform (km f) Z1) <= 100)%Z /\ znig 100 (kform (km f) Z1) = Some (km f).
Proof.
  intro H. pose proof kpicks_checked as Q. assert (Hf : In f [true; false]) by (destruct f; cbn; tauto). pose proof (proj1 (forallb_forall _ _) Q f Hf) as Q'. clear Q. cbv beta in Q'.
  pose proof (proj1 (forallb_forall _ _) Q' Z1 H) as Q. unfold kpick in Q. cbv zeta in Q. rewrite !andb_true_iff in Q. destruct Q as ((Q1 & Q2) & Q3). split; [now apply smallb_spec|]. split; [now apply Z.leb_le|].
  destruct (znig 100 (kform (km f) Z1)) as [g'|]; [|discriminate Q3]. apply z6_eqb_eq in Q3. now rewrite Q3.
Qed.
Lemma kchar f (u eps : R) : 0 < u -> 0 < eps <= u / 10 ->
  @character_of RNum eps (u * IZR (za (km f))) (u * IZR (zb (km f))) (u * IZR (zc (km f))) (u * IZR (zd (km f))) (u * IZR (ze (km f))) (u * IZR (zf (km f))) = Ok (kn f).
Proof. intros Hu He. destruct f; [apply char_fcc|apply char_bcc]; assumption. Qed.
(** ** The tabulated groups that are the same in all orientations of the lattice *)
Definition kgroups (f : bool) : list Z := if f then face_centred_groups else body_centred_groups.
Lemma kopen f N : In N (kgroups f) -> ~ In N not_closed.
Proof. destruct f; cbn; intros H Q; repeat (destruct H as [<-|H]; [revert Q; lia|]); exact H. Qed.
Definition kinv (f : bool) (e : lattice_system * Z * Z * list Z) : bool :=
  let '(_, _, N, codes) := e in
  if existsb (Z.eqb N) (kgroups f) then match entry_ops N codes with Some l => forallb (fun w => forallb (fun o => ex_if (zop_eq (conj_opi w o)) l) l) (krots f) | None => false end else true.
Lemma kinv_checked : forallb (fun f => forallb (kinv f) sg_entries) [true; false] = true.
Proof. vm_compute. reflexivity. Qed.
Lemma ktable f order N codes sym w o : In (Cubic, order, N, codes) sg_entries -> am_get Z.eqb N SG_NUM_TO_SYMBOL = Some sym -> In N (kgroups f) ->
  kform (km f) w = km f -> In o (group_ops sym codes) -> exists o', In o' (group_ops sym codes) /\ same_op (conj_opi w o) o'.
Proof.
  intros HT ES HN Hw Ho. apply krots_iff in Hw. pose proof kinv_checked as Q. assert (Hf : In f [true; false]) by (destruct f; cbn; tauto). pose proof (proj1 (forallb_forall _ _) Q f Hf) as Q'. clear Q. cbv beta in Q'.
  pose proof (proj1 (forallb_forall _ _) Q' _ HT) as Q. unfold kinv in Q. replace (existsb (Z.eqb N) (kgroups f)) with true in Q by (symmetry; apply existsb_exists; exists N; split; [exact HN|apply Z.eqb_refl]).
  assert (EO : entry_ops N codes = Some (group_ops sym codes)) by (unfold entry_ops; rewrite ES; reflexivity). rewrite EO in Q.
  pose proof (proj1 (forallb_forall _ _) Q w Hw) as K. cbn beta in K. pose proof (proj1 (forallb_forall _ _) K o Ho) as K'. cbn beta in K'. rewrite ex_if_existsb in K'. apply existsb_exists in K'. destruct K' as (o' & Ho' & E). exists o'. split; [exact Ho'|apply same_op_eq; exact E].
Qed.
(** ** Lengths *)
Lemma klength f (u : R) L v : 0 < u -> gram L = zmet u (km f) -> sqrt u * Vnorm v <= Vnorm (Mapp L v).
Proof.
  intros Hu EG. assert (E : Vdot (Mapp L v) (Mapp L v) = Vdot v (Mapp (gram L) v)).
  { destruct L as [a b c d e g h i j], v as [x y z]. unfold gram, Vdot, Mapp, Mmul, Mtr. cbn. ring. }
  unfold Vnorm at 2. rewrite E, EG. unfold Vnorm. rewrite <- sqrt_mult by (try lra; destruct v as [x y z]; unfold Vdot; cbn; nra). apply sqrt_le_1_alt. destruct v as [x y z]. unfold zmet, Vdot, Mapp. cbn [vx vy vz m11 m12 m13 m21 m22 m23 m31 m32 m33].
  destruct f; cbn [km za zb zc zd ze zf].
  - assert (0 <= u * ((x + y + z) * (x + y + z))) by (apply Rmult_le_pos; [lra|apply Rle_0_sqr]). lra.
  - assert (0 <= u * ((x - y) * (x - y))) by (apply Rmult_le_pos; [lra|apply Rle_0_sqr]). assert (0 <= u * ((x - z) * (x - z))) by (apply Rmult_le_pos; [lra|apply Rle_0_sqr]). assert (0 <= u * ((y - z) * (y - z))) by (apply Rmult_le_pos; [lra|apply Rle_0_sqr]). lra.
Qed.

Definition kJ (f : bool) : mat Z := if f then (M 1 0 1 1 1 0 0 1 1)%Z else (M 1 (-1) 1 1 1 (-1) (-1) 1 1)%Z.
Lemma kJ_inv f : ZMmul (transpose (kT f)) (kJ f) = (M 2 0 0 0 2 0 0 0 2)%Z /\ ZMmul (kJ f) (transpose (kT f)) = (M 2 0 0 0 2 0 0 0 2)%Z /\ small 1 (kJ f) /\ small 1 (transpose (kT f)).
Proof. split; [destruct f; reflexivity|]. split; [destruct f; reflexivity|]. split; apply smallb_spec; destruct f; reflexivity. Qed.
Lemma kprim f : exists Pm, @primitive_transformation_matrix RNum (kn f) = Ok (Pm, kb f) /\ Mmul (MofZ (transpose (kT f))) Pm = MofZ kU.
Proof.
  destruct (kinds f) as (K1 & _ & K3 & K4). destruct (row_facts (kn f) K3) as (T & b & l & c & blk & d & U & F1 & F2 & F3 & F4 & F5 & F6 & F7 & F8 & _).
  rewrite K1 in F1. injection F1 as <-. destruct (prim_trans_R c blk d (kT f) U F5 F7 F6) as (Pm & EP & EU).
  assert (EM : @primitive_transformation_matrix RNum (kn f) = Ok (Pm, b)) by (unfold primitive_transformation_matrix; rewrite F2; cbn [bind of_opt]; rewrite F4; cbn [bind]; rewrite EP; reflexivity).
  pose proof (row_U_spec (kn f) b (kT f) Pm U K3 K1 EM EU) as ER. rewrite K4 in ER. injection ER as <- <-. exists Pm. split; [exact EM|exact EU].
Qed.
Section Centred.
  Context (f : bool) (P : @Pinv RNum) (HO : HashOrd) (dtol a d : R) (fuel : nat) (path : list nat) (s : @structure RNum).
  Hypothesis (HP : pinv_inverts P) (HF : (48 <= fuel)%nat) (WF : List.length (frac_coords s) = List.length (species s)).
  Hypothesis BIG : (0 < Z.of_nat (List.length (species s)) <= 65535)%Z.
  Hypothesis (Hd : 1 / 100000 <= dtol <= 1 / 24) (Ba : 2 <= a <= 1000).
  Let L := lattice s.
  Let u := a * a / 4.
  Let g0 := km f.
  Hypothesis EG : gram L = zmet u g0.
  Hypothesis (SP : spread d (sites_of s)) (Da : 36 * dtol <= d * a).
  Let eps := 1 / 100000 * Rpower (Rabs (Mdet L)) (1 / 3).
  Lemma ku : 1 <= u <= 250000 /\ sqrt u = a / 2.
  Proof using Ba. unfold u. split; [nra|]. replace (a * a / 4) with ((a / 2) * (a / 2)) by field. apply sqrt_square. lra. Qed.
  Lemma kdet : Mdet L * Mdet L = u * u * u * IZR (zdet6 g0) /\ (zdet6 g0 = 4 \/ zdet6 g0 = 16)%Z /\ 2 * u <= Rabs (Mdet L).
  Proof using All.
    pose proof (det_val u g0 L EG) as Q. assert (Z4 : (zdet6 g0 = 4 \/ zdet6 g0 = 16)%Z) by (unfold g0; destruct f; [left|right]; reflexivity). split; [exact Q|]. split; [exact Z4|].
    destruct ku as (U1 & _). assert (4 <= IZR (zdet6 g0)) by (apply (IZR_le 4); lia). assert (u * u * 4 <= Mdet L * Mdet L) by (rewrite Q; assert (0 < u * u) by nra; assert (u * u <= u * u * u) by nra; apply Rle_trans with (u * u * u * 4); [lra|apply Rmult_le_compat_l; lra]).
    rewrite <- (Rabs_pos_eq (2 * u)) by lra. apply Rsqr_le_abs_0. unfold Rsqr. fold L. lra.
  Qed.
  Lemma kdet0 : Mdet L <> 0. Proof using All. intro X. destruct kdet as (_ & _ & Q). rewrite X, Rabs_R0 in Q. destruct ku as (U1 & _). lra. Qed.
  Lemma keps : 0 < eps <= u / 10 /\ eps < 1.
  Proof using All.
    destruct ku as (U1 & US). destruct kdet as (Q1 & Q2 & Q3). assert (V : 0 < Rabs (Mdet L)) by lra.
    assert (VV : Rabs (Mdet L) * Rabs (Mdet L) = u * u * u * IZR (zdet6 g0)) by (rewrite <- Rabs_mult, Rabs_pos_eq; [exact Q1|apply Rle_0_sqr]).
    pose proof (root_unit u (zdet6 g0) (Rabs (Mdet L)) ltac:(lra) V VV ltac:(lia)) as RU. rewrite US in RU. unfold eps. unfold u. split; [split|]; nra.
  Qed.
  Lemma kroomy : roomy dtol L.
  Proof using All. destruct ku as (U1 & _). apply (gram_roomy u g0); [lra|exact EG|exact kdet0|lra|]. unfold u. nra. Qed.
  Lemma kwell : well_conditioned L.
  Proof using All. destruct ku as (U1 & _). apply (gram_well u g0); [lra|exact EG|unfold g0; destruct f; cbv; discriminate|exact kdet0]. Qed.
  Lemma kcol X k : gram X = zmet u g0 -> (k < 3)%nat -> a / 2 <= Vnorm (Ccol X k) <= a.
  Proof using All.
    intros EX Hk. assert (E : 2 * u <= Vdot (Ccol X k) (Ccol X k) <= 3 * u).
    { destruct ku as (U1 & _). assert (Y : Vdot (Ccol X k) (Ccol X k) = match k with 0%nat => m11 (gram X) | 1%nat => m22 (gram X) | _ => m33 (gram X) end).
      { destruct k as [|[|[|k]]]; [| | |lia]; unfold gram, Vdot, Ccol, Mmul, Mtr; cbn [vx vy vz m11 m12 m13 m21 m22 m23 m31 m32 m33]; reflexivity. }
      rewrite Y, EX. unfold zmet, g0. destruct f, k as [|[|k]]; cbn; lra. }
    unfold Vnorm. split; [rewrite <- (sqrt_square (a / 2)) by lra|rewrite <- (sqrt_square a) by lra]; apply sqrt_le_1_alt; unfold u in E; nra.
  Qed.
  Lemma kiso r : lattice_isometry L r <-> kform g0 r = g0.
  Proof using All.
    destruct ku as (U1 & _). split; intro H.
    - apply (zmet_inj u); [lra|]. rewrite <- EG. rewrite <- (proj1 (isometry_gram _ _) H). symmetry. exact (gram_mul u g0 L r EG).
    - apply (proj2 (isometry_gram _ _)). rewrite EG, (gram_mul u g0 L r EG), H. reflexivity.
  Qed.
  Lemma kmul r t : kform g0 r = g0 -> kform g0 t = g0 -> kform g0 (ZMmul r t) = g0.
  Proof using All.
    intros Hr Ht. destruct ku as (U1 & _). apply (zmet_inj u); [lra|]. rewrite <- (gram_mul u g0 L _ EG), MofZ_mul, <- Mmul_assoc. rewrite (gram_mul u g0 (Mmul L (MofZ r)) t); [now rewrite Ht|]. rewrite (gram_mul u g0 L r EG). now rewrite Hr.
  Qed.
  Lemma kback r t : ZMmul r t = ZMid -> kform g0 r = g0 -> kform g0 t = g0.
  Proof using All.
    intros E Hr. destruct ku as (U1 & _). apply (zmet_inj u); [lra|]. assert (GR : gram (Mmul L (MofZ r)) = zmet u g0) by (rewrite (gram_mul u g0 L r EG); now rewrite Hr).
    rewrite <- (gram_mul u g0 _ t GR), Mmul_assoc, <- MofZ_mul, E, MofZ_id, Mmul_id_r. exact EG.
  Qed.
  Lemma kapart (t K : R) (X Xi : mat R) : Mmul Xi X = Mid -> (forall v, Vnorm (Mapp Xi v) <= K * Vnorm v) -> 0 < K -> K * t <= 18 * dtol -> apart t (Mmul L X) (sites_of s).
  Proof using All.
    intros HX HK K0 Ht. apply nth_FOP. intros i j [x e] [y e'] Hij Hi Hj n. cbn [fst]. pose proof (SP i j x e y e' n ltac:(lia) Hi Hj) as Q. set (v := Vadd (Vsub x y) (VofZ n)) in *.
    destruct ku as (U1 & US). rewrite Mapp_Mmul. pose proof (klength f u L (Mapp X v) ltac:(lra) EG) as N. rewrite US in N. pose proof (HK (Mapp X v)) as N2. rewrite <- Mapp_Mmul, HX, Mapp_id in N2.
    assert (N3 : d * (a / 2) < Vnorm v * (a / 2)) by (apply Rmult_lt_compat_r; lra). assert (N4 : Vnorm v * (a / 2) <= K * Vnorm (Mapp X v) * (a / 2)) by (apply Rmult_le_compat_r; lra).
    apply Rmult_lt_reg_l with K; [exact K0|]. assert (N5 : K * (a / 2 * Vnorm (Mapp X v)) <= K * Vnorm (Mapp L (Mapp X v))) by (apply Rmult_le_compat_l; lra). lra.
  Qed.
  Lemma knorm r v : kform g0 r = g0 -> Vnorm (Mapp L (Mapp (MofZ r) v)) = Vnorm (Mapp L v).
  Proof using All.
    intro H. apply kiso in H. unfold Vnorm. f_equal. assert (E : forall m w, Vdot (Mapp m w) (Mapp m w) = Vdot w (Mapp (gram m) w)).
    { intros [m1 m2 m3 m4 m5 m6 m7 m8 m9] [x y z]. unfold gram, Vdot, Mapp, Mmul, Mtr. cbn. ring. }
    rewrite <- Mapp_Mmul, !E, (proj1 (isometry_gram _ _) H). reflexivity.
  Qed.
  Lemma kapart_turn t r X : kform g0 r = g0 -> apart t (Mmul L X) (sites_of s) -> apart t (Mmul (Mmul L (MofZ r)) X) (sites_of s).
  Proof using All.
    intros H A. unfold apart in *. revert A. generalize (sites_of s). intros S A. induction A as [|p l A1 A2 IH]; constructor; [|exact IH].
    rewrite Forall_forall in *. intros q Hq n. pose proof (A1 q Hq n) as Y. rewrite Mapp_Mmul in Y. rewrite !Mapp_Mmul, knorm; [exact Y|exact H].
  Qed.
  Definition kout (W : mat Z) (n : Z) (b : bravais) : Prop := kform g0 W = g0 /\ b = kb f.
  Lemma kpick_gen Z1 : small 1 Z1 -> (ztr (kform g0 Z1) <= 100)%Z -> znig 100 (kform g0 Z1) = Some g0 -> (ZMdet Z1 = 1 \/ ZMdet Z1 = -1)%Z ->
    exists T n b T0 Pm U, let Q := Mmul (Mmul L (MofZ Z1)) (MofZ T) in
      @niggli_loop RNum 100 eps (gram (Mmul L (MofZ Z1)), Mid) = Ok (gram Q, MofZ T) /\
      @character_of RNum eps (m11 (gram Q)) (m22 (gram Q)) (m33 (gram Q)) (m23 (gram Q)) (m13 (gram Q)) (m12 (gram Q)) = Ok n /\
      am_get Z.eqb n LATTICE_CHAR_TO_CONV_TRANS = Some T0 /\ @primitive_transformation_matrix RNum n = Ok (Pm, b) /\
      Mmul (MofZ (transpose T0)) Pm = MofZ U /\ ZMdet U = 1%Z /\ (1 <= Z.abs (ZMdet (transpose T0)) <= 4)%Z /\
      well_conditioned (Mmul L (MofZ Z1)) /\ well_conditioned Q /\ kout (ZMmul (ZMmul Z1 T) U) n b /\
      (forall I1, ZMmul Z1 I1 = ZMid -> apart (2 * dtol) (Mmul L (MofZ I1)) (sites_of s) /\
        (forall Ti Ui, ZMmul T Ti = ZMid -> ZMmul U Ui = ZMid ->
          apart (2 * dtol) (Mmul (Mmul Q (Madj_inv (MofZ (transpose T0)))) (MofZ (ZMmul Ti I1))) (sites_of s) /\
          apart (2 * dtol) (Mmul (Mmul Q (MofZ (transpose T0))) (MofZ (ZMmul Ui (ZMmul Ti I1)))) (sites_of s))).
  Proof using All.
    intros SZ TZ NZ DZ. destruct ku as (U1 & US). destruct keps as (HE & HE1).
    assert (G1 : gram (Mmul L (MofZ Z1)) = zmet u (kform g0 Z1)) by exact (gram_mul u g0 L Z1 EG).
    pose proof (niggli_loop_Z u eps 100 ltac:(lra) ltac:(lra) HE1 (kform g0 Z1) Mid) as NL. rewrite NZ in NL. destruct NL as (T' & NL). rewrite <- G1 in NL.
    assert (NL' := NL). apply (loop_spec 100 eps (gram (Mmul L (MofZ Z1)))) in NL'; [|lra|exists ZMid; split; [reflexivity|]; rewrite MofZ_id; split; [reflexivity|]; unfold rcongr; cbn [fst]; change (Mtr Mid) with Mid; now rewrite Mmul_id_l, Mmul_id_r].
    destruct NL' as ((T & DT & E1 & E2) & _). cbn [fst snd] in E1, E2. rewrite E1 in NL. clear E1 T'.
    assert (GQ : gram (Mmul (Mmul L (MofZ Z1)) (MofZ T)) = zmet u g0) by (rewrite E2; unfold gram at 1; rewrite Mtr_mul; unfold rcongr, gram; now rewrite !Mmul_assoc).
    clear E2. set (Y := ZMmul Z1 T). assert (LY : Mmul (Mmul L (MofZ Z1)) (MofZ T) = Mmul L (MofZ Y)) by (unfold Y; rewrite MofZ_mul, Mmul_assoc; reflexivity).
    assert (KY : kform g0 Y = g0). { apply (zmet_inj u); [lra|]. rewrite <- (gram_mul u g0 L Y EG), <- LY. exact GQ. }
    destruct (kinds f) as (K1 & _ & K3 & K4). destruct (kprim f) as (Pm & EPm & EU). destruct (kJ_inv f) as (JT & TJ & SJ & ST).
    assert (DY : ZMdet Y = 1%Z \/ ZMdet Y = (-1)%Z) by (destruct (ksmall f Y KY) as (_ & D); exact D).
    assert (KU : kform g0 kU = g0) by (unfold g0; destruct f; reflexivity).
    exists T, (kn f), (kb f), (kT f), Pm, kU. cbv zeta. split; [rewrite GQ; exact NL|]. split; [rewrite GQ; unfold zmet; cbn [m11 m12 m13 m21 m22 m23 m31 m32 m33]; apply kchar; lra|].
    split; [exact K1|]. split; [exact EPm|]. split; [exact EU|]. split; [reflexivity|]. split; [destruct f; cbv; split; discriminate|].
    assert (DL : Mdet L <> 0) by exact kdet0.
    split; [apply (gram_well u (kform g0 Z1)); [lra|exact G1|exact TZ|]; rewrite Mdet_mul, MofZ_det; intro X; apply Rmult_integral in X; destruct X as [X|X]; [now apply DL|]; apply eq_IZR in X; lia|].
    split; [rewrite LY; apply (gram_well u g0); [lra|rewrite <- LY; exact GQ|unfold g0; destruct f; cbv; discriminate|]; rewrite Mdet_mul, MofZ_det; intro X; apply Rmult_integral in X; destruct X as [X|X]; [now apply DL|]; apply eq_IZR in X; lia|].
    fold Y. split; [split; [exact (kmul Y kU KY KU)|reflexivity]|].
    intros I1 HI1. split.
    { apply (kapart _ 3 (MofZ I1) (MofZ Z1)); [rewrite <- MofZ_mul, HI1; apply MofZ_id| |lra|lra]. intro v. pose proof (small_norm 1 Z1 v ltac:(lia) SZ). lra. }
    intros Ti Ui HTi HUi. rewrite LY. set (Yi := ZMmul Ti I1). assert (YI : ZMmul Y Yi = ZMid) by (unfold Y, Yi; now apply Zcompose).
    assert (DTr : Mdet (MofZ (transpose (kT f))) <> 0) by (rewrite MofZ_det; apply not_0_IZR; destruct f; discriminate).
    destruct (Madj_inverse _ DTr) as (A1 & A2). destruct (ksmall f Y KY) as (SY & _). destruct (ksmall f _ (kmul Y kU KY KU)) as (SYU & _).
    set (Tr := transpose (kT f)) in *. split; rewrite !(Mmul_assoc (Mmul L (MofZ Y))); apply kapart_turn; try exact KY.
    - apply (kapart _ 9 _ (Mmul (MofZ Y) (MofZ Tr))); [| |lra|lra].
      + rewrite Mmul_assoc, <- (Mmul_assoc (MofZ Tr)), A1, Mmul_id_l, <- MofZ_mul, YI. apply MofZ_id.
      + intro v. rewrite Mapp_Mmul. pose proof (small_norm 1 Y (Mapp (MofZ Tr) v) ltac:(lia) SY). pose proof (small_norm 1 Tr v ltac:(lia) ST). lra.
    - apply (kapart _ 9 _ (Mmul (MofZ (ZMmul Y kU)) (Madj_inv (MofZ Tr)))); [| |lra|lra].
      + rewrite Mmul_assoc, <- (Mmul_assoc (Madj_inv (MofZ Tr))), A2, Mmul_id_l, <- MofZ_mul. rewrite (Zcompose Y Yi kU Ui YI HUi). apply MofZ_id.
      + intro v. rewrite Mapp_Mmul. set (w := Mapp (Madj_inv (MofZ Tr)) v). pose proof (small_norm 1 (ZMmul Y kU) w ltac:(lia) SYU) as N1.
        assert (E : Mapp (MofZ (kJ f)) v = Vadd w w).
        { unfold w. rewrite <- (Mapp_id v) at 1. rewrite <- A1 at 1. rewrite <- Mapp_Mmul, <- Mmul_assoc, <- MofZ_mul, TJ, Mapp_Mmul. fold w. destruct w as [w1 w2 w3]. unfold Mapp, MofZ, mmap, Vadd. cbn. apply (@vec_ext R); cbn; lra. }
        pose proof (small_norm 1 (kJ f) v ltac:(lia) SJ) as N2. rewrite E in N2. assert (E2 : Vnorm (Vadd w w) = 2 * Vnorm w).
        { replace (Vadd w w) with (Vscal 2 w) by (destruct w as [w1 w2 w3]; unfold Vscal, Vadd, vmap; cbn; apply (@vec_ext R); cbn; ring). rewrite Vnorm_scal, Rabs_pos_eq; lra. }
        rewrite E2 in N2. pose proof (Vnorm_nonneg v). lra.
  Qed.
  Lemma kpick_out y1 y2 y3 : In y1 dirs26 -> In y2 dirs26 -> In y3 dirs26 -> shortest3 L y1 y2 y3 ->
    (ZMdet (zcols y1 y2 y3) = 1 \/ ZMdet (zcols y1 y2 y3) = -1)%Z -> 0 < Mdet (Mmul L (MofZ (zcols y1 y2 y3))) ->
    exists T n b T0 Pm U, let Z1 := zcols y1 y2 y3 in let Q := Mmul (Mmul L (MofZ Z1)) (MofZ T) in
      @niggli_loop RNum 100 eps (gram (Mmul L (MofZ Z1)), Mid) = Ok (gram Q, MofZ T) /\
      @character_of RNum eps (m11 (gram Q)) (m22 (gram Q)) (m33 (gram Q)) (m23 (gram Q)) (m13 (gram Q)) (m12 (gram Q)) = Ok n /\
      am_get Z.eqb n LATTICE_CHAR_TO_CONV_TRANS = Some T0 /\ @primitive_transformation_matrix RNum n = Ok (Pm, b) /\
      Mmul (MofZ (transpose T0)) Pm = MofZ U /\ ZMdet U = 1%Z /\ (1 <= Z.abs (ZMdet (transpose T0)) <= 4)%Z /\
      well_conditioned (Mmul L (MofZ Z1)) /\ well_conditioned Q /\ kout (ZMmul (ZMmul Z1 T) U) n b /\
      (forall I1, ZMmul Z1 I1 = ZMid -> apart (2 * dtol) (Mmul L (MofZ I1)) (sites_of s) /\
        (forall Ti Ui, ZMmul T Ti = ZMid -> ZMmul U Ui = ZMid ->
          apart (2 * dtol) (Mmul (Mmul Q (Madj_inv (MofZ (transpose T0)))) (MofZ (ZMmul Ti I1))) (sites_of s) /\
          apart (2 * dtol) (Mmul (Mmul Q (MofZ (transpose T0))) (MofZ (ZMmul Ui (ZMmul Ti I1)))) (sites_of s))).
  Proof using All.
    intros J1 J2 J3 S3 DZ RH. destruct ku as (U1 & US).
    assert (IP : In (zcols y1 y2 y3) (picks g0)) by (apply (picks_in u g0 L); [lra|exact EG|exact J1|exact J2|exact J3|unfold zdet; destruct DZ as [-> | ->]; reflexivity|exact S3]).
    destruct (kpicks f _ IP) as (SZ & TZ & NZ). exact (kpick_gen _ SZ TZ NZ DZ).
  Qed.
End Centred.
