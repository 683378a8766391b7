(** One atom per primitive cell, described in a larger cell: the whole run, every stage computed on the integers (analyzer.rs 36-162, 286-345) *)
From Coq Require Import ZArith Reals String List Bool Lia Lra Psatz Permutation Sorting.Sorted.
From Verif Require Import Num Mat Utils DataCore SymmOp PointGroup SpaceGroup Structure Reduce Analyzer RInst Spec Spec2 Spec3 Spec4 RFacts PUtils PSymmOp PStructure PStructure2 PStructure3 PNiggli
  PLattice PDelaunay PPrim PPrim2 PPrim3 PPrim4 PPrim5 PAnalyzer PAnalyzer2 PPointGroup PPointGroup2 PTables PSearch4 PSearch6 PEnd PEnd2 PEnd3 Prop4 Prop5 PNiggli2 PNiggli3 PNiggli4 PSGTrans Prop17 PEnd7 PEnd8.
Import ListNotations.
Open Scope R_scope.

(** ** Integer matrices with a given metric *)
Section Enumerate.
  Local Open Scope Z_scope.
  Definition span_of (B : nat) : list Z := map (fun i => Z.of_nat i - Z.of_nat B) (seq 0 (2 * B + 1)).
  Definition cube (B : nat) : list (vec Z) := flat_map (fun x => flat_map (fun y => map (fun z => V x y z) (span_of B)) (span_of B)) (span_of B).
  Definition boxb (g : z6) (M : Z) (B : nat) : bool :=
    let b1 := Z.of_nat B + 1 in
    (0 <? za g) && (0 <? zb g) && (0 <? zdet6 g) && (0 <=? zb g * zc g - zd g * zd g) && (0 <=? za g * zc g - ze g * ze g) && (0 <=? za g * zb g - zf g * zf g) &&
    ((zb g * zc g - zd g * zd g) * M <? zdet6 g * b1 * b1) && ((za g * zc g - ze g * ze g) * M <? zdet6 g * b1 * b1) && ((za g * zb g - zf g * zf g) * M <? zdet6 g * b1 * b1).
  (** the matrices T with T^t g T = h *)
  Definition isometries (g h : z6) (B : nat) : list (mat Z) :=
    let vs := cube B in
    flat_map (fun c1 => flat_map (fun c2 => map (fun c3 => zcols c1 c2 c3) (filter (fun c3 => (zpair g c2 c3 =? zd h) && (zpair g c1 c3 =? ze h)) (filter (fun v => zval g v =? zc h) vs)))
      (filter (fun c2 => zpair g c1 c2 =? zf h) (filter (fun v => zval g v =? zb h) vs))) (filter (fun v => zval g v =? za h) vs).
End Enumerate.
Definition scale6 (k : Z) (g : z6) : z6 := Z6 (k * za g) (k * zb g) (k * zc g) (k * zd g) (k * ze g) (k * zf g).
Definition row_U (n : Z) : option (bravais * mat Z) :=
  match am_get Z.eqb n LATTICE_CHAR_TO_CONV_TRANS, am_get Z.eqb n LATTICE_CHAR_TO_BRAVAIS with
  | Some T, Some b => match bravais_centering b with
                      | Ok c => match am_get centering_eqb c CENTERING_TO_PRIM_TRANS with Some (blk, d) => Some (b, zdivm (ZMmul (transpose T) blk) d) | None => None end
                      | _ => None end
  | _, _ => None
  end.
Definition conj_ok (T r : mat Z) : bool := zmat_eqb (ZMmul T (zconj T r)) (ZMmul r T) && i8_rangeb (zconj T r) && has_unit_entry (zconj T r).
Definition rows_small (T : mat Z) : bool :=
  let A := zadj T in let d := (10 * Z.abs (ZMdet T))%Z in
  ((Z.abs (m11 A) + Z.abs (m12 A) + Z.abs (m13 A) <=? d) && (Z.abs (m21 A) + Z.abs (m22 A) + Z.abs (m23 A) <=? d) && (Z.abs (m31 A) + Z.abs (m32 A) + Z.abs (m33 A) <=? d))%Z.
Definition col_mod (N : Z) (H : list (vec Z)) (K : mat Z) : bool := forallb (fun v => memz (modN N v) (o3 :: H)) [zcol1 K; zcol2 K; zcol3 K].
Definition prim_test (G g0 : z6) (N : Z) (H : list (vec Z)) (K : mat Z) : bool :=
  match znig 100 (kform G K) with Some g => z6_eqb g g0 | None => false end && (ztr (kform G K) <=? 100)%Z && (zdet6 (kform G K) <=? 1000000)%Z && col_mod N H K.
(** everything the run of a family needs *)
Definition cell_test (rots : list (mat Z)) (k : Z) (auts : list (mat Z)) (T : mat Z) : bool :=
  (Z.abs (ZMdet T) =? k)%Z && forallb (conj_ok T) rots && rows_small T &&
  forallb (fun r => existsb (zmat_eqb (zconj T r)) auts) rots && forallb (fun g => existsb (fun r => zmat_eqb (ZMmul T g) (ZMmul r T)) rots) auts.
Definition family_check (G : z6) (N : Z) (H : list (vec Z)) (g0 : z6) (n : Z) (b : bravais) (k w : Z) (B : nat) : bool :=
  match row_U n with
  | Some (b', U) =>
      let gs := kform g0 U in let auts := isometries G G B in let rots := holo_rots b in
      bravais_eqb b' b && (1 <=? N)%Z && (ztr G <=? 100)%Z && (ztr g0 <=? 100)%Z && (ztr gs <=? 100)%Z && (1 <=? k)%Z && (k <=? 24)%Z && (za gs <=? w)%Z && (zb gs <=? w)%Z && (zc gs <=? w)%Z &&
      forallb (dirb N) H && nodupb (o3 :: H) && closedb N H && (Z.of_nat (List.length H) <? 65535)%Z &&
      orders G N H 1 (prim_test G g0 N H) && orders G N H (-1) (prim_test G g0 N H) &&
      boxb gs (N * N * za G) B && boxb gs (N * N * zb G) B && boxb gs (N * N * zc G) B && boxb G (za G) B && boxb G (zb G) B && boxb G (zc G) B &&
      forallb (cell_test rots k auts) (isometries gs (scale6 (N * N) G) B)
  | None => false
  end.
Lemma span_of_in B x : (Z.abs x <= Z.of_nat B)%Z -> In x (span_of B).
Proof. intro H. unfold span_of. apply in_map_iff. exists (Z.to_nat (x + Z.of_nat B)). split; [lia|]. apply in_seq. lia. Qed.
Lemma cube_in B v : (Z.abs (vx v) <= Z.of_nat B)%Z -> (Z.abs (vy v) <= Z.of_nat B)%Z -> (Z.abs (vz v) <= Z.of_nat B)%Z -> In v (cube B).
Proof.
  intros A1 A2 A3. destruct v as [x y z]. unfold cube. apply in_flat_map. exists x. split; [now apply span_of_in|]. apply in_flat_map. exists y. split; [now apply span_of_in|].
  apply in_map_iff. exists z. split; [reflexivity|now apply span_of_in].
Qed.
Lemma box_bound (p del d x M B : Z) (q w : Z) : (0 < p)%Z -> (0 <= del)%Z -> (0 < d)%Z -> (p * del * M = p * d * x * x + del * q * q + w * w)%Z -> (del * M < d * (B + 1) * (B + 1))%Z -> (0 <= B)%Z -> (Z.abs x <= B)%Z.
Proof.
  intros Hp Hd Hd0 E Hl HB. destruct (Z_le_gt_dec (Z.abs x) B) as [|C]; [assumption|exfalso].
  assert (S : ((B + 1) * (B + 1) <= x * x)%Z) by nia. assert (Q1 : (0 <= del * q * q)%Z) by nia. assert (Q2 : (0 <= w * w)%Z) by nia.
  assert (E1 : (p * (d * (x * x)) <= p * (del * M))%Z) by nia. assert (E2 : (d * (x * x) <= del * M)%Z) by nia.
  nia.
Qed.
Lemma box_in g M B v : boxb g M B = true -> zval g v = M -> In v (cube B).
Proof.
  unfold boxb. cbv zeta. rewrite !andb_true_iff, !Z.ltb_lt, !Z.leb_le. intros ((((((((A1 & A2) & D0) & D1) & D2) & D3) & L1) & L2) & L3) E. destruct v as [x y z]. unfold zval, form in E. cbn [vx vy vz] in E.
  apply cube_in; cbn [vx vy vz].
  - apply (box_bound (zb g) (zb g * zc g - zd g * zd g) (zdet6 g) x M _ (zb g * y + zd g * z + zf g * x) ((zb g * zc g - zd g * zd g) * z + (zb g * ze g - zd g * zf g) * x)); try assumption; [|lia]. rewrite <- E. unfold zdet6. ring.
  - apply (box_bound (za g) (za g * zc g - ze g * ze g) (zdet6 g) y M _ (za g * x + ze g * z + zf g * y) ((za g * zc g - ze g * ze g) * z + (za g * zd g - ze g * zf g) * y)); try assumption; [|lia]. rewrite <- E. unfold zdet6. ring.
  - apply (box_bound (za g) (za g * zb g - zf g * zf g) (zdet6 g) z M _ (za g * x + zf g * y + ze g * z) ((za g * zb g - zf g * zf g) * y + (za g * zd g - ze g * zf g) * z)); try assumption; [|lia]. rewrite <- E. unfold zdet6. ring.
Qed.
Lemma isometries_in g h B T : boxb g (za h) B = true -> boxb g (zb h) B = true -> boxb g (zc h) B = true -> kform g T = h -> In T (isometries g h B).
Proof.
  intros B1 B2 B3 <-. unfold isometries. apply in_flat_map. exists (zcol1 T). cbn [kform za zb zc zd ze zf] in *. split; [apply filter_In; split; [now apply (box_in g _ B _ B1)|apply Z.eqb_refl]|].
  apply in_flat_map. exists (zcol2 T). split; [apply filter_In; split; [apply filter_In; split; [now apply (box_in g _ B _ B2)|]|]; apply Z.eqb_refl|].
  apply in_map_iff. exists (zcol3 T). split; [destruct T as [a b c x y z u v w]; reflexivity|]. apply filter_In. split; [apply filter_In; split; [now apply (box_in g _ B _ B3)|apply Z.eqb_refl]|].
  now rewrite !Z.eqb_refl.
Qed.
Lemma isometries_out g h B T : In T (isometries g h B) -> kform g T = h.
Proof.
  unfold isometries. rewrite in_flat_map. intros (c1 & H1 & H2). rewrite in_flat_map in H2. destruct H2 as (c2 & H2 & H3). apply in_map_iff in H3. destruct H3 as (c3 & <- & H3).
  apply filter_In in H1, H2, H3. destruct H1 as [_ H1], H2 as [H2 H2'], H3 as [H3 H3']. apply filter_In in H2, H3. destruct H2 as [_ H2], H3 as [_ H3].
  apply andb_prop in H3'. destruct H3' as [H3' H3'']. apply Z.eqb_eq in H1, H2, H2', H3, H3', H3''. destruct c1 as [x1 y1 z1], c2 as [x2 y2 z2], c3 as [x3 y3 z3].
  unfold kform, zcols, zcol1, zcol2, zcol3. cbn [vx vy vz m11 m12 m13 m21 m22 m23 m31 m32 m33]. rewrite H1, H2, H2', H3, H3', H3''. destruct h as [h1 h2 h3 h4 h5 h6]; reflexivity.
Qed.
Lemma zmet_scale N u G : zmet (IZR N * IZR N * u) G = zmet u (scale6 (N * N) G).
Proof. unfold zmet, scale6. cbn [za zb zc zd ze zf]. apply (@mat_ext R); cbn [m11 m12 m13 m21 m22 m23 m31 m32 m33]; izr; ring. Qed.
Lemma zdivm_scal d U : d <> 0%Z -> zdivm (zscal d U) d = U.
Proof. intro H. unfold zdivm, zscal, mmap. destruct U as [a b c x y z u v w]. cbn [m11 m12 m13 m21 m22 m23 m31 m32 m33]. f_equal; rewrite Z.mul_comm; now apply Z.div_mul. Qed.
Lemma row_U_spec n b T0 Pm U : (1 <= n <= 44)%Z -> am_get Z.eqb n LATTICE_CHAR_TO_CONV_TRANS = Some T0 -> @primitive_transformation_matrix RNum n = Ok (Pm, b) ->
  Mmul (Mtr (MofZ T0)) Pm = MofZ U -> row_U n = Some (b, U).
Proof.
  intros Hn E0 EP EU. destruct (row_facts n Hn) as (T & b' & l & c & blk & d & U' & R1 & R2 & _ & R3 & R4 & R5 & R6 & _). apply primitive_inv in EP. destruct EP as (EB & c' & EC & EPm).
  rewrite R1 in E0. injection E0 as ->. rewrite R2 in EB. injection EB as ->. rewrite R3 in EC. injection EC as <-.
  destruct (prim_trans_R c blk d T0 U' R4 R6 R5) as (Pm' & EPm' & EU'). rewrite EPm in EPm'. injection EPm' as <-. rewrite EU in EU'. apply MofZ_inj in EU'. subst U'.
  unfold row_U. rewrite R1, R2, R3, R4, R5, zdivm_scal by exact R6. reflexivity.
Qed.
(** sums of elements of a finite group of translations *)
Lemma modN_modN N a b : (1 <= N)%Z -> modN N (zadd3 (modN N a) (modN N b)) = modN N (zadd3 a b) /\ modN N (zsub3 (modN N a) (modN N b)) = modN N (zsub3 a b).
Proof.
  intro HN. unfold modN, zadd3, zsub3. cbn [vx vy vz]. split; f_equal; first [symmetry; apply Z.add_mod; lia|symmetry; apply Zminus_mod].
Qed.
Lemma closed_add N H a b : (1 <= N)%Z -> closedb N H = true -> In (modN N a) (o3 :: H) -> In (modN N b) (o3 :: H) -> In (modN N (zadd3 a b)) (o3 :: H) /\ In (modN N (zsub3 a b)) (o3 :: H).
Proof.
  intros HN CL Ha Hb. unfold closedb in CL. rewrite forallb_forall in CL. specialize (CL _ Ha). rewrite forallb_forall in CL. specialize (CL _ Hb).
  apply andb_prop in CL. destruct CL as [C1 C2]. apply memz_in in C1, C2. destruct (modN_modN N a b HN) as [E1 E2]. rewrite E1 in C1. rewrite E2 in C2. auto.
Qed.
Definition zscal3 (k : Z) (a : vec Z) : vec Z := V (k * vx a)%Z (k * vy a)%Z (k * vz a)%Z.
Lemma closed_scal N H a k : (1 <= N)%Z -> closedb N H = true -> In (modN N a) (o3 :: H) -> In (modN N (zscal3 k a)) (o3 :: H).
Proof.
  intros HN CL Ha. induction k as [|k IH|k IH] using Z.peano_ind.
  - left. unfold modN, zscal3, o3. cbn [vx vy vz]. now rewrite !Z.mul_0_l, Z.mod_0_l by lia.
  - replace (zscal3 (Z.succ k) a) with (zadd3 (zscal3 k a) a) by (unfold zscal3, zadd3; cbn [vx vy vz]; f_equal; ring). now apply closed_add.
  - replace (zscal3 (Z.pred k) a) with (zsub3 (zscal3 k a) a) by (unfold zscal3, zsub3; cbn [vx vy vz]; f_equal; unfold Z.pred; ring). now apply closed_add.
Qed.
Lemma closed_app N H K w : (1 <= N)%Z -> closedb N H = true -> col_mod N H K = true -> In (modN N (ZMapp K w)) (o3 :: H).
Proof.
  intros HN CL HK. unfold col_mod in HK. cbn [forallb] in HK. rewrite !andb_true_iff in HK. destruct HK as (K1 & K2 & K3 & _). apply memz_in in K1, K2, K3.
  replace (ZMapp K w) with (zadd3 (zadd3 (zscal3 (vx w) (zcol1 K)) (zscal3 (vy w) (zcol2 K))) (zscal3 (vz w) (zcol3 K))) by (unfold ZMapp, zadd3, zscal3, zcol1, zcol2, zcol3; cbn [vx vy vz]; f_equal; ring).
  repeat (apply closed_add; try assumption); now apply closed_scal.
Qed.
(** a small image under an integer matrix comes from a small vector *)
Lemma rows_small_spec T (x d : vec R) (t : R) : rows_small T = true -> ZMdet T <> 0%Z -> Mapp (MofZ T) x = d -> Rabs (vx d) <= t -> Rabs (vy d) <= t -> Rabs (vz d) <= t ->
  Rabs (vx x) <= 10 * t /\ Rabs (vy x) <= 10 * t /\ Rabs (vz x) <= 10 * t.
Proof.
  intros HT HD E T1 T2 T3. unfold rows_small in HT. cbv zeta in HT. rewrite !andb_true_iff, !Z.leb_le in HT. destruct HT as ((R1 & R2) & R3).
  assert (HDR : 0 < IZR (Z.abs (ZMdet T))) by (apply IZR_lt; lia). assert (AD : Rabs (IZR (ZMdet T)) = IZR (Z.abs (ZMdet T))) by now rewrite abs_IZR.
  assert (G : forall a b c y, (Z.abs a + Z.abs b + Z.abs c <= 10 * Z.abs (ZMdet T))%Z -> IZR (ZMdet T) * y = IZR a * vx d + IZR b * vy d + IZR c * vz d -> Rabs y <= 10 * t).
  { intros a b c y Hs Ey. apply IZR_le in Hs. rewrite !plus_IZR, mult_IZR, !abs_IZR in Hs. rewrite <- abs_IZR in Hs at 1. apply (Rmult_le_reg_l (IZR (Z.abs (ZMdet T)))); [exact HDR|].
    rewrite <- AD, <- Rabs_mult, Ey. eapply Rle_trans; [apply Rabs_triang|]. eapply Rle_trans; [apply Rplus_le_compat_r, Rabs_triang|]. rewrite !Rabs_mult.
    pose proof (Rabs_pos (IZR a)). pose proof (Rabs_pos (IZR b)). pose proof (Rabs_pos (IZR c)). pose proof (Rabs_pos (vx d)). rewrite ?abs_IZR in *.
    assert (Rabs (IZR a) * Rabs (vx d) <= Rabs (IZR a) * t) by nra. assert (Rabs (IZR b) * Rabs (vy d) <= Rabs (IZR b) * t) by nra. assert (Rabs (IZR c) * Rabs (vz d) <= Rabs (IZR c) * t) by nra.
    assert (0 <= t) by lra. nra. }
  split; [|split]; [apply (G _ _ _ _ R1)|apply (G _ _ _ _ R2)|apply (G _ _ _ _ R3)]; rewrite <- E; unfold ZMdet, zadj, Mapp, MofZ, mmap; cbn [vx vy vz m11 m12 m13 m21 m22 m23 m31 m32 m33]; izr; ring.
Qed.

Section Run.
  Context (P : @Pinv RNum) (HO : HashOrd) (fuel : nat) (path : list nat) (dtol : R) (s : @structure RNum) (N : Z) (H : list (vec Z)) (G : z6) (u : R) (e : string).
  Context (g0 : z6) (n : Z) (b : bravais) (k w : Z) (B : nat) (num : Z) (sym : string).
  Hypothesis HPi : pinv_inverts P.
  Hypothesis HF : (48 <= fuel)%nat.
  Hypothesis Hu : 1 / 1000000 <= u <= 10000000.
  Hypothesis EG : gram (lattice s) = zmet (IZR N * IZR N * u) G.
  Hypothesis D0 : Mdet (lattice s) <> 0.
  Hypothesis H0 : 0 < dtol.
  Hypothesis B1 : 576 * (dtol * dtol) <= u.
  Hypothesis B2 : IZR N * IZR (ztr G) * dtol < u.
  Hypothesis B3 : dtol * dtol < u * u * u.
  Hypothesis B4 : u * IZR w <= 10000000000000000 * (dtol * dtol).
  Hypothesis AT : at_fracs N (o3 :: H) s e.
  Hypothesis FCk : family_check G N H g0 n b k w B = true.
  Hypothesis CH : forall eps, 0 < eps <= u / 10 -> @character_of RNum eps (u * IZR (za g0)) (u * IZR (zb g0)) (u * IZR (zc g0)) (u * IZR (zd g0)) (u * IZR (ze g0)) (u * IZR (zf g0)) = Ok n.
  Hypothesis LG : lattice_group (bravais_to_string b) = Some (num, sym).
  Lemma family_run : exists ops, @get_space_group_info RNum P HO fuel path dtol s = Ok (num, sym, ops) /\
    List.length ops = (List.length (holo_rots b) * Z.to_nat k)%nat /\
    (forall op, In op ops -> kform G (rotation op) = G /\ exists h, In h (o3 :: H) /\ nanos (1 / 100000000) (translation op) (fracN N h)) /\
    (forall g h, kform G g = G -> In h (o3 :: H) -> exists op, In op ops /\ rotation op = g /\ nanos (1 / 100000000) (translation op) (fracN N h)).
  Proof using All.
    unfold family_check in FCk. destruct (row_U n) as [[b' U]|] eqn:ER; [|discriminate]. cbv zeta in FCk. rewrite !andb_true_iff, !Z.leb_le, Z.ltb_lt in FCk.
    destruct FCk as ((((((((((((((((((((((F1 & F2) & F3) & F4) & F5) & F6) & F7) & W1) & W2) & W3) & F8) & F9) & F10) & F11) & F12) & F13) & F14) & F15) & F16) & F17) & F18) & F19) & F20). clear FCk.
    set (gs := kform g0 U) in *. set (auts := isometries G G B) in *.
    assert (PU : 0 < u) by lra. assert (SU : 0 < sqrt u) by now apply sqrt_lt_R0. assert (SS : sqrt u * sqrt u = u) by (apply sqrt_sqrt; lra). assert (PN : 1 <= IZR N) by (apply IZR_le; lia).
    destruct (family_prim P HO (0%nat :: path) dtol s N H G u e (prim_test G g0 N H) HPi F2 (proj1 Hu) EG F3 D0 H0 B1 B2 B3 AT F8 F9 F10 F11 (conj F12 F13)) as (K & p & E1 & EL & TK & DP & GP & WP & RP & HW & SP).
    { intros K HK. unfold prim_test in HK. rewrite !andb_true_iff, !Z.leb_le in HK. tauto. }
    unfold prim_test in TK. rewrite !andb_true_iff, !Z.leb_le in TK. destruct TK as (((TK1 & TK2) & TK3) & TK4).
    destruct (znig 100 (kform G K)) as [g|] eqn:EN; [|discriminate]. apply z6_eqb_eq in TK1. subst g.
    pose proof (root_unit u _ (Mdet (lattice p)) PU DP (det_val u _ _ GP) TK3) as RU.
    assert (US : 1 / 1000 <= sqrt u) by (rewrite <- (sqrt_square (1 / 1000)) by lra; apply sqrt_le_1_alt; lra).
    assert (US2 : sqrt u <= 10000) by (rewrite <- (sqrt_square 10000) by lra; apply sqrt_le_1_alt; lra).
    assert (EPS : 0 < 1 / 100000 * Rpower (Mdet (lattice p)) (1 / 3) <= u / 10) by (split; [nra|]; rewrite <- SS; nra).
    assert (EP1 : 1 / 100000 * Rpower (Mdet (lattice p)) (1 / 3) <= 1) by nra.
    assert (EP1' : 1 / 100000 * Rpower (Mdet (lattice p)) (1 / 3) < 1).
    { assert (sqrt u < 10000) by (rewrite <- (sqrt_square 10000) by lra; apply sqrt_lt_1_alt; lra). lra. }
    destruct (niggli_reduce_Z P dtol u p (1 / 100000) (kform G K) g0 PU GP DP ltac:(lra) EP1' EN) as (q & E2 & GQ).
    destruct (niggli_reduce_spec P dtol p q (1 / 100000) DP ltac:(lra) E2) as (Tq & DT & EQ & _).
    assert (ELq : lattice q = Mmul (lattice p) (MofZ Tq)) by (rewrite EQ; reflexivity || apply rebuilt_lattice).
    assert (DQ : Mdet (lattice q) = Mdet (lattice p)) by (rewrite ELq, Mdet_mul, MofZ_det, DT; ring).
    assert (WQ : well_conditioned (lattice q)) by (apply (gram_well u g0); auto; lra).
    assert (E3 : @get_lattice_character RNum q (1 / 100000) = Ok n).
    { rewrite lattice_character_R by lra. cbv zeta. rewrite DQ, GQ. unfold zmet. cbn [m11 m12 m13 m21 m22 m23 m31 m32 m33]. now apply CH. }
    destruct (large_run P HO dtol fuel path s p q e n HPi HF HW H0 WP WQ DP RP EP1' E1 E2 E3) as (b1 & std & K1 & K2 & K3 & (T2 & T2i & K4 & K5 & K6) & (T0 & Pm & U1 & K7 & K8 & K9 & K10) & K11).
    assert (Hn : (1 <= n <= 44)%Z).
    { assert (X : am_get Z.eqb n LATTICE_CHAR_TO_CONV_TRANS <> None) by congruence. clear - X. destruct (Z_le_gt_dec 1 n); [destruct (Z_le_gt_dec n 44)|]; [lia|exfalso..]; apply X; clear X.
      - unfold LATTICE_CHAR_TO_CONV_TRANS. cbn [am_get]. repeat (match goal with |- context [(n =? ?c)%Z] => replace (n =? c)%Z with false by (symmetry; apply Z.eqb_neq; lia) | |- context [(?c =? n)%Z] => replace (c =? n)%Z with false by (symmetry; apply Z.eqb_neq; lia) end). reflexivity.
      - unfold LATTICE_CHAR_TO_CONV_TRANS. cbn [am_get]. repeat (match goal with |- context [(n =? ?c)%Z] => replace (n =? c)%Z with false by (symmetry; apply Z.eqb_neq; lia) | |- context [(?c =? n)%Z] => replace (c =? n)%Z with false by (symmetry; apply Z.eqb_neq; lia) end). reflexivity. }
    pose proof (row_U_spec n b1 T0 Pm U1 Hn K7 K8 K9) as ER'. rewrite ER in ER'. injection ER' as <- <-.
    assert (EB : b' = b) by (destruct b', b; (reflexivity || discriminate F1)). subst b'.
    assert (GS : gram (lattice std) = zmet u gs) by (rewrite K10; now apply gram_mul).
    (* the transformation *)
    destruct (SP (timesN N e1)) as (k1 & Q1); [cbn; tauto|]. destruct (SP (timesN N e2)) as (k2 & Q2); [cbn; tauto|]. destruct (SP (timesN N e3)) as (k3 & Q3); [cbn; tauto|].
    set (Ki := zcols k1 k2 k3). set (T := ZMmul T2 Ki). set (Ln := scaleL N (lattice s)) in *.
    assert (KN : ZMmul K Ki = (M N 0 0 0 N 0 0 0 N)%Z).
    { unfold timesN, e1, e2, e3 in Q1, Q2, Q3. cbn [vx vy vz] in Q1, Q2, Q3. unfold Ki, ZMmul, zcols, ZMapp in *. cbn [vx vy vz m11 m12 m13 m21 m22 m23 m31 m32 m33] in *.
      injection Q1 as A1 A2 A3. injection Q2 as A4 A5 A6. injection Q3 as A7 A8 A9. apply mat_ext; cbn [m11 m12 m13 m21 m22 m23 m31 m32 m33]; lia. }
    assert (ELs : lattice s = Mmul (lattice std) (MofZ T)).
    { unfold T. rewrite MofZ_mul, <- Mmul_assoc, <- K4, EL, Mmul_assoc, <- MofZ_mul, KN. unfold Ln, scaleL, Mmul, MofZ, mmap. cbn [m11 m12 m13 m21 m22 m23 m31 m32 m33]. apply (@mat_ext R); cbn [m11 m12 m13 m21 m22 m23 m31 m32 m33]; field; lra. }
    assert (KT : kform gs T = scale6 (N * N) G).
    { apply (zmet_inj u); [exact PU|]. rewrite <- zmet_scale, <- EG, ELs. symmetry. now apply gram_mul. }
    assert (IT : In T (isometries gs (scale6 (N * N) G) B)) by (apply isometries_in; assumption).
    rewrite forallb_forall in F20. specialize (F20 T IT). unfold cell_test in F20. rewrite !andb_true_iff in F20. destruct F20 as ((((C1 & C2) & C3) & C4) & C5). apply Z.eqb_eq in C1.
    rewrite forallb_forall in C2, C4, C5.
    assert (FC : forall j, (j < 3)%nat -> Vnorm (Ccol (lattice std) j) <= 100000000 * dtol).
    { intros j Hj. assert (X : Vdot (Ccol (lattice std) j) (Ccol (lattice std) j) <= u * IZR w).
      { assert (DS : Mdet (lattice std) <> 0). { intro X. assert (Y : Mdet (lattice p) = 0) by (rewrite K4, Mdet_mul, X; ring). lra. }
        destruct (definite_pos gs (gram_definite u gs _ PU GS DS)) as (P1 & P2 & P3). unfold ztr in F5.
        pose proof (f_equal m11 GS) as A. pose proof (f_equal m22 GS) as A'. pose proof (f_equal m33 GS) as A''. unfold zmet in A, A', A''. cbn [m11 m22 m33] in A, A', A''.
        apply IZR_le in W1, W2, W3.
        destruct j as [|[|[|j]]]; [|clear A; rename A' into A|clear A A'; rename A'' into A|lia];
          (match type of A with ?x = _ => replace (Vdot _ _) with x by (unfold Vdot, Ccol, gram, Mmul, Mtr; cbn; ring) end); rewrite A; nra. }
      unfold Vnorm. rewrite <- (sqrt_square (100000000 * dtol)) by lra. apply sqrt_le_1_alt. nra. }
    specialize (K11 FC). rewrite LG in K11. destruct K11 as [_ K11].
    assert (DT0 : ZMdet T <> 0%Z) by lia.
    destruct (K11 T ELs DT0 ltac:(lia)) as (ops & O1 & O2 & O3 & O4).
    { intros r Hr. specialize (C2 r Hr). unfold conj_ok in C2. rewrite !andb_true_iff in C2. destruct C2 as ((X1 & X2) & X3). exists (zconj T r).
      split; [now apply zmat_eqb_spec|]. split; [now apply i8_rangeb_spec|exact X3]. }
    assert (CT : forall a a', ZMmul T a = ZMmul T a' -> a = a').
    { intros a a' E. apply (f_equal MofZ) in E. rewrite !MofZ_mul in E. assert (DR : Mdet (MofZ T) <> 0) by (rewrite MofZ_det; intro X; apply DT0; now apply eq_IZR in X).
      apply MofZ_inj. rewrite <- (Mmul_id_l (MofZ a)), <- (Mmul_id_l (MofZ a')), <- (proj2 (Madj_inverse _ DR)), !Mmul_assoc, E. reflexivity. }
    assert (DTR : Mdet (MofZ T) <> 0) by (rewrite MofZ_det; intro X; apply DT0; now apply eq_IZR in X).
    assert (CTv : forall x y, Mapp (MofZ T) x = Mapp (MofZ T) y -> x = y).
    { intros x y E. rewrite <- (Mapp_id x), <- (Mapp_id y), <- (proj2 (Madj_inverse _ DTR)), !Mapp_Mmul, E. reflexivity. }
    (* what an operation is *)
    assert (MV : forall r t m r' t', moved_operation T r t m r' t' -> ZMmul T r' = ZMmul r T /\ exists nn, Mapp (MofZ T) t' = Vadd (Vadd t (VofZ m)) (Mapp (MofZ T) (VofZ nn))).
    { intros r t m r' t' (nn & Hm). assert (X0 : Mapp (MofZ T) t' = Vadd (Vadd t (VofZ m)) (Mapp (MofZ T) (VofZ nn))).
      { specialize (Hm V0). unfold act in Hm. rewrite !Mapp_V0, !Vadd_0 in Hm. exact Hm. }
      split; [|eauto]. apply MofZ_inj. rewrite !MofZ_mul.
      assert (LIN : forall x, Mapp (Mmul (MofZ T) (MofZ r')) x = Mapp (Mmul (MofZ r) (MofZ T)) x).
      { intro x. specialize (Hm x). unfold act in Hm. rewrite Mapp_add, X0 in Hm. rewrite !Mapp_Mmul. revert Hm. generalize (Mapp (MofZ T) (Mapp (MofZ r') x)) (Mapp (MofZ r) (Mapp (MofZ T) x)) (Mapp (MofZ T) (VofZ nn)).
        intros [x1 x2 x3] [y1 y2 y3] [w1 w2 w3]. destruct t as [t1 t2 t3]. unfold Vadd. cbn [vx vy vz]. intro E. injection E as A1 A2 A3. f_equal; lra. }
      apply mat_ext; [pose proof (f_equal vx (LIN (V 1 0 0))) as X|pose proof (f_equal vx (LIN (V 0 1 0))) as X|pose proof (f_equal vx (LIN (V 0 0 1))) as X|
        pose proof (f_equal vy (LIN (V 1 0 0))) as X|pose proof (f_equal vy (LIN (V 0 1 0))) as X|pose proof (f_equal vy (LIN (V 0 0 1))) as X|
        pose proof (f_equal vz (LIN (V 1 0 0))) as X|pose proof (f_equal vz (LIN (V 0 1 0))) as X|pose proof (f_equal vz (LIN (V 0 0 1))) as X];
        clear - X; unfold Mapp in X; cbn [vx vy vz] in X; lra. }
    (* translations *)
    assert (TR : forall t m t' nn n0, (Rabs (vx t - 0 - IZR (vx n0)) <= 1 / 1000000000 /\ Rabs (vy t - 0 - IZR (vy n0)) <= 1 / 1000000000 /\ Rabs (vz t - 0 - IZR (vz n0)) <= 1 / 1000000000) ->
               Mapp (MofZ T) t' = Vadd (Vadd t (VofZ m)) (Mapp (MofZ T) (VofZ nn)) ->
               exists x d, t' = Vadd (Vadd d x) (VofZ nn) /\ Rabs (vx d) <= 1 / 100000000 /\ Rabs (vy d) <= 1 / 100000000 /\ Rabs (vz d) <= 1 / 100000000 /\ Mapp (MofZ T) x = VofZ (zadd3 n0 m)).
    { intros t m t' nn n0 (T1 & T2' & T3) E. set (x := Mapp (Madj_inv (MofZ T)) (VofZ (zadd3 n0 m))). set (d := Mapp (Madj_inv (MofZ T)) (Vsub t (VofZ n0))).
      assert (EX : Mapp (MofZ T) x = VofZ (zadd3 n0 m)) by (unfold x; rewrite <- Mapp_Mmul, (proj1 (Madj_inverse _ DTR)); apply Mapp_id).
      assert (ED : Mapp (MofZ T) d = Vsub t (VofZ n0)) by (unfold d; rewrite <- Mapp_Mmul, (proj1 (Madj_inverse _ DTR)); apply Mapp_id).
      exists x, d. split.
      - apply CTv. rewrite E, !Mapp_add, EX, ED. f_equal. unfold Vadd, Vsub, VofZ, zadd3. destruct t as [t1 t2 t3]. cbn [vx vy vz]. f_equal; izr; ring.
      - assert (SM : forall a c : R, Rabs (a - 0 - c) <= 1 / 1000000000 -> Rabs (a - c) <= 1 / 1000000000) by (intros a c; now rewrite Rminus_0_r).
        destruct (rows_small_spec T d _ (1 / 1000000000) C3 DT0 ED) as (R1 & R2 & R3); [apply SM, T1|apply SM, T2'|apply SM, T3|]. split; [lra|]. split; [lra|]. split; [lra|]. exact EX. }
    assert (PT : forall x m, Mapp (MofZ T) x = VofZ m -> exists h n1, In h (o3 :: H) /\ x = Vadd (fracN N h) (VofZ n1)).
    { intros x m E. set (wv := ZMapp K (ZMapp T2i m)). assert (X : fracN N wv = x).
      { apply CTv. rewrite E. assert (DS : Mdet (lattice std) <> 0). { intro X. assert (Y : Mdet (lattice p) = 0) by (rewrite K4, Mdet_mul, X; ring). lra. }
        assert (CS : forall x y, Mapp (lattice std) x = Mapp (lattice std) y -> x = y).
        { intros x' y' E'. rewrite <- (Mapp_id x'), <- (Mapp_id y'), <- (proj2 (Madj_inverse _ DS)), !Mapp_Mmul, E'. reflexivity. }
        apply CS. rewrite <- Mapp_Mmul, <- ELs. transitivity (col Ln wv); [symmetry; now apply scaleL_frac|].
        unfold col, wv. rewrite MofZ_app, <- Mapp_Mmul, <- EL, K4, Mapp_Mmul, MofZ_app, <- (Mapp_Mmul (MofZ T2)), <- MofZ_mul, K5, MofZ_id, Mapp_id. reflexivity. }
      destruct (fracN_mod N wv F2) as (n1 & En). exists (modN N wv), n1. split; [apply (closed_app N H K _ F2 F10 TK4)|]. now rewrite <- X. }
    exists ops. split; [exact O1|]. split; [now rewrite O2, C1|]. split.
    - intros op Hop. destruct (O3 op Hop) as (r & t & m & Hr & Ht & Hm). destruct (MV _ _ _ _ _ Hm) as (M1 & nn & M2). split.
      + specialize (C4 r Hr). apply existsb_exists in C4. destruct C4 as (g & Hg & Eg). apply zmat_eqb_spec in Eg. specialize (C2 r Hr). unfold conj_ok in C2. rewrite !andb_true_iff in C2. destruct C2 as ((X1 & _) & _).
        apply zmat_eqb_spec in X1. assert (Er : rotation op = zconj T r) by (apply CT; congruence). rewrite Er, Eg. now apply (isometries_out G G B).
      + destruct Ht as (n0 & Ht). destruct (TR t m (translation op) nn n0 Ht M2) as (x & d & ET & D1 & D2 & D3 & EX). destruct (PT _ _ EX) as (h & n1 & Hh & ->). exists h. split; [exact Hh|].
        rewrite ET. exists (zadd3 n1 nn). unfold Vadd, VofZ, zadd3. cbn [vx vy vz]. rewrite !plus_IZR. split; [|split].
        * replace (vx d + (vx (fracN N h) + IZR (vx n1)) + IZR (vx nn) - vx (fracN N h) - (IZR (vx n1) + IZR (vx nn))) with (vx d) by ring. exact D1.
        * replace (vy d + (vy (fracN N h) + IZR (vy n1)) + IZR (vy nn) - vy (fracN N h) - (IZR (vy n1) + IZR (vy nn))) with (vy d) by ring. exact D2.
        * replace (vz d + (vz (fracN N h) + IZR (vz n1)) + IZR (vz nn) - vz (fracN N h) - (IZR (vz n1) + IZR (vz nn))) with (vz d) by ring. exact D3.
    - intros g h Hg Hh. specialize (C5 g (isometries_in G G B g F17 F18 F19 Hg)). apply existsb_exists in C5. destruct C5 as (r & Hr & Er). apply zmat_eqb_spec in Er.
      assert (SPh : exists wv, h = ZMapp K wv). { destruct Hh as [<-|Hh]; [exists o3; symmetry; apply ZMapp_0|]. apply SP. apply in_or_app. now right. }
      destruct SPh as (wv & Ew). set (m := ZMapp T2 wv).
      assert (Th : Mapp (MofZ T) (fracN N h) = VofZ m).
      { assert (DS : Mdet (lattice std) <> 0). { intro X. assert (Y : Mdet (lattice p) = 0) by (rewrite K4, Mdet_mul, X; ring). lra. }
        assert (CS : forall x y, Mapp (lattice std) x = Mapp (lattice std) y -> x = y).
        { intros x' y' E'. rewrite <- (Mapp_id x'), <- (Mapp_id y'), <- (proj2 (Madj_inverse _ DS)), !Mapp_Mmul, E'. reflexivity. }
        apply CS. rewrite <- Mapp_Mmul, <- ELs. transitivity (col Ln h); [symmetry; now apply scaleL_frac|]. unfold col, m. rewrite Ew, !MofZ_app, <- Mapp_Mmul, <- EL, K4, Mapp_Mmul. reflexivity. }
      destruct (O4 r Hr) as (t & (n0 & Ht) & O5). destruct (O5 (zsub3 m n0)) as (op & Hop & Hm). destruct (MV _ _ _ _ _ Hm) as (M1 & nn & M2). exists op. split; [exact Hop|]. split; [apply CT; congruence|].
      destruct (TR t (zsub3 m n0) (translation op) nn n0 Ht M2) as (x & d & ET & D1 & D2 & D3 & EX).
      assert (Ex : x = fracN N h) by (apply CTv; rewrite EX, Th; f_equal; unfold zadd3, zsub3; destruct m as [q1 q2 q3]; cbn [vx vy vz]; f_equal; ring).
      rewrite ET, Ex. exists nn. unfold Vadd, VofZ. cbn [vx vy vz]. split; [|split].
      + replace (vx d + vx (fracN N h) + IZR (vx nn) - vx (fracN N h) - IZR (vx nn)) with (vx d) by ring. exact D1.
      + replace (vy d + vy (fracN N h) + IZR (vy nn) - vy (fracN N h) - IZR (vy nn)) with (vy d) by ring. exact D2.
      + replace (vz d + vz (fracN N h) + IZR (vz nn) - vz (fracN N h) - IZR (vz nn)) with (vz d) by ring. exact D3.
  Qed.
End Run.
