(** Cubic crystals in centred and doubled cells: the checks of the families, by computation *)
From Coq Require Import ZArith Reals String List Bool Lia Lra Psatz Permutation Sorting.Sorted.
From Flocq Require Import Core.Raux.
From Verif Require Import Num Mat Utils DataCore SymmOp SpaceGroup Structure Reduce Analyzer RInst Spec Spec2 Spec3 Spec5 RFacts PUtils PSymmOp PStructure PNiggli PAnalyzer PAnalyzer2
  PSearch6 PPrim5 Prop5 PNiggli2 PNiggli3 PEnd8 PEnd9.
Import ListNotations.
Open Scope R_scope.

(** ** Lattice characters of integral metrics *)
Ltac character_by_lra x y z u eps nn nz :=
  unfold character_of;
  let EN := fresh "EN" in
  assert (EN : @num_negative_zero RNum [u * x; u * y; u * z] eps = (nn, nz)%Z);
  [rewrite num_negative_zero_spec by (cbn; lia); unfold countb; cbn [filter];
   repeat match goal with |- context [Rlt_bool ?p ?q] => first [rewrite (Rlt_bool_true p q) by lra|rewrite (Rlt_bool_false p q) by lra] end; reflexivity|];
  match goal with |- context [@num_negative_zero RNum ?l eps] => change (@num_negative_zero RNum l eps) with (@num_negative_zero RNum [u * x; u * y; u * z] eps) end;
  rewrite EN; match goal with |- context [(Z.rem ?p 2 =? 0)%Z && (?q =? 0)%Z] => let r := eval vm_compute in ((Z.rem p 2 =? 0)%Z && (q =? 0)%Z) in change ((Z.rem p 2 =? 0)%Z && (q =? 0)%Z) with r end;
  cust_lra; cbn [andb];
  unfold get_first_set, get_second_set, get_third_set, get_fourth_set; cbn [app first_match vdivs vmap vx vy vz]; cust_lra; cbn [andb]; reflexivity.
Lemma char_bcc (u eps : R) : 0 < u -> 0 < eps <= u / 10 -> @character_of RNum eps (u * 3) (u * 3) (u * 3) (u * -1) (u * -1) (u * -1) = Ok 5%Z.
Proof. intros Hu He. character_by_lra (-1) (-1) (-1) u eps 3%Z 0%Z. Qed.
Lemma char_fcc (u eps : R) : 0 < u -> 0 < eps <= u / 10 -> @character_of RNum eps (u * 2) (u * 2) (u * 2) (u * 1) (u * 1) (u * 1) = Ok 1%Z.
Proof. intros Hu He. character_by_lra 1 1 1 u eps 0%Z 0%Z. Qed.
Lemma char_sc (u eps : R) : 0 < u -> 0 < eps <= u / 10 -> @character_of RNum eps (u * 1) (u * 1) (u * 1) (u * 0) (u * 0) (u * 0) = Ok 3%Z.
Proof. intros Hu He. character_by_lra 0 0 0 u eps 0%Z 3%Z. Qed.

Definition I6 := Z6 1 1 1 0 0 0.
Lemma cube_form g : kform I6 g = I6 <-> of_the_cube g.
Proof.
  assert (E1 : gram Mid = zmet 1 I6) by (unfold gram, zmet, I6, Mid, Mmul, Mtr; cbn; apply (@mat_ext R); cbn; ring).
  pose proof (gram_mul 1 I6 Mid g E1) as E. rewrite Mmul_id_l in E. unfold of_the_cube. fold (gram (MofZ g)). rewrite E. split.
  - intros ->. rewrite <- E1. unfold gram. change (Mtr Mid) with Mid. apply Mmul_id_l.
  - intro Q. apply (zmet_inj 1); [lra|]. rewrite Q, <- E1. unfold gram. change (Mtr Mid) with Mid. symmetry. apply Mmul_id_l.
Qed.
Definition bcc_dirs : list (vec Z) := [V 1 1 1]%Z.
Definition fcc_dirs : list (vec Z) := [V 0 1 1; V 1 0 1; V 1 1 0]%Z.
Definition double_dirs : list (vec Z) := [V 1 0 0; V 0 1 0; V 0 0 1; V 0 1 1; V 1 0 1; V 1 1 0; V 1 1 1]%Z.
Lemma bcc_checked : family_check I6 2 bcc_dirs (Z6 3 3 3 (-1) (-1) (-1)) 5 cI 2 3 2 = true.
Proof. vm_compute. reflexivity. Qed.
Lemma fcc_checked : family_check I6 2 fcc_dirs (Z6 2 2 2 1 1 1) 1 cF 4 2 2 = true.
Proof. vm_compute. reflexivity. Qed.
Lemma double_checked : family_check I6 2 double_dirs (Z6 1 1 1 0 0 0) 3 cP 8 1 2 = true.
Proof. vm_compute. reflexivity. Qed.

Lemma cubic_run (P : @Pinv RNum) (HO : HashOrd) fuel path (dtol a : R) (s : @structure RNum) (e : string) (H : list (vec Z)) g0 n b k w B num sym pts :
  pinv_inverts P -> (48 <= fuel)%nat -> 2 <= a <= 1000 -> 1 / 100000 <= dtol <= 1 / 24 -> cubic_cell a (lattice s) ->
  occupied pts (frac_coords s) -> species s = repeat e (List.length pts) -> pts = map (fracN 2) (o3 :: H) ->
  family_check I6 2 H g0 n b k w B = true -> (w <= 4)%Z -> List.length (holo_rots b) = 48%nat -> Z.to_nat k = List.length pts ->
  (forall u eps, 0 < u -> 0 < eps <= u / 10 -> @character_of RNum eps (u * IZR (za g0)) (u * IZR (zb g0)) (u * IZR (zc g0)) (u * IZR (zd g0)) (u * IZR (ze g0)) (u * IZR (zf g0)) = Ok n) ->
  lattice_group (bravais_to_string b) = Some (num, sym) ->
  exists ops, @get_space_group_info RNum P HO fuel path dtol s = Ok (num, sym, ops) /\ cube_operations pts (map (fun op => (@rotation RNum op, @translation RNum op)) ops).
Proof.
  intros HP HF Ha Hd HC (ys & Pm & F) ES Ep FK Hw H48 Hk CH LG. set (u := a * a / 4).
  assert (Ua : 4 <= a * a <= 1000000) by nra. assert (Hu : 1 <= u <= 250000) by (unfold u; lra).
  assert (Wr : IZR w <= 4) by (apply IZR_le; exact Hw). assert (Dd : 1 / 10000000000 <= dtol * dtol <= 1 / 576) by nra.
  assert (EG : gram (lattice s) = zmet (IZR 2 * IZR 2 * u) I6).
  { unfold gram. unfold cubic_cell in HC. rewrite HC. unfold u, zmet, I6, Mscal, Mid, mmap. cbn. apply (@mat_ext R); cbn; field. }
  destruct (family_run P HO fuel path dtol s 2 H I6 u e g0 n b k w B num sym) as (ops & O1 & O2 & O3 & O4); auto.
  - lra.
  - intro X. pose proof (det_val _ _ _ EG) as Q. rewrite X in Q. change (zdet6 I6) with 1%Z in Q. assert (0 < IZR 2 * IZR 2 * u) by lra. assert (0 < (IZR 2 * IZR 2 * u) * (IZR 2 * IZR 2 * u)) by nra. nra.
  - lra.
  - lra.
  - change (ztr I6) with 3%Z. lra.
  - assert (1 <= u * u) by nra. nra.
  - assert (u * IZR w <= 1000000) by (destruct (Rle_or_lt (IZR w) 0); nra). lra.
  - subst pts. rewrite map_length in ES. apply Permutation_sym, Permutation_map_inv in Pm.
    destruct Pm as (hs & E1 & Pm). subst ys. exists hs. split; [exact Pm|]. split; [|exact ES].
    clear - F. remember (map (fracN 2) hs) as l eqn:El. revert hs El. induction F as [|x y l1 l2 Hxy F IH]; intros [|h hs] El; try discriminate; constructor; injection El as -> ->; [exact Hxy|now apply IH].
  - intros eps He. apply CH; lra.
  - exists ops. split; [exact O1|]. split; [|split].
    + now rewrite map_length, O2, H48, Hk.
    + intros r t Hrt. apply in_map_iff in Hrt. destruct Hrt as (op & E & Hop). injection E as <- <-. destruct (O3 op Hop) as (X1 & h & Hh & X2). split; [now apply cube_form|].
      exists (fracN 2 h). split; [rewrite Ep; now apply in_map|exact X2].
    + intros r p Hr Hp. rewrite Ep in Hp. apply in_map_iff in Hp. destruct Hp as (h & <- & Hh). apply cube_form in Hr. destruct (O4 r h Hr Hh) as (op & Hop & <- & X). exists (translation op). split; [|exact X].
      now apply (in_map (fun op => (@rotation RNum op, @translation RNum op))).
Qed.
