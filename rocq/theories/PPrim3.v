(** find_primitive_cell on cells with one inner translation: what the first selection picks (reduce.rs 33-128, 512-539). *)
From Coq Require Import ZArith Reals String List Bool Lia Lra Psatz Permutation Sorting.Sorted.
From Verif Require Import Num Mat Utils Structure RInst Spec RFacts PUtils PSymmOp PStructure PStructure2 PStructure3 PStructure4 PFormula PDelaunay PPrim PPrim2 PLattice PSearch Reduce.
Import ListNotations.
Open Scope R_scope.

(** ** The selection on integer combinations *)
Definition zcrossb (a b : vec Z) : bool := let c := ZVcross a b in negb ((vx c =? 0) && (vy c =? 0) && (vz c =? 0))%Z.
Fixpoint zsecond (a : vec Z) (i : nat) (l : list (vec Z)) : nat :=
  match l with [] => 1%nat | v :: t => if zcrossb a v then i else zsecond a (S i) t end.
Fixpoint zthird (sg : Z) (a b : vec Z) (i : nat) (l : list (vec Z)) : nat :=
  match l with [] => 2%nat | v :: t => if (0 <? sg * zdet a b v)%Z then i else zthird sg a b (S i) t end.
Definition zsel (sg : Z) (l : list (vec Z)) : option (vec Z * vec Z * vec Z) :=
  match l with
  | [] => None
  | a :: t => let k := zsecond a 1 t in
      match nth_error l k with
      | Some b => if zcrossb a b then match nth_error l (zthird sg a b (S k) (skipn (S k) l)) with Some c => Some (a, b, c) | None => None end else None
      | None => None
      end
  end.
Lemma zcrossb_true a b : zcrossb a b = true <-> ZVcross a b <> V 0%Z 0%Z 0%Z.
Proof.
  unfold zcrossb. destruct (ZVcross a b) as [x y z]. cbn [vx vy vz]. rewrite negb_true_iff. split.
  - intros H E. injection E as -> -> ->. discriminate H.
  - intro H. apply not_true_is_false. intro E. apply andb_prop in E. destruct E as [E Ez]. apply andb_prop in E. destruct E as [Ex Ey].
    apply Z.eqb_eq in Ex, Ey, Ez. congruence.
Qed.
Lemma zcrossb_false a b : zcrossb a b = false -> ZVcross a b = V 0%Z 0%Z 0%Z.
Proof.
  intro H. unfold zcrossb in H. destruct (ZVcross a b) as [x y z]. cbn [vx vy vz] in H. apply negb_false_iff in H. apply andb_prop in H. destruct H as [H Hz].
  apply andb_prop in H. destruct H as [Hx Hy]. apply Z.eqb_eq in Hx, Hy, Hz. congruence.
Qed.

Section Select.
  Context (B : mat R) (dtol : R) (sg : Z) (H0 : 0 <= dtol) (HD : dtol < Rabs (Mdet B))
    (HC : forall k, In k [e1; e2; e3] -> dtol * Vnorm (col B k) < Rabs (Mdet B)) (HS : (sg = 1 \/ sg = -1)%Z /\ Mdet B = Rabs (Mdet B) * IZR sg).
  Lemma sel_second a l : forall i (cv : vec R), snd (@scan_second RNum dtol (col B a) i cv (map (col B) l)) = zsecond a i l /\
    (forall b, existsb (zcrossb a) l = true -> nth_error l (zsecond a i l - i) = Some b -> fst (@scan_second RNum dtol (col B a) i cv (map (col B) l)) = Vcross (col B a) (col B b)) /\
    (existsb (zcrossb a) l = true -> (i <= zsecond a i l < i + List.length l)%nat).
  Proof using Type*.
    induction l as [|v t IH]; intros i cv; cbn [map scan_second zsecond existsb]; [split; [reflexivity|split; intros; discriminate]|].
    change (@fabs RNum (@magnitude RNum (@cross RNum (col B a) (col B v)))) with (Rabs (@magnitude RNum (Vcross (col B a) (col B v)))). rewrite magnitude_R, abs_norm.
    destruct (zcrossb a v) eqn:E.
    - assert (Q : @flt RNum dtol (Vnorm (Vcross (col B a) (col B v))) = true). { apply flt_true. apply big_cross; [exact HC|]. now apply zcrossb_true. }
      rewrite Q. cbn [fst snd orb]. split; [reflexivity|]. split; [|intros; cbn [List.length]; lia]. intros b _. rewrite Nat.sub_diag. cbn. intro X. injection X as <-. reflexivity.
    - assert (Q : @flt RNum dtol (Vnorm (Vcross (col B a) (col B v))) = false).
      { apply flt_false. apply zcrossb_false in E. apply (cross_Z0 B) in E. unfold col. rewrite E, norm_0. exact H0. }
      rewrite Q. cbn [orb]. destruct (IH (S i) (@cross RNum (col B a) (col B v))) as (A1 & A2 & A3). split; [exact A1|]. split.
      + intros b X Y. apply A2; [exact X|]. specialize (A3 X). replace (zsecond a (S i) t - i)%nat with (S (zsecond a (S i) t - S i)) in Y by lia. exact Y.
      + intro X. specialize (A3 X). cbn [List.length]. lia.
  Qed.
  Lemma sel_third a b l : forall i, @scan_third RNum dtol (Vcross (col B a) (col B b)) i (map (col B) l) = zthird sg a b i l.
  Proof using Type*.
    induction l as [|v t IH]; intro i; cbn [map scan_third zthird]; [reflexivity|]. destruct HS as [HS1 HS2].
    change (@dot RNum (Vcross (col B a) (col B b)) (col B v)) with (Vdot (Vcross (col B a) (col B b)) (col B v)).
    destruct (0 <? sg * zdet a b v)%Z eqn:E.
    - apply Z.ltb_lt in E. replace (@flt RNum _ _) with true; [reflexivity|]. symmetry. apply flt_true.
      assert (N : zdet a b v <> 0%Z) by (intro C; rewrite C, Z.mul_0_r in E; lia). pose proof (big_det B a b v N) as Q. unfold col in *. rewrite triple_Z in *. clear Q. rewrite HS2, Rmult_assoc, <- mult_IZR.
     
      assert (P1 : 1 <= IZR (sg * zdet a b v)) by (apply IZR_le; lia). pose proof (Rabs_pos (Mdet B)).
      assert (Rabs (Mdet B) * 1 <= Rabs (Mdet B) * IZR (sg * zdet a b v)) by (apply Rmult_le_compat_l; assumption). lra.
    - apply Z.ltb_ge in E. replace (@flt RNum _ _) with false; [apply IH|]. symmetry. apply flt_false.
      unfold col. rewrite triple_Z, HS2, Rmult_assoc, <- mult_IZR. apply IZR_le in E. pose proof (Rabs_pos (Mdet B)). change (@num RNum) with R in *.
      assert (Rabs (Mdet B) * IZR (sg * zdet a b v) <= Rabs (Mdet B) * 0) by (apply Rmult_le_compat_l; assumption). lra.
  Qed.
  Lemma sel_sort (cv : list (vec Z)) : exists lz, Permutation cv lz /\ sort_by len_le (map (col B) cv) = map (col B) lz /\
    StronglySorted (fun a b => nrm B a <= nrm B b) lz.
  Proof using Type.
    pose proof (sort_by_perm len_le (map (col B) cv)) as Pm. apply Permutation_map_inv in Pm. destruct Pm as (lz & E & Pm).
    exists lz. split; [now apply Permutation_sym, Permutation_sym|]. split; [exact E|]. pose proof (sort_len_sorted (map (col B) cv)) as S. rewrite E in S.
    clear - S. induction lz as [|a l IH]; [constructor|]. cbn [map] in S. inversion_clear S as [|? ? S1 S2]. constructor; [now apply IH|].
    rewrite Forall_forall in *. intros b Hb. apply nrm_le. apply S2. now apply in_map.
  Qed.
  Lemma sel_short (cv : list (vec Z)) : exists lz, Permutation cv lz /\ StronglySorted (fun a b => nrm B a <= nrm B b) lz /\
    forall a b c, zsel sg lz = Some (a, b, c) -> rshort dtol (map (col B) cv) = Ok (col B a, col B b, col B c).
  Proof using Type*.
    destruct (sel_sort cv) as (lz & Pm & E & SS). exists lz. split; [exact Pm|]. split; [exact SS|]. intros a b c ZE.
    rewrite shortest_eq. cbv zeta. rewrite E. destruct lz as [|a0 t]; [discriminate ZE|]. cbn [zsel] in ZE.
    destruct (sel_second a0 t 1 (V 0 0 0)) as (A1 & A2 & A3). set (k := zsecond a0 1 t) in *. cbv zeta in ZE.
    destruct (nth_error (a0 :: t) k) as [b0|] eqn:Eb; [|discriminate ZE]. destruct (zcrossb a0 b0) eqn:Ec; [|discriminate ZE].
    destruct (nth_error (a0 :: t) (zthird sg a0 b0 (S k) (skipn (S k) (a0 :: t)))) as [c0|] eqn:Et; [|discriminate ZE]. injection ZE as -> -> ->.
    assert (EX : existsb (zcrossb a) t = true).
    { apply nth_error_In in Eb. destruct Eb as [Eb|Eb]; [subst b; exfalso; apply zcrossb_true in Ec; apply Ec; unfold ZVcross; f_equal; ring|].
      apply existsb_exists. now exists b. }
    specialize (A3 EX). assert (Eb' : nth_error t (k - 1) = Some b) by (replace k with (S (k - 1)) in Eb by lia; exact Eb). specialize (A2 b EX Eb').
    cbn [map nth_error of_opt bind]. change (skipn 1 (col B a :: map (col B) t)) with (map (col B) t).
    destruct (@scan_second RNum dtol (col B a) 1 (V 0 0 0) (map (col B) t)) as [cr k'] eqn:ES. cbn [fst snd] in A1, A2. subst k' cr.
    assert (NL : (List.length (col B a :: map (col B) t) <? S k)%nat = false).
    { apply Nat.ltb_ge. cbn [List.length]. rewrite map_length. lia. }
    change (col B a :: map (col B) t) with (map (col B) (a :: t)) in *. rewrite NL. rewrite skipn_map, sel_third.
    rewrite !nth_error_map, Eb. cbn [option_map of_opt bind]. rewrite Et. reflexivity.
  Qed.
End Select.

(** ** The accepted translations *)
Definition halfv (h : vec Z) : vec R := V (IZR (vx h) / 2) (IZR (vy h) / 2) (IZR (vz h) / 2).
Definition half_dir (h : vec Z) : Prop := (vx h = 0 \/ vx h = 1)%Z /\ (vy h = 0 \/ vy h = 1)%Z /\ (vz h = 0 \/ vz h = 1)%Z /\ h <> V 0%Z 0%Z 0%Z.
Lemma half_not_int h n : half_dir h -> halfv h <> VofZ n.
Proof.
  intros (A & B & C & N) E. unfold halfv, VofZ in E. injection E as E1 E2 E3. apply N. destruct h as [x y z]. cbn in *.
  assert (Q : forall p q : Z, (p = 0 \/ p = 1)%Z -> IZR p / 2 = IZR q -> p = 0%Z).
  { intros p q [Hp|Hp] H; [exact Hp|]. subst p. exfalso. assert (X : IZR 1 = IZR (2 * q)) by (rewrite mult_IZR; lra). apply eq_IZR in X. lia. }
  f_equal; [eapply Q; [exact A|exact E1]|eapply Q; [exact B|exact E2]|eapply Q; [exact C|exact E3]].
Qed.
Lemma filter_map_swap {A B} (f : A -> B) (g : B -> bool) l : filter g (map f l) = map f (filter (fun x => g (f x)) l).
Proof. induction l as [|a l IH]; cbn; [reflexivity|]. destruct (g (f a)); cbn; now rewrite IH. Qed.
Lemma one_element {A} (l : list A) x : In x l -> (forall y, In y l -> y = x) -> NoDup l -> l = [x].
Proof.
  intros Hx H N. destruct l as [|a [|b l]]; [destruct Hx|rewrite (H a (or_introl eq_refl)); reflexivity|].
  exfalso. inversion_clear N as [|? ? N1 _]. apply N1. rewrite (H a), (H b) by (cbn; tauto). now left.
Qed.
Lemma combine_nodup {A B} (l : list A) (m : list B) : NoDup l -> NoDup (combine l m).
Proof.
  intro N. revert m. induction N as [|a l Ha N IH]; intros [|b m]; cbn; try constructor; [|apply IH].
  intro H. apply Ha. now apply in_combine_l in H.
Qed.
Lemma combine_nth {A B} (l : list A) (m : list B) k x y : nth_error l k = Some x -> nth_error m k = Some y -> nth_error (combine l m) k = Some (x, y).
Proof. revert l m. induction k as [|k IH]; intros [|a l] [|b m]; cbn; try discriminate; [intros E1 E2; congruence|apply IH]. Qed.

Section Base.
  Context (P : @Pinv RNum) (HO : HashOrd) (path : list nat) (dtol : R) (s : @structure RNum).
  Let L := lattice s.
  Let temp := @normalize_coords RNum s dtol.
  Hypothesis WF : List.length (species s) = List.length (frac_coords s).
  (** the base atom *)
  Lemma prim_base : species s <> [] -> (Z.of_nat (List.length (species s)) <= 65535)%Z ->
    exists me j bs, nth_error (frac_coords temp) j = Some bs /\ nth_error (species temp) j = Some me /\
      @find_primitive_cell RNum P HO path dtol s = prim_tail P dtol s (tvecs dtol s me j bs).
  Proof.
    intros HN HM. rewrite prim_eq. fold temp.
    destruct (normalize_coords_spec s dtol) as (_ & Lt & Ls & _). fold temp in Lt, Ls. rewrite <- WF, Nat.min_id in Ls.
    destruct (@get_min_element_spec HO path (species temp)) as (me & ei & tc & -> & Hin & _ & Hei & _).
    { rewrite Ls. destruct (species s); [congruence|]. cbn [List.length] in *. lia. }
    cbn [bind]. apply In_nth_error in Hin. 
    destruct Hei as [NDe Hei]. destruct (am_get String.eqb me ei) as [bi|] eqn:Eb.
    2:{ exfalso. apply am_get_none_iff in Eb. destruct Hin as (j & Hj).
        assert (F : exists j0, nth_error (species temp) j0 = Some me /\ forall j', (j' < j0)%nat -> nth_error (species temp) j' <> Some me).
        { revert j Hj. induction j as [j IH] using lt_wf_ind. intro Hj.
          destruct (existsb (fun i => match nth_error (species temp) i with Some e => String.eqb e me | None => false end) (seq 0 j)) eqn:X.
          - apply existsb_exists in X. destruct X as (i & Hi & X). apply in_seq in Hi. destruct (nth_error (species temp) i) as [e|] eqn:Y; [|discriminate].
            apply String.eqb_eq in X. subst e. apply (IH i); [lia|exact Y].
          - exists j. split; [exact Hj|]. intros j' Hj' C. assert (Q : existsb (fun i => match nth_error (species temp) i with Some e => String.eqb e me | None => false end) (seq 0 j) = true).
            { apply existsb_exists. exists j'. split; [apply in_seq; lia|]. rewrite C. apply String.eqb_refl. } congruence. }
        destruct F as (j0 & F1 & F2). apply Eb. apply (in_map fst ei (me, Z.of_nat j0)). apply Hei. exists j0. auto. }
    apply (am_get_In ei me bi NDe) in Eb. apply Hei in Eb. destruct Eb as (j & -> & Hj & _). cbn [of_opt bind]. rewrite Nat2Z.id.
    assert (Hb : exists bs, nth_error (frac_coords temp) j = Some bs).
    { destruct (nth_error (frac_coords temp) j) eqn:Q; [eauto|]. apply nth_error_None in Q. rewrite <- Lt in Q. apply nth_error_None in Q. congruence. }
    destruct Hb as (bs & Hb). exists me, j, bs. rewrite Hb. split; [reflexivity|]. split; [exact Hj|reflexivity].
  Qed.

  (** one inner translation: half of the lattice vector h *)
  Context (h : vec Z).
  Definition one_inner : Prop :=
    (forall x e, In (x, e) (combine (frac_coords s) (species s)) -> exists y n, In (y, e) (combine (frac_coords s) (species s)) /\ Vadd x (halfv h) = Vadd y (VofZ n)) /\
    (forall i j x y e, i <> j -> nth_error (frac_coords s) i = Some x -> nth_error (frac_coords s) j = Some y ->
      nth_error (species s) i = Some e -> nth_error (species s) j = Some e -> site_translation dtol s (Vsub x y) -> exists n, Vsub x y = Vadd (halfv h) (VofZ n)).
  Lemma normalize_half (ft : vec R) n : half_dir h -> (forall k, (k < 3)%nat -> 0 < vnth ft k < 1 / 2) ->
    @normalize_vec RNum (Vadd (halfv h) (VofZ n)) ft = halfv h.
  Proof.
    intros (A & B & C & _) HT. apply (@vec_ext R); unfold normalize_vec, vmap2, Vadd, VofZ, halfv; cbn [vx vy vz]; apply normalize1_unique.
    - pose proof (HT 0%nat ltac:(lia)). cbn in *. lra.
    - exists (vx n). cbn. ring.
    - pose proof (HT 0%nat ltac:(lia)). cbn in *. destruct A as [-> | ->]; lra.
    - pose proof (HT 1%nat ltac:(lia)). cbn in *. lra.
    - exists (vy n). cbn. ring.
    - pose proof (HT 1%nat ltac:(lia)). cbn in *. destruct B as [-> | ->]; lra.
    - pose proof (HT 2%nat ltac:(lia)). cbn in *. lra.
    - exists (vz n). cbn. ring.
    - pose proof (HT 2%nat ltac:(lia)). cbn in *. destruct C as [-> | ->]; lra.
  Qed.
  Lemma normalize_int (ft : vec R) n : (forall k, (k < 3)%nat -> 0 < vnth ft k < 1 / 2) -> @normalize_vec RNum (VofZ n) ft = V0.
  Proof.
    intro HT. apply (@vec_ext R); unfold normalize_vec, vmap2, VofZ, V0; cbn [vx vy vz]; apply normalize1_whole.
    - pose proof (HT 0%nat ltac:(lia)). cbn in *. lra.
    - pose proof (HT 1%nat ltac:(lia)). cbn in *. lra.
    - pose proof (HT 2%nat ltac:(lia)). cbn in *. lra.
  Qed.
  Lemma temp_index_all x e : In (x, e) (combine (frac_coords s) (species s)) ->
    exists k n, nth_error (frac_coords temp) k = Some (Vadd x (VofZ n)) /\ nth_error (species temp) k = Some e.
  Proof.
    intro H. destruct (normalize_sites_all s dtol e x H) as (k & y & n & A & B & ->). exists k, n. auto.
  Qed.
  Lemma half_ok : 0 <= dtol -> (forall k, (k < 3)%nat -> 0 < vnth (@frac_tols_of RNum L dtol) k < 1 / 2) -> one_inner ->
    @fp_is_translation RNum dtol temp (@frac_tols_of RNum L dtol) (halfv h) = true.
  Proof.
    intros H0 HT [HX _]. unfold fp_is_translation. apply forallb_forall. intros [x e] Hx.
    destruct (temp_site dtol s WF x e Hx) as (x0 & n & Hx0 & ->). destruct (HX x0 e Hx0) as (y & m & Hy & E).
    destruct (temp_index_all y e Hy) as (k & m' & K1 & K2). apply existsb_exists. exists (Vadd y (VofZ m'), e). cbn [fst snd].
    split; [apply (nth_error_In _ k); now apply combine_nth|]. rewrite String.eqb_refl. cbn [andb]. unfold same_site. apply fle_true.
    assert (E2 : @vsub RNum (@vadd RNum (Vadd x0 (VofZ n)) (halfv h)) (Vadd y (VofZ m')) = VofZ (ZVadd (ZVadd m n) (zneg m'))).
    { unfold Vadd in E. injection E as Ex Ey Ez. unfold vsub, vadd, vmap2, Vadd, VofZ, ZVadd, zneg. cbn in *. rewrite !plus_IZR, !opp_IZR. apply (@vec_ext R); cbn; lra. }
    rewrite E2, normalize_int by exact HT. cbn [fabs RNum]. rewrite magnitude_R, abs_norm. change (@mvmul RNum (lattice temp) V0) with (Mapp (lattice temp) V0).
    rewrite Mapp_V0, Vnorm_V0. cbn. lra.
  Qed.
  Lemma tvecs_half me bi bs : half_dir h -> 0 <= dtol -> (forall k, (k < 3)%nat -> 0 < vnth (@frac_tols_of RNum L dtol) k < 1 / 2) -> one_inner ->
    nth_error (frac_coords temp) bi = Some bs -> nth_error (species temp) bi = Some me ->
    tvecs dtol s me bi bs = [VofZ e1; VofZ e2; VofZ e3; halfv h].
  Proof.
    intros HH H0 HT OI Hb Hm. unfold tvecs. fold temp L. unfold fp_candidates. rewrite filter_app.
    assert (HT' : forall k, (k < 3)%nat -> 0 <= vnth (@frac_tols_of RNum L dtol) k <= 1) by (intros k Hk; specialize (HT k Hk); lra).
    rewrite (filter_every _ (@unit_vecs RNum)).
    2:{ intros x Hx. cbn in Hx. destruct Hx as [<-|[<-|[<-|[]]]]; [exact (unit_ok dtol s WF e1 H0 HT')|exact (unit_ok dtol s WF e2 H0 HT')|exact (unit_ok dtol s WF e3 H0 HT')]. }
    change [VofZ e1; VofZ e2; VofZ e3; halfv h] with (@unit_vecs RNum ++ [halfv h]). f_equal. rewrite filter_map_swap.
    set (cand := combine (seq 0 (List.length (frac_coords temp))) (combine (frac_coords temp) (species temp))).
    (* accepted candidates *)
    assert (ACC : forall j x, j <> bi -> nth_error (frac_coords temp) j = Some x -> nth_error (species temp) j = Some me ->
      @fp_is_translation RNum dtol temp (@frac_tols_of RNum L dtol) (@normalize_vec RNum (@vsub RNum x bs) (@frac_tols_of RNum L dtol)) = true ->
      exists n, @vsub RNum x bs = Vadd (halfv h) (VofZ n)).
    { intros j x Hj Hx He A. apply accepted in A; [|exact WF]. destruct (normalize_vec_shift (@vsub RNum x bs) (@frac_tols_of RNum L dtol)) as (n & En).
      rewrite En in A. apply site_translation_shift in A.
      destruct (temp_index dtol s) as (f & If & Hf). destruct (Hf j x me Hx He) as (x0 & n0 & A1 & A2 & ->). destruct (Hf bi bs me Hb Hm) as (y0 & m0 & B1 & B2 & ->).
      destruct (proj2 OI (f j) (f bi) x0 y0 me) as (k & Ek); auto.
      - apply (site_translation_shift _ _ _ (ZVadd n0 (zneg m0))).
        replace (Vadd (Vsub x0 y0) (VofZ (ZVadd n0 (zneg m0)))) with (@vsub RNum (Vadd x0 (VofZ n0)) (Vadd y0 (VofZ m0))); [exact A|].
        unfold vsub, vmap2, Vadd, Vsub, VofZ, ZVadd, zneg. cbn. rewrite !plus_IZR, !opp_IZR. f_equal; ring.
      - exists (ZVadd k (ZVadd n0 (zneg m0))). unfold Vsub, Vadd in Ek. injection Ek as Ex Ey Ez. unfold vsub, vmap2, Vadd, VofZ, ZVadd, zneg. cbn in *.
        rewrite !plus_IZR, !opp_IZR. apply (@vec_ext R); cbn; lra. }
    (* the partner of the base atom *)
    assert (PT : exists j x n, j <> bi /\ nth_error (frac_coords temp) j = Some x /\ nth_error (species temp) j = Some me /\ @vsub RNum x bs = Vadd (halfv h) (VofZ n)).
    { assert (Ib : In (bs, me) (combine (frac_coords temp) (species temp))) by (apply (nth_error_In _ bi); now apply combine_nth).
      destruct (temp_site dtol s WF bs me Ib) as (b0 & n & Hb0 & Ebs). destruct (proj1 OI b0 me Hb0) as (y & m & Hy & E).
      destruct (temp_index_all y me Hy) as (j & m' & K1 & K2).
      assert (X : @vsub RNum (Vadd y (VofZ m')) bs = Vadd (halfv h) (VofZ (ZVadd m' (ZVadd (zneg m) (zneg n))))).
      { rewrite Ebs. unfold Vadd in E. injection E as Ex Ey Ez. unfold vsub, vmap2, Vadd, VofZ, ZVadd, zneg. cbn in *. rewrite !plus_IZR, !opp_IZR. apply (@vec_ext R); cbn; lra. }
      exists j, (Vadd y (VofZ m')), (ZVadd m' (ZVadd (zneg m) (zneg n))). split; [|auto]. intros ->. fold temp in K1. rewrite K1 in Hb. injection Hb as Eb.
      apply (half_not_int h (zneg (ZVadd m' (ZVadd (zneg m) (zneg n)))) HH). rewrite <- Eb in X. unfold vsub, vmap2, Vadd, VofZ, halfv, zneg in X |- *. cbn in X |- *.
      injection X as Xx Xy Xz. rewrite !opp_IZR. apply (@vec_ext R); cbn; lra. }
    destruct PT as (j & x & n & Hj & Hx & He & EN).
    assert (Ic : In (j, (x, me)) cand).
    { apply (nth_error_In _ j). unfold cand. apply combine_nth; [|now apply combine_nth].
      assert (Q : (j < List.length (frac_coords temp))%nat) by (apply nth_error_Some; congruence).
      rewrite nth_error_nth' with (d := 0%nat) by (rewrite seq_length; exact Q). now rewrite List.seq_nth by exact Q. }
    rewrite (one_element _ (j, (x, me))).
    - cbn [map fst snd]. rewrite EN, normalize_half by assumption. reflexivity.
    - apply filter_In. split; [apply filter_In; split; [exact Ic|]|].
      + cbn [fst snd]. rewrite String.eqb_refl. apply Nat.eqb_neq in Hj. now rewrite Hj.
      + cbn [fst snd]. rewrite EN, normalize_half by assumption. apply half_ok; assumption.
    - intros (k & y & e) Hk. apply filter_In in Hk. cbn [fst snd] in Hk. destruct Hk as [Hk A]. apply filter_In in Hk. cbn [fst snd] in Hk. destruct Hk as [Hk Q].
      apply andb_prop in Q. destruct Q as [Qe Qn]. apply String.eqb_eq in Qe. subst e. apply negb_true_iff, Nat.eqb_neq in Qn.
      apply In_nth_error in Hk. destruct Hk as (i & Hi). apply nth_combine in Hi. destruct Hi as [Hi1 Hi2]. apply (PPrim2.seq_nth s WF) in Hi1. cbn in Hi1. subst k.
      apply nth_combine in Hi2. destruct Hi2 as [Hy Hye]. destruct (ACC i y Qn Hy Hye A) as (n' & EN').
      destruct (Nat.eq_dec i j) as [->|Nij]; [rewrite Hx in Hy; injection Hy as ->; reflexivity|exfalso].
      destruct (temp_index dtol s) as (f & If & Hf). destruct (Hf i y me Hy Hye) as (y0 & ny & A1 & A2 & Ey). destruct (Hf j x me Hx He) as (x0 & nx & B1 & B2 & Ex).
      destruct (proj2 OI (f i) (f j) y0 x0 me) as (k & Ek); auto.
      + intros w e' Hw. exists w, (ZVadd (ZVadd n (zneg n')) (ZVadd ny (zneg nx))). split; [exact Hw|].
        match goal with |- Vnorm (Mapp _ ?v) <= _ => replace v with V0 end; [rewrite Mapp_V0, Vnorm_V0; lra|].
        subst x y. unfold vsub, vmap2, Vadd, VofZ, halfv in EN, EN'. cbn in EN, EN'. injection EN as E1 E2 E3. injection EN' as F1 F2 F3.
        unfold Vadd, Vsub, VofZ, ZVadd, zneg, V0. cbn. rewrite !plus_IZR, !opp_IZR. apply (@vec_ext R); cbn; lra.
      + apply (half_not_int h (ZVadd (ZVadd n' (zneg n)) (ZVadd (ZVadd nx (zneg ny)) (zneg k))) HH).
        subst x y. unfold vsub, vmap2, Vadd, VofZ, halfv in EN, EN'. cbn in EN, EN'. injection EN as E1 E2 E3. injection EN' as F1 F2 F3.
        unfold Vadd, Vsub, VofZ, halfv in Ek. cbn in Ek. injection Ek as G1 G2 G3.
        unfold VofZ, ZVadd, zneg, halfv. cbn. rewrite !plus_IZR, !opp_IZR. apply (@vec_ext R); cbn; lra.
    - apply NoDup_filter, NoDup_filter. unfold cand. apply combine_nodup. apply seq_NoDup.
  Qed.
End Base.

(** ** The whole function on such a cell *)
Definition halfL (L : mat R) : mat R := M (m11 L / 2) (m12 L / 2) (m13 L / 2) (m21 L / 2) (m22 L / 2) (m23 L / 2) (m31 L / 2) (m32 L / 2) (m33 L / 2).
Definition dbl (k : vec Z) : vec Z := ZVadd k k.
Lemma halfL_dbl L z : col (halfL L) (dbl z) = col L z.
Proof. unfold col, halfL, dbl, Mapp, VofZ, ZVadd. cbn. rewrite !plus_IZR. apply (@vec_ext R); cbn; field. Qed.
Lemma halfL_half L z : col (halfL L) z = Mapp L (halfv z).
Proof. unfold col, halfL, halfv, Mapp, VofZ. cbn. apply (@vec_ext R); cbn; field. Qed.
Lemma halfL_det L : Mdet (halfL L) = Mdet L / 8.
Proof. unfold Mdet, halfL. cbn. field. Qed.
Definition four (h : vec Z) : list (vec Z) := [dbl e1; dbl e2; dbl e3; h].
Lemma Ccol_col L k : (k < 3)%nat -> exists e, In e [e1; e2; e3] /\ Ccol L k = col L e.
Proof.
  intro H. destruct k as [|[|[|k]]]; [exists e1|exists e2|exists e3|lia]; (split; [cbn; tauto|]);
    unfold col, Mapp, VofZ, Ccol, e1, e2, e3; cbn; apply (@vec_ext R); cbn; ring.
Qed.
Lemma col_Ccol L e : In e [e1; e2; e3] -> exists k, (k < 3)%nat /\ col L e = Ccol L k.
Proof.
  intro H. cbn in H. destruct H as [<-|[<-|[<-|[]]]]; [exists 0%nat|exists 1%nat|exists 2%nat]; (split; [lia|]);
    unfold col, Mapp, VofZ, Ccol, e1, e2, e3; cbn; apply (@vec_ext R); cbn; ring.
Qed.
Lemma norm_halfv L h : half_dir h -> Vnorm (Mapp L (halfv h)) <= (Vnorm (Ccol L 0) + Vnorm (Ccol L 1) + Vnorm (Ccol L 2)) / 2.
Proof.
  intros (A & B & C & _).
  assert (E : Mapp L (halfv h) = Vadd (Vadd (Vscal (IZR (vx h) / 2) (Ccol L 0)) (Vscal (IZR (vy h) / 2) (Ccol L 1))) (Vscal (IZR (vz h) / 2) (Ccol L 2))).
  { unfold Mapp, halfv, Vadd, Vscal, Ccol. cbn. apply (@vec_ext R); cbn; ring. }
  assert (S : forall k v, Vnorm (Vscal k v) = Rabs k * Vnorm v).
  { intros k v. unfold Vnorm. replace (Vdot (Vscal k v) (Vscal k v)) with (Rsqr k * Vdot v v) by (unfold Vdot, Vscal, Rsqr; cbn; ring).
    rewrite sqrt_mult_alt by apply Rle_0_sqr. now rewrite sqrt_Rsqr_abs. }
  assert (Q : forall (x : Z) v, (x = 0 \/ x = 1)%Z -> Vnorm (Vscal (IZR x / 2) v) <= Vnorm v / 2).
  { intros x v Hx. rewrite S. pose proof (Vnorm_nonneg v). destruct Hx as [-> | ->]; rewrite Rabs_pos_eq by lra; lra. }
  rewrite E. eapply Rle_trans; [apply norm_triangle|]. pose proof (norm_triangle (Vscal (IZR (vx h) / 2) (Ccol L 0)) (Vscal (IZR (vy h) / 2) (Ccol L 1))).
  pose proof (Q (vx h) (Ccol L 0) A). pose proof (Q (vy h) (Ccol L 1) B). pose proof (Q (vz h) (Ccol L 2) C). lra.
Qed.

Section Whole.
  Context (P : @Pinv RNum) (HO : HashOrd) (path : list nat) (dtol : R) (s : @structure RNum) (h : vec Z) (sg : Z).
  Let L := lattice s.
  Hypothesis WF : List.length (species s) = List.length (frac_coords s).
  Hypothesis HN : species s <> [].
  Hypothesis HM : (Z.of_nat (List.length (species s)) <= 65535)%Z.
  Hypothesis H0 : 0 < dtol.
  Hypothesis HC : forall k, (k < 3)%nat -> 2 * dtol < Vnorm (Ccol L k) /\ 4 * dtol * Vnorm (Ccol L k) < Rabs (Mdet L).
  Hypothesis HD : 8 * dtol < Rabs (Mdet L).
  Hypothesis HP : inverse_of L (@pinv RNum P L).
  Hypothesis HH : half_dir h.
  Hypothesis OI : one_inner dtol s h.
  Hypothesis HS : (sg = 1 \/ sg = -1)%Z /\ Mdet L = Rabs (Mdet L) * IZR sg.
  Lemma half_tols k : (k < 3)%nat -> 0 < vnth (@frac_tols_of RNum L dtol) k < 1 / 2.
  Proof using Type*.
    intro Hk. assert (E : vnth (@frac_tols_of RNum L dtol) k = dtol / Vnorm (Ccol L k)).
    { destruct k as [|[|[|k]]]; [..|lia]; unfold frac_tols_of; cbn [vnth vx vy vz]; rewrite magnitude_R; reflexivity. }
    rewrite E. destruct (HC k Hk) as [A _]. assert (A1 : 0 < Vnorm (Ccol L k)) by lra. split; [apply Rdiv_lt_0_compat; assumption|].
    apply (Rmult_lt_reg_r (Vnorm (Ccol L k))); [exact A1|]. unfold Rdiv at 1. rewrite Rmult_assoc, Rinv_l by lra. lra.
  Qed.
  Let Lh := halfL L.
  Lemma half_det : Rabs (Mdet Lh) = Rabs (Mdet L) / 8.
  Proof using Type*. unfold Lh. rewrite halfL_det. unfold Rdiv. rewrite Rabs_mult. f_equal. apply Rabs_pos_eq. lra. Qed.
  Lemma half_col_norm e : In e [e1; e2; e3] -> Vnorm (col Lh e) = Vnorm (col L e) / 2.
  Proof using Type*.
    intros _. unfold Vnorm. replace (Vdot (col Lh e) (col Lh e)) with (Rsqr (/ 2) * Vdot (col L e) (col L e)).
    - rewrite sqrt_mult_alt by apply Rle_0_sqr. rewrite sqrt_Rsqr by lra. field.
    - unfold Vdot, col, Lh, halfL, Mapp, Rsqr. cbn. field.
  Qed.
  Lemma half_HC k : In k [e1; e2; e3] -> dtol * Vnorm (col Lh k) < Rabs (Mdet Lh).
  Proof using Type*. intro Hk. rewrite half_det, half_col_norm by exact Hk. destruct (col_Ccol L k Hk) as (i & Hi & ->). destruct (HC i Hi). lra. Qed.
  Lemma prim_half : exists lz, Permutation (four h) lz /\ StronglySorted (fun a b => nrm Lh a <= nrm Lh b) lz /\
    forall a b c, zsel sg lz = Some (a, b, c) -> (zdet a b c = 0 \/ 4 <= Z.abs (zdet a b c))%Z ->
      exists s' T, @find_primitive_cell RNum P HO path dtol s = Ok s' /\ lattice s' = Mmul Lh (MofZ (ZMmul (zcols a b c) T)) /\
        (zdet a b c <> 0%Z -> Z.abs (ZMdet T) = 1%Z /\ 0 < Mdet (lattice s')).
  Proof using Type*.
    destruct (prim_base P HO path dtol s WF HN HM) as (me & j & bs & Hb & Hm & ->).
    rewrite (tvecs_half dtol s WF h me j bs HH ltac:(lra) half_tols OI Hb Hm).
    assert (HS' : (sg = 1 \/ sg = -1)%Z /\ Mdet Lh = Rabs (Mdet Lh) * IZR sg).
    { split; [apply HS|]. rewrite half_det. unfold Lh. rewrite halfL_det, (proj2 HS) at 1. field. }
    assert (HDh : dtol < Rabs (Mdet Lh)) by (rewrite half_det; lra).
    destruct (sel_short Lh dtol sg ltac:(lra) HDh half_HC HS' (four h)) as (lz & Pm & SS & SEL). exists lz. split; [exact Pm|]. split; [exact SS|].
    intros a b c E Hdet. specialize (SEL a b c E). unfold prim_tail. fold L.
    replace (map (Mapp L) [VofZ e1; VofZ e2; VofZ e3; halfv h]) with (map (col Lh) (four h)).
    2:{ unfold four. cbn [map]. unfold Lh. rewrite !halfL_dbl, halfL_half. reflexivity. }
    rewrite SEL. cbn [bind]. unfold Lh. rewrite !halfL_half, !(inv_app (@pinv RNum P L) L) by (split; apply HP). fold Lh.
    set (W := from_columns (halfv a) (halfv b) (halfv c)). set (B := Mmul L W).
    assert (EB : B = Mmul Lh (MofZ (zcols a b c))).
    { unfold B, W, Lh, Mmul, halfL, halfv, from_columns, MofZ, zcols. cbn. apply (@mat_ext R); cbn; field. }
    set (cv := map (Mapp L) (@combination_vecs RNum W)).
    assert (Hcv : forall v, In v cv <-> exists z, In z dirs26 /\ v = col B z).
    { intro v. unfold cv. rewrite in_map_iff. split.
      - intros (w & <- & Hw). apply combos_in in Hw. destruct Hw as (z & Hz & ->). exists z. split; [exact Hz|]. unfold col, B. now rewrite Mapp_Mmul.
      - intros (z & Hz & ->). exists (Mapp W (VofZ z)). split; [unfold col, B; now rewrite Mapp_Mmul|]. apply combos_in. now exists z. }
    destruct (shortest_total dtol cv) as ([[u1 u2] u3] & E2); [unfold cv; rewrite map_length; apply combos_len|].
    change (rshort dtol (map (Mapp L) (@combination_vecs RNum W))) with (rshort dtol cv). rewrite E2. cbn [bind].
    destruct (shortest_spec dtol _ _ _ _ ltac:(lra) E2) as ((I1 & _) & I2 & I3 & _). apply Hcv in I1, I2, I3.
    destruct Hdet as [Z0|Z4].
    - destruct I1 as (z1 & Z1 & ->), I2 as (z2 & Z2 & ->), I3 as (z3 & Z3 & ->). eexists. exists (zcols z1 z2 z3). split; [reflexivity|].
      rewrite (proj1 (normalize_coords_spec _ dtol)). cbn [lattice]. split; [|intro; contradiction].
      unfold col. rewrite cols_app, EB, Mmul_assoc, MofZ_mul. reflexivity.
    - assert (DB : Rabs (Mdet L) / 2 <= Rabs (Mdet B)).
      { rewrite EB, Mdet_mul, MofZ_det, Rabs_mult, half_det, <- abs_IZR. fold (zdet a b c). apply IZR_le in Z4. pose proof (Rabs_pos (Mdet L)).
        assert (Rabs (Mdet L) / 8 * 4 <= Rabs (Mdet L) / 8 * IZR (Z.abs (zdet a b c))) by (apply Rmult_le_compat_l; lra). lra. }
      assert (HB : forall k, In k [e1; e2; e3] -> dtol * Vnorm (col B k) < Rabs (Mdet B)).
      { intros k Hk. eapply Rlt_le_trans; [|exact DB].
        assert (X : exists z, In z (four h) /\ col B k = col Lh z).
        { assert (I : forall z, In z lz -> In z (four h)) by (intros z Hz; exact (Permutation_in _ (Permutation_sym Pm) Hz)).
          assert (Ia : In a lz /\ In b lz /\ In c lz).
          { clear - E. unfold zsel in E. destruct lz as [|a0 t]; [discriminate|]. destruct (nth_error (a0 :: t) _) as [b0|] eqn:Eb; [|discriminate]. destruct (zcrossb a0 b0); [|discriminate].
            destruct (nth_error (a0 :: t) _) as [c0|] eqn:Ec in E; [|discriminate]. injection E as <- <- <-. apply nth_error_In in Eb, Ec. split; [now left|auto]. }
          destruct Ia as (Ia & Ib & Ic). cbn in Hk. destruct Hk as [<-|[<-|[<-|[]]]]; [exists a|exists b|exists c]; (split; [now apply I|]);
            rewrite EB; unfold col; rewrite Mapp_Mmul, <- MofZ_app; do 2 f_equal; unfold ZMapp, zcols, e1, e2, e3; cbn [m11 m12 m13 m21 m22 m23 m31 m32 m33 vx vy vz];
            apply vec_ext; cbn [vx vy vz]; ring. }
        destruct X as (z & Hz & ->). pose proof (HC 0%nat ltac:(lia)) as [_ C0]. pose proof (HC 1%nat ltac:(lia)) as [_ C1]. pose proof (HC 2%nat ltac:(lia)) as [_ C2].
        assert (NZ : dtol * Vnorm (col Lh z) < Rabs (Mdet L) * (3 / 8)); [|pose proof (Rabs_pos (Mdet L)); lra].
        assert (AX : forall e, In e [e1; e2; e3] -> dtol * Vnorm (col Lh (dbl e)) < Rabs (Mdet L) * (3 / 8)).
        { intros e He. unfold Lh. rewrite halfL_dbl. destruct (col_Ccol L e He) as (i & Hi & ->). destruct (HC i Hi) as [_ Q]. pose proof (Rabs_pos (Mdet L)). lra. }
        destruct Hz as [<-|[<-|[<-|[<-|[]]]]]; try (apply AX; cbn; tauto).
        unfold Lh. rewrite halfL_half. pose proof (norm_halfv L h HH) as Q. apply (Rmult_le_compat_l dtol) in Q; lra. }
      destruct (choose26 B dtol ltac:(lra) ltac:(pose proof (Rabs_pos (Mdet L)); lra) HB cv u1 u2 u3 Hcv E2) as (z1 & z2 & z3 & Z1 & Z2 & Z3 & -> & -> & -> & DZ & DP & _).
      eexists. exists (zcols z1 z2 z3). split; [reflexivity|]. rewrite (proj1 (normalize_coords_spec _ dtol)). cbn [lattice]. split.
      + unfold col. rewrite cols_app, EB, Mmul_assoc, MofZ_mul. reflexivity.
      + intros _. split; [exact DZ|lra].
  Qed.
End Whole.
