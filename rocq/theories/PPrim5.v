(** find_primitive_cell on cells with several inner translations, all of them multiples of 1/N (reduce.rs 33-128, 512-539). *)
From Coq Require Import ZArith Reals String List Bool Lia Lra Psatz Permutation Sorting.Sorted.
From Verif Require Import Num Mat Utils Structure RInst Spec RFacts PUtils PSymmOp PStructure PStructure2 PStructure3 PStructure4 PFormula PDelaunay PPrim PPrim2 PPrim3 PLattice PSearch Reduce.
Import ListNotations.
Open Scope R_scope.

Definition fracN (N : Z) (h : vec Z) : vec R := V (IZR (vx h) / IZR N) (IZR (vy h) / IZR N) (IZR (vz h) / IZR N).
Definition inner_dir (N : Z) (h : vec Z) : Prop := (0 <= vx h < N)%Z /\ (0 <= vy h < N)%Z /\ (0 <= vz h < N)%Z /\ h <> V 0%Z 0%Z 0%Z.
Lemma frac_int N p q : (0 <= p < N)%Z -> IZR p / IZR N = IZR q -> p = 0%Z.
Proof.
  intros H E. assert (HN : 0 < IZR N) by (apply IZR_lt; lia). assert (X : IZR p = IZR (N * q)) by (rewrite mult_IZR, <- E; field; lra).
  apply eq_IZR in X. assert (q = 0)%Z by (destruct (Z.lt_trichotomy q 0) as [?|[?|?]]; [exfalso; nia|assumption|exfalso; nia]). subst q. lia.
Qed.
Lemma frac_eq N p q r : (0 <= p < N)%Z -> (0 <= q < N)%Z -> IZR p / IZR N = IZR q / IZR N + IZR r -> p = q.
Proof.
  intros Hp Hq E. assert (HN : 0 < IZR N) by (apply IZR_lt; lia). assert (X : IZR p = IZR (q + N * r)).
  { rewrite plus_IZR, mult_IZR. replace (IZR q + IZR N * IZR r) with (IZR N * (IZR q / IZR N + IZR r)) by (field; lra). rewrite <- E. field. lra. }
  apply eq_IZR in X. assert (r = 0)%Z by (destruct (Z.lt_trichotomy r 0) as [?|[?|?]]; [exfalso; nia|assumption|exfalso; nia]). subst r. lia.
Qed.
Lemma fracN_not_int N h n : inner_dir N h -> fracN N h <> VofZ n.
Proof.
  intros (A & B & C & Hn) E. unfold fracN, VofZ in E. injection E as E1 E2 E3. apply Hn. destruct h as [x y z]. cbn [vx vy vz] in *.
  f_equal; [eapply frac_int; [exact A|exact E1]|eapply frac_int; [exact B|exact E2]|eapply frac_int; [exact C|exact E3]].
Qed.
Lemma fracN_congr N h h' n : inner_dir N h -> inner_dir N h' -> fracN N h = Vadd (fracN N h') (VofZ n) -> h = h'.
Proof.
  intros (A & B & C & _) (A' & B' & C' & _) E. unfold fracN, VofZ, Vadd in E. injection E as E1 E2 E3. destruct h as [x y z], h' as [x' y' z']. cbn [vx vy vz] in *.
  f_equal; [exact (frac_eq N _ _ _ A A' E1)|exact (frac_eq N _ _ _ B B' E2)|exact (frac_eq N _ _ _ C C' E3)].
Qed.
Lemma Forall_choice {A B} (Q : A -> B -> Prop) (l : list A) : (forall x, In x l -> exists y, Q x y) -> exists l', Forall2 Q l l'.
Proof.
  induction l as [|a l IH]; intro H; [exists []; constructor|]. destruct (H a (or_introl eq_refl)) as (b & Hb). destruct IH as (l' & Hl); [intros x Hx; apply H; now right|].
  exists (b :: l'). now constructor.
Qed.
Lemma NoDup_indices {A B} (Q : A -> B -> Prop) (l : list A) (l' : list B) : Forall2 Q l l' -> NoDup l -> (forall x y z, In x l -> In y l -> Q x z -> Q y z -> x = y) -> NoDup l'.
Proof.
  intro F. induction F as [|a b l l' Hab F IH]; intros ND H; [constructor|]. inversion_clear ND as [|? ? N1 N2]. constructor.
  - intro Hb. assert (X : exists x, In x l /\ Q x b).
    { clear - F Hb. induction F as [|a' b' l l' Q' F IH]; [destruct Hb|]. destruct Hb as [<-|Hb]; [exists a'; split; [now left|exact Q']|]. destruct (IH Hb) as (x & Hx & Qx). exists x. split; [now right|exact Qx]. }
    destruct X as (x & Hx & Qx). apply N1. rewrite (H a x b (or_introl eq_refl) (or_intror Hx) Hab Qx). exact Hx.
  - apply IH; [exact N2|]. intros x y z Hx Hy. apply H; now right.
Qed.
Lemma Forall2_In_l {A B} (Q : A -> B -> Prop) l l' x : Forall2 Q l l' -> In x l -> exists y, In y l' /\ Q x y.
Proof. intro F. induction F as [|a b l l' Hab F IH]; [intros []|]; intros [<-|Hx]; [exists b; split; [now left|exact Hab]|]. destruct (IH Hx) as (y & Hy & Qy). exists y. split; [now right|exact Qy]. Qed.
Lemma Forall2_In_r {A B} (Q : A -> B -> Prop) l l' y : Forall2 Q l l' -> In y l' -> exists x, In x l /\ Q x y.
Proof. intro F. induction F as [|a b l l' Hab F IH]; [intros []|]; intros [<-|Hx]; [exists a; split; [now left|exact Hab]|]. destruct (IH Hx) as (x & Hy & Qy). exists x. split; [now right|exact Qy]. Qed.

Section Base.
  Context (P : @Pinv RNum) (HO : HashOrd) (path : list nat) (dtol : R) (s : @structure RNum).
  Let L := lattice s.
  Let temp := @normalize_coords RNum s dtol.
  Hypothesis WF : List.length (species s) = List.length (frac_coords s).
  Context (N : Z) (H : list (vec Z)) (HN : (1 <= N)%Z) (ND : NoDup H) (HH : forall h, In h H -> inner_dir N h).
  (** the inner translations are exactly the h/N *)
  Definition inner_set : Prop :=
    (forall h x e, In h H -> In (x, e) (combine (frac_coords s) (species s)) -> exists y n, In (y, e) (combine (frac_coords s) (species s)) /\ Vadd x (fracN N h) = Vadd y (VofZ n)) /\
    (forall i j x y e, i <> j -> nth_error (frac_coords s) i = Some x -> nth_error (frac_coords s) j = Some y ->
      nth_error (species s) i = Some e -> nth_error (species s) j = Some e -> site_translation dtol s (Vsub x y) -> exists h n, In h H /\ Vsub x y = Vadd (fracN N h) (VofZ n)).
  Lemma normalize_frac (ft : vec R) h n : inner_dir N h -> (forall k, (k < 3)%nat -> 0 < vnth ft k < 1 / IZR N) ->
    @normalize_vec RNum (Vadd (fracN N h) (VofZ n)) ft = fracN N h.
  Proof using HN.
    intros (A & B & C & _) HT. clear WF. assert (PN : 1 <= IZR N) by (apply IZR_le; lia).
    assert (IN1 : 1 / IZR N <= 1) by (apply (Rmult_le_reg_r (IZR N)); [lra|]; unfold Rdiv; rewrite Rmult_assoc, Rinv_l by lra; lra).
    assert (G : forall (p m : Z) (t : R), (0 <= p < N)%Z -> 0 < t < 1 / IZR N -> @normalize1 RNum (IZR p / IZR N + IZR m) t = IZR p / IZR N).
    { intros p m t Hp Ht. apply normalize1_unique; [lra|exists m; cbn; ring|].
      assert (X : 0 <= IZR p / IZR N <= 1 - 1 / IZR N); [|lra]. assert (IP : IZR p <= IZR N - 1) by (rewrite <- minus_IZR; apply IZR_le; lia).
      assert (IP0 : 0 <= IZR p) by (apply IZR_le; lia). split; apply (Rmult_le_reg_r (IZR N)); try lra; unfold Rdiv.
      - rewrite Rmult_assoc, Rinv_l by lra. lra.
      - rewrite Rmult_assoc, Rinv_l by lra. replace ((1 - 1 * / IZR N) * IZR N) with (IZR N - 1) by (field; lra). lra. }
    apply (@vec_ext R); unfold normalize_vec, vmap2, Vadd, VofZ, fracN; cbn [vx vy vz]; apply G; try assumption.
    - exact (HT 0%nat ltac:(lia)).
    - exact (HT 1%nat ltac:(lia)).
    - exact (HT 2%nat ltac:(lia)).
  Qed.
  Hypothesis HT : forall k, (k < 3)%nat -> 0 < vnth (@frac_tols_of RNum L dtol) k < 1 / IZR N.
  Hypothesis HT1 : forall k, (k < 3)%nat -> 0 < vnth (@frac_tols_of RNum L dtol) k < 1 / 2.
  Hypothesis H0 : 0 <= dtol.
  Hypothesis OI : inner_set.
  Lemma frac_ok h : In h H -> @fp_is_translation RNum dtol temp (@frac_tols_of RNum L dtol) (fracN N h) = true.
  Proof using Type*.
    intro Hh. destruct OI as [HX _]. unfold fp_is_translation. apply forallb_forall. intros [x e] Hx.
    destruct (temp_site dtol s WF x e Hx) as (x0 & n & Hx0 & ->). destruct (HX h x0 e Hh Hx0) as (y & m & Hy & E).
    destruct (temp_index_all dtol s y e Hy) as (k & m' & K1 & K2). apply existsb_exists. exists (Vadd y (VofZ m'), e). cbn [fst snd].
    split; [apply (nth_error_In _ k); now apply combine_nth|]. rewrite String.eqb_refl. cbn [andb]. unfold same_site. apply fle_true.
    assert (E2 : @vsub RNum (@vadd RNum (Vadd x0 (VofZ n)) (fracN N h)) (Vadd y (VofZ m')) = VofZ (ZVadd (ZVadd m n) (zneg m'))).
    { unfold Vadd in E. injection E as Ex Ey Ez. unfold vsub, vadd, vmap2, Vadd, VofZ, ZVadd, zneg. cbn in *. rewrite !plus_IZR, !opp_IZR. apply (@vec_ext R); cbn; lra. }
    rewrite E2, (normalize_int s WF) by exact HT1. cbn [fabs RNum]. rewrite magnitude_R, abs_norm. change (@mvmul RNum (lattice temp) V0) with (Mapp (lattice temp) V0).
    rewrite Mapp_V0, Vnorm_V0. cbn. lra.
  Qed.
  Lemma tvecs_frac me bi bs : nth_error (frac_coords temp) bi = Some bs -> nth_error (species temp) bi = Some me ->
    exists H', Permutation H H' /\ tvecs dtol s me bi bs = [VofZ e1; VofZ e2; VofZ e3] ++ map (fracN N) H'.
  Proof using Type*.
    intros Hb Hm. unfold tvecs. fold temp L. unfold fp_candidates. rewrite filter_app.
    assert (HT' : forall k, (k < 3)%nat -> 0 <= vnth (@frac_tols_of RNum L dtol) k <= 1) by (intros k Hk; specialize (HT1 k Hk); lra).
    rewrite (filter_every _ (@unit_vecs RNum)).
    2:{ intros x Hx. cbn in Hx. destruct Hx as [<-|[<-|[<-|[]]]]; [exact (unit_ok dtol s WF e1 H0 HT')|exact (unit_ok dtol s WF e2 H0 HT')|exact (unit_ok dtol s WF e3 H0 HT')]. }
    rewrite filter_map_swap.
    set (cand := combine (seq 0 (List.length (frac_coords temp))) (combine (frac_coords temp) (species temp))).
    match goal with |- context [map _ (filter ?f (filter ?g cand))] => set (acc := filter f (filter g cand)) end.
    assert (MEM : forall i y e, In (i, (y, e)) acc -> i <> bi /\ e = me /\ nth_error (frac_coords temp) i = Some y /\ nth_error (species temp) i = Some me /\
      @fp_is_translation RNum dtol temp (@frac_tols_of RNum L dtol) (@normalize_vec RNum (@vsub RNum y bs) (@frac_tols_of RNum L dtol)) = true).
    { intros k y e Hk. apply filter_In in Hk. cbn [fst snd] in Hk. destruct Hk as [Hk A]. apply filter_In in Hk. cbn [fst snd] in Hk. destruct Hk as [Hk Q].
      apply andb_prop in Q. destruct Q as [Qe Qn]. apply String.eqb_eq in Qe. subst e. apply negb_true_iff, Nat.eqb_neq in Qn.
      apply In_nth_error in Hk. destruct Hk as (i & Hi). apply nth_combine in Hi. destruct Hi as [Hi1 Hi2]. apply (PPrim2.seq_nth s WF) in Hi1. cbn in Hi1. subst k.
      apply nth_combine in Hi2. destruct Hi2 as [Hy Hye]. auto. }
    set (Q := fun (c : nat * (vec R * string)) (h : vec Z) => In h H /\ exists n, @vsub RNum (fst (snd c)) bs = Vadd (fracN N h) (VofZ n)).
    assert (ACC : forall c, In c acc -> exists h, Q c h).
    { intros [j [x e]] Hc. destruct (MEM j x e Hc) as (Hj & -> & Hx & He & A). apply accepted in A; [|exact WF].
      destruct (normalize_vec_shift (@vsub RNum x bs) (@frac_tols_of RNum L dtol)) as (n & En).
      rewrite En in A. apply site_translation_shift in A.
      destruct (temp_index dtol s) as (f & If & Hf). destruct (Hf j x me Hx He) as (x0 & n0 & A1 & A2 & ->). destruct (Hf bi bs me Hb Hm) as (y0 & m0 & B1 & B2 & ->).
      destruct (proj2 OI (f j) (f bi) x0 y0 me) as (h & k & Hh & Ek); auto.
      - apply (site_translation_shift _ _ _ (ZVadd n0 (zneg m0))).
        replace (Vadd (Vsub x0 y0) (VofZ (ZVadd n0 (zneg m0)))) with (@vsub RNum (Vadd x0 (VofZ n0)) (Vadd y0 (VofZ m0))); [exact A|].
        unfold vsub, vmap2, Vadd, Vsub, VofZ, ZVadd, zneg. cbn. rewrite !plus_IZR, !opp_IZR. f_equal; ring.
      - exists h. split; [exact Hh|]. exists (ZVadd k (ZVadd n0 (zneg m0))). unfold Vsub, Vadd in Ek. injection Ek as Ex Ey Ez. unfold vsub, vmap2, Vadd, VofZ, ZVadd, zneg. cbn in *.
        rewrite !plus_IZR, !opp_IZR. apply (@vec_ext R); cbn; lra. }
    destruct (Forall_choice Q acc ACC) as (H' & F).
    assert (EM : map (fun c : nat * (vec R * string) => @normalize_vec RNum (@vsub RNum (fst (snd c)) bs) (@frac_tols_of RNum L dtol)) acc = map (fracN N) H').
    { clear ACC MEM. clearbody acc. induction F as [|c h l l' (Hh & n & En) F IH]; [reflexivity|]. cbn [map]. f_equal; [|exact IH]. numR. rewrite En. apply normalize_frac; [now apply HH|exact HT]. }
    exists H'. split.
    2:{ change [VofZ e1; VofZ e2; VofZ e3] with (@unit_vecs RNum). f_equal. exact EM. }
    apply NoDup_Permutation; [exact ND| |].
    - apply (NoDup_indices Q acc H' F).
      + apply NoDup_filter, NoDup_filter. unfold cand. apply combine_nodup. apply seq_NoDup.
      + intros [i [y ey]] [j [x ex]] h Hi Hj (_ & n' & EN') (_ & n & EN). cbn [fst snd] in EN, EN'.
        destruct (MEM i y ey Hi) as (_ & -> & Hy & Hye & _). destruct (MEM j x ex Hj) as (_ & -> & Hx & Hxe & _).
        destruct (Nat.eq_dec i j) as [->|Nij]; [rewrite Hx in Hy; injection Hy as ->; reflexivity|exfalso].
        destruct (temp_index dtol s) as (f & If & Hf). destruct (Hf i y me Hy Hye) as (y0 & ny & A1 & A2 & Ey). destruct (Hf j x me Hx Hxe) as (x0 & nx & B1 & B2 & Ex).
        destruct (proj2 OI (f i) (f j) y0 x0 me) as (h' & k & Hh' & Ek); auto.
        * intros w e' Hw. exists w, (ZVadd (ZVadd n (zneg n')) (ZVadd ny (zneg nx))). split; [exact Hw|].
          match goal with |- Vnorm (Mapp _ ?v) <= _ => replace v with V0 end; [rewrite Mapp_V0, Vnorm_V0; lra|].
          subst x y. unfold vsub, vmap2, Vadd, VofZ, fracN in EN, EN'. cbn in EN, EN'. injection EN as E1 E2 E3. injection EN' as F1 F2 F3.
          unfold Vadd, Vsub, VofZ, ZVadd, zneg, V0. cbn. rewrite !plus_IZR, !opp_IZR. apply (@vec_ext R); cbn; lra.
        * apply (fracN_not_int N h' (ZVadd (ZVadd n' (zneg n)) (ZVadd (ZVadd nx (zneg ny)) (zneg k))) (HH h' Hh')).
          subst x y. unfold vsub, vmap2, Vadd, VofZ, fracN in EN, EN'. cbn in EN, EN'. injection EN as E1 E2 E3. injection EN' as F1 F2 F3.
          unfold Vadd, Vsub, VofZ, fracN in Ek. cbn in Ek. injection Ek as G1 G2 G3.
          unfold VofZ, ZVadd, zneg, fracN. cbn. rewrite !plus_IZR, !opp_IZR. apply (@vec_ext R); cbn; lra.
    - intro h. split.
      2:{ intro Hh. destruct (Forall2_In_r Q acc H' h F Hh) as (c & _ & Hq). exact (proj1 Hq). }
      intro Hh. assert (PT : exists c, In c acc /\ exists n, @vsub RNum (fst (snd c)) bs = Vadd (fracN N h) (VofZ n)).
      { assert (Ib : In (bs, me) (combine (frac_coords temp) (species temp))) by (apply (nth_error_In _ bi); now apply combine_nth).
        destruct (temp_site dtol s WF bs me Ib) as (b0 & n & Hb0 & Ebs). destruct (proj1 OI h b0 me Hh Hb0) as (y & m & Hy & E).
        destruct (temp_index_all dtol s y me Hy) as (j & m' & K1 & K2). fold temp in K1, K2.
        assert (X : @vsub RNum (Vadd y (VofZ m')) bs = Vadd (fracN N h) (VofZ (ZVadd m' (ZVadd (zneg m) (zneg n))))).
        { rewrite Ebs. unfold Vadd in E. injection E as Ex Ey Ez. unfold vsub, vmap2, Vadd, VofZ, ZVadd, zneg. cbn in *. rewrite !plus_IZR, !opp_IZR. apply (@vec_ext R); cbn; lra. }
        assert (Hj : j <> bi).
        { intros ->. rewrite K1 in Hb. injection Hb as Eb. apply (fracN_not_int N h (zneg (ZVadd m' (ZVadd (zneg m) (zneg n)))) (HH h Hh)).
          rewrite <- Eb in X. unfold vsub, vmap2, Vadd, VofZ, fracN, zneg in X |- *. cbn in X |- *.
          injection X as Xx Xy Xz. rewrite !opp_IZR. apply (@vec_ext R); cbn; lra. }
        exists (j, (Vadd y (VofZ m'), me)). split; [|cbn [fst snd]; eauto]. apply filter_In. split; [apply filter_In; split|].
        - apply (nth_error_In _ j). unfold cand. apply combine_nth; [|now apply combine_nth].
          assert (Q' : (j < List.length (frac_coords temp))%nat) by (apply nth_error_Some; congruence).
          rewrite nth_error_nth' with (d := 0%nat) by (rewrite seq_length; exact Q'). now rewrite List.seq_nth by exact Q'.
        - cbn [fst snd]. rewrite String.eqb_refl. apply Nat.eqb_neq in Hj. now rewrite Hj.
        - cbn [fst snd]. rewrite X, normalize_frac by (auto || exact HT). now apply frac_ok. }
      destruct PT as (c & Hc & n & En). destruct (Forall2_In_l Q acc H' c F Hc) as (h' & Hh' & Ih' & n' & En').
      replace h with h'; [exact Hh'|]. apply (fracN_congr N h' h (ZVadd n (zneg n'))); [now apply HH|now apply HH|].
      assert (En2 := eq_trans (eq_sym En) En'). clear En En'. rename En2 into En'. unfold Vadd, VofZ in En'. injection En' as E1 E2 E3. unfold Vadd, VofZ, ZVadd, zneg. cbn in *. rewrite !plus_IZR, !opp_IZR. apply (@vec_ext R); cbn; lra.
  Qed.
End Base.

(** ** The whole function on such a cell *)
Definition scaleL (N : Z) (L : mat R) : mat R := M (m11 L / IZR N) (m12 L / IZR N) (m13 L / IZR N) (m21 L / IZR N) (m22 L / IZR N) (m23 L / IZR N) (m31 L / IZR N) (m32 L / IZR N) (m33 L / IZR N).
Definition timesN (N : Z) (k : vec Z) : vec Z := (V (N * vx k) (N * vy k) (N * vz k))%Z.
Lemma scaleL_times N L z : (1 <= N)%Z -> col (scaleL N L) (timesN N z) = col L z.
Proof. intro H. assert (0 < IZR N) by (apply IZR_lt; lia). unfold col, scaleL, timesN, Mapp, VofZ. cbn [vx vy vz m11 m12 m13 m21 m22 m23 m31 m32 m33]. rewrite !mult_IZR. apply (@vec_ext R); cbn; field; lra. Qed.
Lemma scaleL_frac N L z : (1 <= N)%Z -> col (scaleL N L) z = Mapp L (fracN N z).
Proof. intro H. assert (0 < IZR N) by (apply IZR_lt; lia). unfold col, scaleL, fracN, Mapp, VofZ. cbn. apply (@vec_ext R); cbn; field; lra. Qed.
Lemma scaleL_det N L : (1 <= N)%Z -> Mdet (scaleL N L) = Mdet L / (IZR N * IZR N * IZR N).
Proof. intro H. assert (0 < IZR N) by (apply IZR_lt; lia). unfold Mdet, scaleL. cbn. field. lra. Qed.
Definition cands (N : Z) (H : list (vec Z)) : list (vec Z) := [timesN N e1; timesN N e2; timesN N e3] ++ H.
Lemma norm_scal k v : Vnorm (Vscal k v) = Rabs k * Vnorm v.
Proof.
  unfold Vnorm. replace (Vdot (Vscal k v) (Vscal k v)) with (Rsqr k * Vdot v v) by (unfold Vdot, Vscal, Rsqr; cbn; ring).
  rewrite sqrt_mult_alt by apply Rle_0_sqr. now rewrite sqrt_Rsqr_abs.
Qed.
Lemma norm_fracN N L h : inner_dir N h -> Vnorm (Mapp L (fracN N h)) <= Vnorm (Ccol L 0) + Vnorm (Ccol L 1) + Vnorm (Ccol L 2).
Proof.
  intros (A & B & C & _). assert (PN : 0 < IZR N) by (apply IZR_lt; lia).
  assert (E : Mapp L (fracN N h) = Vadd (Vadd (Vscal (IZR (vx h) / IZR N) (Ccol L 0)) (Vscal (IZR (vy h) / IZR N) (Ccol L 1))) (Vscal (IZR (vz h) / IZR N) (Ccol L 2))).
  { unfold Mapp, fracN, Vadd, Vscal, Ccol. cbn. apply (@vec_ext R); cbn; ring. }
  assert (Q : forall (x : Z) v, (0 <= x < N)%Z -> Vnorm (Vscal (IZR x / IZR N) v) <= Vnorm v).
  { intros x v Hx. rewrite norm_scal. pose proof (Vnorm_nonneg v). assert (I0 : 0 <= IZR x) by (apply IZR_le; lia). assert (I1 : IZR x <= IZR N) by (apply IZR_le; lia).
    assert (X : 0 <= IZR x / IZR N <= 1).
    { split; apply (Rmult_le_reg_r (IZR N)); try lra; unfold Rdiv; rewrite Rmult_assoc, Rinv_l by lra; lra. }
    rewrite Rabs_pos_eq by lra. rewrite <- (Rmult_1_l (Vnorm v)) at 2. apply Rmult_le_compat_r; lra. }
  rewrite E. eapply Rle_trans; [apply norm_triangle|]. pose proof (norm_triangle (Vscal (IZR (vx h) / IZR N) (Ccol L 0)) (Vscal (IZR (vy h) / IZR N) (Ccol L 1))).
  pose proof (Q (vx h) (Ccol L 0) A). pose proof (Q (vy h) (Ccol L 1) B). pose proof (Q (vz h) (Ccol L 2) C). lra.
Qed.

Section Whole.
  Context (P : @Pinv RNum) (HO : HashOrd) (path : list nat) (dtol : R) (s : @structure RNum) (N : Z) (H : list (vec Z)) (sg : Z).
  Let L := lattice s.
  Let N3 := IZR N * IZR N * IZR N.
  Hypothesis WF : List.length (species s) = List.length (frac_coords s).
  Hypothesis HNE : species s <> [].
  Hypothesis HM : (Z.of_nat (List.length (species s)) <= 65535)%Z.
  Hypothesis H0 : 0 < dtol.
  Hypothesis HN : (1 <= N)%Z.
  Hypothesis HC : forall k, (k < 3)%nat -> IZR N * dtol < Vnorm (Ccol L k) /\ 2 * dtol < Vnorm (Ccol L k).
  Hypothesis HW : N3 * dtol * (Vnorm (Ccol L 0) + Vnorm (Ccol L 1) + Vnorm (Ccol L 2)) < Rabs (Mdet L).
  Hypothesis HD : N3 * dtol < Rabs (Mdet L).
  Hypothesis HP : inverse_of L (@pinv RNum P L).
  Hypothesis ND : NoDup H.
  Hypothesis HH : forall h, In h H -> inner_dir N h.
  Hypothesis OI : inner_set dtol s N H.
  Hypothesis HS : (sg = 1 \/ sg = -1)%Z /\ Mdet L = Rabs (Mdet L) * IZR sg.
  Let PN : 1 <= IZR N. Proof using HN. apply IZR_le. lia. Qed.
  Let PN3 : 1 <= N3. Proof using HN. unfold N3. pose proof PN. nra. Qed.
  Lemma frac_tol k : (k < 3)%nat -> 0 < vnth (@frac_tols_of RNum L dtol) k < 1 / IZR N /\ vnth (@frac_tols_of RNum L dtol) k < 1 / 2.
  Proof using Type*.
    intro Hk. assert (E : vnth (@frac_tols_of RNum L dtol) k = dtol / Vnorm (Ccol L k)).
    { destruct k as [|[|[|k]]]; [..|lia]; unfold frac_tols_of; cbn [vnth vx vy vz]; rewrite magnitude_R; reflexivity. }
    rewrite E. destruct (HC k Hk) as [A B]. pose proof PN. assert (A1 : 0 < Vnorm (Ccol L k)) by lra. split; [split|].
    - apply Rdiv_lt_0_compat; assumption.
    - apply (Rmult_lt_reg_r (Vnorm (Ccol L k) * IZR N)); [nra|]. replace (dtol / Vnorm (Ccol L k) * (Vnorm (Ccol L k) * IZR N)) with (IZR N * dtol) by (field; lra).
      replace (1 / IZR N * (Vnorm (Ccol L k) * IZR N)) with (Vnorm (Ccol L k)) by (field; lra). exact A.
    - apply (Rmult_lt_reg_r (Vnorm (Ccol L k))); [exact A1|]. unfold Rdiv at 1. rewrite Rmult_assoc, Rinv_l by lra. lra.
  Qed.
  Let Ln := scaleL N L.
  Lemma scale_det : Rabs (Mdet Ln) = Rabs (Mdet L) / N3.
  Proof using Type*. unfold Ln. rewrite scaleL_det by exact HN. unfold Rdiv. fold N3. rewrite Rabs_mult. f_equal. pose proof PN3. apply Rabs_pos_eq. left. apply Rinv_0_lt_compat. lra. Qed.
  Lemma cand_norm z : In z (cands N H) -> dtol * Vnorm (col Ln z) < Rabs (Mdet Ln).
  Proof using Type*.
    intro Hz. rewrite scale_det. pose proof PN3.
    assert (X : Vnorm (col Ln z) <= Vnorm (Ccol L 0) + Vnorm (Ccol L 1) + Vnorm (Ccol L 2)).
    { pose proof (Vnorm_nonneg (Ccol L 0)). pose proof (Vnorm_nonneg (Ccol L 1)). pose proof (Vnorm_nonneg (Ccol L 2)).
      assert (AX : forall e, In e [e1; e2; e3] -> Vnorm (col Ln (timesN N e)) <= Vnorm (Ccol L 0) + Vnorm (Ccol L 1) + Vnorm (Ccol L 2)).
      { intros e He. unfold Ln. rewrite scaleL_times by exact HN. destruct (col_Ccol L e He) as (i & Hi & ->). destruct i as [|[|[|i]]]; [lra|lra|lra|lia]. }
      apply in_app_or in Hz. destruct Hz as [Hz|Hz].
      - destruct Hz as [<-|[<-|[<-|[]]]]; apply AX; cbn; tauto.
      - unfold Ln. rewrite scaleL_frac by exact HN. apply norm_fracN. now apply HH. }
    apply (Rmult_lt_reg_r N3); [lra|]. replace (Rabs (Mdet L) / N3 * N3) with (Rabs (Mdet L)) by (field; lra). apply (Rmult_le_compat_l (N3 * dtol)) in X; [lra|nra].
  Qed.
  Lemma unit_norm k : In k [e1; e2; e3] -> dtol * Vnorm (col Ln k) < Rabs (Mdet Ln).
  Proof using Type*.
    intro Hk. eapply Rle_lt_trans; [|apply (cand_norm (timesN N k)); apply in_or_app; left; cbn in Hk |- *; destruct Hk as [<-|[<-|[<-|[]]]]; tauto].
    apply Rmult_le_compat_l; [lra|]. replace (col Ln (timesN N k)) with (Vscal (IZR N) (col Ln k)).
    - rewrite norm_scal, Rabs_pos_eq by (pose proof PN; lra). pose proof (Vnorm_nonneg (col Ln k)). pose proof PN. nra.
    - unfold col, timesN, Vscal, Mapp, VofZ. cbn [vx vy vz]. rewrite !mult_IZR. apply (@vec_ext R); cbn [vx vy vz]; ring.
  Qed.
  Lemma zsel_in l a b c : zsel sg l = Some (a, b, c) -> In a l /\ In b l /\ In c l.
  Proof using.
    intro E. unfold zsel in E. destruct l as [|a0 t]; [discriminate|]. destruct (nth_error (a0 :: t) _) as [b0|] eqn:Eb; [|discriminate]. destruct (zcrossb a0 b0); [|discriminate].
    destruct (nth_error (a0 :: t) _) as [c0|] eqn:Ec in E; [|discriminate]. injection E as <- <- <-. apply nth_error_In in Eb, Ec. split; [now left|auto].
  Qed.
  Lemma prim_multi : exists lz, Permutation (cands N H) lz /\ StronglySorted (fun a b => nrm Ln a <= nrm Ln b) lz /\
    forall a b c, zsel sg lz = Some (a, b, c) -> zdet a b c <> 0%Z ->
      exists z1 z2 z3, let B := Mmul Ln (MofZ (zcols a b c)) in let L' := Mmul Ln (MofZ (ZMmul (zcols a b c) (zcols z1 z2 z3))) in
        @find_primitive_cell RNum P HO path dtol s =
          Ok (@normalize_coords RNum (Structure (N := RNum) L' (snd (folded P dtol s L')) (map (Mapp L') (fst (folded P dtol s L'))) (fst (folded P dtol s L'))) dtol) /\
        In z1 dirs26 /\ In z2 dirs26 /\ In z3 dirs26 /\ (Z.abs (zdet z1 z2 z3) = 1)%Z /\ 0 < Mdet L' /\ shortest3 B z1 z2 z3.
  Proof using Type*.
    destruct (prim_base P HO path dtol s WF HNE HM) as (me & j & bs & Hb & Hm & ->).
    destruct (tvecs_frac dtol s WF N H HN ND HH) with (me := me) (bi := j) (bs := bs) as (H' & PH & ET); auto.
    { intros k Hk. now apply frac_tol. } { intros k Hk. destruct (frac_tol k Hk). split; [tauto|assumption]. } { lra. }
    rewrite ET.
    assert (HS' : (sg = 1 \/ sg = -1)%Z /\ Mdet Ln = Rabs (Mdet Ln) * IZR sg).
    { split; [apply HS|]. rewrite scale_det. unfold Ln. rewrite scaleL_det by exact HN. rewrite (proj2 HS) at 1. fold N3. pose proof PN3. field. lra. }
    assert (HDh : dtol < Rabs (Mdet Ln)).
    { rewrite scale_det. pose proof PN3. apply (Rmult_lt_reg_r N3); [lra|]. replace (Rabs (Mdet L) / N3 * N3) with (Rabs (Mdet L)) by (field; lra). lra. }
    destruct (sel_short Ln dtol sg ltac:(lra) HDh unit_norm HS' (cands N H')) as (lz & Pm & SS & SEL). exists lz.
    assert (Pm' : Permutation (cands N H) lz) by (eapply Permutation_trans; [apply Permutation_app_head, PH|exact Pm]).
    split; [exact Pm'|]. split; [exact SS|].
    intros a b c E Hdet. specialize (SEL a b c E). unfold prim_tail. fold L.
    replace (map (Mapp L) ([VofZ e1; VofZ e2; VofZ e3] ++ map (fracN N) H')) with (map (col Ln) (cands N H')).
    2:{ unfold cands. rewrite !map_app. f_equal; [cbn [map]; unfold Ln; rewrite !scaleL_times by exact HN; reflexivity|]. rewrite map_map. apply map_ext. intro z. unfold Ln. now apply scaleL_frac. }
    rewrite SEL. cbn [bind]. unfold Ln. rewrite !scaleL_frac, !(inv_app (@pinv RNum P L) L) by (exact HN || (split; apply HP)). fold Ln.
    set (W := from_columns (fracN N a) (fracN N b) (fracN N c)). set (B := Mmul L W).
    assert (EB : B = Mmul Ln (MofZ (zcols a b c))).
    { pose proof PN. unfold B, W, Ln, Mmul, scaleL, fracN, from_columns, MofZ, zcols. cbn. apply (@mat_ext R); cbn; field; lra. }
    set (cv := map (Mapp L) (@combination_vecs RNum W)).
    assert (Hcv : forall v, In v cv <-> exists z, In z dirs26 /\ v = col B z).
    { intro v. unfold cv. rewrite in_map_iff. split.
      - intros (w & <- & Hw). apply combos_in in Hw. destruct Hw as (z & Hz & ->). exists z. split; [exact Hz|]. unfold col, B. now rewrite Mapp_Mmul.
      - intros (z & Hz & ->). exists (Mapp W (VofZ z)). split; [unfold col, B; now rewrite Mapp_Mmul|]. apply combos_in. now exists z. }
    destruct (shortest_total dtol cv) as ([[u1 u2] u3] & E2); [unfold cv; rewrite map_length; apply combos_len|].
    change (rshort dtol (map (Mapp L) (@combination_vecs RNum W))) with (rshort dtol cv). rewrite E2. cbn [bind].
    assert (DB : Rabs (Mdet Ln) <= Rabs (Mdet B)).
    { rewrite EB, Mdet_mul, MofZ_det, Rabs_mult, <- abs_IZR. fold (zdet a b c). assert (Z4 : 1 <= IZR (Z.abs (zdet a b c))) by (apply IZR_le; lia).
      pose proof (Rabs_pos (Mdet Ln)). rewrite <- (Rmult_1_r (Rabs (Mdet Ln))) at 1. apply Rmult_le_compat_l; [assumption|exact Z4]. }
    assert (HB : forall k, In k [e1; e2; e3] -> dtol * Vnorm (col B k) < Rabs (Mdet B)).
    { intros k Hk. eapply Rlt_le_trans; [|exact DB].
      assert (X : exists z, In z (cands N H) /\ col B k = col Ln z).
      { assert (I : forall z, In z lz -> In z (cands N H)) by (intros z Hz; exact (Permutation_in _ (Permutation_sym Pm') Hz)).
        destruct (zsel_in _ _ _ _ E) as (Ia & Ib & Ic). cbn in Hk. destruct Hk as [<-|[<-|[<-|[]]]]; [exists a|exists b|exists c]; (split; [now apply I|]);
          rewrite EB; unfold col; rewrite Mapp_Mmul, <- MofZ_app; do 2 f_equal; unfold ZMapp, zcols, e1, e2, e3; cbn [m11 m12 m13 m21 m22 m23 m31 m32 m33 vx vy vz];
          apply vec_ext; cbn [vx vy vz]; ring. }
      destruct X as (z & Hz & ->). now apply cand_norm. }
    destruct (choose26 B dtol ltac:(lra) ltac:(lra) HB cv u1 u2 u3 Hcv E2) as (z1 & z2 & z3 & Z1 & Z2 & Z3 & -> & -> & -> & DZ & DP & S3).
    exists z1, z2, z3. cbv zeta. rewrite <- EB.
    assert (EL : from_columns (col B z1) (col B z2) (col B z3) = Mmul Ln (MofZ (ZMmul (zcols a b c) (zcols z1 z2 z3)))).
    { unfold col. rewrite cols_app, EB, Mmul_assoc, MofZ_mul. reflexivity. }
    rewrite EL in DP |- *. split; [reflexivity|]. do 4 (split; [assumption|]). split; [lra|exact S3].
  Qed.
End Whole.
