(** find_primitive_cell on centred and doubled cells (reduce.rs 26-205): which ones are reduced. *)
From Coq Require Import ZArith Reals String List Bool Lia Lra Psatz Permutation Sorting.Sorted.
From Verif Require Import Num Mat Utils Structure RInst Spec Spec4 RFacts PUtils PSymmOp PStructure PStructure2 PStructure3 PStructure4 PFormula PCoset PNiggli PDelaunay PPrim PPrim2 PLattice PSearch PPrim3 Reduce.
Import ListNotations.
Open Scope R_scope.

(** ** All orders of four vectors *)
Fixpoint ins_all {A} (x : A) (l : list A) : list (list A) := match l with [] => [[x]] | y :: t => (x :: l) :: map (cons y) (ins_all x t) end.
Fixpoint perms {A} (l : list A) : list (list A) := match l with [] => [[]] | x :: t => flat_map (ins_all x) (perms t) end.
Lemma ins_all_in {A} (x : A) l m : In (l ++ x :: m) (ins_all x (l ++ m)).
Proof. induction l as [|a l IH]; [destruct m; cbn; now left|]. cbn. right. now apply in_map. Qed.
Lemma perms_in {A} (l l' : list A) : Permutation l l' -> In l' (perms l).
Proof.
  revert l'. induction l as [|x l IH]; intros l' H; [apply Permutation_nil in H; subst; now left|].
  assert (I : In x l') by (apply (Permutation_in _ H); now left). apply in_split in I. destruct I as (l1 & l2 & ->).
  cbn [perms]. apply in_flat_map. exists (l1 ++ l2). split; [apply IH; now apply (Permutation_cons_app_inv _ _ (a := x))|apply ins_all_in].
Qed.
Definition zveqb (a b : vec Z) : bool := ((vx a =? vx b) && (vy a =? vy b) && (vz a =? vz b))%Z.
Lemma zveqb_eq a b : zveqb a b = true <-> a = b.
Proof.
  unfold zveqb. destruct a as [x y z], b as [x' y' z']. cbn [vx vy vz]. rewrite !andb_true_iff, !Z.eqb_eq. split; [intros [[-> ->] ->]; reflexivity|intro E; injection E; auto].
Qed.
Fixpoint before (x y : vec Z) (l : list (vec Z)) : bool :=
  match l with [] => false | a :: t => if zveqb a x then existsb (zveqb y) t else before x y t end.
Lemma before_sorted B x y l : StronglySorted (fun a b => nrm B a <= nrm B b) l -> In x l -> In y l -> nrm B x < nrm B y -> before x y l = true.
Proof.
  induction 1 as [|a l S IH F]; intros Hx Hy H; [destruct Hx|]. cbn [before]. destruct (zveqb a x) eqn:E.
  - apply zveqb_eq in E. subst a. destruct Hy as [<-|Hy]; [lra|]. apply existsb_exists. exists y. split; [exact Hy|now apply zveqb_eq].
  - destruct Hx as [->|Hx]; [rewrite (proj2 (zveqb_eq x x) eq_refl) in E; discriminate|]. destruct Hy as [->|Hy]; [|now apply IH].
    rewrite Forall_forall in F. specialize (F x Hx). lra.
Qed.

(** ** What the selection gives, for every order *)
Definition zsolve (K : mat Z) (d : vec Z) : vec Z :=
  let D := ZMdet K in
  let w := ZVcross (V (m12 K) (m22 K) (m32 K)) (V (m13 K) (m23 K) (m33 K)) in
  let u := ZVcross (V (m13 K) (m23 K) (m33 K)) (V (m11 K) (m21 K) (m31 K)) in
  let v := ZVcross (V (m11 K) (m21 K) (m31 K)) (V (m12 K) (m22 K) (m32 K)) in
  let dot a b := (vx a * vx b + vy a * vy b + vz a * vz b)%Z in
  V (dot w d / D)%Z (dot u d / D)%Z (dot v d / D)%Z.
Definition spans (h : vec Z) (K : mat Z) : bool := forallb (fun d => zveqb (ZMapp K (zsolve K d)) d) (four h).
Definition found (sg : Z) (h : vec Z) (l : list (vec Z)) : bool :=
  match zsel sg l with Some (a, b, c) => ((Z.abs (zdet a b c) =? 4)%Z && spans h (zcols a b c) && forallb (fun z => existsb (zveqb z) (four h)) [a; b; c])%bool | None => false end.
Definition missed (sg : Z) (h : vec Z) (l : list (vec Z)) : bool :=
  match zsel sg l with Some (a, b, c) => ((Z.abs (zdet a b c) =? 8)%Z && forallb (fun z => existsb (zveqb z) [dbl e1; dbl e2; dbl e3]) [a; b; c] &&
     forallb (fun d => zveqb (ZMapp (zcols a b c) (zsolve (zcols a b c) d)) d) [dbl e1; dbl e2; dbl e3])%bool | None => false end.
Definition flat (sg : Z) (h : vec Z) (l : list (vec Z)) : bool :=
  match zsel sg l with Some (a, b, c) => (zdet a b c =? 0)%Z | None => false end.

Lemma half_sum (A : mat R) (h p : vec Z) (k : Z) :
  Mapp (halfL A) (VofZ (ZVadd (dbl p) (V (k * vx h) (k * vy h) (k * vz h))%Z)) = Mapp A (Vadd (VofZ p) (Vscal (IZR k) (halfv h))).
Proof.
  unfold dbl, Mapp, halfL, VofZ, ZVadd, Vadd, Vscal, halfv. cbn [vx vy vz m11 m12 m13 m21 m22 m23 m31 m32 m33].
  repeat first [rewrite plus_IZR|rewrite mult_IZR]. apply (@vec_ext R); cbn [vx vy vz]; field.
Qed.
Section Outcome.
  Context (P : @Pinv RNum) (HO : HashOrd) (path : list nat) (dtol : R) (s : @structure RNum) (h : vec Z) (sg : Z).
  Let L := lattice s.
  Hypothesis WF : List.length (species s) = List.length (frac_coords s).
  Hypothesis HN : species s <> [].
  Hypothesis HM : (Z.of_nat (List.length (species s)) <= 65535)%Z.
  Hypothesis H0 : 0 < dtol.
  Hypothesis HC : forall k, (k < 3)%nat -> 2 * dtol < Vnorm (Ccol L k) /\ 4 * dtol * Vnorm (Ccol L k) < Rabs (Mdet L).
  Hypothesis HD : 8 * dtol < Rabs (Mdet L).
  Hypothesis HP : inverse_of L (@pinv RNum P L).
  Hypothesis HH : half_dir h.
  Hypothesis OI : one_inner dtol s h.
  Hypothesis HS : (sg = 1 \/ sg = -1)%Z /\ Mdet L = Rabs (Mdet L) * IZR sg.
  Let len (z : vec Z) : R := Vnorm (col (halfL L) z).

  (** [cond] is a list of pairs (shorter, longer) *)
  Lemma outcome (cond : list (vec Z) -> bool) (test : list (vec Z) -> bool) :
    forallb (fun l => implb (cond l) (test l)) (perms (four h)) = true ->
    (forall l, Permutation (four h) l -> StronglySorted (fun a b => nrm (halfL L) a <= nrm (halfL L) b) l -> cond l = true) ->
    (forall l a b c, test l = true -> zsel sg l = Some (a, b, c) -> (zdet a b c = 0 \/ 4 <= Z.abs (zdet a b c))%Z) ->
    (forall l, test l = true -> zsel sg l <> None) ->
    exists l a b c s' T, test l = true /\ zsel sg l = Some (a, b, c) /\ @find_primitive_cell RNum P HO path dtol s = Ok s' /\
      lattice s' = Mmul (halfL L) (MofZ (ZMmul (zcols a b c) T)) /\ (zdet a b c <> 0%Z -> Z.abs (ZMdet T) = 1%Z /\ 0 < Mdet (lattice s')).
  Proof using Type*.
    intros Hall Hcond Hdet Hsome. destruct (prim_half P HO path dtol s h sg WF HN HM H0 HC HD HP HH OI HS) as (l & Pm & SS & X).
    rewrite forallb_forall in Hall. specialize (Hall l (perms_in _ _ Pm)). rewrite (Hcond l Pm SS) in Hall. cbn [implb] in Hall.
    destruct (zsel sg l) as [[[a b] c]|] eqn:E; [|exfalso; now apply (Hsome l Hall)].
    destruct (X a b c eq_refl (Hdet l a b c Hall E)) as (s' & T & F & EL & Y). exists l, a, b, c, s', T. auto 10.
  Qed.
  Lemma cond_before x y l : In x (four h) -> In y (four h) -> len x < len y -> Permutation (four h) l ->
    StronglySorted (fun a b => nrm (halfL L) a <= nrm (halfL L) b) l -> before x y l = true.
  Proof using Type.
    intros Hx Hy Hl Pm SS. apply (before_sorted (halfL L)); auto; try (apply (Permutation_in _ Pm); assumption).
    destruct (Rlt_or_le (nrm (halfL L) x) (nrm (halfL L) y)) as [|C]; [assumption|]. apply nrm_le in C. unfold len in Hl. lra.
  Qed.
  (** the lattice of the crystal *)
  Definition crystal_lattice (v : vec R) : Prop := exists (n : vec Z) (k : Z), v = Mapp L (Vadd (VofZ n) (Vscal (IZR k) (halfv h))).
  Lemma found_case (cond : list (vec Z) -> bool) :
    forallb (fun l => implb (cond l) (found sg h l)) (perms (four h)) = true ->
    (forall l, Permutation (four h) l -> StronglySorted (fun a b => nrm (halfL L) a <= nrm (halfL L) b) l -> cond l = true) ->
    exists s', @find_primitive_cell RNum P HO path dtol s = Ok s' /\ Mdet (lattice s') = Rabs (Mdet L) / 2 /\
      (forall v, in_lattice (lattice s') v <-> crystal_lattice v).
  Proof using Type*.
    intros Hall Hcond. destruct (outcome cond (found sg h)) as (l & a & b & c & s' & T & Ht & Ez & F & EL & Y); auto.
    - intros l a b c Ht E. unfold found in Ht. rewrite E in Ht. apply andb_prop in Ht. destruct Ht as [Ht _]. apply andb_prop in Ht. destruct Ht as [Ht _]. apply Z.eqb_eq in Ht. right. lia.
    - intros l Ht E. unfold found in Ht. rewrite E in Ht. discriminate.
    - unfold found in Ht. rewrite Ez in Ht. apply andb_prop in Ht. destruct Ht as [Ht In4]. apply andb_prop in Ht. destruct Ht as [D4 SP]. apply Z.eqb_eq in D4.
      destruct Y as [DT DP]; [lia|]. exists s'. split; [exact F|]. split.
      + assert (Q : Rabs (Mdet (lattice s')) = Rabs (Mdet L) / 2).
        { rewrite EL, Mdet_mul, MofZ_det, halfL_det, ZMdet_mul. fold (zdet a b c). unfold Rdiv. rewrite !Rabs_mult, <- abs_IZR, Z.abs_mul, D4, DT.
          rewrite (Rabs_pos_eq (/ 8)) by lra. cbn. field. }
        rewrite Rabs_pos_eq in Q by lra. exact Q.
      + set (K := zcols a b c) in *.
        assert (TI : exists Ti, ZMmul T Ti = ZMid) by (apply unimodular_inverse; lia). destruct TI as (Ti & HTi).
        intro v. split.
        * intros (n & ->). rewrite EL, Mapp_Mmul, <- MofZ_app, ZMapp_mul. set (m := ZMapp T n). clearbody m.
          assert (G : exists (p : vec Z) (k : Z), ZMapp K m = ZVadd (dbl p) (V (k * vx h) (k * vy h) (k * vz h))%Z).
          { assert (G1 : forall z x, In z [a; b; c] -> exists (p : vec Z) (k : Z), V (x * vx z)%Z (x * vy z)%Z (x * vz z)%Z = ZVadd (dbl p) (V (k * vx h) (k * vy h) (k * vz h))%Z).
            { intros z x Hz. rewrite forallb_forall in In4. specialize (In4 z Hz). apply existsb_exists in In4. destruct In4 as (z' & Hz' & E). apply zveqb_eq in E. subst z'.
              destruct Hz' as [<-|[<-|[<-|[<-|[]]]]];
                [exists (V x 0 0)%Z, 0%Z|exists (V 0 x 0)%Z, 0%Z|exists (V 0 0 x)%Z, 0%Z|exists (V 0 0 0)%Z, x]; unfold dbl, ZVadd, e1, e2, e3; cbn [vx vy vz]; apply vec_ext; cbn [vx vy vz]; ring. }
            destruct (G1 a (vx m)) as (pa & ka & Ea); [cbn; tauto|]. destruct (G1 b (vy m)) as (pb & kb & Eb); [cbn; tauto|]. destruct (G1 c (vz m)) as (pc & kc & Ec); [cbn; tauto|].
            exists (ZVadd pa (ZVadd pb pc)), (ka + kb + kc)%Z. unfold K, ZMapp, zcols, dbl, ZVadd in *. cbn [m11 m12 m13 m21 m22 m23 m31 m32 m33 vx vy vz] in *.
            injection Ea as A1 A2 A3. injection Eb as B1 B2 B3. injection Ec as C1 C2 C3. apply vec_ext; cbn [vx vy vz]; lia. }
          destruct G as (p & k & ->). exists p, k. apply half_sum.
        * intros (n & k & ->). clearbody K.
          assert (S4 : forall d, In d (four h) -> exists z, ZMapp K z = d).
          { intros d Hd. unfold spans in SP. rewrite forallb_forall in SP. specialize (SP d Hd). apply zveqb_eq in SP. eauto. }
          destruct (S4 (dbl e1)) as (z1 & Z1); [cbn; tauto|]. destruct (S4 (dbl e2)) as (z2 & Z2); [cbn; tauto|]. destruct (S4 (dbl e3)) as (z3 & Z3); [cbn; tauto|].
          destruct (S4 h) as (z4 & Z4); [cbn; tauto|].
          set (w := V (vx n * vx z1 + vy n * vx z2 + vz n * vx z3 + k * vx z4)%Z (vx n * vy z1 + vy n * vy z2 + vz n * vy z3 + k * vy z4)%Z (vx n * vz z1 + vy n * vz z2 + vz n * vz z3 + k * vz z4)%Z).
          assert (EW : ZMapp K w = ZVadd (dbl n) (V (k * vx h) (k * vy h) (k * vz h))%Z).
          { unfold w, ZMapp, dbl, ZVadd, e1, e2, e3 in *. cbn [vx vy vz] in *. injection Z1 as A1 A2 A3. injection Z2 as B1 B2 B3. injection Z3 as C1 C2 C3.
            assert (D1 : vx h = (m11 K * vx z4 + m12 K * vy z4 + m13 K * vz z4)%Z) by (rewrite <- Z4; reflexivity).
            assert (D2 : vy h = (m21 K * vx z4 + m22 K * vy z4 + m23 K * vz z4)%Z) by (rewrite <- Z4; reflexivity).
            assert (D3 : vz h = (m31 K * vx z4 + m32 K * vy z4 + m33 K * vz z4)%Z) by (rewrite <- Z4; reflexivity).
            clear Z4. apply vec_ext; cbn [vx vy vz].
            - transitivity (vx n * (m11 K * vx z1 + m12 K * vy z1 + m13 K * vz z1) + vy n * (m11 K * vx z2 + m12 K * vy z2 + m13 K * vz z2) + vz n * (m11 K * vx z3 + m12 K * vy z3 + m13 K * vz z3) + k * (m11 K * vx z4 + m12 K * vy z4 + m13 K * vz z4))%Z; [ring|rewrite A1, B1, C1, D1; ring].
            - transitivity (vx n * (m21 K * vx z1 + m22 K * vy z1 + m23 K * vz z1) + vy n * (m21 K * vx z2 + m22 K * vy z2 + m23 K * vz z2) + vz n * (m21 K * vx z3 + m22 K * vy z3 + m23 K * vz z3) + k * (m21 K * vx z4 + m22 K * vy z4 + m23 K * vz z4))%Z; [ring|rewrite A2, B2, C2, D2; ring].
            - transitivity (vx n * (m31 K * vx z1 + m32 K * vy z1 + m33 K * vz z1) + vy n * (m31 K * vx z2 + m32 K * vy z2 + m33 K * vz z2) + vz n * (m31 K * vx z3 + m32 K * vy z3 + m33 K * vz z3) + k * (m31 K * vx z4 + m32 K * vy z4 + m33 K * vz z4))%Z; [ring|rewrite A3, B3, C3, D3; ring]. }
          exists (ZMapp Ti w). rewrite EL, Mapp_Mmul, <- MofZ_app. replace (ZMapp (ZMmul K T) (ZMapp Ti w)) with (ZMapp K w).
          { rewrite EW. symmetry. apply half_sum. }
          rewrite ZMapp_mul. f_equal. rewrite <- ZMapp_mul, HTi. destruct w as [x y z]. unfold ZMapp, ZMid. cbn [m11 m12 m13 m21 m22 m23 m31 m32 m33 vx vy vz]. f_equal; ring.
  Qed.
  Lemma missed_case (cond : list (vec Z) -> bool) :
    forallb (fun l => implb (cond l) (missed sg h l)) (perms (four h)) = true ->
    (forall l, Permutation (four h) l -> StronglySorted (fun a b => nrm (halfL L) a <= nrm (halfL L) b) l -> cond l = true) ->
    exists s', @find_primitive_cell RNum P HO path dtol s = Ok s' /\ Mdet (lattice s') = Rabs (Mdet L) /\ same_lattice L (lattice s').
  Proof using Type*.
    intros Hall Hcond. destruct (outcome cond (missed sg h)) as (l & a & b & c & s' & T & Ht & Ez & F & EL & Y); auto.
    - intros l a b c Ht E. unfold missed in Ht. rewrite E in Ht. apply andb_prop in Ht. destruct Ht as [Ht _]. apply andb_prop in Ht. destruct Ht as [Ht _]. apply Z.eqb_eq in Ht. right. lia.
    - intros l Ht E. unfold missed in Ht. rewrite E in Ht. discriminate.
    - unfold missed in Ht. rewrite Ez in Ht. apply andb_prop in Ht. destruct Ht as [Ht SP]. apply andb_prop in Ht. destruct Ht as [D8 In3]. apply Z.eqb_eq in D8.
      destruct Y as [DT DP]; [lia|]. exists s'. split; [exact F|].
      assert (HK : exists K, zcols a b c = ZMmul (M 2 0 0 0 2 0 0 0 2)%Z K /\ (Z.abs (ZMdet K) = 1)%Z).
      { rewrite forallb_forall in In3. assert (I : forall z, In z [a; b; c] -> z = dbl e1 \/ z = dbl e2 \/ z = dbl e3).
        { intros z Hz. specialize (In3 z Hz). apply existsb_exists in In3. destruct In3 as (z' & Hz' & E). apply zveqb_eq in E. subst z'. cbn in Hz'. intuition congruence. }
        clear - I D8. destruct (I a) as [-> | [-> | ->]]; [cbn; tauto|..]; (destruct (I b) as [-> | [-> | ->]]; [cbn; tauto|..]); (destruct (I c) as [-> | [-> | ->]]; [cbn; tauto|..]);
          try (exfalso; revert D8; vm_compute; discriminate); match goal with |- exists K, zcols (dbl ?x) (dbl ?y) (dbl ?z) = _ /\ _ => exists (zcols x y z) end; split; vm_compute; reflexivity. }
      destruct HK as (K & EK & DK). set (U := ZMmul K T).
      assert (EU : lattice s' = Mmul L (MofZ U)).
      { rewrite EL, EK. unfold U. rewrite !MofZ_mul, <- !Mmul_assoc. f_equal. f_equal. unfold Mmul, halfL, MofZ. cbn. apply (@mat_ext R); cbn; field. }
      assert (DU : (ZMdet U = 1 \/ ZMdet U = -1)%Z) by (unfold U; rewrite ZMdet_mul; nia).
      split.
      + assert (Q : Rabs (Mdet (lattice s')) = Rabs (Mdet L)).
        { rewrite EU, Mdet_mul, MofZ_det, Rabs_mult, <- abs_IZR. replace (Z.abs (ZMdet U)) with 1%Z by lia. ring. }
        rewrite Rabs_pos_eq in Q by lra. exact Q.
      + rewrite EU. destruct (unimodular_inverse _ DU) as (Ui & HI). exact (unimodular_same_lattice _ _ _ HI).
  Qed.
  Lemma flat_case (cond : list (vec Z) -> bool) :
    forallb (fun l => implb (cond l) (flat sg h l)) (perms (four h)) = true ->
    (forall l, Permutation (four h) l -> StronglySorted (fun a b => nrm (halfL L) a <= nrm (halfL L) b) l -> cond l = true) ->
    exists s', @find_primitive_cell RNum P HO path dtol s = Ok s' /\ Mdet (lattice s') = 0.
  Proof using Type*.
    intros Hall Hcond. destruct (outcome cond (flat sg h)) as (l & a & b & c & s' & T & Ht & Ez & F & EL & Y); auto.
    - intros l a b c Ht E. unfold flat in Ht. rewrite E in Ht. apply Z.eqb_eq in Ht. now left.
    - intros l Ht E. unfold flat in Ht. rewrite E in Ht. discriminate.
    - unfold flat in Ht. rewrite Ez in Ht. apply Z.eqb_eq in Ht. exists s'. split; [exact F|].
      rewrite EL, Mdet_mul, MofZ_det, ZMdet_mul. fold (zdet a b c). rewrite Ht. cbn. ring.
  Qed.
End Outcome.

(** ** Conditions on lengths, in disjunctive normal form *)
Lemma sign_of (L : mat R) : exists sg, (sg = 1 \/ sg = -1)%Z /\ Mdet L = Rabs (Mdet L) * IZR sg.
Proof.
  destruct (Rle_or_lt 0 (Mdet L)) as [H|H]; [exists 1%Z|exists (-1)%Z]; (split; [lia|]); [rewrite Rabs_pos_eq by exact H|rewrite Rabs_left by exact H]; cbn; ring.
Qed.
Lemma col_e1 L : col L e1 = Ccol L 0. Proof. unfold col, Mapp, VofZ, Ccol, e1. cbn. apply (@vec_ext R); cbn; ring. Qed.
Lemma col_e2 L : col L e2 = Ccol L 1. Proof. unfold col, Mapp, VofZ, Ccol, e2. cbn. apply (@vec_ext R); cbn; ring. Qed.
Lemma col_e3 L : col L e3 = Ccol L 2. Proof. unfold col, Mapp, VofZ, Ccol, e3. cbn. apply (@vec_ext R); cbn; ring. Qed.
Definition dnf (h : vec Z) (dj : list (list (vec Z * vec Z))) (l : list (vec Z)) : bool := existsb (fun cj => forallb (fun p => before (fst p) (snd p) l) cj) dj.
(** the length of one of the four candidate vectors *)
Definition clen (L : mat R) (z : vec Z) : R := Vnorm (col (halfL L) z).
Definition lengths (L : mat R) (h : vec Z) (dj : list (list (vec Z * vec Z))) : Prop :=
  exists cj, In cj dj /\ forall x y, In (x, y) cj -> In x (four h) /\ In y (four h) /\ clen L x < clen L y.
Lemma dnf_sorted L h dj l : lengths L h dj -> Permutation (four h) l -> StronglySorted (fun a b => nrm (halfL L) a <= nrm (halfL L) b) l -> dnf h dj l = true.
Proof.
  intros (cj & Hc & H) Pm SS. unfold dnf. apply existsb_exists. exists cj. split; [exact Hc|]. apply forallb_forall. intros [x y] Hp. cbn [fst snd].
  destruct (H x y Hp) as (Hx & Hy & Hl). apply (before_sorted (halfL L)); auto; try (apply (Permutation_in _ Pm); assumption).
  destruct (Rlt_or_le (nrm (halfL L) x) (nrm (halfL L) y)) as [|C]; [assumption|]. apply nrm_le in C. unfold clen in Hl. lra.
Qed.
Lemma clen_axes L : clen L (dbl e1) = Vnorm (Ccol L 0) /\ clen L (dbl e2) = Vnorm (Ccol L 1) /\ clen L (dbl e3) = Vnorm (Ccol L 2).
Proof. unfold clen. now rewrite !halfL_dbl, col_e1, col_e2, col_e3. Qed.
Lemma clen_half L h : clen L h = Vnorm (Mapp L (halfv h)).
Proof. unfold clen. now rewrite halfL_half. Qed.
(** half the diagonal of a face is shorter than one of its edges *)
Lemma Vnorm_lt a b : Vdot a a < Vdot b b -> Vnorm a < Vnorm b.
Proof. intro H. unfold Vnorm. apply sqrt_lt_1_alt. split; [unfold Vdot; nra|exact H]. Qed.
Lemma face_shorter (L : mat R) : Mdet L <> 0 ->
  Vnorm (Mapp L (V (1 / 2) (1 / 2) 0)) < Vnorm (Ccol L 0) \/ Vnorm (Mapp L (V (1 / 2) (1 / 2) 0)) < Vnorm (Ccol L 1).
Proof.
  intro HD. set (a := Ccol L 0). set (b := Ccol L 1).
  assert (E : Mapp L (V (1 / 2) (1 / 2) 0) = Vscal (1 / 2) (Vadd a b)).
  { unfold Mapp, Vscal, Vadd, a, b, Ccol. cbn. apply (@vec_ext R); cbn; field. }
  assert (D : 0 < Vdot (Vsub a b) (Vsub a b)).
  { assert (N : Vsub a b <> V0).
    { intro C. apply HD. unfold Vsub, V0, a, b, Ccol in C. cbn in C. injection C as C1 C2 C3. unfold Mdet.
      replace (m12 L) with (m11 L) by lra. replace (m22 L) with (m21 L) by lra. replace (m32 L) with (m31 L) by lra. ring. }
    destruct (Vsub a b) as [x y z]. unfold Vdot. cbn. destruct (Req_dec x 0) as [->|]; [|nra]. destruct (Req_dec y 0) as [->|]; [|nra]. destruct (Req_dec z 0) as [->|]; [|nra]. now contradiction N. }
  assert (Q : 4 * Vdot (Vscal (1 / 2) (Vadd a b)) (Vscal (1 / 2) (Vadd a b)) + Vdot (Vsub a b) (Vsub a b) = 2 * Vdot a a + 2 * Vdot b b)
    by (unfold Vdot, Vscal, Vadd, Vsub; cbn; field).
  rewrite E. destruct (Rle_or_lt (Vdot a a) (Vdot b b)); [right|left]; apply Vnorm_lt; lra.
Qed.
Lemma halved_shorter (L : mat R) : Mdet L <> 0 -> Vnorm (Mapp L (V (1 / 2) 0 0)) < Vnorm (Ccol L 0).
Proof.
  intro HD. apply Vnorm_lt. set (a := Ccol L 0).
  assert (E : Mapp L (V (1 / 2) 0 0) = Vscal (1 / 2) a) by (unfold Mapp, Vscal, a, Ccol; cbn; apply (@vec_ext R); cbn; field).
  assert (D : 0 < Vdot a a).
  { assert (N : a <> V0). { intro C. apply HD. unfold V0, a, Ccol in C. cbn in C. injection C as C1 C2 C3. unfold Mdet. rewrite C1, C2, C3. ring. }
    destruct a as [x y z]. unfold Vdot. cbn. destruct (Req_dec x 0) as [->|]; [|nra]. destruct (Req_dec y 0) as [->|]; [|nra]. destruct (Req_dec z 0) as [->|]; [|nra]. now contradiction N. }
  rewrite E. replace (Vdot (Vscal (1 / 2) a) (Vscal (1 / 2) a)) with (Vdot a a / 4) by (unfold Vdot, Vscal; cbn; field). lra.
Qed.

(** ** For concrete crystals *)
Lemma wc_sq m c : 1 / 1000000 < c -> (forall v, c * Vdot v v <= Vdot (Mapp m v) (Mapp m v)) -> well_conditioned m.
Proof.
  intros Hc H v Hv. specialize (H v).
  assert (P : 0 < Vdot v v).
  { destruct v as [x y z]. unfold Vdot. cbn. destruct (Req_dec x 0) as [->|]; [|nra]. destruct (Req_dec y 0) as [->|]; [|nra]. destruct (Req_dec z 0) as [->|]; [|nra]. now contradiction Hv. }
  replace (1 / 1000000 * Vnorm v) with (Vnorm (Vscal (1 / 1000000) v)).
  - apply Vnorm_lt. replace (Vdot (Vscal (1 / 1000000) v) (Vscal (1 / 1000000) v)) with (1 / 1000000 * (1 / 1000000) * Vdot v v) by (unfold Vdot, Vscal; cbn; field). nra.
  - unfold Vnorm. replace (Vdot (Vscal (1 / 1000000) v) (Vscal (1 / 1000000) v)) with (Rsqr (1 / 1000000) * Vdot v v) by (unfold Vdot, Vscal, Rsqr; cbn; field).
    rewrite sqrt_mult_alt by apply Rle_0_sqr. now rewrite sqrt_Rsqr by lra.
Qed.
Lemma Vnorm_sqrt v k : 0 <= k -> Vdot v v = k * k -> Vnorm v = k.
Proof. intros Hk E. unfold Vnorm. rewrite E. now apply sqrt_square. Qed.
Lemma Vnorm_above v k : 0 <= k -> k * k < Vdot v v -> k < Vnorm v.
Proof. intros Hk E. unfold Vnorm. rewrite <- (sqrt_square k) by exact Hk. apply sqrt_lt_1_alt. split; [nra|exact E]. Qed.
Lemma Vnorm_below v k : 0 < k -> Vdot v v < k * k -> Vnorm v < k.
Proof. intros Hk E. unfold Vnorm. rewrite <- (sqrt_square k) by lra. apply sqrt_lt_1_alt. split; [unfold Vdot; nra|exact E]. Qed.

(** two atoms of polonium, one at the origin *)
Definition two_atoms (L : mat R) (t : vec R) : @structure RNum := Structure (N := RNum) L ["Po"; "Po"]%string [] [V 0 0 0; t].
Lemma two_atoms_translation tol L t n : Vadd t t = VofZ n ->
  only_translation tol L (frac_coords (two_atoms L t)) (species (two_atoms L t)) t.
Proof.
  intro E. unfold Vadd, VofZ in E. injection E as E1 E2 E3. split.
  - intros x e H. cbn in H. destruct H as [H|[H|[]]]; injection H as <- <-.
    + exists t, (V 0 0 0)%Z. split; [cbn; tauto|]. unfold Vadd, VofZ. cbn. apply (@vec_ext R); cbn; ring.
    + exists (V 0 0 0), n. split; [cbn; tauto|]. unfold Vadd, VofZ. cbn. apply (@vec_ext R); cbn; lra.
  - intros i j x y e N Hx Hy _ _ _. destruct i as [|[|i]], j as [|[|j]]; cbn in Hx, Hy; try congruence; try (destruct i; discriminate); try (destruct j; discriminate);
      injection Hx as <-; injection Hy as <-.
    + exists (V (- vx n) (- vy n) (- vz n))%Z. unfold Vadd, Vsub, VofZ. cbn. rewrite !opp_IZR. apply (@vec_ext R); cbn; lra.
    + exists (V 0 0 0)%Z. unfold Vadd, Vsub, VofZ. cbn. apply (@vec_ext R); cbn; ring.
Qed.
Ltac vdots := unfold Vdot, Ccol, Mapp; cbn [lattice two_atoms m11 m12 m13 m21 m22 m23 m31 m32 m33 vx vy vz]; cbn.
Ltac shorter := apply Vnorm_lt; vdots; lra.
Ltac small D :=
  split; [replace (Rabs _) with D by (unfold Mdet; cbn; rewrite ?Rabs_pos_eq by lra; lra); lra|];
  intros k Hk; replace (Rabs _) with D by (unfold Mdet; cbn; rewrite ?Rabs_pos_eq by lra; lra);
  destruct k as [|[|[|k]]]; [..|lia]; (split; [apply Vnorm_above; [lra|vdots; lra]|]);
  match goal with |- 4 * ?d * Vnorm ?v < _ => assert (Vnorm v < 10) by (apply Vnorm_below; [lra|vdots; lra]); lra end.
Definition box (a b c : R) : mat R := M a 0 0 0 b 0 0 0 c.
Lemma box_wc a b c : 1 <= a -> 1 <= b -> 1 <= c -> well_conditioned (box a b c).
Proof. intros Ha Hb Hc. apply (wc_sq _ 1); [lra|]. intros [x y z]. unfold Vdot, Mapp, box. cbn. assert (forall p q, 1 <= p -> q * q <= (p * q) * (p * q)) by (intros p q Hp; replace (p * q * (p * q)) with (p * p * (q * q)) by ring; pose proof (Rle_0_sqr q); unfold Rsqr in *; assert (1 <= p * p) by nra; nra).
  pose proof (H a x Ha). pose proof (H b y Hb). pose proof (H c z Hc). lra. Qed.

(** body-centred crystal in the cell 4x + 2(y + z), ...: half the body diagonal is longer than the edges *)
Definition sharp : mat R := M 4 2 2 2 4 2 2 2 4.
Lemma sharp_wc : well_conditioned sharp.
Proof. apply (wc_sq _ 4); [lra|]. intros [x y z]. unfold Vdot, Mapp, sharp. cbn. pose proof (Rle_0_sqr (x + y + z)). unfold Rsqr in *. nra. Qed.
