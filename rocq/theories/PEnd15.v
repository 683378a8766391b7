(** Crystals in a rectangular cell in the standard form: the answer (analyzer.rs 36-162) *)
From Coq Require Import ZArith Reals String Ascii List Bool Lia Lra Psatz Permutation.
From Flocq Require Import Core.
From Verif Require Import Num Mat Utils DataCore DataPG DataSG SymmOp PointGroup SpaceGroup Structure Reduce Analyzer RInst Spec Spec2 Spec3 Spec5 Spec6 RFacts
  PUtils PSymmOp PStructure PStructure2 PStructure3 PNiggli PDelaunay PPrim PPrim2 PLattice PAnalyzer PAnalyzer2 PPointGroup PPointGroup2 PSpaceGroup PSpaceGroup2 PCode PTables PIdentify
  PSearch PSearch3 PSearch4 PSearch6 PSearch7 PEnd PEnd2 PEnd3 PEnd4 PEnd11 PEnd12 PEnd13 PEnd14 Prop5.
Import ListNotations.
Open Scope R_scope.

(** ** The answer *)
Lemma nanos_signed d W u v : In W signed -> nanos d u v -> nanos d (Mapp (MofZ W) u) (Mapp (MofZ W) v).
Proof.
  intros HW (n & H1 & H2 & H3). exists (ZMapp W n).
  assert (G : forall x y z : Z, In (V x y z) units6 -> Rabs (IZR x * (vx u - vx v - IZR (vx n)) + IZR y * (vy u - vy v - IZR (vy n)) + IZR z * (vz u - vz v - IZR (vz n))) <= d).
  { intros x y z Hu. unfold units6 in Hu. cbn [In] in Hu.
    destruct Hu as [E|[E|[E|[E|[E|[E|[]]]]]]]; injection E as <- <- <-;
      match goal with |- Rabs ?e <= d => first
        [ replace e with (vx u - vx v - IZR (vx n)) by ring; exact H1 | replace e with (vy u - vy v - IZR (vy n)) by ring; exact H2 | replace e with (vz u - vz v - IZR (vz n)) by ring; exact H3
        | replace e with (- (vx u - vx v - IZR (vx n))) by ring; rewrite Rabs_Ropp; exact H1 | replace e with (- (vy u - vy v - IZR (vy n))) by ring; rewrite Rabs_Ropp; exact H2
        | replace e with (- (vz u - vz v - IZR (vz n))) by ring; rewrite Rabs_Ropp; exact H3 ] end. }
  assert (Q : forallb (fun w => if (m11 w * m11 w + m12 w * m12 w + m13 w * m13 w =? 1)%Z then if (m21 w * m21 w + m22 w * m22 w + m23 w * m23 w =? 1)%Z then (m31 w * m31 w + m32 w * m32 w + m33 w * m33 w =? 1)%Z else false else false) signed = true) by (vm_compute; reflexivity).
  pose proof (proj1 (forallb_forall _ _) Q W HW) as K. cbn beta in K. clear Q.
  destruct (m11 W * m11 W + m12 W * m12 W + m13 W * m13 W =? 1)%Z eqn:K1; [|discriminate]. destruct (m21 W * m21 W + m22 W * m22 W + m23 W * m23 W =? 1)%Z eqn:K2; [|discriminate].
  apply Z.eqb_eq, unit_in, G in K. apply Z.eqb_eq, unit_in, G in K1. apply Z.eqb_eq, unit_in, G in K2. clear - K K1 K2.
  destruct W as [w11 w12 w13 w21 w22 w23 w31 w32 w33], u as [u1 u2 u3], v as [v1 v2 v3], n as [n1 n2 n3]. unfold ZMapp, Mapp, MofZ, mmap. cbn [vx vy vz m11 m12 m13 m21 m22 m23 m31 m32 m33] in *. rewrite !plus_IZR, !mult_IZR.
  repeat split; match goal with |- Rabs ?e <= d => match goal with H : Rabs ?f <= d |- _ => replace e with f by ring; exact H end end.
Qed.
Lemma unit_rot_i8 r : unit_rot r = true -> i8_range r.
Proof. intro H. apply unit_rot_spec in H. unfold i8_range, entries_within. lia. Qed.
(** the answer from the operations found in the standard cell *)
Section Run.
  Context (P : @Pinv RNum) (HO : HashOrd) (dtol a b c d : R) (fuel : nat) (path : list nat) (s : @structure RNum).
  Hypothesis (HP : pinv_inverts P) (HF : (48 <= fuel)%nat) (WF : List.length (frac_coords s) = List.length (species s)).
  Hypothesis BIG : (0 < Z.of_nat (List.length (species s)) <= 65535)%Z.
  Hypothesis EL : gram (lattice s) = diag (a * a) (b * b) (c * c).
  Hypothesis (Ba : 1 <= a <= 1000) (Bb : 1 <= b <= 1000) (Bc : 1 <= c <= 1000) (Hd : 1 / 100000 <= dtol <= 1 / 24).
  Hypothesis (SP : spread d (sites_of s)) (Da : 4 * dtol <= d * a) (Db : 4 * dtol <= d * b) (Dc : 4 * dtol <= d * c).
  Hypothesis RI : rigid (2 * dtol) (lattice s) (sites_of s) (lattice_isometry (lattice s)).
  Context (p q std : @structure RNum) (Tm Pm : mat R) (n : Z) (b' : bravais) (A B C : R) (Z1 T0 W Wi : mat Z).
  Hypothesis RUN : run_of P HO dtol a b c fuel path s p q std Tm Pm n b' A B C Z1 T0 W Wi.
  Context (ls : lattice_system) (order N : Z) (codes : list Z) (sym : string).
  Hypothesis LS : bravais_lattice_system b' = Ok ls.
  Let HW : In W signed. Proof using RUN. exact (run_W _ _ _ _ _ _ _ _ _ _ _ _ _ _ _ _ _ _ _ _ _ _ _ RUN). Qed.
  Let WI : ZMmul W Wi = ZMid. Proof using RUN. exact (run_inv _ _ _ _ _ _ _ _ _ _ _ _ _ _ _ _ _ _ _ _ _ _ _ RUN). Qed.
  Let MV : moved Wi (sites_of s) (sites_of std). Proof using RUN. exact (run_moved _ _ _ _ _ _ _ _ _ _ _ _ _ _ _ _ _ _ _ _ _ _ _ RUN). Qed.
  Let IW : ZMmul Wi W = ZMid. Proof using RUN. exact (zinv_comm _ _ WI). Qed.
  Let LB : Mmul (lattice std) (MofZ Wi) = lattice s. Proof using RUN. exact (run_back _ _ _ _ _ _ _ _ _ _ _ _ _ _ _ _ _ _ _ _ _ _ _ RUN). Qed.
  Lemma run_fine' k : (k < 3)%nat -> 1 / 100000000 * Vnorm (Ccol (lattice std) k) <= dtol /\ 24 * dtol <= Vnorm (Ccol (lattice std) k) /\ 0 < Vnorm (Ccol (lattice std) k).
  Proof using RUN EL Ba Bb Bc Hd. intro Hk. exact (run_fine P HO dtol a b c fuel path s EL Ba Bb Bc Hd _ _ _ _ _ _ _ _ _ _ _ _ _ _ RUN k Hk). Qed.
  Hypothesis H1 : forall r, In r (holo_rots b') <-> lattice_isometry (lattice s) (conj W r Wi).
  Lemma run_rigid : rigid (2 * dtol) (lattice std) (sites_of std) (fun r => In r (holo_rots b')).
  Proof using RUN RI H1.
    apply (rigid_moved (2 * dtol) (lattice std) Wi W (sites_of s) (sites_of std) (lattice_isometry (lattice s))); [exact WI|exact MV| |rewrite LB; exact RI]. intros r Hr. now apply H1.
  Qed.
  (** the operations of the crystal, carried to the standard cell *)
  Lemma run_exact r t : exact_operation (sites_of std) r t <-> exact_operation (sites_of s) (conj W r Wi) (Mapp (MofZ W) t).
  Proof using RUN.
    split; intro EX; [exact (exact_moved Wi W (sites_of s) (sites_of std) WI MV r t EX)|].
    rewrite <- (conj_conj W r Wi WI IW), <- (app_inv Wi W t IW). apply (exact_moved W Wi (sites_of std) (sites_of s) IW); [now apply (moved_sym Wi W)|exact EX].
  Qed.
  Hypothesis (HT : In (ls, order, N, codes) sg_entries) (ES : am_get Z.eqb N SG_NUM_TO_SYMBOL = Some sym) (NC : ~ In N not_closed).
  Context (u ui : mat Z).
  Hypothesis (Hu : In u signed) (UI : ZMmul u ui = ZMid).
  Hypothesis IFF : forall r t, (lattice_isometry (lattice s) r /\ exact_operation (sites_of s) r t) <->
    exists o, In o (group_ops sym codes) /\ r = conj u (fst o) ui /\ Vcongr t (Mapp (MofZ u) (in_twelfths (snd o))).
  Hypothesis K1 : forall o, In o (group_ops sym codes) -> exists o', In o' (group_ops sym codes) /\ conj Wi (conj u (fst o) ui) W = fst o' /\
    Vcongr (Mapp (MofZ Wi) (Mapp (MofZ u) (in_twelfths (snd o)))) (in_twelfths (snd o')).
  Hypothesis K2 : forall o, In o (group_ops sym codes) -> exists o', In o' (group_ops sym codes) /\ conj W (fst o) Wi = conj u (fst o') ui /\
    Vcongr (Mapp (MofZ W) (in_twelfths (snd o))) (Mapp (MofZ u) (in_twelfths (snd o'))).
  Lemma run_answered : exists ops, @get_space_group_info RNum P HO fuel path dtol s = Ok (N, sym, ops) /\ List.length ops = List.length codes /\
    (forall op, In op ops -> exists o, In o (group_ops sym codes) /\ rotation op = conj u (fst o) ui /\ nanos (1 / 1000000000) (translation op) (Mapp (MofZ u) (in_twelfths (snd o)))) /\
    (forall o, In o (group_ops sym codes) -> exists op, In op ops /\ rotation op = conj u (fst o) ui /\ nanos (1 / 1000000000) (translation op) (Mapp (MofZ u) (in_twelfths (snd o)))).
  Proof using All.
    pose proof HW as HW0. pose proof WI as WI0. pose proof IW as IW0. pose proof (zinv_comm _ _ UI) as IU.
    destruct (entry_facts _ _ _ _ HT) as (sym' & ES' & G & _). rewrite ES in ES'. injection ES' as <-. fold (group_ops sym codes) in G.
    assert (HR : forall o, In o (group_ops sym codes) -> In (fst o) (holo_rots b') /\ exact_operation (sites_of std) (fst o) (in_twelfths (snd o))).
    { intros o Ho. destruct (K2 o Ho) as (o' & Ho' & E1 & V1). destruct (proj2 (IFF (conj W (fst o) Wi) (Mapp (MofZ W) (in_twelfths (snd o))))) as [X1 X2]; [exists o'; auto|]. split; [now apply H1|now apply run_exact]. }
    destruct (@standard_identified HO std dtol fuel (1%nat :: path) b' HF) with (ls := ls) (order := order) (N := N) (codes := codes) (sym := sym)
      as (ops & Q1 & Q2 & Q3 & Q4 & Q5 & Q6); auto.
    { exact (run_len _ _ _ _ _ _ _ _ _ _ _ _ _ _ _ _ _ _ _ _ _ _ _ RUN). } { exact (run_big _ _ _ _ _ _ _ _ s WF BIG _ _ _ _ _ _ _ _ _ _ _ _ _ _ RUN). } { exact (run_grouped _ _ _ _ _ _ _ _ _ _ _ _ _ _ _ _ _ _ _ _ _ _ _ RUN). }
    { intros k Hk. exact (run_fine' k Hk). }
    { exact (run_apart P HO dtol a b c fuel path s HP HF WF BIG EL Ba Bb Bc Hd d SP Da Db Dc _ _ _ _ _ _ _ _ _ _ _ _ _ _ RUN). }
    { exact run_rigid. }
    { intros r t Hr EX. apply run_exact in EX. destruct (proj1 (IFF (conj W r Wi) (Mapp (MofZ W) t))) as (o & Ho & E1 & V1); [split; [now apply H1|exact EX]|].
      destruct (K1 o Ho) as (o' & Ho' & E2 & V2). exists o'. split; [exact Ho'|]. split.
      - rewrite <- E2, <- E1. symmetry. now apply conj_conj.
      - apply (PEnd11.Vcongr_app Wi) in V1. rewrite (app_inv Wi W t IW0) in V1. exact (PSymmOp.Vcongr_trans _ _ _ V1 V2). }
    assert (OR : forall op, In op ops -> exists o', In o' (group_ops sym codes) /\ conj W (rotation op) Wi = conj u (fst o') ui /\ nanos (1 / 1000000000) (Mapp (MofZ W) (translation op)) (Mapp (MofZ u) (in_twelfths (snd o')))).
    { intros op Hop. destruct (Q6 op Hop) as (o & Ho & E1 & N1). destruct (K2 o Ho) as (o' & Ho' & E2 & V2). exists o'. split; [exact Ho'|]. split; [now rewrite E1|].
      replace (1 / 1000000000) with (1 / 1000000000 + 0) by ring. apply (nanos_trans _ _ _ (Mapp (MofZ W) (in_twelfths (snd o)))); [now apply nanos_signed|now apply nanos_congr]. }
    assert (SI : incl (holo_rots b') signed). { destruct (box_rows n (rn_char _ _ _ _ _ _ _ _ _ _ _ _ _ _ _ _ _ _ _ _ _ _ _ RUN)) as (b0 & _ & _ & _ & _ & X1 & _ & _ & _ & _ & X2 & _). rewrite (rn_bravais _ _ _ _ _ _ _ _ _ _ _ _ _ _ _ _ _ _ _ _ _ _ _ RUN) in X1. injection X1 as <-. exact X2. }
    assert (OS : forall op, In op ops -> In (conj W (rotation op) Wi) signed).
    { intros op Hop. destruct (Q6 op Hop) as (o & Ho & -> & _). unfold conj. apply signed_mul; [apply signed_mul; [exact HW0|]|exact (signed_inv _ _ HW0 WI0)]. apply SI. now apply HR. }
    destruct (answer_given P HO dtol fuel path s p q std Tm Pm n b' HP ltac:(lia) ltac:(lra) (rn_stages _ _ _ _ _ _ _ _ _ _ _ _ _ _ _ _ _ _ _ _ _ _ _ RUN) ls ops ops Q1 Q2 LS
      (rn_p _ _ _ _ _ _ _ _ _ _ _ _ _ _ _ _ _ _ _ _ _ _ _ RUN) (rn_q _ _ _ _ _ _ _ _ _ _ _ _ _ _ _ _ _ _ _ _ _ _ _ RUN) Wi W N sym) as (ops' & O1 & O2); auto.
    { pose proof (run_det _ _ _ _ _ _ _ _ _ _ _ _ _ _ _ _ _ _ _ _ _ _ _ RUN). lra. } { exact (rn_P _ _ _ _ _ _ _ _ _ _ _ _ _ _ _ _ _ _ _ _ _ _ _ RUN). } { exact (rn_T _ _ _ _ _ _ _ _ _ _ _ _ _ _ _ _ _ _ _ _ _ _ _ RUN). }
    { intros k Hk. destruct (run_fine' k Hk). lra. }
    { intros op Hop. apply OS in Hop. destruct (signed_facts _ Hop) as (_ & U & _). fold (conj W (rotation op) Wi). exact (unit_rot_i8 _ U). }
    assert (FE : filter (fun op => has_unit_entry (ZMmul (ZMmul W (rotation op)) Wi)) ops = ops).
    { apply filter_every. intros op Hop. apply OS in Hop. now destruct (signed_facts _ Hop) as (_ & _ & U). }
    rewrite FE in O2. clear FE.
    assert (FW : forall op', In op' ops' -> exists o, In o (group_ops sym codes) /\ rotation op' = conj u (fst o) ui /\ nanos (1 / 1000000000) (translation op') (Mapp (MofZ u) (in_twelfths (snd o)))).
    { intros op' Hop'. assert (X : exists op, In op ops /\ rotation op' = conj W (rotation op) Wi /\ (forall x, Vcongr (Mapp (MofZ W) (@op_apply RNum op x)) (@op_apply RNum op' (Mapp (MofZ W) x)))).
      { clear - O2 Hop'. induction O2 as [|x y l l' E F IH]; [destruct Hop'|]. destruct Hop' as [<-|Hop']; [exists x; split; [now left|exact E]|]. destruct (IH Hop') as (op & X1 & X2). exists op. split; [now right|exact X2]. }
      destruct X as (op & Hop & E1 & E2). destruct (OR op Hop) as (o' & Ho' & E3 & N3). exists o'. split; [exact Ho'|]. split; [congruence|].
      specialize (E2 V0). rewrite Mapp_V0 in E2. assert (Z0 : forall o : @symmop RNum, @op_apply RNum o V0 = translation o).
      { intro o. rewrite op_apply_R. unfold act. rewrite Mapp_V0. apply PEnd2.Vadd_0. } rewrite !Z0 in E2.
      replace (1 / 1000000000) with (0 + 1 / 1000000000) by ring. apply (nanos_trans _ _ _ (Mapp (MofZ W) (translation op))); [|exact N3]. apply nanos_congr. now apply PSymmOp.Vcongr_sym. }
    exists ops'. split; [exact O1|]. assert (LEN : List.length ops' = List.length codes) by (rewrite <- (F2_length _ _ _ O2); exact Q3). split; [exact LEN|]. split; [exact FW|].
    assert (UN : forall o o1, In o (group_ops sym codes) -> In o1 (group_ops sym codes) -> conj u (fst o) ui = conj u (fst o1) ui -> o = o1).
    { intros o o1 Ho Ho1 E. apply (same_rot_same _ (og_rotations _ G)); auto. apply (f_equal (fun r => conj ui r u)) in E. now rewrite !conj_conj in E. }
    intros o Ho. assert (NR : NoDup (map (@rotation RNum) ops')).
    { assert (ER : map (@rotation RNum) ops' = map (fun r => conj W r Wi) (map (@rotation RNum) ops)).
      { clear - O2. induction O2 as [|x y l l' [E _] F IH]; [reflexivity|]. cbn. rewrite E. f_equal. exact IH. }
      rewrite ER. apply PSearch3.NoDup_map_on; [exact Q4|]. intros r1 r2 _ _ E. apply (f_equal (fun r => conj Wi r W)) in E. now rewrite !conj_conj in E. }
    assert (INC : incl (map (fun o => conj u (fst o) ui) (group_ops sym codes)) (map (@rotation RNum) ops')).
    { apply NoDup_length_incl; [exact NR| |].
      - rewrite !map_length. unfold group_ops. rewrite map_length. lia.
      - intros r Hr. apply in_map_iff in Hr. destruct Hr as (op' & <- & Hop'). destruct (FW op' Hop') as (o1 & Ho1 & E & _). rewrite E. exact (in_map (fun o => conj u (fst o) ui) _ _ Ho1). }
    specialize (INC _ (in_map (fun o => conj u (fst o) ui) _ _ Ho)). apply in_map_iff in INC. destruct INC as (op' & E & Hop'). exists op'. split; [exact Hop'|]. split; [exact E|].
    destruct (FW op' Hop') as (o1 & Ho1 & E1 & N1). assert (o = o1) by (apply UN; auto; congruence). now subst o1.
  Qed.
End Run.

(** the isometries of the standard cell *)
Lemma std_holo ls eps a b c L W Wi : 0 < a -> 0 < b -> 0 < c -> 0 < eps -> standard_edges ls eps a b c -> gram (Mmul L (MofZ W)) = diag (a * a) (b * b) (c * c) -> ZMmul W Wi = ZMid ->
  forall r, In r (holo_rots (box_bravais ls)) <-> lattice_isometry L (conj W r Wi).
Proof.
  intros Ha Hb Hc He SE E WI r.
  assert (Q : lattice_isometry (Mmul L (MofZ W)) r <-> lattice_isometry L (conj W r Wi)).
  { rewrite !isometry_gram. set (Y := Mmul L (MofZ W)) in *. assert (LY : L = Mmul Y (MofZ Wi)) by (unfold Y; rewrite Mmul_assoc, <- MofZ_mul, WI, MofZ_id, Mmul_id_r; reflexivity).
    assert (X : Mmul L (MofZ (conj W r Wi)) = Mmul (Mmul Y (MofZ r)) (MofZ Wi)) by (unfold conj, Y; rewrite !MofZ_mul, !Mmul_assoc; reflexivity).
    rewrite X. split; intro H.
    - rewrite (gram_mul_eq _ _ (MofZ Wi) H), <- LY. reflexivity.
    - rewrite LY in H. apply (gram_mul_eq _ _ (MofZ W)) in H. assert (IW : Mmul (MofZ Wi) (MofZ W) = Mid) by (rewrite <- MofZ_mul, (zinv_comm _ _ WI); apply MofZ_id). rewrite !Mmul_assoc, IW, !Mmul_id_r in H. exact H. }
  rewrite <- Q. split; [apply (holo_iso _ ls eps a b c)|apply (iso_holo _ ls eps a b c)]; auto.
Qed.
Section Answered.
  Context (P : @Pinv RNum) (HO : HashOrd) (dtol a b c d : R) (fuel : nat) (path : list nat) (s : @structure RNum) (u ui : mat Z).
  Hypothesis (HP : pinv_inverts P) (HF : (48 <= fuel)%nat) (WF : List.length (frac_coords s) = List.length (species s)).
  Hypothesis BIG : (0 < Z.of_nat (List.length (species s)) <= 65535)%Z.
  Hypothesis (Hu : In u signed) (UI : ZMmul u ui = ZMid) (EL : gram (Mmul (lattice s) (MofZ u)) = diag (a * a) (b * b) (c * c)).
  Hypothesis (Ba : 1 <= a <= 1000) (Bb : 1 <= b <= 1000) (Bc : 1 <= c <= 1000) (Hd : 1 / 100000 <= dtol <= 1 / 24).
  Hypothesis (SP : spread d (sites_of s)) (Da : 4 * dtol <= d * a) (Db : 4 * dtol <= d * b) (Dc : 4 * dtol <= d * c).
  (** the edges along the axes of the input *)
  Lemma own_edges : exists a0 b0 c0, gram (lattice s) = diag (a0 * a0) (b0 * b0) (c0 * c0) /\ Permutation [a; b; c] [a0; b0; c0] /\
    (1 <= a0 <= 1000) /\ (1 <= b0 <= 1000) /\ (1 <= c0 <= 1000) /\ 4 * dtol <= d * a0 /\ 4 * dtol <= d * b0 /\ 4 * dtol <= d * c0 /\ a0 * b0 * c0 = a * b * c.
  Proof using Hu UI EL Ba Bb Bc Da Db Dc.
    destruct (signed_diag a b c ui (signed_inv _ _ Hu UI)) as (PM & E). cbv zeta in PM, E. rewrite <- EL, <- gram_app, Mmul_assoc, <- MofZ_mul, UI, MofZ_id, Mmul_id_r in E.
    match type of E with _ = diag (?x * ?x) (?y * ?y) (?z * ?z) => exists x, y, z; revert E PM; generalize x, y, z end. intros x y z E PM. split; [exact E|]. split; [exact PM|].
    destruct (perm3 _ _ _ _ _ _ (Permutation_sym PM)) as [X|[X|[X|[X|[X|X]]]]]; destruct X as (-> & -> & ->); repeat split; lra.
  Qed.
  Context (ls : lattice_system) (order N : Z) (codes : list Z) (sym : string).
  Hypothesis SE : standard_edges ls (1 / 100000 * Rpower (a * b * c) (1 / 3)) a b c.
  Hypothesis RI : rigid (2 * dtol) (lattice s) (sites_of s) (lattice_isometry (lattice s)).
  Hypothesis (HT : In (ls, order, N, codes) sg_entries) (ES : am_get Z.eqb N SG_NUM_TO_SYMBOL = Some sym) (NC : ~ In N not_closed).
  Hypothesis IFF : forall r t, (lattice_isometry (lattice s) r /\ exact_operation (sites_of s) r t) <->
    exists o, In o (group_ops sym codes) /\ r = conj u (fst o) ui /\ Vcongr t (Mapp (MofZ u) (in_twelfths (snd o))).
  Hypothesis HAND : 0 < Mdet (lattice s) * IZR (ZMdet u) \/ ~ In N handed.
  Lemma box_answered : exists ops, @get_space_group_info RNum P HO fuel path dtol s = Ok (N, sym, ops) /\ List.length ops = List.length codes /\
    (forall op, In op ops -> exists o, In o (group_ops sym codes) /\ rotation op = conj u (fst o) ui /\ nanos (1 / 1000000000) (translation op) (Mapp (MofZ u) (in_twelfths (snd o)))) /\
    (forall o, In o (group_ops sym codes) -> exists op, In op ops /\ rotation op = conj u (fst o) ui /\ nanos (1 / 1000000000) (translation op) (Mapp (MofZ u) (in_twelfths (snd o)))).
  Proof using All.
    pose proof (box_eps a b c Ba Bb Bc) as BE. pose proof (zinv_comm _ _ UI) as IU.
    assert (HB : boxed ls = true) by (unfold standard_edges in SE; destruct ls; try (exfalso; exact SE); reflexivity).
    destruct own_edges as (a0 & b0 & c0 & EL0 & PM & Ba0 & Bb0 & Bc0 & Da0 & Db0 & Dc0 & EV).
    destruct (entry_facts _ _ _ _ HT) as (sym' & ES' & G & _). rewrite ES in ES'. injection ES' as <-. fold (group_ops sym codes) in G.
    pose proof (std_holo ls _ a b c (lattice s) u ui ltac:(lra) ltac:(lra) ltac:(lra) (proj1 BE) SE EL UI) as HU.
    assert (ID : forall v w, ZMmul v w = ZMid -> conj v ZMid w = ZMid).
    { intros v w H. apply MofZ_eq_from_action. intro x. now rewrite conj_app, MofZ_id, Mapp_id, (app_inv v w x H), Mapp_id. }
    assert (I1 : lattice_isometry (lattice s) ZMid) by (apply isometry_gram; now rewrite MofZ_id, Mmul_id_r).
    assert (NI : no_inner_translation dtol s).
    { apply (no_inner P HO dtol a0 b0 c0 fuel path s HP HF WF BIG EL0 Ba0 Bb0 Bc0 Hd d SP Da0 Db0 Dc0 (lattice_isometry (lattice s))); [exact I1|exact RI|].
      intros t EX. destruct (proj1 (IFF ZMid t)) as (o & Ho & Er & Vt); [split; [exact I1|exact EX]|]. destruct (og_identity _ G) as (e & He & [E1 (k & E2)]). cbn [fst snd] in E1, E2.
      assert (Eo : fst o = ZMid). { apply (f_equal (fun r => conj ui r u)) in Er. rewrite conj_conj in Er by assumption. rewrite <- Er. now apply ID. }
      assert (o = e) by (apply (same_rot_same _ (og_rotations _ G)); [exact Ho|exact He|congruence]). subst o.
      destruct Vt as (m & ->). exists (ZVadd (ZMapp u k) m). rewrite VofZ_add, MofZ_app. f_equal. f_equal. rewrite E2. unfold in_twelfths, Vadd, VofZ. cbn [vx vy vz]. apply (@vec_ext R); cbn [vx vy vz]; rewrite ?plus_IZR, ?mult_IZR; lra. }
    destruct (many_stages P HO dtol a0 b0 c0 fuel path s HP HF WF BIG EL0 Ba0 Bb0 Bc0 Hd NI) as (p & q & std & Tm & Pm & n & b' & A & B & C & Z1 & T0 & W & Wi & RUN).
    { intros W HW. apply (apart_mono (4 * dtol)); [lra|]. exact (std_apart P HO dtol a0 b0 c0 fuel path s HP HF WF BIG EL0 Ba0 Bb0 Bc0 Hd d SP Da0 Db0 Dc0 W HW). }
    assert (PM1 : Permutation [a0 * a0; b0 * b0; c0 * c0] [a * a; b * b; c * c]) by (apply Permutation_sym; exact (Permutation_map (fun x => x * x) PM)).
    assert (SE0 := SE). rewrite <- EV in SE0.
    destruct (run_standard P HO dtol a0 b0 c0 fuel path s Ba0 Bb0 Bc0 _ _ _ _ _ _ _ _ _ _ _ _ _ _ RUN ls a b c PM1 SE0) as (EB & GS & _ & LS). subst b'.
    pose proof (run_W _ _ _ _ _ _ _ _ _ _ _ _ _ _ _ _ _ _ _ _ _ _ _ RUN) as HW. pose proof (run_inv _ _ _ _ _ _ _ _ _ _ _ _ _ _ _ _ _ _ _ _ _ _ _ RUN) as WI. pose proof (zinv_comm _ _ WI) as IW.
    pose proof (run_std _ _ _ _ _ _ _ _ _ _ _ _ _ _ _ _ _ _ _ _ _ _ _ RUN) as LW. pose proof (run_det _ _ _ _ _ _ _ _ _ _ _ _ _ _ _ _ _ _ _ _ _ _ _ RUN) as DS.
    rewrite LW in GS. pose proof (std_holo ls _ a b c (lattice s) W Wi ltac:(lra) ltac:(lra) ltac:(lra) (proj1 BE) SE GS WI) as H1.
    (* the standard axes are those of [u] moved by an isometry *)
    set (h := ZMmul ui W). set (hi := ZMmul Wi u).
    assert (HHI : ZMmul h hi = ZMid). { apply MofZ_eq_from_action. intro x. unfold h, hi. rewrite !MofZ_mul, !Mapp_Mmul, (app_inv W Wi _ WI), (app_inv ui u _ IU), MofZ_id, Mapp_id. reflexivity. }
    assert (Hh : In h (holo_rots (box_bravais ls))).
    { apply (iso_holo (Mmul (lattice s) (MofZ u)) ls _ a b c EL ltac:(lra) ltac:(lra) ltac:(lra) (proj1 BE) SE). apply isometry_gram. unfold h. rewrite Mmul_assoc, <- MofZ_mul.
      replace (ZMmul u (ZMmul ui W)) with W; [now rewrite GS, EL|]. apply MofZ_eq_from_action. intro x. now rewrite !MofZ_mul, !Mapp_Mmul, (app_inv u ui _ UI). }
    destruct (holo_closed ls h HB Hh) as (Hh' & Sh & _). pose proof (signed_transpose h hi Sh HHI) as TH. rewrite <- TH in Hh'.
    assert (TH' : transpose hi = h) by (rewrite TH; now destruct h).
    assert (HR : forall o, In o (group_ops sym codes) -> In (fst o) (holo_rots (box_bravais ls))).
    { intros o Ho. apply HU. destruct (proj2 (IFF (conj u (fst o) ui) (Mapp (MofZ u) (in_twelfths (snd o))))) as [X _]; [exists o; split; [exact Ho|split; [reflexivity|apply Vcongr_refl]]|exact X]. }
    assert (HDET : (ZMdet h = 1%Z \/ ~ In N handed) /\ (ZMdet hi = 1%Z \/ ~ In N handed)).
    { destruct HAND as [HL|HN]; [|auto]. assert (D1 : (ZMdet h * ZMdet hi = 1)%Z) by (rewrite <- ZMdet_mul, HHI; reflexivity).
      assert (D2 : (ZMdet W = ZMdet u * ZMdet h)%Z). { unfold h. rewrite ZMdet_mul, Z.mul_assoc, <- ZMdet_mul, UI. change (ZMdet ZMid) with 1%Z. ring. }
      rewrite LW, Mdet_mul, MofZ_det, D2, mult_IZR, <- Rmult_assoc in DS. assert (0 < ZMdet h)%Z by (apply lt_IZR; apply (Rmult_lt_reg_l (Mdet (lattice s) * IZR (ZMdet u))); lra). apply Z.mul_eq_1 in D1 as D3. split; left; lia. }
    apply (run_answered P HO dtol a0 b0 c0 d fuel path s HP HF WF BIG EL0 Ba0 Bb0 Bc0 Hd SP Da0 Db0 Dc0 RI _ _ _ _ _ _ _ _ _ _ _ _ _ _ RUN ls order N codes sym LS H1 HT ES NC u ui Hu UI IFF).
    - intros o Ho. destruct (table_invariant ls order N codes sym h o HB HT ES NC HR Hh (proj1 HDET) Ho) as (o' & Ho' & S). apply same_op_V12 in S. unfold conj_op in S. cbn [fst snd] in S. rewrite <- TH in S.
      exists o'. split; [exact Ho'|]. split.
      + rewrite <- (proj1 S). apply MofZ_eq_from_action. intro x. rewrite !conj_app. unfold h, hi. rewrite !MofZ_mul, !Mapp_Mmul. reflexivity.
      + rewrite <- Mapp_Mmul, <- MofZ_mul. fold hi. change (in_twelfths (snd o)) with (V12 (snd o)). rewrite MofZ_V12. exact (proj2 S).
    - intros o Ho. destruct (table_invariant ls order N codes sym hi o HB HT ES NC HR Hh' (proj2 HDET) Ho) as (o' & Ho' & S). apply same_op_V12 in S. unfold conj_op in S. cbn [fst snd] in S. rewrite TH' in S.
      exists o'. split; [exact Ho'|]. split.
      + rewrite <- (proj1 S). apply MofZ_eq_from_action. intro x. rewrite !conj_app. unfold h, hi. rewrite !MofZ_mul, !Mapp_Mmul, (app_inv u ui _ UI), (app_inv u ui _ UI). reflexivity.
      + destruct S as [_ S]. apply (PEnd11.Vcongr_app u) in S. change (in_twelfths (ZMapp h (snd o))) with (V12 (ZMapp h (snd o))) in S. rewrite <- MofZ_V12, <- Mapp_Mmul, <- MofZ_mul in S.
        replace (ZMmul u h) with W in S; [exact S|]. apply MofZ_eq_from_action. intro x. unfold h. now rewrite !MofZ_mul, !Mapp_Mmul, (app_inv u ui _ UI).
  Qed.
End Answered.
