(** One atom per primitive cell (analyzer.rs 36-82, 164-283) *)
From Coq Require Import ZArith Reals String Ascii List Bool Lia Lra Permutation.
From Verif Require Import Num Mat Utils DataCore DataPG DataSG SymmOp PointGroup SpaceGroup Structure Reduce Analyzer RInst Spec Spec2 Spec3 RFacts
  PUtils PSymmOp PPointGroup PPointGroup2 PSpaceGroup PSpaceGroup2 PAnalyzer2 PCode PTables PIdentify PStructure PSearch PSearch2 PSearch3 PSearch4 PSearch5 PSearch6.
Import ListNotations.
Open Scope R_scope.

Definition zero_op (r : mat Z) : zop := (r, V 0 0 0)%Z.
Definition mem_rot (r : mat Z) (l : list (mat Z)) : bool := ex_if (zmat_eqb r) l.
Definition lattice_entry (hr : list (mat Z)) (ls : lattice_system) (N : Z) (sym : string) (e : lattice_system * Z * Z * list Z) : bool :=
  let '(ls', _, N', codes) := e in
  if lattice_system_eqb ls ls' then if (N' =? N)%Z then
    let l := group_ops sym codes in
    match am_get Z.eqb N SG_NUM_TO_SYMBOL with Some sym' => String.eqb sym sym' | None => false end &&
    negb (existsb (Z.eqb N) not_closed) &&
    forallb (fun o => zvec_eqb (snd o) (V 0 0 0)%Z && mem_rot (fst o) hr) l && forallb (fun r => mem_rot r (map fst l)) hr
  else false else false.
Definition no_entry (hr : list (mat Z)) (ls : lattice_system) (e : lattice_system * Z * Z * list Z) : bool :=
  let '(ls', _, N', codes) := e in
  if lattice_system_eqb ls ls' then if Nat.eqb (List.length codes) (List.length hr) then
    match entry_ops N' codes with Some l => negb (forallb (fun r => ex_if (zop_eq (zero_op r)) l) hr) | None => false end
  else true else true.
Definition lattice_check (b : bravais) : bool :=
  let hr := holo_rots b in
  match bravais_lattice_system b with
  | Ok ls => match lattice_group (bravais_to_string b) with
             | Some (N, sym) => ex_if (lattice_entry hr ls N sym) sg_entries
             | None => forallb (no_entry hr ls) sg_entries
             end
  | _ => false
  end && zclosed (map zero_op hr) && forallb small_rot hr && distinct_rots (map zero_op hr) && (Z.of_nat (List.length hr) <? 49)%Z.
Lemma lattice_checked : forallb lattice_check all_bravais = true.
Proof. vm_compute. reflexivity. Qed.
Record lattice_facts (b : bravais) (ls : lattice_system) : Prop := {
  lf_system : bravais_lattice_system b = Ok ls;
  lf_closed : zclosed (map zero_op (holo_rots b)) = true;
  lf_small : forall r, In r (holo_rots b) -> small_rot r = true;
  lf_nodup : NoDup (holo_rots b);
  lf_length : (List.length (holo_rots b) <= 48)%nat;
  lf_some : forall N sym, lattice_group (bravais_to_string b) = Some (N, sym) ->
    exists order codes, In (ls, order, N, codes) sg_entries /\ am_get Z.eqb N SG_NUM_TO_SYMBOL = Some sym /\ ~ In N not_closed /\
      (forall o, In o (group_ops sym codes) -> snd o = (V 0 0 0)%Z /\ In (fst o) (holo_rots b)) /\
      (forall r, In r (holo_rots b) -> In r (map fst (group_ops sym codes)));
  lf_none : lattice_group (bravais_to_string b) = None -> forall order N codes sym, In (ls, order, N, codes) sg_entries ->
    am_get Z.eqb N SG_NUM_TO_SYMBOL = Some sym -> List.length codes = List.length (holo_rots b) ->
    ~ forall r, In r (holo_rots b) -> exists o, In o (group_ops sym codes) /\ same_op (zero_op r) o }.
Lemma mem_rot_In r l : mem_rot r l = true -> In r l.
Proof. unfold mem_rot. rewrite ex_if_existsb, existsb_exists. intros (x & Hx & E). apply zmat_eqb_spec in E. now subst. Qed.
Lemma lattice_facts_hold b : exists ls, lattice_facts b ls.
Proof.
  pose proof (proj1 (forallb_forall _ _) lattice_checked b (all_bravais_In b)) as C. unfold lattice_check in C. cbv zeta in C.
  rewrite !andb_true_iff in C. destruct C as ((((C1 & C2) & C3) & C4) & C5).
  destruct (bravais_lattice_system b) as [ls| |] eqn:EL; try discriminate. exists ls. constructor.
  - exact EL.
  - exact C2.
  - intros r Hr. exact (proj1 (forallb_forall _ _) C3 r Hr).
  - apply distinct_rots_ok in C4. rewrite map_map in C4. cbn [zero_op fst] in C4. rewrite map_id in C4. exact C4.
  - apply Z.ltb_lt in C5. lia.
  - intros N sym EG. rewrite EG in C1. rewrite ex_if_existsb, existsb_exists in C1. destruct C1 as ([[[ls' order] N'] codes] & HI & C).
    unfold lattice_entry in C. destruct (lattice_system_eqb ls ls') eqn:E1; [|discriminate]. apply lattice_system_eqb_spec in E1. subst ls'.
    destruct (N' =? N)%Z eqn:E2; [|discriminate]. apply Z.eqb_eq in E2. subst N'. cbv zeta in C. rewrite !andb_true_iff in C. destruct C as (((C6 & C7) & C8) & C9).
    destruct (am_get Z.eqb N SG_NUM_TO_SYMBOL) as [sym'|] eqn:E3; [|discriminate]. apply String.eqb_eq in C6. subst sym'.
    exists order, codes. split; [exact HI|]. split; [reflexivity|]. split; [|split].
    + intro Q. apply negb_true_iff in C7. assert (T : existsb (Z.eqb N) not_closed = true) by (apply existsb_exists; exists N; split; [exact Q|apply Z.eqb_refl]). congruence.
    + intros o Ho. pose proof (proj1 (forallb_forall _ _) C8 o Ho) as Q. cbn beta in Q. apply andb_true_iff in Q. destruct Q as [Q1 Q2].
      apply zvec_eqb_iff in Q1. split; [exact Q1|now apply mem_rot_In].
    + intros r Hr. apply mem_rot_In. exact (proj1 (forallb_forall _ _) C9 r Hr).
  - intros EG order N codes sym HI ES HL HA. rewrite EG in C1. pose proof (proj1 (forallb_forall _ _) C1 _ HI) as Q. unfold no_entry in Q.
    rewrite (proj2 (lattice_system_eqb_spec ls ls) eq_refl), HL, Nat.eqb_refl in Q. unfold entry_ops in Q. rewrite ES in Q. apply negb_true_iff in Q.
    assert (T : forallb (fun r => ex_if (zop_eq (zero_op r)) (map (code_op (has_char "A" sym)) codes)) (holo_rots b) = true); [|congruence].
    apply forallb_forall. intros r Hr. rewrite ex_if_existsb. apply existsb_exists. destruct (HA r Hr) as (o & Ho & So). exists o. split; [exact Ho|].
    now apply same_op_eq.
Qed.

Section OneSite.
  Context {H : HashOrd} (s : @structure RNum) (dtol : R) (fuel : nat) (path : list nat) (b : bravais) (e : string) (m : vec Z).
  Hypothesis HF : (48 <= fuel)%nat.
  Hypothesis ES : species s = [e].
  Hypothesis EX : frac_coords s = [VofZ m].
  Hypothesis fine : forall k, (k < 3)%nat -> 1 / 100000000 * Vnorm (Ccol (lattice s) k) <= dtol /\ 24 * dtol <= Vnorm (Ccol (lattice s) k) /\
                                              0 < Vnorm (Ccol (lattice s) k).
  Let sites : list (vec R * string) := combine (frac_coords s) (species s).
  Notation ft := (@frac_tols_of RNum (lattice s) dtol).
  Lemma one_sites : sites = [(VofZ m, e)].
  Proof. unfold sites. now rewrite ES, EX. Qed.
  Lemma one_shift r t : exists n, Vsub (act r t (VofZ m)) (VofZ m) = Vadd t (VofZ n).
  Proof.
    exists (ZVadd (ZMapp r m) (zneg m)). unfold act. rewrite VofZ_add, VofZ_neg, <- MofZ_app.
    destruct t as [t1 t2 t3]. generalize (ZMapp r m). intro k. destruct m as [m1 m2 m3], k as [k1 k2 k3]. unfold Vadd, Vsub, Vscal, VofZ. cbn. f_equal; ring.
  Qed.
  Lemma one_exact r t : exact_operation sites r t <-> Vcongr t V0.
  Proof.
    rewrite one_sites. destruct (one_shift r t) as (n & Hn). split.
    - intro E. destruct (E (VofZ m) e (or_introl eq_refl)) as (y & [Q|[]] & (k & A)). injection Q as <-.
      exists (ZVadd k (zneg n)). rewrite VofZ_add, VofZ_neg. rewrite A in Hn. revert Hn. destruct t as [t1 t2 t3], m as [m1 m2 m3], k as [k1 k2 k3], n as [n1 n2 n3].
      unfold Vadd, Vsub, Vscal, VofZ, V0. cbn. intro Hn. injection Hn as H1 H2 H3. f_equal; lra.
    - intros (k & E) x e' [Q|[]]. injection Q as <- <-. exists (VofZ m). split; [now left|]. exists (ZVadd k n). rewrite VofZ_add.
      revert Hn. rewrite E. generalize (act r (Vadd V0 (VofZ k)) (VofZ m)). intros [a1 a2 a3]. destruct m as [m1 m2 m3], k as [k1 k2 k3], n as [n1 n2 n3].
      unfold Vadd, Vsub, VofZ, V0. cbn. intro Hn. injection Hn as H1 H2 H3. f_equal; lra.
  Qed.
  Lemma one_rigid rots : rigid (2 * dtol) (lattice s) sites rots.
  Proof.
    intros r t _ W. rewrite one_sites in *. destruct (W (VofZ m) e (or_introl eq_refl)) as (y & n & [Q|[]] & B). injection Q as <-.
    destruct (one_shift r t) as (k & Hk). exists V0, (ZVadd k n). split.
    - change [(VofZ m, e)] with [(VofZ m, e)]. rewrite <- one_sites. apply one_exact. exists (V 0 0 0)%Z. unfold Vadd, VofZ, V0. cbn. f_equal; ring.
    - rewrite Hk in B. replace (Vadd (Vsub t V0) (VofZ (ZVadd k n))) with (Vadd (Vadd t (VofZ k)) (VofZ n)); [exact B|].
      rewrite VofZ_add. destruct t, k, n. unfold Vadd, Vsub, VofZ, V0. cbn. f_equal; ring.
  Qed.
  Lemma one_apart d : sites_apart d (lattice s) sites.
  Proof.
    intros i j x y e' n N A B. rewrite one_sites in *. destruct i as [|i]; [|destruct i; discriminate]. destruct j as [|j]; [lia|destruct j; discriminate].
  Qed.
  Lemma one_base : List.length (frac_coords s) = List.length (species s) /\ (0 < Z.of_nat (List.length (species s)) <= 65535)%Z /\ grouped (species s).
  Proof.
    rewrite ES, EX. split; [reflexivity|]. split; [cbn; lia|]. intros i j k x Hij A B. destruct i as [|i]; [|destruct i; discriminate].
    destruct k as [|k]; [|destruct k; discriminate]. assert (j = 0)%nat by lia. now subst.
  Qed.
  Lemma one_found ls : lattice_facts b ls -> exists ops, @get_primitive_space_group_ops RNum H fuel path dtol s b = Ok ops /\ @from_generators RNum fuel ops ft = Ok ops /\
    List.length ops = List.length (holo_rots b) /\ NoDup (map (@rotation RNum) ops) /\
    (forall op, In op ops -> In (rotation op) (holo_rots b) /\ nanos (1 / 1000000000) (translation op) V0) /\
    (forall r, In r (holo_rots b) -> exists op, In op ops /\ rotation op = r /\ nanos (1 / 1000000000) (translation op) V0).
  Proof.
    intro F. destruct one_base as (WF & BIG & GR).
    assert (E0 : V12 (V 0 0 0)%Z = V0) by (unfold V12, V0; cbn; f_equal; lra).
    destruct (standard_found s dtol fuel path b HF WF BIG GR fine (one_apart _) (one_rigid _) (map zero_op (holo_rots b))) as (ops & E & EF & EL & ND & FWD & BWD).
    - rewrite map_map. cbn [zero_op fst]. rewrite map_id. exact (lf_nodup _ _ F).
    - exact (lf_closed _ _ F).
    - intros c Hc. apply in_map_iff in Hc. destruct Hc as (r & <- & Hr). exact (lf_small _ _ F r Hr).
    - intros o Ho. apply in_map_iff in Ho. destruct Ho as (r & <- & Hr). split; [exact Hr|]. apply one_exact. cbn [zero_op snd].
      change (in_twelfths (V 0 0 0)%Z) with (V12 (V 0 0 0)%Z). rewrite E0. exists (V 0 0 0)%Z. unfold Vadd, VofZ, V0. cbn. f_equal; ring.
    - intros r t Hr Q. apply one_exact in Q. exists (zero_op r). split; [now apply in_map|]. split; [reflexivity|]. cbn [zero_op snd].
      change (in_twelfths (V 0 0 0)%Z) with (V12 (V 0 0 0)%Z). now rewrite E0.
    - exists ops. split; [exact E|]. split; [exact EF|]. split; [rewrite EL; apply map_length|]. split; [exact ND|]. split.
      + intros op Hop. destruct (FWD op Hop) as (o & Ho & Eo & No). apply in_map_iff in Ho. destruct Ho as (r & <- & Hr). cbn [zero_op fst snd] in *. rewrite Eo.
        rewrite E0 in No. auto.
      + intros r Hr. destruct (BWD (zero_op r) (in_map _ _ _ Hr)) as (op & Hop & Eo & No). cbn [zero_op fst snd] in *. rewrite E0 in No. eauto.
  Qed.
  Lemma one_identified ls N sym : lattice_facts b ls -> lattice_group (bravais_to_string b) = Some (N, sym) ->
    exists ops, @get_primitive_space_group_ops RNum H fuel path dtol s b = Ok ops /\ @from_generators RNum fuel ops ft = Ok ops /\
      NoDup (map (@rotation RNum) ops) /\ (forall path', @identify_space_group RNum H path' ops ls ft = Ok (Some (N, sym))).
  Proof.
    intros F EG. destruct one_base as (WF & BIG & GR). destruct (lf_some _ _ F _ _ EG) as (order & codes & HT & EN & NC & Q1 & Q2).
    assert (E0 : V12 (V 0 0 0)%Z = V0) by (unfold V12, V0; cbn; f_equal; lra).
    destruct (standard_identified s dtol fuel path b HF WF BIG GR fine (one_apart _) (one_rigid _) ls order N codes sym HT EN NC) as (ops & E & EF & EL & ND & EI & _).
    - intros o Ho. destruct (Q1 o Ho) as [Z1 Z2]. split; [exact Z2|]. apply one_exact. rewrite Z1.
      change (in_twelfths (V 0 0 0)%Z) with (V12 (V 0 0 0)%Z). rewrite E0. exists (V 0 0 0)%Z. unfold Vadd, VofZ, V0. cbn. f_equal; ring.
    - intros r t Hr Q. apply one_exact in Q. specialize (Q2 r Hr). apply in_map_iff in Q2. destruct Q2 as (o & <- & Ho). exists o. split; [exact Ho|].
      split; [reflexivity|]. destruct (Q1 o Ho) as [Z1 _]. rewrite Z1. change (in_twelfths (V 0 0 0)%Z) with (V12 (V 0 0 0)%Z). now rewrite E0.
    - eauto 10.
  Qed.
  Lemma one_unidentified ls : lattice_facts b ls -> lattice_group (bravais_to_string b) = None ->
    exists ops, @get_primitive_space_group_ops RNum H fuel path dtol s b = Ok ops /\ @from_generators RNum fuel ops ft = Ok ops /\
      (forall path' N sym, @identify_space_group RNum H path' ops ls ft <> Ok (Some (N, sym))).
  Proof.
    intros F EG. destruct (one_found ls F) as (ops & E & EF & EL & ND & FWD & BWD). exists ops. split; [exact E|]. split; [exact EF|].
    intros path' N sym EI. destruct (identify_some _ _ _ _ _ _ EI) as (buckets & groups & codes & B1 & B2 & B3 & B4 & B5).
    apply am_get_in in B1. destruct B1 as (ls' & E1 & B1). apply lattice_system_eqb_spec in E1. subst ls'.
    apply am_get_in in B2. destruct B2 as (order & E2 & B2). apply Z.eqb_eq in E2. subst order.
    assert (HT : In (ls, (Z.of_nat (List.length ops) mod 256)%Z, N, codes) sg_entries) by (apply sg_entries_In; eauto).
    destruct (entry_facts _ _ _ _ HT) as (sym' & ES' & G & L1 & BB & _). rewrite B4 in ES'. injection ES' as <-. fold (group_ops sym codes) in G.
    assert (B6 : forall op, In op ops -> exists o, In o (group_ops sym codes) /\ rotation op = fst o /\ near3 ft (translation op) (in_twelfths (snd o))).
    { intros op Hop. destruct (B5 op Hop) as (code & c & Hc & EC & EA). assert (0 <= code)%Z by (apply (codes_range _ _ _ _ _ _ code B1 B2 B3 Hc)).
      rewrite candidate_code in EC by assumption. injection EC as <-.
      apply is_approx_eq_spec in EA; [|apply tols_ok_24; [exact (ft_id s dtol fine 0 ltac:(lia))|exact (ft_id s dtol fine 1 ltac:(lia))|exact (ft_id s dtol fine 2 ltac:(lia))]].
      exists (code_op (has_char "A" sym) code). split; [now apply in_map|exact EA]. }
    assert (HL : List.length codes = List.length (holo_rots b)).
    { pose proof (lf_length _ _ F). rewrite Z.mod_small in L1 by lia. lia. }
    refine (lf_none _ _ F EG _ N codes sym HT B4 HL _). intros r Hr. destruct (BWD r Hr) as (op & Hop & Eo & No). destruct (B6 op Hop) as (o & Ho & Eo' & Nr).
    exists o. split; [exact Ho|]. split; [cbn [zero_op fst]; congruence|].
    refine (near3_both ft _ _ _ (translation op) _ _ _ Nr); [exact (ft_id s dtol fine 0 ltac:(lia))|exact (ft_id s dtol fine 1 ltac:(lia))|exact (ft_id s dtol fine 2 ltac:(lia))|].
    cbn [zero_op snd]. change (in_twelfths (V 0 0 0)%Z) with (V12 (V 0 0 0)%Z). replace (V12 (V 0 0 0)%Z) with V0 by (unfold V12, V0; cbn; f_equal; lra).
    apply (nanos_near (1 / 1000000000)); [exact (ft_nano s dtol fine 0 ltac:(lia))|exact (ft_nano s dtol fine 1 ltac:(lia))|exact (ft_nano s dtol fine 2 ltac:(lia))|exact No].
  Qed.
End OneSite.
