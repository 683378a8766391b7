(** One-atom crystals with a lattice of each character: the whole run *)
From Coq Require Import ZArith Reals String List Bool Lia Lra Psatz Permutation.
From Flocq Require Import Core.Raux.
From Verif Require Import Num Mat Utils DataCore SymmOp SpaceGroup Structure Reduce Analyzer RInst Spec Spec2 Spec3 Spec5 Spec6 Spec9 RFacts PUtils PSymmOp PStructure PNiggli PAnalyzer PAnalyzer2
  PSearch4 PSearch6 PPrim5 Prop5 PEnd2 PNiggli2 PNiggli3 PEnd8 PEnd9 PEnd10 PTables PChar.
Import ListNotations.
Open Scope R_scope.

Definition as6 (g : Z * Z * Z * Z * Z * Z) : z6 := let '(a, b, c, d, e, f) := g in Z6 a b c d e f.
Definition nodup_mats (l : list (mat Z)) : bool := (fix go l := match l with [] => true | x :: t => if existsb (zmat_eqb x) t then false else go t end) l.
Definition metric_check (row : Z * string * (Z * Z * Z * Z * Z * Z)) : bool :=
  let '(n, sym, g6) := row in let g := as6 g6 in
  match am_get Z.eqb n LATTICE_CHAR_TO_BRAVAIS with
  | Some b => if String.eqb (bravais_to_string b) sym then
      if family_check g 1 [] g n b 1 100 2 then
        let auts := isometries g g 2 in
        if (List.length auts =? holohedry_order sym)%nat then if (List.length (holo_rots b) =? holohedry_order sym)%nat then if nodup_mats auts then
          if boxb g (za g) 2 then if boxb g (zb g) 2 then if boxb g (zc g) 2 then if (ztr g <=? 39)%Z then if (zdet6 g <=? 1000000)%Z then (0 <? zdet6 g)%Z else false else false else false else false else false else false else false else false
      else false else false
  | None => false
  end.
Lemma metrics_checked : forallb metric_check character_metrics = true.
Proof. vm_compute. reflexivity. Qed.
Lemma nodup_mats_spec l : nodup_mats l = true -> NoDup l.
Proof.
  induction l as [|x l IH]; intro H; [constructor|]. cbn in H. destruct (existsb (zmat_eqb x) l) eqn:E; [discriminate|]. constructor; [|now apply IH].
  intro Hx. rewrite <- not_true_iff_false in E. apply E. apply existsb_exists. exists x. split; [exact Hx|now apply zmat_eqb_spec].
Qed.
Lemma metric_character n sym g : In (n, sym, g) character_metrics -> forall u eps, 0 < u -> 0 < eps <= u / 10 ->
  @character_of RNum eps (u * IZR (za (as6 g))) (u * IZR (zb (as6 g))) (u * IZR (zc (as6 g))) (u * IZR (zd (as6 g))) (u * IZR (ze (as6 g))) (u * IZR (zf (as6 g))) = Ok n.
Proof.
  intros H u eps Hu He. unfold character_metrics in H. cbn [In] in H.
  repeat match type of H with _ \/ _ => destruct H as [H|H] end; [..|contradiction]; injection H as <- <- <-; cbn [as6 za zb zc zd ze zf];
    [exact (ch01 u eps Hu He)|exact (ch02 u eps Hu He)|exact (ch03 u eps Hu He)|exact (ch04 u eps Hu He)|exact (ch05 u eps Hu He)|exact (ch06 u eps Hu He)|exact (ch07 u eps Hu He)|exact (ch08 u eps Hu He)|exact (ch09 u eps Hu He)|exact (ch10 u eps Hu He)|exact (ch11 u eps Hu He)|exact (ch12 u eps Hu He)|exact (ch13 u eps Hu He)|exact (ch14 u eps Hu He)|exact (ch15 u eps Hu He)|exact (ch16 u eps Hu He)|exact (ch17 u eps Hu He)|exact (ch18 u eps Hu He)|exact (ch19 u eps Hu He)|exact (ch20 u eps Hu He)|exact (ch21 u eps Hu He)|exact (ch22 u eps Hu He)|exact (ch23 u eps Hu He)|exact (ch24 u eps Hu He)|exact (ch25 u eps Hu He)|exact (ch26 u eps Hu He)|exact (ch27 u eps Hu He)|exact (ch28 u eps Hu He)|exact (ch29 u eps Hu He)|exact (ch30 u eps Hu He)|exact (ch31 u eps Hu He)|exact (ch32 u eps Hu He)|exact (ch33 u eps Hu He)|exact (ch34 u eps Hu He)|exact (ch35 u eps Hu He)|exact (ch36 u eps Hu He)|exact (ch37 u eps Hu He)|exact (ch38 u eps Hu He)|exact (ch39 u eps Hu He)|exact (ch40 u eps Hu He)|exact (ch41 u eps Hu He)|exact (ch42 u eps Hu He)|exact (ch43 u eps Hu He)|exact (ch44 u eps Hu He)].
Qed.
Lemma metric_as6 u g L : metric_is u g L <-> gram L = zmet u (as6 g).
Proof. destruct g as [[[[[a b] c] d] e] f]. reflexivity. Qed.
Lemma metric_facts n sym g : In (n, sym, g) character_metrics -> exists b, am_get Z.eqb n LATTICE_CHAR_TO_BRAVAIS = Some b /\ bravais_to_string b = sym /\ family_check (as6 g) 1 [] (as6 g) n b 1 100 2 = true /\
  List.length (isometries (as6 g) (as6 g) 2) = holohedry_order sym /\ List.length (holo_rots b) = holohedry_order sym /\ NoDup (isometries (as6 g) (as6 g) 2) /\
  (forall r, kform (as6 g) r = as6 g <-> In r (isometries (as6 g) (as6 g) 2)) /\ (ztr (as6 g) <= 39)%Z /\ (0 < zdet6 (as6 g) <= 1000000)%Z.
Proof.
  intro H. pose proof (proj1 (forallb_forall _ _) metrics_checked _ H) as Q. unfold metric_check in Q. cbv zeta in Q.
  destruct (am_get Z.eqb n LATTICE_CHAR_TO_BRAVAIS) as [b|]; [|discriminate]. exists b. split; [reflexivity|].
  destruct (String.eqb (bravais_to_string b) sym) eqn:E1; [|discriminate]. destruct (family_check (as6 g) 1 [] (as6 g) n b 1 100 2) eqn:E2; [|discriminate].
  destruct (List.length (isometries (as6 g) (as6 g) 2) =? holohedry_order sym)%nat eqn:E3; [|discriminate]. destruct (List.length (holo_rots b) =? holohedry_order sym)%nat eqn:E4; [|discriminate].
  destruct (nodup_mats (isometries (as6 g) (as6 g) 2)) eqn:E5; [|discriminate]. destruct (boxb (as6 g) (za (as6 g)) 2) eqn:E6; [|discriminate]. destruct (boxb (as6 g) (zb (as6 g)) 2) eqn:E7; [|discriminate].
  destruct (boxb (as6 g) (zc (as6 g)) 2) eqn:E8; [|discriminate]. destruct (ztr (as6 g) <=? 39)%Z eqn:E9; [|discriminate]. destruct (zdet6 (as6 g) <=? 1000000)%Z eqn:E10; [|discriminate].
  apply String.eqb_eq in E1. apply Nat.eqb_eq in E3, E4. apply Z.leb_le in E9, E10. apply Z.ltb_lt in Q. split; [exact E1|]. split; [reflexivity|]. split; [exact E3|]. split; [exact E4|].
  split; [now apply nodup_mats_spec|]. split; [|split; [exact E9|split; [exact Q|exact E10]]]. intro r. split; [now apply isometries_in|apply isometries_out].
Qed.
Lemma metric_isometry u g L r : 0 < u -> gram L = zmet u g -> lattice_isometry L r <-> kform g r = g.
Proof.
  intros Hu E. unfold lattice_isometry. fold (gram (Mmul L (MofZ r))). fold (gram L). rewrite (gram_mul u g L r E), E. split; [now apply zmet_inj|now intros ->].
Qed.
Lemma metric_character_found n sym g u (s : @structure RNum) : In (n, sym, g) character_metrics -> 1 <= u -> metric_is u g (lattice s) -> 0 < Mdet (lattice s) ->
  @get_lattice_character RNum s (1 / 100000) = Ok n.
Proof.
  intros H Hu EG HD. destruct (metric_facts n sym g H) as (b & _ & _ & _ & _ & _ & _ & _ & _ & HZ). apply metric_as6 in EG.
  pose proof (root_unit u _ (Mdet (lattice s)) ltac:(lra) HD (det_val u _ _ EG) (proj2 HZ)) as RU.
  assert (S1 : sqrt u <= u). { assert (SS : sqrt u * sqrt u = u) by (apply sqrt_sqrt; lra). assert (1 <= sqrt u) by (rewrite <- sqrt_1; apply sqrt_le_1_alt; lra). nra. }
  rewrite lattice_character_R by exact HD. cbv zeta. rewrite EG. unfold zmet. cbn [m11 m12 m13 m21 m22 m23 m31 m32 m33].
  apply (metric_character n sym g H); lra.
Qed.
Lemma metric_run (P : @Pinv RNum) (HO : HashOrd) fuel path (dtol u : R) (s : @structure RNum) (e : string) n sym g (k : vec Z) num gsym :
  pinv_inverts P -> (48 <= fuel)%nat -> 1 <= u <= 10000 -> 1 / 100000 <= dtol <= 1 / 40 -> In (n, sym, g) character_metrics -> metric_is u g (lattice s) ->
  frac_coords s = [VofZ k] -> species s = [e] -> lattice_group sym = Some (num, gsym) ->
  exists ops, @get_space_group_info RNum P HO fuel path dtol s = Ok (num, gsym, ops) /\ List.length ops = holohedry_order sym /\
    (forall op, In op ops -> lattice_isometry (lattice s) (rotation op) /\ modulo_within (1 / 100000000) (translation op) (V 0 0 0)) /\
    (forall r, lattice_isometry (lattice s) r -> exists op, In op ops /\ rotation op = r).
Proof.
  intros HP HF Hu Hd H EG EF ES LG. destruct (metric_facts n sym g H) as (b & EB & EBS & FC & LI & LH & _ & _ & HT & HZ). apply metric_as6 in EG. subst sym.
  pose proof (IZR_le _ _ HT) as HTR. pose proof (IZR_lt _ _ (proj1 HZ)) as HZR.
  destruct (family_run P HO fuel path dtol s 1 [] (as6 g) u e (as6 g) n b 1 100 2 num gsym) as (ops & O1 & O2 & O3 & O4).
  - exact HP.
  - exact HF.
  - lra.
  - rewrite !Rmult_1_l. exact EG.
  - intro X. pose proof (det_val _ _ _ EG) as Q. rewrite X in Q. assert (0 < u * u * u * IZR (zdet6 (as6 g))) by (repeat apply Rmult_lt_0_compat; lra). lra.
  - lra.
  - assert (dtol * dtol <= 1 / 40 * (1 / 40)) by (apply Rmult_le_compat; lra). lra.
  - assert (IZR (ztr (as6 g)) * dtol <= 39 * (1 / 40)); [|lra]. destruct (Rle_or_lt 0 (IZR (ztr (as6 g)))) as [Q|Q]; [apply Rmult_le_compat; lra|]. assert (IZR (ztr (as6 g)) * dtol <= 0) by (nra). lra.
  - assert (dtol * dtol <= 1 / 40 * (1 / 40)) by (apply Rmult_le_compat; lra). assert (1 * 1 <= u * u) by (apply Rmult_le_compat; lra). assert (1 * 1 <= u * u * u) by (apply Rmult_le_compat; lra). lra.
  - assert (1 / 100000 * (1 / 100000) <= dtol * dtol) by (apply Rmult_le_compat; lra). lra.
  - exists [o3]. split; [apply Permutation_refl|]. rewrite EF, ES. split; [|reflexivity]. constructor; [|constructor]. exists k. unfold fracN, o3, Vadd, VofZ. cbn [vx vy vz]. apply (@vec_ext R); cbn [vx vy vz]; lra.
  - exact FC.
  - intros eps He. apply (metric_character n _ g H); lra.
  - exact LG.
  - exists ops. split; [exact O1|]. split; [|split].
    + rewrite O2, LH. cbn. lia.
    + intros op Hop. destruct (O3 op Hop) as (K1 & h & Hh & K2). split; [apply (metric_isometry u (as6 g)); [lra|exact EG|exact K1]|]. destruct Hh as [<-|[]].
      replace (fracN 1 o3) with (V 0 0 0) in K2; [exact K2|]. unfold fracN, o3. cbn [vx vy vz]. apply (@vec_ext R); cbn [vx vy vz]; lra.
    + intros r Hr. apply (metric_isometry u (as6 g)) in Hr; [|lra|exact EG]. destruct (O4 r o3 Hr (or_introl eq_refl)) as (op & Hop & E & _). exists op. split; [exact Hop|exact E].
Qed.
