(** Termination of Reducer::niggli_reduce (reduce.rs 223-380) on metrics with a common unit: the steps as integer arithmetic. *)
From Coq Require Import ZArith Reals String List Bool Lia Lra Psatz.
From Flocq Require Import Core.Raux.
From Verif Require Import Num Mat Utils Structure Reduce RInst Spec RFacts PUtils PStructure PNiggli.
Import ListNotations.
Open Scope R_scope.

(** ** The steps over the integers *)
Record z6 := Z6 { za : Z; zb : Z; zc : Z; zd : Z; ze : Z; zf : Z }.
Definition ztr (g : z6) : Z := (za g + zb g + zc g)%Z.
Definition zpos (g : z6) : Prop := (0 < za g /\ 0 < zb g /\ 0 < zc g)%Z.
Section Steps.
  Local Open Scope Z_scope.
  Definition zc1 (g : z6) : Prop := zb g < za g \/ (za g = zb g /\ Z.abs (ze g) < Z.abs (zd g)).
  Definition zc2 (g : z6) : Prop := zc g < zb g \/ (zb g = zc g /\ Z.abs (zf g) < Z.abs (ze g)).
  Definition swap12 (g : z6) : z6 := Z6 (zb g) (za g) (zc g) (ze g) (zd g) (zf g).
  Definition swap23 (g : z6) : z6 := Z6 (za g) (zc g) (zb g) (zd g) (zf g) (ze g).
  Definition zpre (g g1 : z6) : Prop := (zc1 g /\ g1 = swap12 g) \/ (~ zc1 g /\ g1 = g).
  Definition zmid (g g2 : z6) : Prop :=
    (exists i j k, (i = 1 \/ i = -1) /\ (j = 1 \/ j = -1) /\ (k = 1 \/ k = -1) /\ i * j * k = 1 /\
       g2 = Z6 (za g) (zb g) (zc g) (i * zd g) (j * ze g) (k * zf g)) /\
    ((0 < zd g2 /\ 0 < ze g2 /\ 0 < zf g2) \/ (zd g2 <= 0 /\ ze g2 <= 0 /\ zf g2 <= 0)).
  Definition zsg (x : Z) : Z := if x <? 0 then -1 else 1.
  Definition zc5 (g : z6) : Prop := zb g < 2 * Z.abs (zd g) \/ (2 * zd g = zb g /\ 2 * ze g < zf g) \/ (2 * zd g = - zb g /\ zf g < 0).
  Definition zc6 (g : z6) : Prop := za g < 2 * Z.abs (ze g) \/ (2 * ze g = za g /\ 2 * zd g < zf g) \/ (2 * ze g = - za g /\ zf g < 0).
  Definition zc7 (g : z6) : Prop := za g < 2 * Z.abs (zf g) \/ (2 * zf g = za g /\ 2 * zd g < ze g) \/ (2 * zf g = - za g /\ ze g < 0).
  Definition zsum (g : z6) : Z := 2 * zd g + 2 * ze g + 2 * zf g + za g + zb g.
  Definition zc8 (g : z6) : Prop := zsum g < 0 \/ (zsum g = 0 /\ 0 < za g + 2 * ze g + zf g).
  Definition m5 (g : z6) (s : Z) : z6 := Z6 (za g) (zb g) (zc g - 2 * s * zd g + zb g) (zd g - s * zb g) (ze g - s * zf g) (zf g).
  Definition m6 (g : z6) (s : Z) : z6 := Z6 (za g) (zb g) (zc g - 2 * s * ze g + za g) (zd g - s * zf g) (ze g - s * za g) (zf g).
  Definition m7 (g : z6) (s : Z) : z6 := Z6 (za g) (zb g - 2 * s * zf g + za g) (zc g) (zd g - s * ze g) (ze g) (zf g - s * za g).
  Definition m8 (g : z6) : z6 := Z6 (za g) (zb g) (zsum g + zc g) (zd g + zb g + zf g) (ze g + za g + zf g) (zf g).
  Definition zpost (g : z6) (c : bool) (g' : z6) : Prop :=
    (zc5 g /\ c = true /\ g' = m5 g (zsg (zd g))) \/
    (~ zc5 g /\ zc6 g /\ c = true /\ g' = m6 g (zsg (ze g))) \/
    (~ zc5 g /\ ~ zc6 g /\ zc7 g /\ c = true /\ g' = m7 g (zsg (zf g))) \/
    (~ zc5 g /\ ~ zc6 g /\ ~ zc7 g /\ zc8 g /\ c = true /\ g' = m8 g) \/
    (~ zc5 g /\ ~ zc6 g /\ ~ zc7 g /\ ~ zc8 g /\ c = false /\ g' = g).
  (** an iteration that ends with A2, and one that does not *)
  Definition zsort (g g' : z6) : Prop := exists g1, zpre g g1 /\ zc2 g1 /\ g' = swap23 g1.
  Definition zmain (g : z6) (c : bool) (g' : z6) : Prop := exists g1 g2, zpre g g1 /\ ~ zc2 g1 /\ zmid g1 g2 /\ zpost g2 c g'.

  Lemma sort_once g g' g'' : zsort g g' -> zsort g' g'' -> False.
  Proof.
    unfold zsort, zpre, zc1, zc2, swap12, swap23. destruct g as [a b c d e f].
    intros (g1 & P1 & C1 & ->) (g2 & P2 & C2 & ->). cbn [za zb zc zd ze zf] in *.
    destruct P1 as [[P1 ->]|[P1 ->]]; cbn [za zb zc zd ze zf] in *; destruct P2 as [[P2 ->]|[P2 ->]]; cbn [za zb zc zd ze zf] in *; lia.
  Qed.
  Lemma sort_trace g g' : zsort g g' -> ztr g' = ztr g.
  Proof. intros (g1 & [[_ ->]|[_ ->]] & _ & ->); unfold ztr; cbn; lia. Qed.
  Lemma pre_trace g g' : zpre g g' -> ztr g' = ztr g.
  Proof. intros [[_ ->]|[_ ->]]; unfold ztr; cbn; lia. Qed.

  (** sorted and signed *)
  Definition znorm (g : z6) : Prop := ~ zc1 g /\ ~ zc2 g /\ ((0 < zd g /\ 0 < ze g /\ 0 < zf g) \/ (zd g <= 0 /\ ze g <= 0 /\ zf g <= 0)).
  Lemma mid_norm g g1 g2 : zpre g g1 -> ~ zc2 g1 -> zmid g1 g2 -> znorm g2 /\ ztr g2 = ztr g.
  Proof.
    intros P C ((i & j & k & Hi & Hj & Hk & _ & ->) & S). pose proof (pre_trace g g1 P) as T. split; [|rewrite <- T; reflexivity].
    assert (N : ~ zc1 g1).
    { destruct g as [a b c d e f]. unfold zpre, zc1, swap12 in *. destruct P as [[P ->]|[P ->]]; cbn [za zb zc zd ze zf] in *; lia. }
    destruct g1 as [a b c d e f]. unfold znorm, zc1, zc2 in *. cbn [za zb zc zd ze zf] in *.
    destruct Hi as [-> | ->], Hj as [-> | ->], Hk as [-> | ->]; repeat split; try lia.
  Qed.
  (** from a sorted and signed state no step raises the trace *)
  Ltac unf := unfold zpost, zc5, zc6, zc7, zc8, m5, m6, m7, m8, zsum, zsg, ztr in *; cbn [za zb zc zd ze zf] in *.
  Lemma post_trace g c g' : zpos g -> znorm g -> zpost g c g' -> ztr g' <= ztr g.
  Proof.
    destruct g as [A B C D E F]. unfold zpos, znorm, zc1, zc2. intros Hp (N1 & N2 & S) H. unf.
    destruct H as [(K & _ & ->)|[(_ & K & _ & ->)|[(_ & _ & K & _ & ->)|[(_ & _ & _ & K & _ & ->)|(_ & _ & _ & _ & _ & ->)]]]]; cbn [za zb zc zd ze zf];
      try lia; match goal with |- context [?x <? 0] => destruct (Z.ltb_spec x 0) end; lia.
  Qed.
  (** a step that keeps the trace *)
  Inductive tie (g : z6) : z6 -> Prop :=
  | tie5p : 0 < zd g -> 0 < ze g -> 0 < zf g -> 2 * zd g = zb g -> 2 * ze g < zf g -> tie g (Z6 (za g) (zb g) (zc g) (- zd g) (ze g - zf g) (zf g))
  | tie5n : zd g <= 0 -> ze g <= 0 -> zf g < 0 -> 2 * zd g = - zb g -> tie g (Z6 (za g) (zb g) (zc g) (- zd g) (ze g + zf g) (zf g))
  | tie6p : ~ zc5 g -> 0 < zd g -> 0 < ze g -> 0 < zf g -> 2 * ze g = za g -> 2 * zd g < zf g -> tie g (Z6 (za g) (zb g) (zc g) (zd g - zf g) (- ze g) (zf g))
  | tie6n : ~ zc5 g -> zd g <= 0 -> ze g <= 0 -> zf g < 0 -> 2 * ze g = - za g -> tie g (Z6 (za g) (zb g) (zc g) (zd g + zf g) (- ze g) (zf g))
  | tie7p : ~ zc5 g -> ~ zc6 g -> 0 < zd g -> 0 < ze g -> 0 < zf g -> 2 * zf g = za g -> 2 * zd g < ze g -> tie g (Z6 (za g) (zb g) (zc g) (zd g - ze g) (ze g) (- zf g))
  | tie7n : ~ zc5 g -> ~ zc6 g -> zd g <= 0 -> ze g < 0 -> zf g <= 0 -> 2 * zf g = - za g -> tie g (Z6 (za g) (zb g) (zc g) (zd g + ze g) (ze g) (- zf g))
  | tie8 : ~ zc5 g -> ~ zc6 g -> ~ zc7 g -> zd g <= 0 -> ze g <= 0 -> zf g <= 0 -> zsum g = 0 -> 0 < za g + 2 * ze g + zf g ->
      tie g (Z6 (za g) (zb g) (zc g) (zd g + zb g + zf g) (ze g + za g + zf g) (zf g)).
  Definition bounded (g : z6) : Prop := 2 * Z.abs (zd g) <= zb g /\ 2 * Z.abs (ze g) <= za g /\ 2 * Z.abs (zf g) <= za g /\
    ~ (2 * - zd g = zb g /\ 0 < - zf g) /\ ~ (2 * - ze g = za g /\ 0 < - zf g) /\ ~ (2 * - zf g = za g /\ 0 < - ze g).
  Lemma z6_ext a b c d e f a' b' c' d' e' f' : a = a' -> b = b' -> c = c' -> d = d' -> e = e' -> f = f' -> Z6 a b c d e f = Z6 a' b' c' d' e' f'.
  Proof. now intros -> -> -> -> -> ->. Qed.
  Lemma tie_eq g g1 g2 : tie g g1 -> g1 = g2 -> tie g g2.
  Proof. now intros H <-. Qed.
  Ltac unf1 := unfold zc5, zc6, zc7, zc8, zsum, zsg, ztr in *; cbn [za zb zc zd ze zf] in *.
  Lemma post_tie g g' : zpos g -> znorm g -> zpost g true g' -> ztr g' = ztr g -> tie g g'.
  Proof.
    intros Hp (_ & _ & S) H Ht.
    destruct H as [(K & _ & ->)|[(K5 & K & _ & ->)|[(K5 & K6 & K & _ & ->)|[(K5 & K6 & K7 & K & _ & ->)|(_ & _ & _ & _ & K & ->)]]]]; [..|discriminate K];
      destruct g as [A B C D E F]; unfold zpos in Hp; cbn [za zb zc zd ze zf] in *.
    - unfold m5, zsg, ztr, zc5 in *. cbn [za zb zc zd ze zf] in *. destruct (Z.ltb_spec D 0).
      + assert (2 * D = - B) by lia. apply (tie_eq _ (Z6 A B C (- D) (E + F) F)); [apply (tie5n (Z6 A B C D E F)); cbn [za zb zc zd ze zf]; lia|apply z6_ext; lia].
      + assert (2 * D = B) by lia. apply (tie_eq _ (Z6 A B C (- D) (E - F) F)); [apply (tie5p (Z6 A B C D E F)); cbn [za zb zc zd ze zf]; lia|apply z6_ext; lia].
    - unfold m6, zsg, ztr, zc6 in *. cbn [za zb zc zd ze zf] in *. destruct (Z.ltb_spec E 0).
      + assert (2 * E = - A) by lia. apply (tie_eq _ (Z6 A B C (D + F) (- E) F)); [apply (tie6n (Z6 A B C D E F)); [exact K5|..]; clear K5; cbn [za zb zc zd ze zf]; lia|apply z6_ext; lia].
      + assert (2 * E = A) by lia. apply (tie_eq _ (Z6 A B C (D - F) (- E) F)); [apply (tie6p (Z6 A B C D E F)); [exact K5|..]; clear K5; cbn [za zb zc zd ze zf]; lia|apply z6_ext; lia].
    - unfold m7, zsg, ztr, zc7 in *. cbn [za zb zc zd ze zf] in *. destruct (Z.ltb_spec F 0).
      + assert (2 * F = - A) by lia. apply (tie_eq _ (Z6 A B C (D + E) E (- F))); [apply (tie7n (Z6 A B C D E F)); [exact K5|exact K6|..]; clear K5 K6; cbn [za zb zc zd ze zf]; lia|apply z6_ext; lia].
      + assert (2 * F = A) by lia. apply (tie_eq _ (Z6 A B C (D - E) E (- F))); [apply (tie7p (Z6 A B C D E F)); [exact K5|exact K6|..]; clear K5 K6; cbn [za zb zc zd ze zf]; lia|apply z6_ext; lia].
    - unfold m8, ztr, zc8, zsum in *. cbn [za zb zc zd ze zf] in *.
      apply (tie_eq _ (Z6 A B C (D + B + F) (E + A + F) F)); [apply (tie8 (Z6 A B C D E F)); [exact K5|exact K6|exact K7|..]; clear K5 K6 K7; unfold zsum; cbn [za zb zc zd ze zf]; lia|apply z6_ext; lia].
  Qed.
  (** the sign step on abstract signs *)
  Definition sgI (g : z6) : Prop :=
    (0 < zd g /\ 0 < ze g /\ 0 < zf g) \/ (0 < zd g /\ ze g < 0 /\ zf g < 0) \/ (zd g < 0 /\ 0 < ze g /\ zf g < 0) \/ (zd g < 0 /\ ze g < 0 /\ 0 < zf g).
  Definition absI (g : z6) : z6 := Z6 (za g) (zb g) (zc g) (Z.abs (zd g)) (Z.abs (ze g)) (Z.abs (zf g)).
  Definition absII (g : z6) : z6 := Z6 (za g) (zb g) (zc g) (- Z.abs (zd g)) (- Z.abs (ze g)) (- Z.abs (zf g)).
  Lemma mid_sgI g N : sgI g -> zmid g N -> N = absI g.
  Proof.
    destruct g as [A B C D E F]. unfold sgI, absI. cbn [za zb zc zd ze zf]. intros HS ((i & j & k & Hi & Hj & Hk & Hp & ->) & S). cbn [za zb zc zd ze zf] in *.
    apply z6_ext; auto; destruct Hi as [-> | ->], Hj as [-> | ->], Hk as [-> | ->]; lia.
  Qed.
  Definition sgII (g : z6) : Prop := zd g = 0 \/ ze g = 0 \/ zf g = 0 \/ (0 < zd g /\ 0 < ze g /\ zf g < 0) \/ (0 < zd g /\ ze g < 0 /\ 0 < zf g) \/
    (zd g < 0 /\ 0 < ze g /\ 0 < zf g) \/ (zd g < 0 /\ ze g < 0 /\ zf g < 0).
  Lemma mid_sgII g N : sgII g -> zmid g N -> N = absII g.
  Proof.
    destruct g as [A B C D E F]. unfold sgII, absII. cbn [za zb zc zd ze zf]. intros HS ((i & j & k & Hi & Hj & Hk & Hp & ->) & S). cbn [za zb zc zd ze zf] in *.
    apply z6_ext; auto; destruct Hi as [-> | ->], Hj as [-> | ->], Hk as [-> | ->]; lia.
  Qed.
  Lemma sgI_swap12 g : sgI g -> sgI (swap12 g). Proof. unfold sgI, swap12. cbn [za zb zc zd ze zf]. tauto. Qed.
  Lemma sgI_swap23 g : sgI g -> sgI (swap23 g). Proof. unfold sgI, swap23. cbn [za zb zc zd ze zf]. tauto. Qed.
  Lemma sgI_pre g h : sgI g -> zpre g h -> sgI h.
  Proof. intros H [[_ ->]|[_ ->]]; auto using sgI_swap12. Qed.
  (** the absolute values alone *)
  Definition sortedI (A B C p q r : Z) : Prop := A <= B <= C /\ (A = B -> p <= q) /\ (B = C -> q <= r).
  Definition tieI (A B C p q r : Z) : Prop :=
    0 < p /\ 0 < q /\ 0 < r /\
    ((2 * p = B /\ 2 * q < r) \/
     (2 * p <= B /\ ~ (2 * p = B /\ 2 * q < r) /\ 2 * q = A /\ 2 * p < r) \/
     (2 * p <= B /\ ~ (2 * p = B /\ 2 * q < r) /\ 2 * q <= A /\ ~ (2 * q = A /\ 2 * p < r) /\ 2 * r = A /\ 2 * p < q)).
  Lemma norm_abs g : znorm g -> sortedI (za g) (zb g) (zc g) (Z.abs (zd g)) (Z.abs (ze g)) (Z.abs (zf g)).
  Proof. destruct g as [A B C D E F]. unfold znorm, zc1, zc2, sortedI. cbn [za zb zc zd ze zf]. lia. Qed.
  Lemma tie_I g g' : zpos g -> tie g g' -> 0 < zd g -> tieI (za g) (zb g) (zc g) (zd g) (ze g) (zf g).
  Proof.
    destruct g as [A B C D E F]. unfold zpos, tieI. intros Hp HT HD.
    destruct HT; unfold zc5, zc6, zc7 in *; cbn [za zb zc zd ze zf] in *; try (exfalso; lia); (split; [lia|]); (split; [lia|]); (split; [lia|]).
    - left. lia.
    - right. left. lia.
    - right. right. lia.
  Qed.
  (** the image of a tie that is not A8: all signs can be made positive *)
  Inductive imgI (A B C : Z) : Z -> Z -> Z -> Prop :=
  | img5p p q r : 0 < p -> 0 < q -> 0 < r -> sortedI A B C p q r -> 2 * p = B -> 2 * q < r -> imgI A B C p (r - q) r
  | img5n p q r : 0 <= q -> 0 < r -> sortedI A B C p q r -> 2 * p = B -> imgI A B C p (q + r) r
  | img6p p q r : 0 < p -> 0 < q -> 0 < r -> sortedI A B C p q r -> 2 * p <= B -> 2 * q = A -> 2 * p < r -> imgI A B C (r - p) q r
  | img6n p q r : 0 <= p -> 0 < r -> sortedI A B C p q r -> 2 * p < B -> 2 * q = A -> imgI A B C (p + r) q r
  | img7p p q r : 0 < p -> 0 < q -> 0 < r -> sortedI A B C p q r -> 2 * p <= B -> 2 * q <= A -> 2 * r = A -> 2 * p < q -> imgI A B C (q - p) q r
  | img7n p q r : 0 <= p -> 0 < q -> sortedI A B C p q r -> 2 * p < B -> 2 * q < A -> 2 * r = A -> imgI A B C (p + q) q r.
  Lemma imgI_eq A B C p q r p' q' r' : imgI A B C p q r -> p = p' -> q = q' -> r = r' -> imgI A B C p' q' r'.
  Proof. now intros H -> -> ->. Qed.
  Lemma tie_img g g' : zpos g -> znorm g -> tie g g' -> (sgI g' /\ imgI (za g') (zb g') (zc g') (Z.abs (zd g')) (Z.abs (ze g')) (Z.abs (zf g'))) \/
    (g' = Z6 (za g) (zb g) (zc g) (zd g + zb g + zf g) (ze g + za g + zf g) (zf g) /\ zd g <= 0 /\ ze g <= 0 /\ zf g <= 0 /\ bounded g /\ zsum g = 0 /\ 0 < za g + 2 * ze g + zf g).
  Proof.
    intros Hp HN HT. pose proof (norm_abs g HN) as HS. clear HN. destruct g as [A B C D E F]. unfold zpos in Hp.
    destruct HT; unfold zc5, zc6, zc7 in *; cbn [za zb zc zd ze zf] in *; [left..|right].
    1-6: split; [unfold sgI; cbn [za zb zc zd ze zf]; lia|].
    - eapply imgI_eq; [apply (img5p A B C _ _ _) with (4 := HS); lia|lia..].
    - eapply imgI_eq; [apply (img5n A B C _ _ _) with (3 := HS); lia|lia..].
    - eapply imgI_eq; [apply (img6p A B C _ _ _) with (4 := HS); lia|lia..].
    - eapply imgI_eq; [apply (img6n A B C _ _ _) with (3 := HS); lia|lia..].
    - eapply imgI_eq; [apply (img7p A B C _ _ _) with (4 := HS); lia|lia..].
    - eapply imgI_eq; [apply (img7n A B C _ _ _) with (3 := HS); lia|lia..].
    - split; [reflexivity|]. unfold bounded. cbn [za zb zc zd ze zf]. lia.
  Qed.
  (** sorting three pairs *)
  Definition cmp (A p B q : Z) : Prop := B < A \/ (A = B /\ q < p).
  Definition pre3 (A B C p q r A' B' C' p' q' r' : Z) : Prop :=
    (cmp A p B q /\ A' = B /\ B' = A /\ C' = C /\ p' = q /\ q' = p /\ r' = r) \/
    (~ cmp A p B q /\ A' = A /\ B' = B /\ C' = C /\ p' = p /\ q' = q /\ r' = r).
  Lemma pre_abs g h : zpre g h -> pre3 (za g) (zb g) (zc g) (Z.abs (zd g)) (Z.abs (ze g)) (Z.abs (zf g))
    (za h) (zb h) (zc h) (Z.abs (zd h)) (Z.abs (ze h)) (Z.abs (zf h)).
  Proof. unfold zpre, pre3, zc1, cmp. intros [[H ->]|[H ->]]; [left|right]; cbn; tauto. Qed.
  Definition tieII (A B C p q r : Z) : Prop := 0 <= p /\ 0 <= q /\ 0 <= r /\
    ((2 * p = B /\ 0 < r) \/ (2 * q = A /\ 0 < r) \/ (2 * r = A /\ 0 < q) \/ (2 * p + 2 * q + 2 * r = A + B /\ 2 * q + r < A)).
  Lemma tie_II g g' : zpos g -> tie g g' -> zd g <= 0 -> tieII (za g) (zb g) (zc g) (- zd g) (- ze g) (- zf g).
  Proof.
    destruct g as [A B C D E F]. unfold zpos, tieII. intros Hp HT HD.
    destruct HT; unfold zsum in *; cbn [za zb zc zd ze zf] in *; try (exfalso; lia); (split; [lia|]); (split; [lia|]); (split; [lia|]); lia.
  Qed.
  Lemma img8_sort_tie A B C p q r A1 B1 C1 p1 q1 r1 A2 B2 C2 p2 q2 r2 : 0 < A -> 0 <= p -> 0 <= q -> 0 <= r -> sortedI A B C p q r ->
    2 * p + 2 * q + 2 * r = A + B -> 2 * q + r < A -> 2 * p <= B -> 2 * q <= A -> 2 * r <= A -> ~ (2 * p = B /\ 0 < r) -> ~ (2 * q = A /\ 0 < r) -> ~ (2 * r = A /\ 0 < q) ->
    pre3 A B C (B - p - r) (A - q - r) r A1 B1 C1 p1 q1 r1 -> cmp B1 q1 C1 r1 -> pre3 A1 C1 B1 p1 r1 q1 A2 B2 C2 p2 q2 r2 -> tieII A2 B2 C2 p2 q2 r2 -> False.
  Proof.
    intros HA ? ? ? HS ? ? ? ? ? ? ? ? H1 H2 H3 H4. unfold pre3, cmp, tieII, sortedI in *.
    destruct H1 as [(K1 & -> & -> & -> & -> & -> & ->)|(K1 & -> & -> & -> & -> & -> & ->)]; try (exfalso; lia);
      destruct H3 as [(K3 & -> & -> & -> & -> & -> & ->)|(K3 & -> & -> & -> & -> & -> & ->)]; try (exfalso; lia);
      destruct H4 as (? & ? & ? & [?|[?|[?|?]]]); lia.
  Qed.
  Lemma img8_tie A B C p q r A1 B1 C1 p1 q1 r1 : 0 < A -> 0 <= p -> 0 <= q -> 0 <= r -> sortedI A B C p q r ->
    2 * p + 2 * q + 2 * r = A + B -> 2 * q + r < A -> 2 * p <= B -> 2 * q <= A -> 2 * r <= A -> ~ (2 * p = B /\ 0 < r) -> ~ (2 * q = A /\ 0 < r) -> ~ (2 * r = A /\ 0 < q) ->
    pre3 A B C (B - p - r) (A - q - r) r A1 B1 C1 p1 q1 r1 -> ~ cmp B1 q1 C1 r1 -> tieII A1 B1 C1 p1 q1 r1 -> False.
  Proof.
    intros HA ? ? ? HS ? ? ? ? ? ? ? ? H1 H2 H4. unfold pre3, cmp, tieII, sortedI in *.
    destruct H1 as [(K1 & -> & -> & -> & -> & -> & ->)|(K1 & -> & -> & -> & -> & -> & ->)]; try (exfalso; lia);
      destruct H4 as (? & ? & ? & [?|[?|[?|?]]]); lia.
  Qed.
  Lemma img_sort_tie A B C p q r A1 B1 C1 p1 q1 r1 A2 B2 C2 p2 q2 r2 : 0 < A -> imgI A B C p q r ->
    pre3 A B C p q r A1 B1 C1 p1 q1 r1 -> cmp B1 q1 C1 r1 -> pre3 A1 C1 B1 p1 r1 q1 A2 B2 C2 p2 q2 r2 -> tieI A2 B2 C2 p2 q2 r2 -> False.
  Proof.
    intros HA HI H1 H2 H3 H4. unfold pre3, cmp, tieI in *.
    destruct HI as [p q r ? ? ? HS ? ?|p q r ? ? HS ?|p q r ? ? ? HS ? ? ?|p q r ? ? HS ? ?|p q r ? ? ? HS ? ? ? ?|p q r ? ? HS ? ? ?]; unfold sortedI in HS;
      destruct H1 as [(K1 & -> & -> & -> & -> & -> & ->)|(K1 & -> & -> & -> & -> & -> & ->)]; try (exfalso; lia);
      destruct H3 as [(K3 & -> & -> & -> & -> & -> & ->)|(K3 & -> & -> & -> & -> & -> & ->)]; try (exfalso; lia);
      destruct H4 as (? & ? & ? & [?|[?|?]]); lia.
  Qed.
  Lemma img_tie_tie A B C p q r A1 B1 C1 p1 q1 r1 p' q' r' A2 B2 C2 p2 q2 r2 : 0 < A -> imgI A B C p q r ->
    pre3 A B C p q r A1 B1 C1 p1 q1 r1 -> ~ cmp B1 q1 C1 r1 -> tieI A1 B1 C1 p1 q1 r1 ->
    (2 * p1 = B1 /\ 2 * q1 < r1 /\ p' = p1 /\ q' = r1 - q1 /\ r' = r1 \/
     2 * q1 = A1 /\ 2 * p1 < r1 /\ p' = r1 - p1 /\ q' = q1 /\ r' = r1 \/
     2 * r1 = A1 /\ 2 * p1 < q1 /\ p' = q1 - p1 /\ q' = q1 /\ r' = r1) ->
    pre3 A1 B1 C1 p' q' r' A2 B2 C2 p2 q2 r2 -> cmp B2 q2 C2 r2 \/ tieI A2 B2 C2 p2 q2 r2 -> False.
  Proof.
    intros HA HI H1 H2 H3 HQ H4 H5. unfold pre3, cmp, tieI in *.
    destruct HI as [p q r ? ? ? HS ? ?|p q r ? ? HS ?|p q r ? ? ? HS ? ? ?|p q r ? ? HS ? ?|p q r ? ? ? HS ? ? ? ?|p q r ? ? HS ? ? ?]; unfold sortedI in HS;
      destruct H1 as [(K1 & -> & -> & -> & -> & -> & ->)|(K1 & -> & -> & -> & -> & -> & ->)]; try (exfalso; lia);
      destruct H3 as (? & ? & ? & [H3|[H3|H3]]); try (exfalso; lia);
      destruct HQ as [(? & ? & -> & -> & ->)|[(? & ? & -> & -> & ->)|(? & ? & -> & -> & ->)]]; try (exfalso; lia);
      destruct H4 as [(K3 & -> & -> & -> & -> & -> & ->)|(K3 & -> & -> & -> & -> & -> & ->)]; try (exfalso; lia);
      destruct H5 as [H5|(? & ? & ? & [?|[?|?]])]; lia.
  Qed.

  (** ** At most four iterations keep the trace *)
  Definition ph3 (g : z6) : Prop := (forall g', zsort g g' -> False) /\ (forall g', zmain g true g' -> ztr g' < ztr g).
  Definition ph2 (g : z6) : Prop := (forall g', zsort g g' -> ph3 g' /\ ztr g' = ztr g) /\
    (forall g', zmain g true g' -> ztr g' < ztr g \/ (ph3 g' /\ ztr g' = ztr g)).
  Definition ph1 (g : z6) : Prop := (forall g', zsort g g' -> False) /\
    (forall g', zmain g true g' -> ztr g' < ztr g \/ (ph2 g' /\ ztr g' = ztr g)).
  Lemma pos_pre g h : zpos g -> zpre g h -> zpos h.
  Proof. unfold zpos. intros H [[_ ->]|[_ ->]]; cbn; tauto. Qed.
  Lemma pos_mid g h : zpos g -> zmid g h -> zpos h.
  Proof. unfold zpos. intros H ((i & j & k & _ & _ & _ & _ & ->) & _). exact H. Qed.
  Lemma pos_tie g h : zpos g -> tie g h -> zpos h.
  Proof. unfold zpos. intros H T. destruct T; exact H. Qed.
  Lemma pos_sort g h : zpos g -> zsort g h -> zpos h.
  Proof. intros H (g1 & P1 & _ & ->). apply (pos_pre _ _ H) in P1. unfold zpos, swap23 in *. cbn. tauto. Qed.
  (** a non-sorting iteration: its normal state, and a drop or a tie *)
  Lemma main_inv g g' : zpos g -> zmain g true g' -> exists h N, zpre g h /\ ~ zc2 h /\ zmid h N /\ znorm N /\ zpos N /\ ztr N = ztr g /\
    (ztr g' < ztr g \/ (ztr g' = ztr g /\ tie N g')).
  Proof.
    intros Hp (h & N & P1 & C1 & M1 & Q). destruct (mid_norm _ _ _ P1 C1 M1) as [HN T1].
    pose proof (pos_mid _ _ (pos_pre _ _ Hp P1) M1) as HpN. exists h, N. repeat (split; [assumption|]).
    pose proof (post_trace N true g' HpN HN Q). destruct (Z.eq_dec (ztr g') (ztr N)) as [E|E]; [right|left; lia].
    split; [lia|]. now apply post_tie.
  Qed.
  Lemma absI_pos h : sgI h -> 0 < zd (absI h) /\ 0 < ze (absI h) /\ 0 < zf (absI h).
  Proof. unfold sgI, absI. cbn. lia. Qed.
  Lemma tie_image_I N g' : zpos N -> tie N g' -> 0 < zd N ->
    za g' = za N /\ zb g' = zb N /\ zc g' = zc N /\ sgI g' /\
    (2 * zd N = zb N /\ 2 * ze N < zf N /\ Z.abs (zd g') = zd N /\ Z.abs (ze g') = zf N - ze N /\ Z.abs (zf g') = zf N \/
     2 * ze N = za N /\ 2 * zd N < zf N /\ Z.abs (zd g') = zf N - zd N /\ Z.abs (ze g') = ze N /\ Z.abs (zf g') = zf N \/
     2 * zf N = za N /\ 2 * zd N < ze N /\ Z.abs (zd g') = ze N - zd N /\ Z.abs (ze g') = ze N /\ Z.abs (zf g') = zf N).
  Proof.
    intros Hp HT HD. destruct N as [A B C D E F]. unfold zpos in Hp. destruct HT; cbn [za zb zc zd ze zf] in *; try (exfalso; lia);
      (do 3 (split; [reflexivity|])); (split; [unfold sgI; cbn [za zb zc zd ze zf]; lia|]); [left|right; left|right; right]; lia.
  Qed.
  Lemma sgI_not_II g h N : sgI g -> zpre g h -> zmid h N -> N = absI h /\ 0 < zd N.
  Proof. intros S P1 M1. pose proof (sgI_pre _ _ S P1) as S1. pose proof (mid_sgI _ _ S1 M1) as ->. split; [reflexivity|]. now apply absI_pos. Qed.
  Lemma after_img g : zpos g -> sgI g -> imgI (za g) (zb g) (zc g) (Z.abs (zd g)) (Z.abs (ze g)) (Z.abs (zf g)) -> ph2 g.
  Proof.
    intros Hp S HI. split.
    - intros g' HS. split; [|now apply sort_trace]. split; [intros g'' HS2; exact (sort_once _ _ _ HS HS2)|].
      intros g'' HM. pose proof (pos_sort _ _ Hp HS) as Hp'. destruct (main_inv _ _ Hp' HM) as (h & N & P2 & C2 & M2 & HN & HpN & TN & [D|[E HT]]); [exact D|].
      exfalso. destruct HS as (g1 & P1 & C1 & ->). pose proof (sgI_pre _ _ S P1) as S1.
      destruct (sgI_not_II _ _ _ (sgI_swap23 _ S1) P2 M2) as [EN PN]. pose proof (tie_I _ _ HpN HT PN) as TI. rewrite EN in TI. unfold absI in TI. cbn [za zb zc zd ze zf] in TI.
      refine (img_sort_tie _ _ _ _ _ _ _ _ _ _ _ _ _ _ _ _ _ _ _ HI (pre_abs _ _ P1) _ (pre_abs _ _ P2) TI); [apply Hp|exact C1].
    - intros g' HM. destruct (main_inv _ _ Hp HM) as (h & N & P1 & C1 & M1 & HN & HpN & TN & [D|[E HT]]); [now left|right]. split; [|exact E].
      destruct (sgI_not_II _ _ _ S P1 M1) as [EN PN]. pose proof (tie_I _ _ HpN HT PN) as TI. pose proof (pos_tie _ _ HpN HT) as Hp'.
      destruct (tie_image_I _ _ HpN HT PN) as (EA & EB & EC & S' & IM). rewrite EN in TI, EA, EB, EC, IM. unfold absI in TI, EA, EB, EC, IM. cbn [za zb zc zd ze zf] in TI, EA, EB, EC, IM.
      split.
      + intros g'' (h2 & P2 & C2 & _). pose proof (pre_abs _ _ P2) as Q2. rewrite EA, EB, EC in Q2.
        refine (img_tie_tie _ _ _ _ _ _ _ _ _ _ _ _ _ _ _ _ _ _ _ _ _ _ HI (pre_abs _ _ P1) C1 TI IM Q2 _); [apply Hp|left; exact C2].
      + intros g'' HM2. destruct (main_inv _ _ Hp' HM2) as (h2 & N2 & P2 & C2 & M2 & HN2 & HpN2 & TN2 & [D2|[E2 HT2]]); [exact D2|]. exfalso.
        destruct (sgI_not_II _ _ _ S' P2 M2) as [EN2 PN2]. pose proof (tie_I _ _ HpN2 HT2 PN2) as TI2. rewrite EN2 in TI2. unfold absI in TI2. cbn [za zb zc zd ze zf] in TI2.
        pose proof (pre_abs _ _ P2) as Q2. rewrite EA, EB, EC in Q2.
        refine (img_tie_tie _ _ _ _ _ _ _ _ _ _ _ _ _ _ _ _ _ _ _ _ _ _ HI (pre_abs _ _ P1) C1 TI IM Q2 _); [apply Hp|right; exact TI2].
  Qed.
  Lemma sgII_swap23 g : sgII g -> sgII (swap23 g). Proof. unfold sgII, swap23. cbn [za zb zc zd ze zf]. tauto. Qed.
  Lemma sgII_pre g h : sgII g -> zpre g h -> sgII h.
  Proof. unfold sgII. intros H [[_ ->]|[_ ->]]; cbn; tauto. Qed.
  Lemma after_img8 N g : zpos N -> znorm N -> g = Z6 (za N) (zb N) (zc N) (zd N + zb N + zf N) (ze N + za N + zf N) (zf N) ->
    zd N <= 0 -> ze N <= 0 -> zf N <= 0 -> bounded N -> zsum N = 0 -> 0 < za N + 2 * ze N + zf N -> ph2 g.
  Proof.
    intros Hp HN Eg D0 E0 F0 (B1 & B2 & B3 & B4 & B5 & B6) HS HA. pose proof (norm_abs _ HN) as HSo.
    assert (Hpg : zpos g) by (subst g; exact Hp).
    assert (X1 : Z.abs (zd N) = - zd N) by lia. assert (X2 : Z.abs (ze N) = - ze N) by lia. assert (X3 : Z.abs (zf N) = - zf N) by lia. rewrite X1, X2, X3 in *.
    assert (SG : sgII g). { subst g. unfold sgII, zsum, znorm, zc1, zc2, zpos in *. cbn [za zb zc zd ze zf]. clear HSo B4 B5 B6. lia. }
    assert (Q : forall h, zpre g h -> pre3 (za N) (zb N) (zc N) (zb N - - zd N - - zf N) (za N - - ze N - - zf N) (- zf N) (za h) (zb h) (zc h) (Z.abs (zd h)) (Z.abs (ze h)) (Z.abs (zf h))).
    { intros h P1. pose proof (pre_abs _ _ P1) as Q. subst g. cbn [za zb zc zd ze zf] in Q.
      replace (Z.abs (zd N + zb N + zf N)) with (zb N - - zd N - - zf N) in Q by (unfold zpos, znorm, zc1 in *; clear HSo B4 B5 B6; lia).
      replace (Z.abs (ze N + za N + zf N)) with (za N - - ze N - - zf N) in Q by (clear HSo B4 B5 B6; lia). now rewrite X3 in Q. }
    split.
    - intros g' HSt. split; [|now apply sort_trace]. split; [intros g'' HS2; exact (sort_once _ _ _ HSt HS2)|].
      intros g'' HM. pose proof (pos_sort _ _ Hpg HSt) as Hp'. destruct (main_inv _ _ Hp' HM) as (h & N2 & P2 & C2 & M2 & HN2 & HpN & TN & [D|[E HT]]); [exact D|].
      exfalso. destruct HSt as (g1 & P1 & C1 & ->). pose proof (sgII_pre _ _ SG P1) as S1.
      pose proof (mid_sgII _ _ (sgII_pre _ _ (sgII_swap23 _ S1) P2) M2) as EN.
      assert (PN : zd N2 <= 0) by (rewrite EN; unfold absII; cbn [zd]; lia). pose proof (tie_II _ _ HpN HT PN) as TI. rewrite EN in TI. unfold absII in TI.
      cbn [za zb zc zd ze zf] in TI. rewrite !Z.opp_involutive in TI.
      refine (img8_sort_tie _ _ _ _ _ _ _ _ _ _ _ _ _ _ _ _ _ _ _ _ _ _ HSo _ _ _ _ _ _ _ _ (Q _ P1) C1 (pre_abs _ _ P2) TI); auto; unfold zsum, zpos in *; clear HSo B4 B5 B6 TI Q; lia.
    - intros g' HM. destruct (main_inv _ _ Hpg HM) as (h & N2 & P1 & C1 & M1 & HN2 & HpN & TN & [D|[E HT]]); [now left|exfalso].
      pose proof (mid_sgII _ _ (sgII_pre _ _ SG P1) M1) as EN.
      assert (PN : zd N2 <= 0) by (rewrite EN; unfold absII; cbn [zd]; lia). pose proof (tie_II _ _ HpN HT PN) as TI. rewrite EN in TI. unfold absII in TI.
      cbn [za zb zc zd ze zf] in TI. rewrite !Z.opp_involutive in TI.
      refine (img8_tie _ _ _ _ _ _ _ _ _ _ _ _ _ _ _ _ HSo _ _ _ _ _ _ _ _ (Q _ P1) C1 TI); auto; unfold zsum, zpos in *; clear HSo B4 B5 B6 TI Q; lia.
  Qed.
  Lemma after_main g g' : zpos g -> zmain g true g' -> ztr g' < ztr g \/ (ph2 g' /\ ztr g' = ztr g).
  Proof.
    intros Hp HM. destruct (main_inv _ _ Hp HM) as (h & N & P1 & C1 & M1 & HN & HpN & TN & [D|[E HT]]); [now left|right]. split; [|exact E].
    destruct (tie_img _ _ HpN HN HT) as [[S HI]|(Eg & D0 & E0 & F0 & B & Z0 & ZA)].
    - apply after_img; auto. now apply (pos_tie N).
    - now apply (after_img8 N).
  Qed.
  Lemma after_sort g g' : zpos g -> zsort g g' -> ph1 g' /\ ztr g' = ztr g.
  Proof.
    intros Hp HS. split; [|now apply sort_trace]. split; [intros g''; exact (sort_once _ _ _ HS)|].
    intros g'' HM. apply after_main; auto. now apply (pos_sort g).
  Qed.
End Steps.

(** ** The model's step on a metric with unit [u] *)
Definition zmet (u : R) (g : z6) : mat R :=
  M (u * IZR (za g)) (u * IZR (zf g)) (u * IZR (ze g)) (u * IZR (zf g)) (u * IZR (zb g)) (u * IZR (zd g)) (u * IZR (ze g)) (u * IZR (zd g)) (u * IZR (zc g)).
Section Unit.
  Context (u eps : R).
  Hypothesis Hu : 0 < u.
  Hypothesis He : 0 < eps < u.
  Lemma u_le p q : u * IZR p <= u * IZR q + eps <-> (p <= q)%Z.
  Proof using Type*.
    split; intro H.
    - destruct (Z_le_gt_dec p q) as [L|L]; [exact L|exfalso]. assert (IZR (q + 1) <= IZR p) by (apply IZR_le; lia). rewrite plus_IZR in H0. nra.
    - apply IZR_le in H. nra.
  Qed.
  Lemma u_abs p : Rabs (u * IZR p) = u * IZR (Z.abs p).
  Proof using Type*. rewrite Rabs_mult, abs_IZR, (Rabs_pos_eq u) by lra. reflexivity. Qed.
  Lemma u_eq p : Rabs (u * IZR p) <= eps <-> p = 0%Z.
  Proof using Type*.
    rewrite u_abs. replace eps with (u * IZR 0 + eps) by ring. rewrite u_le. lia.
  Qed.
  Lemma u_neg p : - eps <= u * IZR p <-> (0 <= p)%Z.
  Proof using Type*. rewrite <- (u_le 0 p). split; intro; lra. Qed.
  Lemma u_pos p : u * IZR p <= eps <-> (p <= 0)%Z.
  Proof using Type*. rewrite <- (u_le p 0). split; intro; lra. Qed.
  Lemma u_ge p : eps <= u * IZR p <-> (0 < p)%Z.
  Proof using Type*.
    split; intro H.
    - destruct (Z_le_gt_dec p 0) as [L|L]; [exfalso|lia]. apply IZR_le in L. nra.
    - assert (IZR 1 <= IZR p) by (apply IZR_le; lia). nra.
  Qed.
  Ltac izr := rewrite ?mult_IZR, ?plus_IZR, ?minus_IZR, ?opp_IZR; ring.
  Ltac ent := cbn [zmet m11 m12 m13 m21 m22 m23 m31 m32 m33].
  Lemma two p : 2 * (u * IZR p) = u * IZR (2 * p). Proof. izr. Qed.
  Lemma sub p q : u * IZR p - u * IZR q = u * IZR (p - q). Proof. izr. Qed.
  Lemma add p q : u * IZR p + u * IZR q = u * IZR (p + q). Proof. izr. Qed.
  Lemma z1 g : @a1_cond RNum eps (zmet u g) = false <-> ~ zc1 g.
  Proof using Type*. rewrite a1_false. ent. rewrite !two, !sub, !u_abs, !u_le, <- u_abs, u_eq. unfold zc1. lia. Qed.
  Lemma z2 g : @a2_cond RNum eps (zmet u g) = false <-> ~ zc2 g.
  Proof using Type*. rewrite a2_false. ent. rewrite !two, !sub, !u_abs, !u_le, <- u_abs, u_eq. unfold zc2. lia. Qed.
  Lemma z5 g : @a5_cond RNum eps (zmet u g) = false <-> ~ zc5 g.
  Proof using Type*. rewrite a5_false. ent. rewrite !two, !sub, !add, !u_eq, u_abs, !u_le, u_neg. unfold zc5. lia. Qed.
  Lemma z6' g : @a6_cond RNum eps (zmet u g) = false <-> ~ zc6 g.
  Proof using Type*. rewrite a6_false. ent. rewrite !two, !sub, !add, !u_eq, u_abs, !u_le, u_neg. unfold zc6. lia. Qed.
  Lemma z7 g : @a7_cond RNum eps (zmet u g) = false <-> ~ zc7 g.
  Proof using Type*. rewrite a7_false. ent. rewrite !two, !sub, !add, !u_eq, u_abs, !u_le, u_neg. unfold zc7. lia. Qed.
  Lemma z8 g : @a8_cond RNum eps (zmet u g) = false <-> ~ zc8 g.
  Proof using Type*. rewrite a8_false. ent. rewrite !two, !add, !two, !add, u_eq, u_pos, u_neg. unfold zc8, zsum. lia. Qed.
  Ltac metrics := unfold rcongr, Mmul, Mtr, MofZ, zmet; cbn [m11 m12 m13 m21 m22 m23 m31 m32 m33 za zb zc zd ze zf]; apply (@mat_ext R); cbn [m11 m12 m13 m21 m22 m23 m31 m32 m33];
    repeat first [rewrite mult_IZR|rewrite plus_IZR|rewrite minus_IZR|rewrite opp_IZR]; ring.
  Lemma g1 g : rcongr (@c1_mat RNum) (zmet u g) = zmet u (swap12 g).
  Proof. change (@c1_mat RNum) with (MofZ (M 0 (-1) 0 (-1) 0 0 0 0 (-1))%Z). unfold swap12. metrics. Qed.
  Lemma g2 g : rcongr (@c2_mat RNum) (zmet u g) = zmet u (swap23 g).
  Proof. change (@c2_mat RNum) with (MofZ (M (-1) 0 0 0 0 (-1) 0 (-1) 0)%Z). unfold swap23. metrics. Qed.
  Lemma sgn p : zsign (@fmul RNum (@f2 RNum) (u * IZR p)) = zsg p.
  Proof using Type*.
    change (@fmul RNum (@f2 RNum) (u * IZR p)) with (2 * (u * IZR p)). unfold zsign, zsg. destruct (Z.ltb_spec p 0) as [L|L].
    - rewrite Rlt_bool_true; [reflexivity|]. apply IZR_lt in L. nra.
    - rewrite Rlt_bool_false; [reflexivity|]. apply IZR_le in L. nra.
  Qed.
  Lemma fcons (m : R -> mat R) s : m (@fmul RNum (@fm1 RNum) (@fsignum RNum s)) = m (IZR (- zsign s)).
  Proof. rewrite signum_Z. cbn [fm1 fofZ fmul RNum]. now rewrite mone_mul. Qed.
  Lemma g5 g : rcongr (@c5_mat RNum (zmet u g)) (zmet u g) = zmet u (m5 g (zsg (zd g))).
  Proof using Type*.
    unfold c5_mat, g_xi. ent. rewrite (fcons (fun t => rcongr (M 1 0 0 0 1 t 0 0 1) _)), sgn.
    change (M 1 0 0 0 1 (IZR (- zsg (zd g))) 0 0 1) with (MofZ (M 1 0 0 0 1 (- zsg (zd g)) 0 0 1)%Z). unfold m5, zsg. destruct (zd g <? 0)%Z; metrics.
  Qed.
  Lemma g6 g : rcongr (@c6_mat RNum (zmet u g)) (zmet u g) = zmet u (m6 g (zsg (ze g))).
  Proof using Type*.
    unfold c6_mat, g_eta. ent. rewrite (fcons (fun t => rcongr (M 1 0 t 0 1 0 0 0 1) _)), sgn.
    change (M 1 0 (IZR (- zsg (ze g))) 0 1 0 0 0 1) with (MofZ (M 1 0 (- zsg (ze g)) 0 1 0 0 0 1)%Z). unfold m6, zsg. destruct (ze g <? 0)%Z; metrics.
  Qed.
  Lemma g7 g : rcongr (@c7_mat RNum (zmet u g)) (zmet u g) = zmet u (m7 g (zsg (zf g))).
  Proof using Type*.
    unfold c7_mat, g_zeta. ent. rewrite (fcons (fun t => rcongr (M 1 t 0 0 1 0 0 0 1) _)), sgn.
    change (M 1 (IZR (- zsg (zf g))) 0 0 1 0 0 0 1) with (MofZ (M 1 (- zsg (zf g)) 0 0 1 0 0 0 1)%Z). unfold m7, zsg. destruct (zf g <? 0)%Z; metrics.
  Qed.
  Lemma g8 g : rcongr (@c8_mat RNum) (zmet u g) = zmet u (m8 g).
  Proof. change (@c8_mat RNum) with (MofZ (M 1 0 1 0 1 1 0 0 1)%Z). unfold m8, zsum. metrics. Qed.
  Lemma g34 g : eps < 1 -> exists N, rcongr (@c34_mat RNum eps (zmet u g)) (zmet u g) = zmet u N /\ zmid g N.
  Proof using Type*.
    intro E1. destruct (c34_spec eps (zmet u g)) as (i & j & k & Hi & Hj & Hk & Hp & E & S); [lra|].
    exists (Z6 (za g) (zb g) (zc g) (i * zd g) (j * ze g) (k * zf g)). split.
    - rewrite E. unfold zdiag. destruct Hi as [-> | ->], Hj as [-> | ->], Hk as [-> | ->]; try discriminate Hp; metrics.
    - split; [exists i, j, k; unfold pm1 in *; tauto|]. cbn [za zb zc zd ze zf].
      cbn [zmet m11 m12 m13 m21 m22 m23 m31 m32 m33] in S. rewrite !two in S.
      assert (W : forall x y, IZR x * (u * IZR (2 * y)) = u * IZR (2 * (x * y))) by (intros; rewrite !mult_IZR; ring).
      rewrite !W, !u_ge, !u_pos in S. lia.
  Qed.
  Lemma zstep g (T : mat R) : eps < 1 -> exists c g' T', @niggli_step RNum eps (zmet u g, T) = (c, (zmet u g', T')) /\
    ((c = true /\ zsort g g') \/ zmain g c g').
  Proof using Type*.
    intro E1. rewrite step_eq.
    assert (Q : exists h T1, pre eps (zmet u g, T) = (zmet u h, T1) /\ zpre g h).
    { unfold pre. cbn [fst]. destruct (@a1_cond RNum eps (zmet u g)) eqn:C.
      - exists (swap12 g). eexists. split; [rewrite congr_R; cbn [fst snd]; rewrite g1; reflexivity|]. left. split; [|reflexivity].
        destruct (Z_lt_dec (zb g) (za g)) as [L|L]; [now left|]. destruct (Z.eq_dec (za g) (zb g)) as [M|M]; [destruct (Z_lt_dec (Z.abs (ze g)) (Z.abs (zd g))); [right; lia|]|];
          exfalso; assert (X : ~ zc1 g) by (unfold zc1; lia); apply z1 in X; congruence.
      - exists g, T. split; [reflexivity|]. right. split; [now apply z1|reflexivity]. }
    destruct Q as (h & T1 & -> & P1). cbn [fst].
    destruct (@a2_cond RNum eps (zmet u h)) eqn:C2.
    - exists true, (swap23 h). eexists. split; [rewrite congr_R; cbn [fst snd]; rewrite g2; reflexivity|]. left. split; [reflexivity|]. exists h. split; [exact P1|]. split; [|reflexivity].
      destruct (Z_lt_dec (zc h) (zb h)) as [L|L]; [now left|]. destruct (Z.eq_dec (zb h) (zc h)) as [M|M]; [destruct (Z_lt_dec (Z.abs (zf h)) (Z.abs (ze h))); [right; lia|]|];
        exfalso; assert (X : ~ zc2 h) by (unfold zc2; lia); apply z2 in X; congruence.
    - apply z2 in C2. destruct (g34 h E1) as (N & EN & M1). unfold mid. rewrite congr_R. cbn [fst snd]. rewrite EN.
      assert (FIN : exists c g' T', post eps (zmet u N, Mmul T1 (@c34_mat RNum eps (zmet u h))) = (c, (zmet u g', T')) /\ zpost N c g').
      { unfold post. cbn [fst]. assert (DEC : forall (P : Prop) (b : bool), (b = false <-> ~ P) -> P \/ ~ P -> b = true -> P) by (intros P b H D Eb; destruct D as [D|D]; [exact D|apply H in D; congruence]).
        destruct (@a5_cond RNum eps (zmet u N)) eqn:C5.
        { do 3 eexists. split; [rewrite congr_R; cbn [fst snd]; rewrite g5; reflexivity|]. left. split; [|split; reflexivity]. apply (DEC _ _ (z5 N)); [unfold zc5; lia|exact C5]. }
        apply z5 in C5. destruct (@a6_cond RNum eps (zmet u N)) eqn:C6.
        { do 3 eexists. split; [rewrite congr_R; cbn [fst snd]; rewrite g6; reflexivity|]. right. left. split; [exact C5|]. split; [|split; reflexivity]. apply (DEC _ _ (z6' N)); [unfold zc6; lia|exact C6]. }
        apply z6' in C6. destruct (@a7_cond RNum eps (zmet u N)) eqn:C7.
        { do 3 eexists. split; [rewrite congr_R; cbn [fst snd]; rewrite g7; reflexivity|]. right. right. left. do 2 (split; [assumption|]). split; [|split; reflexivity]. apply (DEC _ _ (z7 N)); [unfold zc7; lia|exact C7]. }
        apply z7 in C7. destruct (@a8_cond RNum eps (zmet u N)) eqn:C8.
        { do 3 eexists. split; [rewrite congr_R; cbn [fst snd]; rewrite g8; reflexivity|]. right. right. right. left. do 3 (split; [assumption|]). split; [|split; reflexivity]. apply (DEC _ _ (z8 N)); [unfold zc8, zsum; lia|exact C8]. }
        apply z8 in C8. do 3 eexists. split; [reflexivity|]. do 4 right. repeat (split; [assumption|]). split; reflexivity. }
      destruct FIN as (c & g' & T' & EP & HP). exists c, g', T'. split; [exact EP|]. right. exists h, N. auto.
  Qed.
End Unit.
