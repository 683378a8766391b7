(** Turning the Cartesian frame: every function commutes with a proper rotation of the lattice vectors and the Cartesian positions. *)
From Coq Require Import ZArith Reals String List Bool Lia Lra Permutation.
From Verif Require Import Num Mat Utils SymmOp SpaceGroup Structure Reduce Analyzer RInst Spec Spec4 RFacts.
Import ListNotations.
Open Scope R_scope.

(** ** Proper rotations *)
Lemma rot_dot q : proper_rotation q -> forall a b, Vdot (Mapp q a) (Mapp q b) = Vdot a b.
Proof.
  intros [O _] a b. replace (Vdot (Mapp q a) (Mapp q b)) with (Vdot a (Mapp (Mmul (Mtr q) q) b)).
  - now rewrite O, Mapp_id.
  - destruct a, b, q. unfold Vdot, Mapp, Mmul, Mtr. cbn. ring.
Qed.
Lemma rot_norm q : proper_rotation q -> forall a, Vnorm (Mapp q a) = Vnorm a.
Proof. intros H a. unfold Vnorm. now rewrite rot_dot. Qed.
Lemma rot_triple q : proper_rotation q -> forall a b c, Vdot (Vcross (Mapp q a) (Mapp q b)) (Mapp q c) = Vdot (Vcross a b) c.
Proof.
  intros [_ D] a b c. replace (Vdot (Vcross (Mapp q a) (Mapp q b)) (Mapp q c)) with (Mdet q * Vdot (Vcross a b) c).
  - rewrite D. ring.
  - destruct a, b, c, q. unfold Vdot, Vcross, Mapp, Mdet. cbn. ring.
Qed.
Lemma cross_norm2 a b : Vdot (Vcross a b) (Vcross a b) = Vdot a a * Vdot b b - Vdot a b * Vdot a b.
Proof. destruct a, b. unfold Vdot, Vcross. cbn. ring. Qed.
Lemma rot_cross_norm q : proper_rotation q -> forall a b, Vnorm (Vcross (Mapp q a) (Mapp q b)) = Vnorm (Vcross a b).
Proof. intros H a b. unfold Vnorm. rewrite !cross_norm2. now rewrite !rot_dot. Qed.
Lemma rot_metric q : proper_rotation q -> forall m, Mmul (Mtr (Mmul q m)) (Mmul q m) = Mmul (Mtr m) m.
Proof. intros [O _] m. rewrite Mtr_mul, Mmul_assoc, <- (Mmul_assoc (Mtr q)), O, Mmul_id_l. reflexivity. Qed.
Lemma rot_det q : proper_rotation q -> forall m, Mdet (Mmul q m) = Mdet m.
Proof. intros [_ D] m. rewrite Mdet_mul, D. ring. Qed.
Lemma rot_from_columns q a b c : from_columns (Mapp q a) (Mapp q b) (Mapp q c) = Mmul q (from_columns a b c).
Proof. reflexivity. Qed.
Lemma rot_Ccol q m k : Ccol (Mmul q m) k = Mapp q (Ccol m k).
Proof. destruct k as [|[|k]]; reflexivity. Qed.
Lemma rot_back q : proper_rotation q -> forall v, Mapp (Mtr q) (Mapp q v) = v.
Proof. intros [O _] v. now rewrite <- Mapp_Mmul, O, Mapp_id. Qed.

(** ** Sorting *)
Lemma insert_map {A B} (f : A -> B) le1 le2 : (forall a b, le2 (f a) (f b) = le1 a b) -> forall x l, insert_by le2 (f x) (map f l) = map f (insert_by le1 x l).
Proof. intros H x l. induction l as [|y l IH]; cbn; [reflexivity|]. rewrite H. destruct (le1 x y); cbn; [reflexivity|]. now rewrite IH. Qed.
Lemma sort_map {A B} (f : A -> B) le1 le2 : (forall a b, le2 (f a) (f b) = le1 a b) -> forall l, sort_by le2 (map f l) = map f (sort_by le1 l).
Proof. intros H l. induction l as [|y l IH]; [reflexivity|]. unfold sort_by in *. cbn [map fold_right]. rewrite IH. now apply insert_map. Qed.

Lemma rot_tr q : proper_rotation q -> Mmul q (Mtr q) = Mid.
Proof.
  intros [O D]. assert (N : Mdet q <> 0) by (rewrite D; lra). pose proof (Madj_inv_r q N) as I.
  replace (Mtr q) with (Madj_inv q); [exact I|]. rewrite <- (Mmul_id_l (Madj_inv q)), <- O, Mmul_assoc, I. apply Mmul_id_r.
Qed.
Lemma rot_cross q : proper_rotation q -> forall a b, Vcross (Mapp q a) (Mapp q b) = Mapp q (Vcross a b).
Proof.
  intros H a b. set (u := Vcross (Mapp q a) (Mapp q b)). set (w := Mapp q (Vcross a b)).
  assert (E : forall c, Vdot u (Mapp q c) = Vdot w (Mapp q c)) by (intro c; unfold u, w; rewrite rot_triple, rot_dot by exact H; reflexivity).
  assert (E' : forall c, Vdot u c = Vdot w c) by (intro c; specialize (E (Mapp (Mtr q) c)); now rewrite <- Mapp_Mmul, rot_tr, Mapp_id in E).
  clearbody u w. pose proof (E' (V 1 0 0)) as E1. pose proof (E' (V 0 1 0)) as E2. pose proof (E' (V 0 0 1)) as E3. unfold Vdot in *. cbn in *.
  apply (@vec_ext R); lra.
Qed.

(** ** Structures *)
Definition turn (q : mat R) (s : @structure RNum) : @structure RNum :=
  Structure (N := RNum) (Mmul q (lattice s)) (species s) (map (Mapp q) (coords s)) (frac_coords s).
Definition rmap {A B} (f : A -> B) (r : res A) : res B := match r with Ok a => Ok (f a) | Panic p => Panic p | OutOfFuel => OutOfFuel end.
Lemma bind_rmap {A B C} (f : A -> B) (r : res A) (k : B -> res C) : bind (rmap f r) k = bind r (fun a => k (f a)).
Proof. destruct r; reflexivity. Qed.
Lemma rmap_bind {A B C} (f : B -> C) (r : res A) (k : A -> res B) : rmap f (bind r k) = bind r (fun a => rmap f (k a)).
Proof. destruct r; reflexivity. Qed.
Lemma bind_ext {A B} (r : res A) (k k' : A -> res B) : (forall a, k a = k' a) -> bind r k = bind r k'.
Proof. intro E. destruct r; cbn; auto. Qed.

Section Frame.
  Variable q : mat R.
  Hypothesis Q : proper_rotation q.
  Context {P : @Pinv RNum}.
  Hypothesis HP : forall m, @pinv RNum P (Mmul q m) = Mmul (@pinv RNum P m) (Mtr q).
  Context {HO : HashOrd}.

  Lemma f_mag v : @magnitude RNum (Mapp q v) = @magnitude RNum v. Proof. exact (rot_norm q Q v). Qed.
  Lemma f_tols m d : @frac_tols_of RNum (Mmul q m) d = @frac_tols_of RNum m d.
  Proof.
    unfold frac_tols_of. change (col0 (Mmul q m)) with (Mapp q (col0 m)). change (col1 (Mmul q m)) with (Mapp q (col1 m)).
    change (col2 (Mmul q m)) with (Mapp q (col2 m)). now rewrite !f_mag.
  Qed.
  Lemma f_cart m fc : @get_cart_coords RNum (Mmul q m) fc = map (Mapp q) (@get_cart_coords RNum m fc).
  Proof. unfold get_cart_coords. rewrite map_map. apply map_ext. intro v. exact (Mapp_Mmul q m v). Qed.
  Lemma f_frac m cc : @get_frac_coords RNum P (Mmul q m) (map (Mapp q) cc) = @get_frac_coords RNum P m cc.
  Proof.
    unfold get_frac_coords, pseudo_inverse. destruct (_ : bool); [reflexivity|]. cbn [of_opt bind]. f_equal. rewrite HP, map_map. apply map_ext. intro v.
    change (Mapp (Mmul (@pinv RNum P m) (Mtr q)) (Mapp q v) = Mapp (@pinv RNum P m) v). now rewrite Mapp_Mmul, rot_back.
  Qed.
  Lemma f_new m sp fc : @structure_new RNum P (Mmul q m) sp fc false = rmap (turn q) (@structure_new RNum P m sp fc false).
  Proof. unfold structure_new. cbn [rmap]. rewrite f_cart. reflexivity. Qed.
  Lemma f_normalize s d : @normalize_coords RNum (turn q s) d = turn q (@normalize_coords RNum s d).
  Proof.
    unfold normalize_coords, turn. cbn [lattice species coords frac_coords]. rewrite f_tols, f_cart.
    set (fc := normalize_frac_vectors _ _). set (cc := get_cart_coords (lattice s) fc).
    assert (E : forall (sp : list string) cc fc, combine sp (combine (map (Mapp q) cc) fc) = map (fun p : string * (vec R * vec R) => (fst p, (Mapp q (fst (snd p)), snd (snd p)))) (combine sp (combine cc fc))).
    { clear. induction sp as [|e sp IH]; intros [|x cc] [|y fc]; cbn; auto. now rewrite IH. }
    change (@num RNum) with R in *. rewrite E. clear E. rewrite (sort_map _ (fun a b => str_le (fst a) (fst b))) by reflexivity. rewrite !map_map. reflexivity.
  Qed.
  Lemma f_same m ft b x y : @same_site RNum (Mmul q m) ft b x y = @same_site RNum m ft b x y.
  Proof. unfold same_site. change (@mvmul RNum (Mmul q m)) with (Mapp (Mmul q m)). rewrite Mapp_Mmul. now rewrite f_mag. Qed.
  Lemma existsb_ext' {A} (f g : A -> bool) l : (forall a, f a = g a) -> existsb f l = existsb g l.
  Proof. intro E. induction l as [|a l IH]; cbn; [reflexivity|]. now rewrite E, IH. Qed.

  Lemma forallb_ext' {A} (f g : A -> bool) l : (forall a, f a = g a) -> forallb f l = forallb g l.
  Proof. intro E. induction l as [|a l IH]; cbn; [reflexivity|]. now rewrite E, IH. Qed.

  (** ** apply_transformation *)
  Lemma f_at_vec inv m ft d mult c sp st tv : @at_vec_step RNum inv (Mmul q m) ft d mult c sp st tv = @at_vec_step RNum inv m ft d mult c sp st tv.
  Proof. unfold at_vec_step. destruct st as [nfc nsp]. rewrite (existsb_ext' _ (fun nc => @same_site RNum m ft (@fmul RNum d f2) (@mvmul RNum inv (@vadd RNum c (@vscale_r RNum tv (@fofZ RNum (Z.of_nat mult))))) nc)); [reflexivity|]. intro; apply f_same. Qed.
  Lemma fold_ext {A B} (f g : A -> B -> A) l : (forall a b, f a b = g a b) -> forall a, fold_left f l a = fold_left g l a.
  Proof. intro E. induction l as [|b l IH]; intro a; cbn; [reflexivity|]. now rewrite E, IH. Qed.
  Lemma f_at_site inv m ft d mult st x : @at_site_step RNum inv (Mmul q m) ft d mult st x = @at_site_step RNum inv m ft d mult st x.
  Proof. unfold at_site_step. apply fold_ext. intros; apply f_at_vec. Qed.
  Lemma f_at_search fuel inv s ft d r : forall mult st, @at_search RNum fuel inv (turn q s) ft d r mult st = @at_search RNum fuel inv s ft d r mult st.
  Proof.
    induction fuel as [|fuel IH]; intros mult st; cbn [at_search]; change (List.length (coords (turn q s))) with (List.length (map (Mapp q) (coords s))); rewrite map_length; destruct (ratio_lt _ _ _); auto.
    change (lattice (turn q s)) with (Mmul q (lattice s)). rewrite (fold_ext _ (@at_site_step RNum inv (lattice s) ft d mult)) by (intros; apply f_at_site).
    apply IH.
  Qed.
  Lemma f_apply fuel s t d : @apply_transformation RNum fuel (turn q s) t d = rmap (turn q) (@apply_transformation RNum fuel s t d).
  Proof.
    unfold apply_transformation. change (lattice (turn q s)) with (Mmul q (lattice s)). rewrite f_tols. destruct (try_inverse t) as [inv|]; [|reflexivity].
    rewrite f_at_search, rmap_bind. apply bind_ext. intros [nfc nsp]. cbn [rmap]. f_equal. rewrite <- f_normalize. f_equal. unfold turn. cbn [lattice species coords frac_coords].
    change (@mmul RNum (Mmul q (lattice s)) t) with (Mmul (Mmul q (lattice s)) t). rewrite Mmul_assoc, f_cart. reflexivity.
  Qed.

  (** ** find_primitive_cell *)
  Lemma f_sort_length l : @sort_by_length RNum (map (Mapp q) l) = rmap (map (Mapp q)) (@sort_by_length RNum l).
  Proof.
    unfold sort_by_length. rewrite map_length. replace (existsb (fun v => @fisnan RNum (@magnitude RNum v)) (map (Mapp q) l)) with (existsb (fun v => @fisnan RNum (@magnitude RNum v)) l).
    - destruct (_ && _); [reflexivity|]. cbn [rmap]. f_equal. apply sort_map. intros a b. now rewrite !f_mag.
    - induction l as [|v l IH]; cbn [map existsb]; [reflexivity|]. now rewrite IH, f_mag.
  Qed.
  Lemma f_second d f : forall l i c, @scan_second RNum d (Mapp q f) i (Mapp q c) (map (Mapp q) l) =
    (let '(c', j) := @scan_second RNum d f i c l in (Mapp q c', j)).
  Proof.
    induction l as [|v l IH]; intros i c; cbn [scan_second map]; [reflexivity|]. change (@cross RNum (Mapp q f) (Mapp q v)) with (Vcross (Mapp q f) (Mapp q v)).
    rewrite rot_cross by exact Q. rewrite f_mag. change (Vcross f v) with (@cross RNum f v). destruct (_ : bool); [reflexivity|apply IH].
  Qed.
  Lemma f_third d c : forall l i, @scan_third RNum d (Mapp q c) i (map (Mapp q) l) = @scan_third RNum d c i l.
  Proof.
    induction l as [|v l IH]; intros i; cbn [scan_third map]; [reflexivity|]. change (@dot RNum (Mapp q c) (Mapp q v)) with (Vdot (Mapp q c) (Mapp q v)).
    rewrite rot_dot by exact Q. change (Vdot c v) with (@dot RNum c v). destruct (_ : bool); [reflexivity|apply IH].
  Qed.
  Definition turn3 (t : vec R * vec R * vec R) : vec R * vec R * vec R := let '(a, b, c) := t in (Mapp q a, Mapp q b, Mapp q c).
  Lemma of_opt_map {A B} p (f : A -> B) o : of_opt p (option_map f o) = rmap f (of_opt p o).
  Proof. destruct o; reflexivity. Qed.
  Lemma f_shortest d l : @get_shortest_translation_vecs RNum d (map (Mapp q) l) = rmap turn3 (@get_shortest_translation_vecs RNum d l).
  Proof.
    unfold get_shortest_translation_vecs. rewrite f_sort_length, bind_rmap, rmap_bind. apply bind_ext. intro m. change (@num RNum) with R in *.
    rewrite nth_error_map, of_opt_map, bind_rmap, rmap_bind. apply bind_ext. intro f.
    rewrite !skipn_map. replace (@V (@num RNum) (@f0 RNum) (@f0 RNum) (@f0 RNum)) with (Mapp q V0) at 1 by apply Mapp_V0.
    change (V f0 f0 f0) with V0. rewrite f_second. destruct (scan_second _ _ _ _ _) as [c j]. rewrite map_length.
    destruct (Nat.ltb _ _); [reflexivity|]. rewrite skipn_map, f_third. rewrite !nth_error_map, !of_opt_map, bind_rmap, rmap_bind. apply bind_ext. intro b.
    rewrite bind_rmap, rmap_bind. apply bind_ext. intro g. reflexivity.
  Qed.
  Lemma f_is_translation d s ft v : @fp_is_translation RNum d (turn q s) ft v = @fp_is_translation RNum d s ft v.
  Proof.
    unfold fp_is_translation. change (combine (frac_coords (turn q s)) (species (turn q s))) with (combine (frac_coords s) (species s)).
    apply forallb_ext'. intro p. apply existsb_ext'. intro r. f_equal.
    exact (f_same (lattice s) ft _ _ _).
  Qed.
  Lemma f_fold m ft d st x : @fp_fold_step RNum (Mmul q m) ft d st x = @fp_fold_step RNum m ft d st x.
  Proof. unfold fp_fold_step. destruct st as [nfc nsp]. rewrite (existsb_ext' _ (fun nc => @same_site RNum m ft (@fmul RNum d f2) (fst x) nc)); [reflexivity|]. intro; apply f_same. Qed.
  Lemma f_primitive path d s : @find_primitive_cell RNum P HO path d (turn q s) = rmap (turn q) (@find_primitive_cell RNum P HO path d s).
  Proof.
    unfold find_primitive_cell. rewrite f_normalize. change (lattice (turn q s)) with (Mmul q (lattice s)). rewrite f_tols.
    set (ft := frac_tols_of _ _). set (temp := normalize_coords s d).
    change (species (turn q temp)) with (species temp). change (frac_coords (turn q temp)) with (frac_coords temp). change (lattice (turn q temp)) with (Mmul q (lattice temp)).
    rewrite rmap_bind. apply bind_ext. intros [[me ei] x]. rewrite rmap_bind. apply bind_ext. intro bi. rewrite rmap_bind. apply bind_ext. intro bs.
    change (fp_candidates (turn q temp) ft me (Z.to_nat bi) bs) with (fp_candidates temp ft me (Z.to_nat bi) bs).
    rewrite (filter_ext _ (@fp_is_translation RNum d temp ft)) by (intro; apply f_is_translation).
    rewrite f_cart, f_shortest, bind_rmap, rmap_bind. apply bind_ext. intros [[v1 v2] v3]. cbn [turn3].
    change [Mapp q v1; Mapp q v2; Mapp q v3] with (map (Mapp q) [v1; v2; v3]). rewrite f_frac, rmap_bind. apply bind_ext. intro sm.
    destruct sm as [|w1 [|w2 [|w3 [|]]]]; try reflexivity.
    rewrite f_cart, f_shortest, bind_rmap, rmap_bind. apply bind_ext. intros [[u1 u2] u3]. cbn [turn3]. rewrite rot_from_columns.
    change (coords (turn q temp)) with (map (Mapp q) (coords temp)). rewrite f_frac, rmap_bind. apply bind_ext. intro tf.
    rewrite (fold_ext _ (@fp_fold_step RNum (lattice temp) ft d)) by (intros; apply f_fold). destruct (fold_left _ _ _) as [nfc nsp].
    rewrite f_new, bind_rmap, rmap_bind. apply bind_ext. intro p. cbn [rmap]. now rewrite f_normalize.
  Qed.

  (** ** Niggli and Delaunay reduction *)
  Lemma f_volume s : @volume RNum (turn q s) = @volume RNum s.
  Proof. unfold volume. rewrite !det_R. exact (rot_det q Q (lattice s)). Qed.
  Lemma f_epsilon tol s : @epsilon_of RNum tol (turn q s) = @epsilon_of RNum tol s.
  Proof. unfold epsilon_of. now rewrite f_volume. Qed.
  Lemma f_metric s : @metric_tensor RNum (turn q s) = @metric_tensor RNum s.
  Proof. exact (rot_metric q Q (lattice s)). Qed.
  Lemma f_niggli d s tol : @niggli_reduce RNum P d (turn q s) tol = rmap (turn q) (@niggli_reduce RNum P d s tol).
  Proof.
    unfold niggli_reduce. rewrite f_epsilon, f_metric, rmap_bind. apply bind_ext. intros [g t].
    change (@mmul RNum (lattice (turn q s)) t) with (Mmul (Mmul q (lattice s)) t). rewrite Mmul_assoc.
    change (coords (turn q s)) with (map (Mapp q) (coords s)). rewrite f_frac, rmap_bind. apply bind_ext. intro fc.
    rewrite f_new, bind_rmap, rmap_bind. apply bind_ext. intro p. cbn [rmap]. now rewrite f_normalize.
  Qed.
  Definition turn4 (u : @quad RNum) : @quad RNum := @Quad RNum (Mapp q (@q0 RNum u)) (Mapp q (@q1 RNum u)) (Mapp q (@q2 RNum u)) (Mapp q (@q3 RNum u)).
  Lemma f_prods u : @get_scalar_prods RNum (turn4 u) = @get_scalar_prods RNum u.
  Proof. unfold get_scalar_prods, turn4. cbn [q0 q1 q2 q3]. change (@dot RNum) with Vdot. now rewrite !rot_dot. Qed.
  Lemma f_vadd a b : @vadd RNum (Mapp q a) (Mapp q b) = Mapp q (@vadd RNum a b). Proof. symmetry. exact (Mapp_add q a b). Qed.
  Lemma f_vscale k a : @vscale RNum k (Mapp q a) = Mapp q (@vscale RNum k a). Proof. symmetry. exact (Mapp_scal q k a). Qed.
  Lemma f_vscale_r k a : @vscale_r RNum (Mapp q a) k = Mapp q (@vscale_r RNum a k).
  Proof. destruct a, q. unfold vscale_r, vmap, Mapp. cbn. apply (@vec_ext R); cbn; ring. Qed.
  Lemma f_dtrans i u : @delaunay_transform RNum i (turn4 u) = turn4 (@delaunay_transform RNum i u).
  Proof. unfold delaunay_transform, turn4. cbn [q0 q1 q2 q3]. do 5 (destruct i as [|i]; [cbn [q0 q1 q2 q3]; now rewrite ?f_vscale_r, ?f_vadd|]). cbn [q0 q1 q2 q3]. now rewrite ?f_vscale_r, ?f_vadd. Qed.
  Lemma f_dloop fuel : forall c u, @delaunay_loop RNum fuel c (turn4 u) = rmap (fun p => (turn4 (fst p), snd p)) (@delaunay_loop RNum fuel c u).
  Proof.
    induction fuel as [|fuel IH]; intros c u; cbn [delaunay_loop]; rewrite f_prods; destruct (_ && _); try reflexivity. rewrite f_dtrans. apply IH.
  Qed.
  Lemma f_select u : @delaunay_select RNum (turn4 u) = rmap (Mmul q) (@delaunay_select RNum u).
  Proof.
    unfold delaunay_select, turn4. cbn [q0 q1 q2 q3]. change [Mapp q (@q0 RNum u); Mapp q (@q1 RNum u); Mapp q (@q2 RNum u); Mapp q (@q3 RNum u)] with (map (Mapp q) [@q0 RNum u; @q1 RNum u; @q2 RNum u; @q3 RNum u]).
    rewrite f_sort_length, bind_rmap, rmap_bind. apply bind_ext. intros l. destruct l as [|a [|b [|c [|e [|]]]]]; try reflexivity. cbn [map].
    change (@dot RNum) with Vdot. rewrite !rot_dot by exact Q. destruct (_ : bool); [|destruct (_ : bool); [|destruct (_ : bool)]];
      rewrite ?f_vscale_r, ?f_vadd, ?f_vscale, rot_from_columns; reflexivity.
  Qed.
  Lemma f_delaunay d s full : @delaunay_reduce RNum P d (turn q s) full = rmap (turn q) (@delaunay_reduce RNum P d s full).
  Proof.
    unfold delaunay_reduce, delaunay_matrix. cbv zeta. change (lattice (turn q s)) with (Mmul q (lattice s)).
    change (col0 (Mmul q (lattice s))) with (Mapp q (col0 (lattice s))). change (col1 (Mmul q (lattice s))) with (Mapp q (col1 (lattice s))). change (col2 (Mmul q (lattice s))) with (Mapp q (col2 (lattice s))).
    rewrite !f_vadd, f_vscale. set (u := @Quad RNum (col0 (lattice s)) _ _ _). change (@Quad RNum _ _ _ _) with (turn4 u) at 1. rewrite f_dloop, bind_rmap, rmap_bind.
    apply bind_ext. intros [v c]. cbn [fst snd]. destruct (c =? 100)%Z; [reflexivity|].
    replace (if full then delaunay_select (turn4 v) else Ok (from_columns (q0 (turn4 v)) (q1 (turn4 v)) (q2 (turn4 v))))
      with (rmap (Mmul q) (if full then @delaunay_select RNum v else Ok (from_columns (@q0 RNum v) (@q1 RNum v) (@q2 RNum v)))) by (destruct full; [now rewrite f_select|reflexivity]).
    rewrite bind_rmap, rmap_bind. apply bind_ext. intro nl. change (coords (turn q s)) with (map (Mapp q) (coords s)). rewrite f_frac, rmap_bind. apply bind_ext. intro fc.
    rewrite f_new, bind_rmap, rmap_bind. apply bind_ext. intro p. cbn [rmap]. now rewrite f_normalize.
  Qed.

  (** ** The analyzer *)
  Lemma f_character s tol : @get_lattice_character RNum (turn q s) tol = @get_lattice_character RNum s tol.
  Proof.
    unfold get_lattice_character. rewrite f_epsilon. change (lattice (turn q s)) with (Mmul q (lattice s)). cbv zeta.
    change (col0 (Mmul q (lattice s))) with (Mapp q (col0 (lattice s))). change (col1 (Mmul q (lattice s))) with (Mapp q (col1 (lattice s))). change (col2 (Mmul q (lattice s))) with (Mapp q (col2 (lattice s))).
    unfold magnitude_squared. change (@dot RNum) with Vdot. now rewrite !rot_dot.
  Qed.
  Lemma f_conv s : @conventional_transformation_matrix RNum (turn q s) = @conventional_transformation_matrix RNum s.
  Proof. unfold conventional_transformation_matrix. now rewrite f_character. Qed.
  Lemma f_std_conv fuel path d s : @get_standard_conventional_structure RNum P HO fuel path d (turn q s) = rmap (turn q) (@get_standard_conventional_structure RNum P HO fuel path d s).
  Proof.
    unfold get_standard_conventional_structure. rewrite f_primitive, bind_rmap, rmap_bind. apply bind_ext. intro p. rewrite f_niggli, bind_rmap, rmap_bind. apply bind_ext. intro n.
    rewrite f_conv, rmap_bind. apply bind_ext. intros [t ch]. apply f_apply.
  Qed.
  Lemma f_std_prim fuel path d s : @get_standard_primitive_structure RNum P HO fuel path d (turn q s) = rmap (turn q) (@get_standard_primitive_structure RNum P HO fuel path d s).
  Proof.
    unfold get_standard_primitive_structure. rewrite f_primitive, bind_rmap, rmap_bind. apply bind_ext. intro p. rewrite f_niggli, bind_rmap, rmap_bind. apply bind_ext. intro n.
    rewrite f_conv, rmap_bind. apply bind_ext. intros [t ch]. rewrite f_apply, bind_rmap, rmap_bind. apply bind_ext. intro r. rewrite rmap_bind. apply bind_ext. intros [t' b]. apply f_apply.
  Qed.
  Lemma f_match d m ft t l : @find_match RNum d (Mmul q m) ft t l = @find_match RNum d m ft t l.
  Proof. unfold find_match. f_equal. induction l as [|p l IH]; cbn [find]; [reflexivity|]. unfold counts_match at 1 3. rewrite f_same. destruct (_ : bool); [reflexivity|exact IH]. Qed.
  Lemma f_accepted path d s ft e : @accepted_ops RNum HO path d (turn q s) ft e = @accepted_ops RNum HO path d s ft e.
  Proof.
    unfold accepted_ops. destruct e as [op tv]. change (lattice (turn q s)) with (Mmul q (lattice s)).
    rewrite (fold_ext _ (@count_step RNum HO (0%nat :: path) d (lattice s) ft)); [reflexivity|]. intros a [i t]. unfold count_step. now rewrite f_match.
  Qed.
  Lemma f_ops fuel path d s b : @get_primitive_space_group_ops RNum HO fuel path d (turn q s) b = @get_primitive_space_group_ops RNum HO fuel path d s b.
  Proof.
    unfold get_primitive_space_group_ops. change (lattice (turn q s)) with (Mmul q (lattice s)). rewrite f_tols.
    apply bind_ext. intro n. apply bind_ext. intro pg. apply bind_ext. intro c. apply bind_ext. intro pt. apply bind_ext. intro pg'.
    change (species (turn q s)) with (species s). apply bind_ext. intros [[me ei] ec].
    change (@op_translations RNum HO) with (@op_translations RNum HO). apply bind_ext. intro en. f_equal. f_equal. apply map_ext. intro ie. apply f_accepted.
  Qed.
  Lemma f_trans a b : @get_transformation_matrix RNum P (turn q a) (turn q b) = @get_transformation_matrix RNum P a b.
  Proof.
    unfold get_transformation_matrix, pseudo_inverse. destruct (_ : bool); [reflexivity|]. cbn [of_opt bind]. f_equal. change (lattice (turn q a)) with (Mmul q (lattice a)). rewrite HP.
    change (Mmul (Mmul (@pinv RNum P (lattice a)) (Mtr q)) (Mmul q (lattice b)) = Mmul (@pinv RNum P (lattice a)) (lattice b)).
    destruct Q as [O _]. now rewrite Mmul_assoc, <- (Mmul_assoc (Mtr q)), O, Mmul_id_l.
  Qed.
  Lemma f_info fuel path d s : @get_space_group_info RNum P HO fuel path d (turn q s) = @get_space_group_info RNum P HO fuel path d s.
  Proof.
    unfold get_space_group_info. rewrite f_primitive, bind_rmap. apply bind_ext. intro p. rewrite f_niggli, bind_rmap. apply bind_ext. intro n.
    rewrite f_conv. apply bind_ext. intros [t ch]. rewrite f_apply, bind_rmap. apply bind_ext. intro r. apply bind_ext. intros [t' b]. rewrite f_apply, bind_rmap. apply bind_ext. intro r'.
    rewrite f_ops. apply bind_ext. intro ops. change (lattice (turn q r')) with (Mmul q (lattice r')). rewrite f_tols. apply bind_ext. intro sg. apply bind_ext. intro ls. apply bind_ext. intro idr.
    apply bind_ext. intros [num sym]. now rewrite !f_trans.
  Qed.
End Frame.

Lemma adj_inv_turns q m : proper_rotation q -> Madj_inv (Mmul q m) = Mmul (Madj_inv m) (Mtr q).
Proof.
  intros [O D]. assert (Nq : Mdet q <> 0) by (rewrite D; lra).
  assert (E : Madj_inv q = Mtr q) by (rewrite <- (Mmul_id_l (Madj_inv q)), <- O, Mmul_assoc, Madj_inv_r, Mmul_id_r by exact Nq; reflexivity).
  rewrite <- E. unfold Madj_inv. rewrite (Mdet_mul q m), D, Rmult_1_l. unfold Rdiv. rewrite Rinv_1, !Rmult_1_r. generalize (/ Mdet m). intro k. destruct q, m. unfold Mmul. cbn. f_equal; ring.
Qed.

Lemma sorted_box a c x y z : a <= c -> Permutation [x; y; z] [a; a; c] -> x <= y <= z -> x = a /\ y = a /\ z = c.
Proof.
  intros H PM [Hx Hy].
  assert (I1 : In x [a; a; c]) by (apply (Permutation_in _ PM); cbn; tauto). assert (I2 : In y [a; a; c]) by (apply (Permutation_in _ PM); cbn; tauto).
  assert (I3 : In z [a; a; c]) by (apply (Permutation_in _ PM); cbn; tauto).
  assert (Sm : x + y + z = a + a + c).
  { assert (G : forall l l', Permutation l l' -> fold_right Rplus 0 l = fold_right Rplus 0 l') by (induction 1; cbn; lra). specialize (G _ _ PM). cbn in G. lra. }
  cbn in I1, I2, I3. lra.
Qed.
Lemma rpower_1 x : Rpower 1 x = 1.
Proof. unfold Rpower. rewrite ln_1, Rmult_0_r. apply exp_0. Qed.
