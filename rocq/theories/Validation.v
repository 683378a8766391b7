(** The unit tests of the repository, run on the model in binary64.  Each Example transcribes the assertions of one [#[test]] function; they are checks of
    the model against the authors' expectations, not properties.  The functions outside the model are filled in with the definitions below
    (cbrt and acos: iterations accurate to a few units in the last place; the SVD pseudo inverse: nalgebra's 3x3 inverse). *)
From Coq Require Import ZArith String List Bool Permutation.
From Flocq Require Import IEEE754.BinarySingleNaN.
From Verif Require Import Num Mat Utils DataCore DataSG SymmOp PointGroup SpaceGroup Structure Reduce Analyzer FInst.
Import ListNotations.
Open Scope Z_scope.

(** ** Stand-ins *)
Section Oracles.
  Let L0 : Libm := MkLibm (fun x => x) (fun x => x).
  Let F := @FNum L0.
  (** y <- (2y + x/y^2)/3; scaled start *)
  Fixpoint newton_cbrt (n : nat) (x y : f64) : f64 :=
    match n with
    | O => y
    | S n' => newton_cbrt n' x (@fdiv F (@fadd F (@fmul F (@f2 F) y) (@fdiv F x (@fmul F y y))) (@fofZ F 3))
    end.
  Definition cbrt_approx (x : f64) : f64 :=
    if @feq F x (@f0 F) then x
    else if @flt F (@f0 F) x then newton_cbrt 80 x (@fadd F x (@f1 F))
    else B754_nan.
  (** atan t = t - t^3/3 + ... after four halvings of the angle *)
  Fixpoint atan_series (n : nat) (k : Z) (t2 : f64) : f64 :=
    match n with
    | O => @f0 F
    | S n' => @fsub F (@flit F 1 k) (@fmul F t2 (atan_series n' (k + 2) t2))
    end.
  Definition halve (t : f64) : f64 := @fdiv F t (@fadd F (@f1 F) (@fsqrt F (@fadd F (@f1 F) (@fmul F t t)))).
  Definition atan_approx (t : f64) : f64 :=
    let u := halve (halve (halve (halve t))) in @fmul F (@fofZ F 16) (@fmul F u (atan_series 12 1 (@fmul F u u))).
  (** acos x = 2 atan (sqrt ((1 - x) / (1 + x))) *)
  Definition acos_approx (x : f64) : f64 :=
    @fmul F (@f2 F) (atan_approx (@fsqrt F (@fdiv F (@fsub F (@f1 F) x) (@fadd F (@f1 F) x)))).
End Oracles.
Definition libm : Libm := MkLibm cbrt_approx acos_approx.
Local Notation F := (@FNum libm).
Definition pinv_direct : @Pinv F := fun m => match @try_inverse F m with Some i => i | None => m end.
Definition in_order : HashOrd := MkHashOrd (fun _ _ l => l) (fun _ _ l => Permutation_refl l).
#[local] Existing Instance libm. #[local] Existing Instance pinv_direct. #[local] Existing Instance in_order.

(** decimal literals: [d n k] is n / 10^k, correctly rounded *)
Definition d (n k : Z) : f64 := @flit F n (10 ^ k).
Definition vd (x y z k : Z) : vec f64 := V (d x k) (d y k) (d z k).
(** Matrix3::new takes rows *)
Definition rows (l : list f64) : mat f64 := match l with [a; b; c; d; e; f; g; h; i] => M a b c d e f g h i | _ => M B754_nan B754_nan B754_nan B754_nan B754_nan B754_nan B754_nan B754_nan B754_nan end.
Definition md (l : list Z) (k : Z) : mat f64 := rows (map (fun n => d n k) l).
Definition close (a b : list f64) (tol : f64) : bool := match @approx_equal_iter F a b tol with Ok b => b | _ => false end.
Definition zero_tol : f64 := @ZERO_TOL F.
Definition on {A} (r : res A) (f : A -> bool) : bool := match r with Ok a => f a | _ => false end.
Definition vecs_close (a b : list (vec f64)) (tol : f64) : bool := forallb (fun p => close (vlist (fst p)) (vlist (snd p)) tol) (combine a b).

(** structure.rs 401-417, reduce.rs 569-586: generate_structure *)
Definition ause_lattice : mat f64 := from_columns (vd (-3748244) 0 0 6) (vd 1874122 (-4750729) 0 6) (V (d 0 0) (d 15562529 7) (d 625794799 8)).
Definition ause_coords : list (vec f64) := [vd (-18741) 7781 31290 4; vd 0 0 0 4; vd (-18741) (-30213) 17273 4; vd 0 (-1732) 45307 4].
Definition generate_structure : res (@structure F) := @structure_new F pinv_direct ause_lattice ["Au"; "Au"; "Se"; "Se"]%string ause_coords true.
Definition dtol : f64 := d 5 2.

(** utils.rs 98-106 *)
Example test_approx_equal :
  close [d 1 1; d 2 1; d 3 1] [d 11 2; d 21 2; d 31 2] (d 1 3) = false /\
  close [d 1 1; d 2 1; d 3 1] [d 10001 5; d 20001 5; d 30001 5] (d 1 3) = true.
Proof. split; vm_compute; reflexivity. Qed.
(** utils.rs 108-115 *)
Example test_num_negative : @num_negative_zero F [d 1 1; d 2 1; d 3 1; d 1 7; d (-1) 1] (d 1 6) = (1, 1).
Proof. vm_compute. reflexivity. Qed.
(** utils.rs 117-125 *)
Example test_decode : decode 3360 3 1 9 = Ok [-1; 0; 0; 0; 1; 0; 0; 0; -1].
Proof. vm_compute. reflexivity. Qed.
(** utils.rs 127-140 *)
Example test_custom_compare :
  let mat1 := md [1; 0; 0; 0; -1; 0; 0; 0; 1] 0 in
  let mat2 := rows [d 100001 5; d 0 0; d 1 6; d 0 0; d (-1000001) 6; d 0 0; d 0 0; d 0 0; d 1 0] in
  let mat3 := md [101; 0; 0; 0; -101; 0; 0; 0; 101] 2 in
  @compare_matrices F mat1 mat3 (repeat (d 1 3) 9) = Ok false /\ @compare_matrices F mat1 mat2 (repeat (d 1 3) 9) = Ok true.
Proof. split; vm_compute; reflexivity. Qed.
(** utils.rs 141-162.  This test fails: it expects 1.000001 to stay, the code reduces it to 0.000001 (utils.rs 7).  The other five components agree. *)
Example test_normalize :
  let vecs := @normalize_frac_vectors F [V (d (-125) 2) (d 1000001 6) (d 147 2); V (d (-1) 5) (d 47 2) (d (-78) 2)] (vd 1 1 1 3) in
  vecs_close vecs [V (d 75 2) (d 1000001 6) (d 47 2); V (d (-1) 5) (d 47 2) (d 22 2)] (d 1 3) = false /\
  vecs_close vecs [V (d 75 2) (d 1 6) (d 47 2); V (d (-1) 5) (d 47 2) (d 22 2)] (d 1 9) = true.
Proof. split; vm_compute; reflexivity. Qed.

(** symmop.rs 80-96 *)
Definition symm_op_1 : @symmop F := SymmOp (N := F) (M 0 0 1 0 (-1) 0 1 0 0) (vd 0 50 (-75) 2).
Definition symm_op_2 : @symmop F := SymmOp (N := F) (M 0 1 0 1 0 0 0 0 1) (vd 0 50001 (-74999) 5).
(** symmop.rs 98-116 *)
Example test_symm_ops :
  let op := @op_normalize F symm_op_1 (vd 1 1 1 3) in
  close (vlist (translation op)) (vlist (vd 0 50 25 2)) (d 1 4) = true /\
  @is_approx_eq F op (SymmOp (N := F) (rotation op) (V (d 9999 4) (d 4999 4) (d 25001 5))) (vd 1 1 1 3) = true.
Proof. split; vm_compute; reflexivity. Qed.
(** symmop.rs 118-146 *)
Example test_mult :
  close (vlist (translation (@op_mul F symm_op_1 symm_op_2))) (vlist (vd 5 5 (-15) 1)) (d 1 4) = true /\
  rotation (@op_mul F symm_op_1 symm_op_2) = M 0 0 1 (-1) 0 0 0 1 0 /\
  close (vlist (@op_apply F symm_op_1 (vd 50 25 (-75) 2))) (vlist (vd (-75) 25 (-25) 2)) (d 1 4) = true.
Proof. split; [|split]; vm_compute; reflexivity. Qed.

(** structure.rs 419-449 *)
Example test_scalar_attributes : on generate_structure (fun s =>
  close [d 4 0; d 3748244 6; d 5107030380008033 15; d 644855306023863 14; d 10297327735350085 14; d 90 0; d 11152881069906073 14; d 11143460086012757 14]
    [@fofZ F (Z.of_nat (num_sites s)); len_a s; len_b s; len_c s; alpha s; beta s; gamma s; volume s] zero_tol) = true.
Proof. vm_compute. reflexivity. Qed.
(** structure.rs 451-466 *)
Example test_formulas :
  on generate_structure (fun s => let '(f, r) := formulas [] (species s) in String.eqb f "Au2Se2" && String.eqb r "AuSe") = true /\
  formulas [] ["Si"; "Si"; "Si"; "Si"; "Si"; "Si"; "O"; "O"; "P"; "P"; "P"; "P"]%string = ("O2P4Si6", "OP2Si3")%string.
Proof. split; vm_compute; reflexivity. Qed.
(** structure.rs 468-480 *)
Example test_min_element : get_min_element [] ["Au"; "Au"; "Se"; "Se"]%string = Ok ("Au", [("Au", 0); ("Se", 2)], [("Au", 2); ("Se", 2)])%string.
Proof. vm_compute. reflexivity. Qed.
(** structure.rs 482-502 *)
Example test_metric_tensor : on generate_structure (fun s => close (mlist (@metric_tensor F s))
  (mlist (md [1404933308; -702466654; 0; -702466654; 2608175930; -739333626; 0; -739333626; 4158383657] 8)) zero_tol) = true.
Proof. vm_compute. reflexivity. Qed.
(** structure.rs 504-525 *)
Example test_reciprocal_lattice : on generate_structure (fun s => on (@reciprocal_lattice F s) (fun r => close (mlist r)
  (mlist (transpose (md [-167630104; -66128644; 16445151; 0; -132257287; 32890302; 0; 0; 100403284] 8))) zero_tol)) = true.
Proof. vm_compute. reflexivity. Qed.
(** structure.rs 527-550: Matrix3x4::new takes rows, the model lists columns *)
Example test_delaunay : on generate_structure (fun s => vecs_close (@delaunay_matrix F s)
  [vd (-3748244) 0 0 6; vd 1874122 (-4750729) 0 6; V (d 0 0) (d 15562529 7) (d 625794799 8); V (d 1874122 6) (d 31944760999999997 16) (d (-625794799) 8)] zero_tol &&
  Nat.eqb (List.length (@delaunay_matrix F s)) 4) = true.
Proof. vm_compute. reflexivity. Qed.
(** structure.rs 552-567 *)
Example test_get_cart_coords : on generate_structure (fun s => vecs_close (@get_cart_coords F (lattice s) (frac_coords s)) ause_coords (d 1 4)) = true.
Proof. vm_compute. reflexivity. Qed.
(** structure.rs 570-585 *)
Example test_get_frac_coords : on generate_structure (fun s => on (@get_frac_coords F pinv_direct (lattice s) (coords s)) (fun fc => vecs_close fc
  [vd 4999 0 5000 4; vd 0 0 0 0; vd 863192 726384 276014 6; vd 136808 273616 723986 6] (d 1 4))) = true.
Proof. vm_compute. reflexivity. Qed.
(** structure.rs 588-613 *)
Example test_normalize_coords : on generate_structure (fun s =>
  let s := Structure (N := F) (lattice s) (species s) (coords s) [vd 105 260 150 2; vd 0 0 0 0; vd (-75) 50 50 2; vd (-105) (-261) (-150) 2] in
  vecs_close (frac_coords (@normalize_coords F s dtol)) [vd 5 60 50 2; vd 0 0 0 0; vd 25 50 50 2; vd 95 39 50 2] (d 1 4)) = true.
Proof. vm_compute. reflexivity. Qed.
(** structure.rs 615-628 *)
Example test_apply_transformation : on generate_structure (fun s => on (@apply_transformation F 10 s (md [2; 1; 0; 0; 1; 0; 0; 0; 1] 0) (d 1 2)) (fun s' =>
  close (mlist (lattice s')) (mlist (md [-7496488; -1874122; 0; 0; -4750729; 1556253; 0; 0; 6257948] 6)) zero_tol)) = true.
Proof. vm_compute. reflexivity. Qed.
(** structure.rs 631-647 *)
Example test_get_transformation_matrix : let t := md [2; 1; 0; 0; 1; 0; 0; 0; 1] 0 in
  on generate_structure (fun s => on (@apply_transformation F 10 s t dtol) (fun s' => on (@get_transformation_matrix F pinv_direct s s') (fun r =>
  close (mlist r) (mlist t) zero_tol))) = true.
Proof. vm_compute. reflexivity. Qed.

(** spacegroup.rs 166-226, 228-318 *)
Definition generators : list (@symmop F) :=
  [SymmOp (N := F) (M 1 0 0 0 1 0 0 0 1) (vd 0 0 0 1); SymmOp (N := F) (M 1 0 0 0 (-1) 0 0 0 1) (vd 0 0 5 1); SymmOp (N := F) (M 1 0 0 0 1 0 0 0 1) (vd 5 5 0 1)].
Definition found (ops : list (@symmop F)) (p : mat Z * vec f64) : bool :=
  existsb (fun op => zmat_eqb (rotation op) (fst p) && close (vlist (translation op)) (vlist (snd p)) zero_tol) ops.
Definition one : mat Z := M 1 0 0 0 1 0 0 0 1.
Definition mirror : mat Z := M 1 0 0 0 (-1) 0 0 0 1.
Example test_from_generators : on (@from_generators F 10 generators (vd 1 1 1 3)) (fun sg =>
  forallb (found sg) [(one, vd 0 0 0 1); (one, vd 5 5 0 1); (mirror, vd 0 0 5 1); (mirror, vd 5 5 5 1)]) = true.
Proof. vm_compute. reflexivity. Qed.
Example test_sg_apply_transformation : on (@from_generators F 10 generators (vd 1 1 1 3)) (fun sg =>
  on (@sg_apply_transformation F 10 sg (md [2; 0; 0; 0; 1; 0; 0; 0; 1] 0) (vd 1 1 1 3)) (fun sg' =>
  forallb (found sg') [(one, vd 0 0 0 2); (one, vd 25 50 0 2); (one, vd 50 0 0 2); (one, vd 75 50 0 2);
                       (mirror, vd 0 0 50 2); (mirror, vd 75 50 50 2); (mirror, vd 50 0 50 2)])) = true.
Proof. vm_compute. reflexivity. Qed.

(** reduce.rs 613-627.  The vectors b and a + b of this cell have the same length, so which of them find_primitive_cell returns hangs on rounding errors of
    the pseudo inverse.  With the plain inverse it is b; with an error of 2e-16 in one entry it is a + b, and the reduced cell is the one of the test.
    (test_find_primitive, reduce.rs 594-611, has the same tie: with the plain inverse the model returns a + b in place of b.) *)
Definition pinv_nudged : @Pinv F := fun m =>
  let i := pinv_direct m in M (m11 i) (@fadd F (m12 i) (@fmul F (@fsignum F (m12 m)) (d 2 16))) (m13 i) (m21 i) (m22 i) (m23 i) (m31 i) (m32 i) (m33 i).
Definition niggli_of (P : @Pinv F) : res (@structure F) := do s <- generate_structure; do p <- @find_primitive_cell F P in_order [] dtol s; @niggli_reduce F P dtol p (d 1 5).
Example test_niggli_reduce :
  on (niggli_of pinv_nudged) (fun q => close (mlist (lattice q)) (mlist (md [-3748244; 1874122; 0; 0; 4750729; -1556253; 0; 0; -6257948] 6)) zero_tol) = true /\
  on (niggli_of pinv_direct) (fun q => close (mlist (lattice q)) (mlist (md [-3748244; 1874122; 0; 0; -4750729; 1556253; 0; 0; 6257948] 6)) zero_tol) = true.
Proof. split; vm_compute; reflexivity. Qed.
(** reduce.rs 629-647 *)
Example test_delaunay_reduce : on generate_structure (fun s => on (@find_primitive_cell F pinv_direct in_order [] dtol s) (fun p =>
  on (@delaunay_reduce F pinv_direct dtol p true) (fun q =>
  close (mlist (lattice q)) (mlist (rows [d (-3748244) 6; d (-1874122) 6; d (-1874122) 6; d 0 0; d 4750729 6; d 31944761 7; d 0 0; d 0 0; d (-6257948) 6])) zero_tol))) = true.
Proof. vm_compute. reflexivity. Qed.
