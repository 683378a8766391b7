(** Model of /repo/src/lib.rs: the data conversions of the Python boundary and the five exported functions.
    pyo3's own argument extraction is not modelled. *)
From Coq Require Import ZArith String List Bool.
From Verif Require Import Num Mat SymmOp Structure Reduce Analyzer.
Import ListNotations.
Open Scope Z_scope.

Section Lib.
  Context {N : Num} {P : Pinv} {H : HashOrd}.

  (** lib.rs 25-28: [Vector3::new(v[0], v[1], v[2])] *)
  Definition coord_of_list (l : list num) : res (vec num) :=
    do x <- of_opt PIndex (nth_error l 0);
    do y <- of_opt PIndex (nth_error l 1);
    do z <- of_opt PIndex (nth_error l 2);
    Ok (V x y z).

  (** lib.rs 17-36 *)
  Definition generate_input_structure (lat : list num) (sp : list string) (cs : list (list num))
             (coords_are_cart : bool) : res structure :=
    do formatted_lattice <- mat_from_iter lat;
    do formatted_coords <- map_res coord_of_list cs;
    structure_new formatted_lattice sp formatted_coords coords_are_cart.

  (** lib.rs 38-49 *)
  Definition generate_output_structure_data (s : structure)
    : list num * list string * list (list num) :=
    (mlist (lattice s), species s, map vlist (frac_coords s)).

  (** reduce.rs 555-562: [Default] *)
  Definition default_dtol : num := flit 5 100.

  (** lib.rs 52-69 *)
  Definition py_find_primitive (path : list nat) lat sp cs cart (dtol : num) :=
    do s <- generate_input_structure lat sp cs cart;
    do r <- find_primitive_cell path dtol s;
    Ok (generate_output_structure_data r).

  (** lib.rs 72-90 *)
  Definition py_niggli_reduce lat sp cs cart (tol : num) :=
    do s <- generate_input_structure lat sp cs cart;
    do r <- niggli_reduce default_dtol s tol;
    Ok (generate_output_structure_data r).

  (** lib.rs 108-112: rotation row-major (transpose, then column-major iteration), translation *)
  Definition op_to_lists (op : symmop) : list Z * list num :=
    (mlist (transpose (rotation op)), vlist (translation op)).

  (** lib.rs 93-115 *)
  Definition py_get_space_group_info (fuel : nat) (path : list nat) lat sp cs cart (dtol : num) :=
    do s <- generate_input_structure lat sp cs cart;
    do (n, sym, ops) <- get_space_group_info fuel path dtol s;
    Ok (n, sym, map op_to_lists ops).

  (** lib.rs 118-134 *)
  Definition py_get_standard_conventional_structure (fuel : nat) (path : list nat) lat sp cs cart (dtol : num) :=
    do s <- generate_input_structure lat sp cs cart;
    do r <- get_standard_conventional_structure fuel path dtol s;
    Ok (generate_output_structure_data r).

  (** lib.rs 137-153 *)
  Definition py_get_standard_primitive_structure (fuel : nat) (path : list nat) lat sp cs cart (dtol : num) :=
    do s <- generate_input_structure lat sp cs cart;
    do r <- get_standard_primitive_structure fuel path dtol s;
    Ok (generate_output_structure_data r).
End Lib.
