(** Unpacking of equations and pairing of names with residuals
    (/repo/cge_modeling/base/primitives.py:242-270, base/cge.py:333-355, 463-473,
     288-312, 1149-1157; compile/numba.py:171-184; compile/sympytensor.py:44-59;
     compile/pytensor.py:64-68; compile/pytensor_tools.py:64-100). *)
From Verif Require Import Py PyStr NdArray M_Primitives M_Expand.
Local Open Scope string_scope.

(** base/primitives.py:242-250 _SympyEquation. The expression is represented
    by an identifier [se_id] and the substitutions made in it so far, oldest
    first. *)
Record seqn := MkSeqn {
  se_id : nat;
  se_name : string;
  se_dims : list string;
  se_dim_vals : dict label;
  se_subs : list (string * label)
}.

(** base/primitives.py:260-270 _SympyEquation.update_dim_value *)
Definition update_eq (e : seqn) (dim : string) (value : label) : res seqn :=
  if mem_str dim (se_dims e) then
    Ok (MkSeqn (se_id e) (pretty_print_dim_flags (se_name e) (se_dims e) [(dim, value)])
               (se_dims e) [(dim, value)] (se_subs e ++ [(dim, value)])%list)
  else Err ValueError.

(** tools/sympy_tools.py:387-430 expand_obj_by_indices on an equation, with
    dims=None (base/cge.py:350): its own dims, which _validate_dims accepts. *)
Definition set_eq_labels (e : seqn) (dims : list string) (ls : list label) : res seqn :=
  fold_res (fun e dl => update_eq e (fst dl) (snd dl)) e (combine dims ls).
(** tools/sympy_tools.py:387-430 expand_obj_by_indices on an equation *)
Definition expand_equation (c : coords) (e : seqn) : res (list seqn) :=
  let* labels := map_res (fun d => dgetitem d c) (se_dims e) in
  map_res (set_eq_labels e (se_dims e)) (product labels).

(** base/cge.py:333-355 _unpack_objects on equations *)
Definition unpack_eq_list (eqs : list seqn) (c : coords) : res (list seqn) :=
  let* ls := map_res (expand_equation c) eqs in Ok (List.concat ls).

(** base/cge.py:466-470 _unpack_equations with sympy parsing *)
Definition unpack_equations_sympy (eqs : list seqn) (c : coords) : res (dict seqn) :=
  let* us := unpack_eq_list eqs c in
  Ok (dict_of_list (combine (map se_name us) us)).

(** base/cge.py:471-473 _unpack_equations without sympy parsing: the keys of
    dict.fromkeys *)
Definition unpack_equations_pytensor (names : list string) (c : coords) : res (list string) :=
  let* l := unpack_equation_strings names c in Ok (dedup l).

Section Residuals.
Context {V : Type}.

(** f_system of the numba and sympytensor backends: one residual per unpacked
    equation, in the order of the unpacked names (compile/numba.py:171-184,
    compile/sympytensor.py:44-59, base/cge.py:288-296). [R] evaluates an
    expression after substitutions. *)
Definition residuals_sympy (R : nat -> list (string * label) -> V) (g : dict seqn) : res (list V) :=
  map_res (fun n => let* e := dgetitem n g in Ok (R (se_id e) (se_subs e))) (dkeys g).

(** f_system of the pytensor backend: the arrays of all equations, ravelled
    and concatenated, whose length must be the number of unpacked names
    (compile/pytensor.py:64-67, compile/pytensor_tools.py:64-100). *)
Definition residuals_pytensor (names : list string) (arrays : list (arr V)) : res (list V) :=
  let flat := List.concat (map (@adata V) arrays) in
  if Nat.eqb (length flat) (length names) then Ok flat else Err ValueError.

(** base/cge.py:1153 zip(self.unpacked_equation_names, errors) *)
Definition residual_report (names : list string) (errors : list V) : list (string * V) :=
  combine names errors.
End Residuals.
