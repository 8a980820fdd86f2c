(** The Jacobians, gradients and products of the pytensor backend
    (/repo/cge_modeling/compile/pytensor_tools.py:225-259, compile/pytensor.py:75-106,
    128-223, 234-269; compile/euler.py:242-254), evaluated.

    [D e j idx] stands for pytensor's derivative: of output [e] with respect to
    element [idx] of the [j]-th array. How pytensor computes it is not modelled;
    what is modelled is where the code puts it. *)
From Coq Require Import Reals.
From Verif Require Import Py PyStr NdArray M_Primitives M_Euler.
Local Open Scope list_scope.

Section Layout.
Context {V : Type}.

(** pytensor.gradient.jacobian(system, [x])[j]: the derivative of the vector in
    one array, equations along the first axis (compile/pytensor_tools.py:254) *)
Definition jacobian_block (D : nat -> nat -> list nat -> V) (n_eq j : nat) (shape : list nat) : arr V :=
  mkArr (n_eq :: shape) (map (fun i => D (hd 0 i) j (tl i)) (ndindex (n_eq :: shape))).

(** pt.atleast_2d (compile/pytensor_tools.py:256): new axes go in front *)
Definition atleast_2d (a : arr V) : arr V :=
  match ashape a with
  | [] => mkArr [1; 1] (adata a)
  | [n] => mkArr [1; n] (adata a)
  | _ => a
  end.

(** x.reshape((n_eq, -1)) (compile/pytensor_tools.py:256): the second length is
    inferred; ValueError when it does not divide *)
Definition reshape_rows (n_eq : nat) (a : arr V) : res (arr V) :=
  let size := prodn (ashape a) in
  if Nat.eqb n_eq 0 then Err ValueError
  else if Nat.eqb (size mod n_eq) 0 then Ok (mkArr [n_eq; size / n_eq] (adata a)) else Err ValueError.

(** the rows of a matrix of [n] rows (of any use of it, e.g. A @ x) (compile/pytensor.py:255) *)
Definition rows (a : arr V) : list (list V) :=
  match ashape a with
  | [n; m] => map (fun r => slice (adata a) (r * m) m) (seq 0 n)
  | _ => []
  end.

(** pt.concatenate(matrices, axis=-1) (compile/pytensor_tools.py:256): ValueError
    on no matrices or on different numbers of rows *)
Definition concat_columns (l : list (arr V)) : res (arr V) :=
  match l with
  | [] => Err ValueError
  | a :: _ =>
    let n := hd 0 (ashape a) in
    if forallb (fun b => match ashape b with [k; _] => Nat.eqb k n | _ => false end) l
    then Ok (mkArr [n; list_sum (map (fun b => nth 1 (ashape b) 0) l)]
                   (List.concat (map (fun r => List.concat (map (fun b => nth r (rows b) []) l)) (seq 0 n))))
    else Err ValueError
  end.

(** pt.specify_shape (compile/pytensor_tools.py:257): AssertionError when the
    shape is another one *)
Definition specify_shape (shape : list nat) (a : arr V) : res (arr V) :=
  if list_eq_dec Nat.eq_dec (ashape a) shape then Ok a else Err AssertionError.

(** enumerate over the arrays (the list comprehensions of
    compile/pytensor_tools.py:256, compile/pytensor.py:103, 171) *)
Definition numbered {A} (l : list A) : list (nat * A) := combine (seq 0 (length l)) l.

(** compile/pytensor_tools.py:225-259 make_jacobian *)
Definition make_jacobian (D : nat -> nat -> list nat -> V) (n_eq : nat) (shapes : list (list nat)) : res (arr V) :=
  let n_vars := list_sum (map prodn shapes) in
  let column_list := map (fun js => jacobian_block D n_eq (fst js) (snd js)) (numbered shapes) in
  let* cols := map_res (fun x => reshape_rows n_eq (atleast_2d x)) column_list in
  let* jac := concat_columns cols in
  specify_shape [n_eq; n_vars] jac.

(** compile/pytensor.py:161-182 compile_pytensor_gradient_function: [G j idx] is
    the derivative of the loss; atleast_1d does not change the raveled data *)
Definition make_gradient (G : nat -> list nat -> V) (shapes : list (list nat)) (n_variables : nat) : res (arr V) :=
  match shapes with
  | [] => Err ValueError
  | _ =>
    let chunks := map (fun js => map (G (fst js)) (ndindex (snd js))) (numbered shapes) in
    let flat := List.concat chunks in
    specify_shape [n_variables] (mkArr [length flat] flat)
  end.
End Layout.

Local Open Scope R_scope.

(** pytensor.gradient.Rop(system, parameters, step_size) (compile/pytensor.py:247):
    the derivative of the system in the direction of the arrays *)
Definition rop (D : nat -> nat -> list nat -> R) (n_eq : nat) (vs : list (arr R)) : list R :=
  map (fun e => fold_right Rplus 0 (map (fun jv => dot (map (D e (fst jv)) (ndindex (ashape (snd jv)))) (adata (snd jv)))
                                        (numbered vs)))
      (seq 0 n_eq).

(** flatten_equations (compile/pytensor_tools.py:64-100) as called in
    compile/pytensor.py:254 *)
Definition flatten_equations (vs : list (arr R)) : res (list R) :=
  let* flat := concat_arrays vs in
  if Nat.eqb (length flat) (list_sum (map (fun a => prodn (ashape a)) vs)) then Ok flat else Err AssertionError.

(** compile/pytensor.py:246-255: B times the step, by Rop or, when an Op has
    none, by the Jacobian [B] of _make_euler_matrices (compile/euler.py:242-254) *)
Definition step_product (has_rop : bool) (DP : nat -> nat -> list nat -> R) (n_eq : nat) (sp : list (list nat))
           (step_size : list (arr R)) : res (list R) :=
  let* B := make_jacobian DP n_eq sp in
  if has_rop then Ok (rop DP n_eq step_size)
  else let* v := flatten_equations step_size in Ok (mv (rows B) v).

(** compile/pytensor.py:234-261: the changes of the variables in one step *)
Definition euler_delta (has_rop : bool) (solve : list (list R) -> list R -> list R)
           (D DP : nat -> nat -> list nat -> R) (n_eq : nat) (sv sp : list (list nat))
           (step_size : list (arr R)) : res (list (arr R)) :=
  let* A := make_jacobian D n_eq sv in
  let* Bv := step_product has_rop DP n_eq sp step_size in
  ragged (vneg (solve (rows A) Bv)) 0 sv.

(** pt.grad(pt.sum(grad * p), x)[j] (compile/pytensor.py:102): [p] does not depend
    on x, so the derivative is the sum of the products *)
Definition jvp_chunk (D : nat -> nat -> list nat -> R) (p : list R) (j : nat) (shape : list nat) : list R :=
  map (fun idx => dot (map (fun m => D m j idx) (seq 0 (length p))) p) (ndindex shape).

(** compile/pytensor.py:75-106 make_jvp, evaluated at the values [points] of the
    new inputs p_vars. When [p] is given, p_vars is never assigned and the
    return statement raises UnboundLocalError, a NameError.
    Simplified: grad * p with a p of another length is refused (a p of length
    one would be broadcast). *)
Definition make_jvp (D : nat -> nat -> list nat -> R) (n_eq : nat) (shapes : list (list nat)) (p : option (list R))
           (points : list (arr R)) : res (list R) :=
  let* pv := match p with Some v => Ok v | None => concat_arrays points end in
  if negb (Nat.eqb (length pv) n_eq) then Err ValueError
  else match shapes with
  | [] => Err ValueError
  | _ =>
    let jvp := List.concat (map (fun js => jvp_chunk D pv (fst js) (snd js)) (numbered shapes)) in
    if negb (Nat.eqb (length jvp) n_eq) then Err AssertionError
    else match p with Some _ => Err NameError | None => Ok jvp end
  end.
