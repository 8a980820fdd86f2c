(** The Newton solver (/repo/cge_modeling/optimize.py:10-194) over exact real
    numbers. The residual function [F], its Jacobian [J] and the linear solver
    are arguments; each may raise. [F] takes the variables followed by the
    parameters and returns a vector of residuals. Simplified: the graph is
    evaluated as it is written, so a branch of ifelse that is not taken is not
    evaluated. *)
From Coq Require Import Reals.
From Verif Require Import Py PyStr NdArray M_Primitives M_Utilities M_Wrappers M_Euler.
Local Open Scope list_scope.

(** pt.linalg.norm(v, ord=1) of a vector (optimize.py:38-42) *)
Definition norm1 (v : list R) : R := fold_right Rplus 0%R (map Rabs v).

(** pt.lt (optimize.py:49, 58) *)
Definition rlt (a b : R) : bool := if Rlt_dec a b then true else false.

(** What scan passes from one iteration to the next (optimize.py:182-186):
    variables, converged, step_size, n_steps *)
Record nstate := mkN { nx : list (arr R); nconv : bool; nstep : R; ncount : nat }.

(** A zero-dimensional tensor (converged, step_size and n_steps, optimize.py:73) *)
Definition scalar (v : R) : arr R := mkArr [] [v].

(** optimize.py:71, 181-188: the arguments of scan_body *)
Definition body_args (st : nstate) (exog : list (arr R)) : list (arr R) :=
  nx st ++ [scalar (if nconv st then 1 else 0)%R; scalar (nstep st); scalar (INR (ncount st))] ++ exog.

(** args[-n:], where -0 is 0 (optimize.py:74) *)
Definition last_args {A} (n : nat) (args : list A) : list A :=
  match n with 0 => args | _ => skipn (length args - n) args end.

(** optimize.py:10-16 eval_func_maybe_exog *)
Definition eval_func {A} (f : list (arr R) -> res A) (x exog : list (arr R)) (has_exog : bool) : res A :=
  if has_exog then f (x ++ exog) else f x.

(** Elementwise subtraction, ValueError for different lengths. Simplified: no
    broadcasting of vectors of length one (optimize.py:25, 42). *)
Definition vsub_checked (a b : list R) : res (list R) :=
  if Nat.eqb (length a) (length b) then Ok (vsub a b) else Err ValueError.

Section Newton.
  Variable F : list (arr R) -> res (list R).
  Variable J : list (arr R) -> res (list (list R)).
  Variable solve : list (list R) -> list R -> res (list R).
  Variable has_exog : bool.

  (** optimize.py:19-30 _newton_step *)
  Definition newton_step (flat_x : list R) (exog : list (arr R)) (step_size : R) (shapes : list (list nat))
    : res (list R * list R * list R * list R) :=
    let* x := ragged flat_x 0 shapes in
    let* f_x := eval_func F x exog has_exog in
    let* j_x := eval_func J x exog has_exog in
    let* s := solve j_x f_x in
    let* flat_new_x := vsub_checked flat_x (vscale step_size s) in
    let* new_x := ragged flat_new_x 0 (map (@ashape R) x) in
    let* f_new_x := eval_func F new_x exog has_exog in
    Ok (flat_x, flat_new_x, f_x, f_new_x).

  (** optimize.py:71-99 scan_body, with no_op (33-34), compute_norms (37-44),
      check_convergence (47-54), check_stepsize (57-64) and
      backtrack_if_not_decreasing (67-68) *)
  Definition scan_body (initial_step_size tol : R) (n_endog n_exog : nat) (st : nstate) (exog : list (arr R))
    : res nstate :=
    let args := body_args st exog in
    let x := firstn n_endog args in
    let exog := last_args n_exog args in
    let shapes := map (@ashape R) x in
    let* flat_x := concat_arrays x in
    let* out := if nconv st then Ok (flat_x, flat_x, flat_x, flat_x)
                else newton_step flat_x exog (nstep st) shapes in
    let '(flat_x, flat_new_x, f_x, f_new_x) := out in
    let norm_root := norm1 f_x in
    let norm_root_new := norm1 f_new_x in
    let is_converged := if nconv st then true else rlt norm_root tol in
    let is_decreasing := rlt norm_root_new norm_root in
    let new_step_size := if is_decreasing then initial_step_size else (nstep st * (1 / 2))%R in
    let flat_return_x := if is_decreasing then flat_new_x else flat_x in
    let* return_x := ragged flat_return_x 0 shapes in
    Ok (mkN return_x is_converged new_step_size (ncount st + (1 - (if is_converged then 1 else 0)))).

  (** optimize.py:181-192: the states returned by scan, one per iteration *)
  Fixpoint newton_loop (step tol : R) (n_endog n_exog : nat) (k : nat) (st : nstate) (exog : list (arr R))
    : res (list nstate) :=
    match k with
    | 0 => Ok []
    | S k' => let* st' := scan_body step tol n_endog n_exog st exog in
              let* rest := newton_loop step tol n_endog n_exog k' st' exog in
              Ok (st' :: rest)
    end.
End Newton.

(** optimize.py:101-110 _process_root_data: the values in order, or one dummy
    (NaN in the code; it is never used). *)
Definition process_root_data (data : option (list (arr R))) : list (arr R) :=
  match data with None => [scalar 0%R] | Some l => l end.

(** optimize.py:113-194 root: the histories of all iterations *)
Definition newton_root (F : list (arr R) -> res (list R)) (J : list (arr R) -> res (list (list R)))
           (solve : list (list R) -> list R -> res (list R))
           (initial_data : list (arr R)) (parameters : option (list (arr R))) (step_size tol : R) (max_iter : nat)
  : res (list nstate) :=
  let has_exog := match parameters with None => false | Some _ => true end in
  let exog := process_root_data parameters in
  newton_loop F J solve has_exog step_size tol (length initial_data) (length exog) max_iter
              (mkN initial_data false step_size 0) exog.
