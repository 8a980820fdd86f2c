(** The Newton solver (/repo/cge_modeling/optimize.py:10-194) with residual
    functions that may return NaN, for example for the logarithm of a negative
    number. A number or NaN is a value of [option R], NaN being [None]. The
    comparisons of NaN are false. The linear
    solver returns numbers, NaN ([None]) or raises, as scipy does for systems
    with NaN. Simplified: the points are numbers; at a trial point with NaN,
    which results from NaN of the linear solver, a residual is NaN. The rest is
    as in M_Newton. *)
From Coq Require Import Reals.
From Verif Require Import Py PyStr NdArray M_Primitives M_Utilities M_Wrappers M_Euler M_Newton.
Local Open Scope list_scope.

(** pt.linalg.norm(v, ord=1): NaN if an entry is (optimize.py:38-42) *)
Definition nan_norm1 (v : list (option R)) : option R :=
  fold_right (fun a s => match a, s with Some x, Some y => Some (Rabs x + y)%R | _, _ => None end) (Some 0%R) v.

(** pt.lt, false if a side is NaN (optimize.py:49, 58) *)
Definition nan_lt (a b : option R) : bool := match a, b with Some x, Some y => rlt x y | _, _ => false end.

Section Newton.
  Variable F : list (arr R) -> res (list (option R)).
  Variable J : list (arr R) -> res (list (list (option R))).
  Variable solve : list (list (option R)) -> list (option R) -> res (option (list R)).
  Variable has_exog : bool.

  (** optimize.py:19-30 _newton_step *)
  Definition nan_step (flat_x : list R) (exog : list (arr R)) (step_size : R) (shapes : list (list nat))
    : res (list R * list R * list (option R) * list (option R)) :=
    let* x := ragged flat_x 0 shapes in
    let* f_x := eval_func F x exog has_exog in
    let* j_x := eval_func J x exog has_exog in
    let* s := solve j_x f_x in
    match s with
    | None => Ok (flat_x, flat_x, f_x, [None])
    | Some s =>
        let* flat_new_x := vsub_checked flat_x (vscale step_size s) in
        let* new_x := ragged flat_new_x 0 (map (@ashape R) x) in
        let* f_new_x := eval_func F new_x exog has_exog in
        Ok (flat_x, flat_new_x, f_x, f_new_x)
    end.

  (** optimize.py:71-99 scan_body *)
  Definition nan_body (initial_step_size tol : R) (n_endog n_exog : nat) (st : nstate) (exog : list (arr R)) : res nstate :=
    let args := body_args st exog in
    let x := firstn n_endog args in
    let exog := last_args n_exog args in
    let shapes := map (@ashape R) x in
    let* flat_x := concat_arrays x in
    let* out := if nconv st then Ok (flat_x, flat_x, map Some flat_x, map Some flat_x)
                else nan_step flat_x exog (nstep st) shapes in
    let '(flat_x, flat_new_x, f_x, f_new_x) := out in
    let norm_root := nan_norm1 f_x in
    let norm_root_new := nan_norm1 f_new_x in
    let is_converged := if nconv st then true else nan_lt norm_root (Some tol) in
    let is_decreasing := nan_lt norm_root_new norm_root in
    let new_step_size := if is_decreasing then initial_step_size else (nstep st * (1 / 2))%R in
    let flat_return_x := if is_decreasing then flat_new_x else flat_x in
    let* return_x := ragged flat_return_x 0 shapes in
    Ok (mkN return_x is_converged new_step_size (ncount st + (1 - (if is_converged then 1 else 0)))).

  (** optimize.py:181-192: the states returned by scan, one per iteration *)
  Fixpoint nan_loop (step tol : R) (n_endog n_exog : nat) (k : nat) (st : nstate) (exog : list (arr R)) : res (list nstate) :=
    match k with
    | 0 => Ok []
    | S k' => let* st' := nan_body step tol n_endog n_exog st exog in
              let* rest := nan_loop step tol n_endog n_exog k' st' exog in
              Ok (st' :: rest)
    end.
End Newton.

(** optimize.py:113-194 root: the histories of all iterations *)
Definition nan_root (F : list (arr R) -> res (list (option R))) (J : list (arr R) -> res (list (list (option R))))
           (solve : list (list (option R)) -> list (option R) -> res (option (list R)))
           (initial_data : list (arr R)) (parameters : option (list (arr R))) (step_size tol : R) (max_iter : nat) : res (list nstate) :=
  let has_exog := match parameters with None => false | Some _ => true end in
  let exog := process_root_data parameters in
  nan_loop F J solve has_exog step_size tol (length initial_data) (length exog) max_iter
           (mkN initial_data false step_size 0) exog.
