(** Model of the statistics shown next to the progress bar of the Python loop
    (/repo/cge_modeling/compile/euler.py:41-50, 227-239). The functions passed
    in are arbitrary and applied to the current arrays, by name. *)
From Verif Require Import Py NdArray.
From Coq Require Import Reals.
Local Open Scope string_scope.
Local Open Scope list_scope.

(** (errors**2).sum() (compile/euler.py:233) *)
Definition sum_squares (l : list R) : R := fold_right (fun x s => (x ^ 2 + s)%R) 0%R l.

(** x / n with a numpy number x: nan for 0 / 0 (compile/euler.py:233); None is nan.
    A nonzero x over 0 does not occur, as then there are no errors to sum. *)
Definition over (x : R) (n : nat) : option R := match n with 0 => None | _ => Some (x / INR n)%R end.

(** np.linalg.norm of an array: the root of the sum of squares (compile/euler.py:236) *)
Definition norm (a : arr R) : R := sqrt (sum_squares (adata a)).

(** A compiled function called with keywords (compile/euler.py:232, 236) *)
Definition keyword_fn := dict (arr R) -> dict (arr R) -> res (arr R).

(** compile/euler.py:227-239 get_step_statistics *)
Definition get_step_statistics (variables params : dict (arr R)) (f_system f_grad : option keyword_fn) : res (dict (option R)) :=
  let* d := match f_system with
            | None => Ok []
            | Some f => let* errors := f variables params in
                        Ok [("RMSE", over (sum_squares (adata errors)) (Nat.min 1 (prodn (ashape errors))))]
            end in
  match f_grad with
  | None => Ok d
  | Some f => let* g := f variables params in Ok (dset "grad_norm" (Some (norm g)) d)
  end.

(** compile/euler.py:41-45: the fields named in the format of the statistics *)
Definition fields {A B} (f_system : option A) (f_grad : option B) : list string :=
  let s := match f_system with Some _ => ["RMSE"] | None => [] end in
  match f_grad with Some _ => ["RMSE"; "grad_norm"] | None => s end.

(** Rendering the format reads task.fields[...] for each field: KeyError for
    one that was not supplied (compile/euler.py:43, 45, 48-50) *)
Definition render (names : list string) (d : dict (option R)) : res (list (option R)) := map_res (fun n => dgetitem n d) names.
