(** A whole call of CGEModel.simulate: name, stored results, the test for
    compiled functions, the computation and saving (/repo/cge_modeling/base/cge.py:960-1081),
    and a series of such calls.

    Left out: the numbers and messages of the solvers besides x and success. *)
From Verif Require Import Py PyStr NdArray M_Primitives M_Utilities M_Simulate M_SimResult M_Build M_Results M_Solve.
Local Open Scope string_scope.
Local Open Scope list_scope.

Section Run.
Context {V Sys Jac Loss Grad Hess Hessp : Type}.

(** The external functions of one call: arithmetic of arrays, isnan, the table of
    solver options and the solvers (base/cge.py:654-759, 1009-1060) *)
Record world := MkWorld {
  w_isnan : V -> bool;
  w_add : arr V -> arr V -> res (arr V);
  w_mul : arr V -> arr V -> res (arr V);
  w_table : dict mode_kwargs;
  w_root : root_problem V Sys Jac -> res (answer V);
  w_minimize : min_problem V Loss Grad Hess Hessp -> res (answer V);
  w_euler : dict (arr V) -> list V -> nat -> res (list (arr V)) }.

(** The model and the arguments of simulate (base/cge.py:863-880); [c_kwargs] are
    the optimizer keywords printed as k=v, [c_today] is the date of the call *)
Record call := MkCall {
  c_model : model V Sys Jac Loss Grad Hess Hessp;
  c_state : state V;
  c_values : option (dict (arr V));
  c_delta : option (dict (arr V));
  c_delta_pct : option (dict (arr V));
  c_options : options;
  c_kwargs : list string;
  c_name : option string;
  c_overwrite : bool;
  c_save : bool;
  c_today : string }.

(** base/cge.py:960-966: the name of the simulation *)
Definition call_name (k : call) : string :=
  match c_name k with
  | Some n => n
  | None => default_name (c_today k) (use_euler (c_options k)) (n_iter_euler (c_options k)) (use_optimizer (c_options k))
                         (optimizer_mode (c_options k)) (c_kwargs k)
  end.

(** base/cge.py:971-1071: everything between the test for a stored result and
    saving. CGEModel has no method _compile (981). *)
Definition computed (w : world) (k : call) : res (outcome V) :=
  if falsy (m_compiled (c_model k)) then Err AttributeError
  else simulate (w_isnan w) (w_add w) (w_mul w) (w_table w) (w_root w) (w_minimize w) (w_euler w) (c_model k) (c_state k)
                (c_values k) (c_delta k) (c_delta_pct k) (c_options k).

(** base/cge.py:960-1081: the directory after the call, and what it returns *)
Definition run (w : world) (d : dir (outcome V)) (k : call) : dir (outcome V) * res (outcome V) :=
  simulate_io (c_today k) d (call_name k) (c_overwrite k) (c_save k) (computed w k).

(** Calls one after the other with the same output path (base/cge.py:863-1081);
    an exception ends only its own call. *)
Fixpoint session (d : dir (outcome V)) (calls : list (world * call)) : dir (outcome V) * list (res (outcome V)) :=
  match calls with
  | [] => (d, [])
  | (w, k) :: rest =>
      let '(d, r) := run w d k in
      let '(d, rs) := session d rest in
      (d, r :: rs)
  end.
End Run.
Arguments world : clear implicits. Arguments call : clear implicits.
