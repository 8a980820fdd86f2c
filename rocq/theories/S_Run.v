(** Specification vocabulary for whole calls of simulate (C24, C94). *)
From Verif Require Import Py PyStr NdArray M_Primitives M_Results M_Solve M_Run.
Local Open Scope string_scope.
Local Open Scope list_scope.

(** The keys of a state are the names of the model, each at least once *)
Definition right_names {V Sys Jac Loss Grad Hess Hessp} (m : model V Sys Jac Loss Grad Hess Hessp) (d : dict (arr V)) : Prop :=
  forall n, In n (dkeys d) <-> (exists o, (In o (m_variables m) \/ In o (m_parameters m)) /\ o_name o = n).

(** No stored result is used: it is to be overwritten, or there is none *)
Definition not_stored {V Sys Jac Loss Grad Hess Hessp} (d : dir (outcome V)) (k : call V Sys Jac Loss Grad Hess Hessp) : Prop :=
  c_overwrite k = true \/ dget (call_name k ++ ".pkl") d = None.

(** A notebook of results by name, in which simulate is imagined to look up and
    store: what a call answers, and the notebook after it. *)
Definition notebook (R : Type) := string -> option R.
Definition noted {R} (b : notebook R) (name : string) (r : R) : notebook R := fun n => if String.eqb n name then Some r else b n.
Definition answers {R} (b : notebook R) (name : string) (overwrite : bool) (computed : res R) : res R :=
  match b name with Some r => if overwrite then computed else Ok r | None => computed end.
Definition after {R} (b : notebook R) (name : string) (overwrite save : bool) (computed : res R) : notebook R :=
  match b name, overwrite with
  | Some _, false => b
  | _, _ => match computed with Ok r => if save then noted b name r else b | Err _ => b end
  end.
Fixpoint dialogue {V Sys Jac Loss Grad Hess Hessp} (b : notebook (outcome V)) (calls : list (world V Sys Jac Loss Grad Hess Hessp * call V Sys Jac Loss Grad Hess Hessp))
  : notebook (outcome V) * list (res (outcome V)) :=
  match calls with
  | [] => (b, [])
  | (w, k) :: rest =>
      let r := answers b (call_name k) (c_overwrite k) (computed w k) in
      let '(b', rs) := dialogue (after b (call_name k) (c_overwrite k) (c_save k) (computed w k)) rest in
      (b', r :: rs)
  end.

(** Names that cannot be confused in a directory: no name ends in pkl or consists
    of dots, and none is another one followed by a bracket f(...). *)
Definition plain_names (names : list string) : Prop :=
  (forall n, In n names -> ends_with "pkl" n = false /\ exists a b c, n = (a ++ String c b)%string /\ c <> "."%char) /\
  (forall n n' s, In n names -> In n' names -> n' <> (n ++ "(" ++ s ++ ")")%string).

(** The directory is the notebook: the files of these names are those of its pages *)
Definition written {R} (names : list string) (d : dir R) (b : notebook R) : Prop :=
  forall n, In n names -> read_results d n = match b n with Some r => Ok r | None => Err FileNotFoundError end.
