(** Specification vocabulary for C78 and C79. *)
From Verif Require Import Py PyStr.
Local Open Scope list_scope.

Section Instances.
Context {E I W : Type} (has : E -> I -> bool) (subs : E -> I -> W -> E).

(** [y] is [e] with a value put for every index it has, one index after the other *)
Fixpoint instance_of (e : E) (idxs : list (I * list W)) (y : E) : Prop :=
  match idxs with
  | [] => y = e
  | (i, ws) :: rest =>
    (has e i = true /\ exists w, In w ws /\ instance_of (subs e i w) rest y) \/
    (has e i = false /\ instance_of e rest y)
  end.

(** All of them in order: the first index varies slowest *)
Fixpoint instances (e : E) (idxs : list (I * list W)) : list E :=
  match idxs with
  | [] => [e]
  | (i, ws) :: rest => if has e i then flat_map (fun w => instances (subs e i w) rest) ws else instances e rest
  end.
End Instances.

(** The simplest indexed expressions, x[s1, s2, ...]: each subscript is an index or a label *)
Inductive subscript := Index (i : string) | Label (l : string).
Definition subscripts := list subscript.
Definition one_eqb (a b : subscript) : bool :=
  match a, b with Index i, Index j => String.eqb i j | Label i, Label j => String.eqb i j | _, _ => false end.
Fixpoint sub_eqb (a b : subscripts) : bool :=
  match a, b with [], [] => true | x :: a', y :: b' => one_eqb x y && sub_eqb a' b' | _, _ => false end.
Definition sub_has (e : subscripts) (i : string) : bool := existsb (one_eqb (Index i)) e.
Definition sub_subs (e : subscripts) (i l : string) : subscripts := map (fun x => if one_eqb (Index i) x then Label l else x) e.

(** None of the characters that brackets_to_snake_case treats *)
Definition plain (s : string) : Prop :=
  contains_char "[" s = false /\ contains_char "]" s = false /\ contains_char "," s = false /\ contains_char " " s = false.
