(** Specification vocabulary for C113 and C114: which label a dimension has
    after some were set, and how an object with labels is written. Used by
    statements only. *)
From Verif Require Import Py PyStr M_Primitives M_SymExpr M_Simplify.
Local Open Scope string_scope.
Local Open Scope list_scope.

(** The label last set for a dimension, else the one it started with. *)
Fixpoint last_set (us : list (string * label)) (d : string) (before : option label) : option label :=
  match us with
  | [] => before
  | (e, l) :: us' => last_set us' d (if string_dec e d then Some l else before)
  end.

(** Labels set one after the other. *)
Inductive labelled : mobj -> list (string * label) -> mobj -> Prop :=
| labelled_none o : labelled o [] o
| labelled_more o d l o1 us o2 : update_dim_value o d l = Ok o1 -> labelled o1 us o2 -> labelled o ((d, l) :: us) o2.

(** An index as printed: its name, with its label if it has one. *)
Definition printed_index (lab : string -> option label) (d : string) : string :=
  match lab d with Some l => d ++ "=\text{" ++ str_label l ++ "}" | None => d end.
(** A name as printed with its indices below it. *)
Definition printed (latex : string) (dims : list string) (lab : string -> option label) : string :=
  (if existsb (fun a => Ascii.eqb a "_") (list_ascii_of_string latex) then "\text{" ++ latex ++ "}" else latex) ++
  (if dims then "" else "_{" ++ String.concat ", " (map (printed_index lab) dims) ++ "}").

(** The expression for an object: a symbol, or a base with an index or label
    in each place. *)
Definition symbol_of_labels (name : string) (dims : list string) (lab : string -> option label) : sexpr :=
  if dims then SSym name
  else SIx name (map (fun d => match lab d with Some l => label_index l | None => IVar d end) dims).
