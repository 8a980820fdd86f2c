(** Specification vocabulary for texts with dimension markers. *)
From Verif Require Import Py PyStr M_Primitives.
Local Open Scope string_scope.

(** A text: literal pieces and markers. *)
Inductive seg := Lit (s : string) | Mark (d : string).

(** The text as written by the user, each marker as <dim:d>. *)
Fixpoint written (t : list seg) : string :=
  match t with
  | [] => ""
  | Lit s :: t' => s ++ written t'
  | Mark d :: t' => ("<dim:" ++ d ++ ">") ++ written t'
  end.

(** The text with every marker replaced by [f d]. *)
Fixpoint filled (f : string -> string) (t : list seg) : string :=
  match t with
  | [] => ""
  | Lit s :: t' => s ++ filled f t'
  | Mark d :: t' => f d ++ filled f t'
  end.

(** The markers of a text, in order. *)
Fixpoint marks (t : list seg) : list string :=
  match t with
  | [] => []
  | Lit _ :: t' => marks t'
  | Mark d :: t' => d :: marks t'
  end.

(** Literal pieces free of "<"; marker names free of "<" and ">". *)
Definition plain_name (d : string) : Prop :=
  contains_char "<" d = false /\ contains_char ">" d = false.
Definition plain_text (t : list seg) : Prop :=
  forall x, In x t -> match x with Lit s => contains_char "<" s = false | Mark d => plain_name d end.
Definition plain_label (l : label) : Prop := contains_char "<" (str_label l) = false.

(** [ls] are the labels at position [idx] of the dims [ds]. *)
Definition labels_at (c : coords) (ds : list string) (idx : list nat) (ls : list label) : Prop :=
  Forall2 (fun p l => exists all, dget (fst p) c = Some all /\ nth_error all (snd p) = Some l)
          (combine ds idx) ls /\ length ds = length idx.

(** The label given to dim [d] when [ds] carry [ls]. *)
Definition label_of (ds : list string) (ls : list label) (d : string) : string :=
  match dget d (combine ds ls) with Some l => str_label l | None => "" end.
