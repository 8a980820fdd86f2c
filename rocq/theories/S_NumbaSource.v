(** Reading the generated text, for C71. *)
From Coq Require Import QArith Reals.
From Verif Require Import Py PyStr M_NumbaSource.
Local Open Scope nat_scope.
Local Open Scope list_scope.
Local Open Scope char_scope.

(** The text as a list of items: maximal runs of word characters and dots
    (names, attribute paths, number literals) and the other characters. White
    space separates. *)
Inductive item := Run (r : text) | Other (c : ascii).
Definition is_run (c : ascii) : bool := (is_word c || Ascii.eqb c ".")%bool.
Definition flush (cur : text) : list item := match cur with [] => [] | _ => [Run cur] end.
Fixpoint items_from (cur : text) (s : text) : list item :=
  match s with
  | [] => flush cur
  | c :: s' =>
    if is_run c then items_from (cur ++ [c]) s'
    else flush cur ++ (if is_space c then [] else [Other c]) ++ items_from [] s'
  end.
Definition items (s : text) : list item := items_from [] s.

(** The value of a literal: digits, or digits with a decimal point *)
Definition digit_val (c : ascii) : Z := Z.of_nat (nat_of_ascii c - 48).
Fixpoint digits_value (acc : Z) (s : text) : option Z :=
  match s with
  | [] => Some acc
  | c :: s' => if is_digit c then digits_value (10 * acc + digit_val c) s' else None
  end.
Fixpoint split_dot (s : text) : text * option text :=
  match s with
  | [] => ([], None)
  | c :: s' => if Ascii.eqb c "." then ([], Some s') else let (a, b) := split_dot s' in (c :: a, b)
  end.
Definition literal (r : text) : option Q :=
  match r with
  | [] => None
  | _ =>
    match split_dot r with
    | (a, None) => match digits_value 0 a with Some z => Some (inject_Z z) | None => None end
    | (a, Some b) =>
      match digits_value 0 a, digits_value 0 b with
      | Some z, Some f => Some (inject_Z z + inject_Z f / inject_Z (10 ^ Z.of_nat (length b)))%Q
      | _, _ => None
      end
    end
  end.

(** The second text is the first with numpy. called np. in some places *)
Inductive renamed : text -> text -> Prop :=
| renamed_nil : renamed [] []
| renamed_cons c a b : renamed a b -> renamed (c :: a) (c :: b)
| renamed_numpy a b : renamed a b -> renamed ("n" :: "u" :: "m" :: "p" :: "y" :: "." :: a) ("n" :: "p" :: "." :: b).

(** The same thing is written: the same character, the same name (numpy being
    called np), or a literal of the same value *)
Inductive same_item : item -> item -> Prop :=
| same_other c : same_item (Other c) (Other c)
| same_name a b : renamed a b -> same_item (Run a) (Run b)
| same_literal a b p q : literal a = Some p -> literal b = Some q -> (p == q)%Q -> same_item (Run a) (Run b).

(** Every subscript - a bracket directly after a word character - holds one integer *)
Definition integer_subscripts (s : text) : Prop :=
  forall before c after, s = before ++ c :: "[" :: after -> is_word c = true ->
    exists d rest, d <> [] /\ Forall (fun x => is_digit x = true) d /\ after = d ++ "]" :: rest.

(** m is the maximum of the list *)
Definition greatest (m : R) (l : list R) : Prop := In m l /\ forall x, In x l -> (x <= m)%R.
