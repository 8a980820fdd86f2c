(** Specification of C102: the symbol a description asks for *)
From Verif Require Import Py PyStr M_Declare.
Local Open Scope string_scope.
Local Open Scope list_scope.

(** The name and the flags of a symbol, and its indices *)
Definition symbol_name (s : svalue) : string :=
  match s with VBase (BSymbol n _) | VBase (BBase n _) | VIndexed (BSymbol n _) _ | VIndexed (BBase n _) _ => n end.
Definition symbol_flags (s : svalue) : assumptions :=
  match s with VBase (BSymbol _ a) | VBase (BBase _ a) | VIndexed (BSymbol _ a) _ | VIndexed (BBase _ a) _ => a end.
Definition symbol_index (s : svalue) : list string := match s with VBase _ => [] | VIndexed _ l => l end.
(** A plain symbol, or an array with at least one index *)
Definition well_formed (s : svalue) : Prop :=
  match s with VBase (BSymbol _ _) => True | VIndexed (BBase _ _) (_ :: _) => True | _ => False end.

(** [s] is the symbol that the description [d] asks for *)
Definition declared_as (a : option assumptions) (d : info) (s : svalue) : Prop :=
  i_name d = Some (symbol_name s) /\ well_formed s /\
  match a with Some a => symbol_flags s = a | None => symbol_flags s = [] end /\
  match i_index d with Some l => symbol_index s = l | None => symbol_index s = [] end.

(** Whether an element belongs to what an argument of union_many stands for *)
Definition belongs_to {A} (e : uelem A) (y : uarg A) : Prop :=
  match y with
  | UColl l => exists a, In a l /\ e = EOne a
  | UFrozen l => e = EFrozen l
  | UOne a => e = EOne a
  end.
(** What a reader would expect: a frozenset is a set too *)
Definition member_of {A} (a : A) (y : uarg A) : Prop :=
  match y with UColl l | UFrozen l => In a l | UOne b => a = b end.

(** Braces: the depth after reading the text, None when a brace is closed that
    was not opened *)
Fixpoint depth (d : nat) (s : string) : option nat :=
  match s with
  | EmptyString => Some d
  | String c s' =>
      if Ascii.eqb c "{" then depth (S d) s'
      else if Ascii.eqb c "}" then match d with 0 => None | S d' => depth d' s' end
      else depth d s'
  end.
Definition balanced (s : string) : Prop := depth 0 s = Some 0.
