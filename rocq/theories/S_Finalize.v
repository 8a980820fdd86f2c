(** Specification vocabulary for collected calibrations (C88). Used by
    statements only. *)
From Verif Require Import Py NdArray M_Primitives M_Registry M_Finalize S_Layout.
From Coq Require Import Sorting.Sorted Sorting.Permutation.
Local Open Scope string_scope.

(** A name before another in the dictionary order of character codes. *)
Inductive before : string -> string -> Prop :=
| before_prefix c s : before "" (String c s)
| before_char c1 c2 s1 s2 : Ascii.nat_of_ascii c1 < Ascii.nat_of_ascii c2 -> before (String c1 s1) (String c2 s2)
| before_tail c s1 s2 : before s1 s2 -> before (String c s1) (String c s2).

(** The names [l] in alphabetical order. *)
Definition alphabetical (l l' : list string) : Prop := Permutation l l' /\ StronglySorted before l'.

(** The registries of a model: objects under their own names, no name twice,
    dims that have labels. *)
Definition registry_ok (m : model) : Prop :=
  map o_name (dvals (m_vars m) ++ dvals (m_pars m)) = (dkeys (m_vars m) ++ dkeys (m_pars m))%list /\
  NoDup (dkeys (m_vars m) ++ dkeys (m_pars m)) /\
  forall o d, In o (dvals (m_vars m) ++ dvals (m_pars m)) -> In d (o_dims o) -> In d (dkeys (m_coords m)).

(** The array given by a local variable of the caller. *)
Definition given {V} (locals : dict (local_value V)) (n : string) (a : arr V) : Prop :=
  dget n locals = Some (Plain a) \/ dget n locals = Some (Pandas a).

(** What an object of the given shape receives: the array itself, except that
    a single number in a list stands for the number. *)
Definition received {V} (shape : list nat) (a a' : arr V) : Prop :=
  (shape = nil /\ ashape a = (1 :: nil)%list /\ a' = mkArr nil (adata a)) \/
  (~ (shape = nil /\ ashape a = (1 :: nil)%list) /\ a' = a).
