(** What a summary should show, for C87. *)
From Coq Require Import Reals.
From Verif Require Import Py PyStr M_Primitives M_Expand M_SymExpr M_Calibrate M_Output M_Tables S_Markers.
Local Open Scope string_scope.
Local Open Scope list_scope.

(** A text of digits only *)
Definition digits (s : string) : Prop := s <> "" /\ forall a, In a (list_ascii_of_string s) -> In a (list_ascii_of_string "0123456789").
(** The cell of a description: the text as written with the markers replaced by
    the names of the dims; a text of digits only is shown as a number *)
Definition described (s x : string) : Prop :=
  forall t, plain_text t -> (forall d, In d (marks t) -> d <> "" /\ contains_char "010" d = false) -> s = written t ->
    (digits (filled (fun d => d) t) -> x = filled (fun d => d) t) /\
    (~ digits (filled (fun d => d) t) -> x = ("\text{" ++ filled (fun d => d) t ++ "}")%string).
(** The value of a name in a table of results *)
Definition entry (n : string) (d : dict (option R)) (x : shown) : Prop := exists f, dget n d = Some f /\ x = Number f.
(** The row of an object: its symbol, its description and, for every result in
    turn, its initial and its fitted value *)
Definition row_of (o : mobj) (results : list (string * result)) (row : list shown) : Prop :=
  exists text values, row = Latex (o_full_latex o) :: Latex text :: List.concat values /\ described (o_description o) text /\
    Forall2 (fun r v => exists a b, v = [a; b] /\ entry (o_name o) (initial_dict (snd r)) a /\ entry (o_name o) (fitted_dict (snd r)) b) results values.
(** The objects that a request asks for, in order *)
Definition asked (vars params : dict mobj) (q : summary_request) (objs : list mobj) : Prop :=
  match q with
  | AllObjects => objs = map snd vars ++ map snd params
  | OnlyVariables => objs = map snd vars
  | OnlyParameters => objs = map snd params
  | Names l => Forall2 (fun n o => In o (map snd vars ++ map snd params) /\ o_name o = n) l objs
  end.
(** The dictionaries of objects: by name, no name twice *)
Definition registered (vars params : dict mobj) : Prop :=
  (forall n o, In (n, o) (vars ++ params) -> o_name o = n) /\ NoDup (map fst (vars ++ params)).
