(** Specification vocabulary for printed names (C90). Used by statements only. *)
From Verif Require Import Py PyStr.
Local Open Scope string_scope.

(** Names of letters: words without the characters _, ^ and backslash. *)
Definition letter_name (w : string) : Prop :=
  w <> "" /\ forall p c t, w = (p ++ String c t)%string -> c <> "_"%char /\ c <> "^"%char /\ c <> "\"%char.

(** [starts letters s p]: the text [s], cut after [p], goes on with a letter
    name, and [p] is empty or ends in _ or ^. *)
Definition starts (letters : list string) (p t : string) : Prop :=
  (p = "" \/ exists q, p = (q ++ "_")%string \/ p = (q ++ "^")%string) /\
  exists w u, In w letters /\ t = (w ++ u)%string.

(** [s'] is [s] with a backslash before exactly the starts of letter names;
    [p] is the text before [s]. *)
Inductive escaped (letters : list string) : string -> string -> string -> Prop :=
| escaped_end p : escaped letters p "" ""
| escaped_letter p c s s' :
    starts letters p (String c s) -> escaped letters (p ++ String c "") s s' ->
    escaped letters p (String c s) (String "\" (String c s'))
| escaped_other p c s s' :
    ~ starts letters p (String c s) -> escaped letters (p ++ String c "") s s' ->
    escaped letters p (String c s) (String c s').

(** [C] is the capital of the small letter [c]. *)
Definition capital (c C : ascii) : Prop :=
  exists i, nth_error (list_ascii_of_string "abcdefghijklmnopqrstuvwxyz") i = Some c /\
            nth_error (list_ascii_of_string "ABCDEFGHIJKLMNOPQRSTUVWXYZ") i = Some C.
