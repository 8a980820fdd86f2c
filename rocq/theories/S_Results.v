(** Specification vocabulary for saved results (C28-C31). *)
From Verif Require Import Py PyStr M_Results.
Local Open Scope string_scope.

(** The file names that belong to the name [f]. *)
Definition file_for (f n : string) : Prop := n = f ++ ".pkl" \/ exists s, n = f ++ "(" ++ s ++ ").pkl".

(** A save request names [f], with or without the extension. *)
Definition asks_for (f w : string) : Prop := w = f \/ w = f ++ ".pkl".

(** A save request for a name [g] such that neither of [f], [g] starts with the
    other: their files cannot be confused. *)
Definition unrelated (f g : string) : Prop := String.prefix f g = false /\ String.prefix g f = false.
Definition asks_for_other (f w : string) : Prop :=
  exists g, asks_for g w /\ ends_with ".pkl" g = false /\ unrelated f g.

(** Saves in order, each (name, result, overwrite). *)
Definition saves {R} (date : string) (d : dir R) (h : list (string * R * bool)) : res (dir R) :=
  fold_res (fun d x => write_results date d (snd (fst x)) (Some (fst (fst x))) (snd x)) d h.

(** The result of the last save for [f]. *)
Definition latest {R} (f : string) (h : list (string * R * bool)) : option R :=
  fold_left (fun acc x => if String.eqb (fst (fst x)) f || String.eqb (fst (fst x)) (f ++ ".pkl")
                          then Some (snd (fst x)) else acc) h None.

(** Some character of the name is not a dot. *)
Definition not_dots (f : string) : Prop := exists a b c, f = a ++ String c b /\ c <> "."%char.
