(** Specification vocabulary for compile requests (C69, C70, C72). *)
From Verif Require Import Py PyStr M_Build.
Local Open Scope string_scope.
Local Open Scope list_scope.

(** What a request asks for *)
Definition asks (r : request) (name : string) : Prop :=
  match r with
  | RNone => False
  | ROne (FStr s) => (s = "all" /\ In name ["root"; "minimize"; "euler"]) \/ (s <> "all" /\ s = name)
  | ROne (FBool b) => b = true /\ In name ["root"; "minimize"; "euler"]
  | RMany l => In (FStr name) l
  end.

(** [p] is a substring of [s] *)
Definition occurs (p s : string) : Prop := exists a b, s = (a ++ p ++ b)%string.
