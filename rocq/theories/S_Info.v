(** Specification vocabulary for descriptions of variables (C99). Used by
    statements only. *)
From Verif Require Import Py PyStr.
Local Open Scope string_scope.
Local Open Scope list_scope.

(** Letters and digits *)
Definition alnum (c : ascii) : Prop :=
  In c (list_ascii_of_string "abcdefghijklmnopqrstuvwxyzABCDEFGHIJKLMNOPQRSTUVWXYZ0123456789").
Definition word (w : string) : Prop := w <> "" /\ forall c, In c (list_ascii_of_string w) -> alnum c.

(** A text is a sequence of words and other characters, no two words side by side. *)
Inductive token := Word (w : string) | Sign (c : ascii).
Fixpoint written (ts : list token) : string :=
  match ts with
  | [] => ""
  | Word w :: ts' => w ++ written ts'
  | Sign c :: ts' => String c (written ts')
  end.
Fixpoint text (ts : list token) : Prop :=
  match ts with
  | [] => True
  | Word w :: ts' => word w /\ match ts' with Word _ :: _ => False | _ => True end /\ text ts'
  | Sign c :: ts' => ~ alnum c /\ text ts'
  end.

(** A word after one of ^ _ , { is opened; a word before } is closed. *)
Definition opening (t : option token) : Prop :=
  match t with Some (Sign c) => In c (list_ascii_of_string "^_,{") | _ => False end.
Definition closing (ts : list token) : Prop :=
  match ts with Sign c :: _ => c = "}"%char | _ => False end.

(** [indexed f before ts ts']: [ts'] is [ts] with the words that are opened or
    closed replaced by [f]. *)
Inductive indexed (f : string -> string) : option token -> list token -> list token -> Prop :=
| indexed_end b : indexed f b [] []
| indexed_sign b c ts ts' : indexed f (Some (Sign c)) ts ts' -> indexed f b (Sign c :: ts) (Sign c :: ts')
| indexed_index b w ts ts' : opening b \/ closing ts -> indexed f (Some (Word w)) ts ts' -> indexed f b (Word w :: ts) (Word (f w) :: ts')
| indexed_word b w ts ts' : ~ (opening b \/ closing ts) -> indexed f (Some (Word w)) ts ts' -> indexed f b (Word w :: ts) (Word w :: ts').

(** The substitution of a dictionary *)
Definition put (d : list (string * string)) (w : string) : string :=
  match find (fun iv => String.eqb (fst iv) w) d with Some iv => snd iv | None => w end.

(** No index begins an opened word or ends a closed one, unless it is the word. *)
Fixpoint separated (keys : list string) (before : option token) (ts : list token) : Prop :=
  match ts with
  | [] => True
  | Sign c :: ts' => separated keys (Some (Sign c)) ts'
  | Word w :: ts' =>
      (forall i t, In i keys -> opening before -> w = (i ++ t)%string -> w = i) /\
      (forall i t, In i keys -> closing ts' -> w = (t ++ i)%string -> w = i) /\
      separated keys (Some (Word w)) ts'
  end.

(** The values are words that neither begin nor end with an index. *)
Definition fresh_values (d : list (string * string)) : Prop :=
  forall v, In v (map snd d) -> word v /\ forall i t, In i (map fst d) -> v <> (i ++ t)%string /\ v <> (t ++ i)%string.

(** A description: words separated by single spaces. *)
Definition plain (w : string) : Prop := contains_char " " w = false /\ contains_char "010" w = false.
