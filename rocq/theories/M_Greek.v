(** Model of the names that a ModelObject prints
    (/repo/cge_modeling/base/primitives.py:14-19, 135-138).

    The list of names of Greek letters is an argument. GREEK_PATTERN has three
    alternatives per letter: at the start of the text, after a lookahead for
    one of _ and ^ (which never matches, since the letter would have to begin
    with that character), and after a lookbehind for one of _ and ^. *)
From Verif Require Import Py PyStr.
Local Open Scope string_scope.

(** The characters of the class [_^] (base/primitives.py:18) *)
Definition is_mark (c : ascii) : bool := (Ascii.eqb c "_" || Ascii.eqb c "^")%bool.

(** re.sub(GREEK_PATTERN, backslash + match, s), base/primitives.py:137.
    [boundary]: at the start or after a mark. [skip]: characters left of the
    last match, in which no further match begins. *)
Fixpoint escape_letters (letters : list string) (boundary : bool) (skip : nat) (s : string) : string :=
  match s with
  | EmptyString => EmptyString
  | String c s' =>
      match skip with
      | S k => String c (escape_letters letters (is_mark c) k s')
      | O => match (if boundary then find (fun w => String.prefix w s) letters else None) with
             | Some w => String "\" (String c (escape_letters letters (is_mark c) (String.length w - 1) s'))
             | None => String c (escape_letters letters (is_mark c) 0 s')
             end
      end
  end.

(** base/primitives.py:135-138 _initialize_latex_name *)
Definition initialize_latex_name (letters : list string) (name : string) (latex_name : option string) : string :=
  escape_letters letters true 0 (match latex_name with Some s => s | None => name end).

(** base/primitives.py:14-15: every letter also capitalised ([title] of a word of
    small letters) *)
Definition title (w : string) : string :=
  match w with
  | EmptyString => EmptyString
  | String c w' => String (let n := nat_of_ascii c in if Nat.leb 97 n && Nat.leb n 122 then ascii_of_nat (n - 32) else c) w'
  end.
(** base/primitives.py:14-17: greeks + Greeks *)
Definition with_titles (letters : list string) : list string := (letters ++ map title letters)%list.
