(** Model of how the numba printer writes a Piecewise
    (compile/numba_tools.py:27-50), and of how Python reads conditional
    expressions, which is external to the repository. *)
From Verif Require Import Py PyStr.
Local Open Scope string_scope.
Local Open Scope list_scope.

(** ** The printer *)

(** A branch of a Piecewise: a number, or an expression that contains symbols
    (compile/numba_tools.py:33) *)
Inductive branch (N : Type) := Number (n : N) | Symbolic.
Arguments Number {N}. Arguments Symbolic {N}.

(** self._print(sp.Float(e)), compile/numba_tools.py:38. sp.Float raises TypeError
    for what is not a number; how a number is printed is [print_float]. *)
Definition float_text {N} (print_float : N -> string) (b : branch N) : res string :=
  match b with Number n => Ok (print_float n) | Symbolic => Err TypeError end.

(** compile/numba_tools.py:32-43: the pieces appended for the cases, [i] being
    the number of the case *)
Fixpoint pieces {N C} (print_float : N -> string) (print_cond : C -> string) (i : nat) (args : list (branch N * C))
  : res (list string) :=
  match args with
  | [] => Ok []
  | (e, c) :: args' =>
      let* t := float_text print_float e in
      let* rest := pieces print_float print_cond (S i) args' in
      Ok ((if Nat.eqb i 0 then ["("] else []) ++ ["("; t; ")"; " if "; print_cond c; " else "] ++ rest)
  end.

(** compile/numba_tools.py:27-50 _print_Piecewise. Without cases result[-1] raises
    IndexError. *)
Definition print_piecewise {N C} (print_float : N -> string) (print_cond : C -> string) (args : list (branch N * C)) : res string :=
  let* result := pieces print_float print_cond 0 args in
  let result := removelast result in
  match result with
  | [] => Err IndexError
  | _ =>
      let result := if String.eqb (last result "") "True"
                    then removelast (removelast result) ++ [")"]
                    else result ++ [" else None)"] in
      Ok (String.concat "" result)
  end.

(** ** The reader: Python's conditional expressions. The generated source is
    executed by lambdify (compile/numba_tools.py:224-225); the texts between the
    words if and else are read by [atom] below. Only round brackets are
    followed, and the words are separated by single spaces, as printed. *)

(** What Python makes of a text executed by compile/numba_tools.py:224-225 *)
Inductive cexpr := CAtom (text : string) | CIf (body test orelse : cexpr).

(** The depth of round brackets after a character (Python, for the text of compile/numba_tools.py:27-50) *)
Definition after (c : ascii) (d : nat) : nat :=
  if Ascii.eqb c "(" then S d else if Ascii.eqb c ")" then pred d else d.

(** Split at the first occurrence of a word outside of brackets (Python, for the text of compile/numba_tools.py:27-50) *)
Fixpoint split_word (kw : string) (d : nat) (s : string) : option (string * string) :=
  match s with
  | "" => None
  | String c s' =>
      if Nat.eqb d 0 && String.prefix kw s then Some ("", drop (slen kw) s)
      else match split_word kw (after c d) s' with Some (a, b) => Some (String c a, b) | None => None end
  end.

(** The text between an opening bracket already read and its closing bracket,
    if that is the last character (Python, for the text of compile/numba_tools.py:27-50) *)
Fixpoint inner (d : nat) (s : string) : option string :=
  match s with
  | "" => None
  | String c s' =>
      if Ascii.eqb c ")" && Nat.eqb d 0 then match s' with "" => Some "" | _ => None end
      else option_map (String c) (inner (after c d) s')
  end.

(** The contents of a text that is one pair of brackets (Python, for the text of compile/numba_tools.py:27-50) *)
Definition enclosed (s : string) : option string :=
  match s with String c s' => if Ascii.eqb c "(" then inner 0 s' else None | "" => None end.

(** a if c else b, where b may again be conditional, or a pair of brackets, or
    another text (Python, for the text of compile/numba_tools.py:27-50) *)
Fixpoint parse (n : nat) (s : string) : option cexpr :=
  match n with
  | 0 => None
  | S n =>
      match split_word " if " 0 s with
      | Some (a, rest) =>
          match split_word " else " 0 rest with
          | Some (c, b) =>
              match parse n a, parse n c, parse n b with
              | Some a, Some c, Some b => Some (CIf a c b)
              | _, _, _ => None
              end
          | None => None
          end
      | None => match enclosed s with Some t => parse n t | None => Some (CAtom s) end
      end
  end.

(** The value: the test first, then one of the two others (Python, for the text of compile/numba_tools.py:27-50) *)
Fixpoint ceval {V} (atom : string -> option V) (truth : V -> bool) (e : cexpr) : option V :=
  match e with
  | CAtom t => atom t
  | CIf a c b =>
      match ceval atom truth c with
      | Some v => if truth v then ceval atom truth a else ceval atom truth b
      | None => None
      end
  end.

(** The value of a text (Python, for the text of compile/numba_tools.py:27-50) *)
Definition python_value {V} (atom : string -> option V) (truth : V -> bool) (s : string) : option V :=
  match parse (S (slen s)) s with Some e => ceval atom truth e | None => None end.
