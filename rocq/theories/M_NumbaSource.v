(** The text that numba_lambdify generates: compile/numba_tools.py.

    A string is a list of (ASCII) characters here. In Python the classes \w and
    \d also contain non-ASCII letters and digits. *)
From Coq Require Export Ascii.
From Coq Require Import Reals.
From Verif Require Import Py PyStr.
Local Open Scope list_scope.
Local Open Scope char_scope.

(** the generated code, compile/numba_tools.py:170 *)
Definition text := list ascii.
(** string literals of compile/numba_tools.py:170-195 *)
Definition txt (s : string) : text := list_ascii_of_string s.

(** character classes of the patterns, compile/numba_tools.py:13-14 *)
Definition in_range (lo hi : nat) (c : ascii) : bool := (Nat.leb lo (nat_of_ascii c) && Nat.leb (nat_of_ascii c) hi)%bool.
(** \d of compile/numba_tools.py:13 *)
Definition is_digit (c : ascii) : bool := in_range 48 57 c.
(** \w (compile/numba_tools.py:13-14) *)
Definition is_word (c : ascii) : bool :=
  (is_digit c || in_range 65 90 c || in_range 97 122 c || Ascii.eqb c "_")%bool.
(** The whitespace of str.strip() (compile/numba_tools.py:175) *)
Definition is_space (c : ascii) : bool := (in_range 9 13 c || in_range 28 32 c)%bool.

(** code.split(","), compile/numba_tools.py:173-174 *)
Fixpoint split_comma (s : text) : list text :=
  match s with
  | [] => [[]]
  | c :: s' =>
    if Ascii.eqb c "," then [] :: split_comma s'
    else match split_comma s' with p :: ps => (c :: p) :: ps | [] => [[c]] end
  end.
(** eq.strip() (compile/numba_tools.py:175) *)
Fixpoint lstrip (s : text) : text :=
  match s with [] => [] | c :: s' => if is_space c then lstrip s' else s end.
(** eq.strip(), compile/numba_tools.py:175 *)
Definition strip (s : text) : text := rev (lstrip (rev (lstrip s))).
(** compile/numba_tools.py:176 *)
Definition newline : ascii := ascii_of_nat 10.
(** eight spaces, compile/numba_tools.py:175 *)
Definition indent : text := repeat " " 8.
(** delimiter + "\n" (compile/numba_tools.py:176) *)
Fixpoint join_lines (l : list text) : text :=
  match l with
  | [] => []
  | [p] => p
  | p :: l' => p ++ "," :: newline :: join_lines l'
  end.
(** compile/numba_tools.py:172-176 *)
Definition layout (code : text) : text := join_lines (map (fun eq => indent ++ strip eq) (split_comma code)).

(** s.startswith(p), and the rest (used by str.replace, compile/numba_tools.py:177) *)
Fixpoint drop_prefix (p s : text) : option text :=
  match p, s with
  | [], _ => Some s
  | a :: p', b :: s' => if Ascii.eqb a b then drop_prefix p' s' else None
  | _ :: _, [] => None
  end.
(** code.replace("numpy.", "np."), compile/numba_tools.py:177. The first
    argument bounds the number of steps; the length of the text is enough. *)
Definition numpy_dot : text := ["n"; "u"; "m"; "p"; "y"; "."].
(** the replacement text, compile/numba_tools.py:177 *)
Definition np_dot : text := ["n"; "p"; "."].
(** code.replace("numpy.", "np."), compile/numba_tools.py:177 *)
Fixpoint replace_np_ (fuel : nat) (s : text) : text :=
  match fuel, s with
  | O, _ => s
  | _, [] => []
  | S n, c :: s' =>
    match drop_prefix numpy_dot s with
    | Some r => np_dot ++ replace_np_ n r
    | None => c :: replace_np_ n s'
    end
  end.
(** compile/numba_tools.py:177 *)
Definition replace_np (s : text) : text := replace_np_ (length s) s.

(** ZERO_PATTERN and its replacement, compile/numba_tools.py:14 and 180: a 0
    that does not follow a dot or a word character and is followed by a space,
    a comma or a closing bracket. [prev] is the character before. *)
Definition blocks (prev : option ascii) : bool :=
  match prev with Some c => (Ascii.eqb c "." || is_word c)%bool | None => false end.
(** the lookbehind of ZERO_PATTERN, compile/numba_tools.py:14 *)
Definition follows (c : ascii) : bool := (Ascii.eqb c " " || Ascii.eqb c "," || Ascii.eqb c "]")%bool.
(** compile/numba_tools.py:180 *)
Fixpoint zero_sub (prev : option ascii) (s : text) : text :=
  match s with
  | [] => []
  | c :: s' =>
    match s' with
    | [] => [c]
    | d :: s'' =>
      if (Ascii.eqb c "0" && negb (blocks prev) && follows d)%bool
      then "0" :: "." :: "0" :: d :: zero_sub (Some d) s''
      else c :: zero_sub (Some c) s'
    end
  end.

(** The longest prefix of characters of a class
    (the repetitions of FLOAT_INDEX_PATTERN, compile/numba_tools.py:13) *)
Fixpoint span (f : ascii -> bool) (s : text) : text * text :=
  match s with
  | [] => ([], [])
  | c :: s' => if f c then let (a, b) := span f s' in (c :: a, b) else ([], s)
  end.
(** FLOAT_INDEX_PATTERN at the start of the text, compile/numba_tools.py:13. The
    repetitions are greedy; a shorter one could not be followed by "[" or "."
    as the pattern wants. Returns the replacement and the rest. *)
Definition match_float_index (s : text) : option (text * text) :=
  let (w, r) := span is_word s in
  match w, r with
  | _ :: _, "[" :: r1 =>
    let (d, r2) := span is_digit r1 in
    match d, r2 with
    | _ :: _, "." :: "0" :: "]" :: r3 => Some (w ++ "[" :: d ++ ["]"], r3)
    | _, _ => None
    end
  | _, _ => None
  end.
(** re.sub(FLOAT_INDEX_PATTERN, r"\1[\2]", code), compile/numba_tools.py:184 *)
Fixpoint float_index_sub_ (fuel : nat) (s : text) : text :=
  match fuel, s with
  | O, _ => s
  | _, [] => []
  | S n, c :: s' =>
    match match_float_index s with
    | Some (out, r) => out ++ float_index_sub_ n r
    | None => c :: float_index_sub_ n s'
    end
  end.
(** compile/numba_tools.py:184 *)
Definition float_index_sub (s : text) : text := float_index_sub_ (length s) s.

(** compile/numba_tools.py:172-184: what is done to the printed code *)
Definition post_process (code : text) : text := float_index_sub (zero_sub None (replace_np (layout code))).

(** NumbaFriendlyNumPyPrinter._print_Max, compile/numba_tools.py:20-25: one call
    of numpy.maximum with all the (already evaluated) arguments. *)
Definition call : Type := string * list R.
(** compile/numba_tools.py:20-25 *)
Definition print_max (args : list R) : call := ("numpy.maximum"%string, args).
(** What the call numpy.maximum(...) printed at compile/numba_tools.py:22-25
    gives for scalars: a ufunc of two inputs, whose third positional parameter
    is the array to write to. None: it raises TypeError. *)
Definition eval_call (c : call) : option R :=
  if String.eqb (fst c) "numpy.maximum"
  then match snd c with [a; b] => Some (Rmax a b) | _ => None end
  else None.
