(** Model of how equation strings are read: Python's tokens and expression
    grammar, as used by eval (compile/pytensor.py:64) and by sympy's parse_expr
    (base/cge.py:410-415), and of normalize_eq (tools/parsing.py). *)
From Coq Require Import Ascii.
From Verif Require Import Py PyStr.
Local Open Scope string_scope.
Local Open Scope list_scope.

(** ** Tokens *)
(** of the strings read by compile/pytensor.py:64 and base/cge.py:410 *)
Inductive token :=
| Word (w : string)   (* a name or a number *)
| Plus | Minus | Star | Slash | Pow | LP | RP | LB | RB | LC | RC | Comma | Colon | Dot | Equal
| Other (c : ascii).

(** The characters of names and numbers (compile/pytensor.py:64, base/cge.py:410) *)
Definition is_digit (c : ascii) : bool := let n := nat_of_ascii c in Nat.leb 48 n && Nat.leb n 57.
(** compile/pytensor.py:64, base/cge.py:410 *)
Definition is_word (c : ascii) : bool :=
  let n := nat_of_ascii c in
  is_digit c || (Nat.leb 65 n && Nat.leb n 90) || Nat.eqb n 95 || (Nat.leb 97 n && Nat.leb n 122).

(** The token of a single character (compile/pytensor.py:64, base/cge.py:410) *)
Definition sym (c : ascii) : token :=
  if Ascii.eqb c "+" then Plus else if Ascii.eqb c "-" then Minus else if Ascii.eqb c "*" then Star
  else if Ascii.eqb c "/" then Slash else if Ascii.eqb c "(" then LP else if Ascii.eqb c ")" then RP
  else if Ascii.eqb c "[" then LB else if Ascii.eqb c "]" then RB else if Ascii.eqb c "{" then LC
  else if Ascii.eqb c "}" then RC else if Ascii.eqb c "," then Comma else if Ascii.eqb c ":" then Colon
  else if Ascii.eqb c "." then Dot else if Ascii.eqb c "=" then Equal else Other c.

(** A dot belongs to a number that is being read (compile/pytensor.py:64, base/cge.py:410). *)
Definition starts_digit (w : string) : bool := match w with "" => false | String c _ => is_digit c end.
(** the end of a word (compile/pytensor.py:64, base/cge.py:410) *)
Definition flush (w : string) : list token := match w with "" => [] | _ => [Word w] end.

(** Python's tokens of a line (compile/pytensor.py:64, base/cge.py:410); [w] is
    the word being read *)
Fixpoint tok (w : string) (s : string) : list token :=
  match s with
  | "" => flush w
  | String c s' =>
      if is_word c || (Ascii.eqb c "." && starts_digit w) then tok (w ++ String c "") s'
      else flush w ++
           (if is_space c then tok "" s'
            else match s' with
                 | String c2 s'' => if Ascii.eqb c "*" && Ascii.eqb c2 "*" then Pow :: tok "" s'' else sym c :: tok "" s'
                 | "" => [sym c]
                 end)
  end.
(** compile/pytensor.py:64, base/cge.py:410 *)
Definition tokenize (s : string) : list token := tok "" s.

(** ** Syntax trees *)
(** the operators of the strings read by compile/pytensor.py:64 and base/cge.py:410 *)
Inductive binop := Add | Sub | Mul | Div | Power.
(** Expressions; the arguments of a call, an index, a tuple, a list and a dict
    are chains of [ECons] ended by [ENil] (compile/pytensor.py:64, base/cge.py:410) *)
Inductive pexpr :=
| EWord (w : string)
| EBin (op : binop) (a b : pexpr)
| ENeg (a : pexpr)
| EAttr (a : pexpr) (w : string)
| ECall (f args : pexpr)
| EIndex (a args : pexpr)
| ETuple (args : pexpr)
| EList (args : pexpr)
| EDict (args : pexpr)
| ENil
| ECons (a rest : pexpr)
| EColon
| EKw (w : string) (a : pexpr)
| EPair (k v : pexpr).

(** ** The parser (compile/pytensor.py:64, base/cge.py:410): recursive descent
    over Python's grammar of arithmetic. Simplified: no comparisons, boolean
    operators, lambdas, comprehensions, %, //, @, unary +. *)
Inductive mode :=
| MExpr | MExprL (acc : pexpr) | MTerm | MTermL (acc : pexpr) | MFactor | MPower | MPrim | MTrail (acc : pexpr)
| MArgs (close : token) | MItem.

(** The closing brackets (compile/pytensor.py:64, base/cge.py:410) *)
Definition closes (close t : token) : bool :=
  match close, t with RP, RP | RB, RB | RC, RC => true | _, _ => false end.

(** What may stand in brackets but is no expression: w=e, :, k:v (compile/pytensor.py:64, base/cge.py:410) *)
Definition only_argument (e : pexpr) : bool := match e with EKw _ _ | EColon | EPair _ _ => true | _ => false end.

(** One step of the parser per unit of [n] (compile/pytensor.py:64, base/cge.py:410) *)
Fixpoint P (n : nat) (m : mode) (ts : list token) : option (pexpr * list token) :=
  match n with
  | 0 => None
  | S n =>
    match m with
    | MExpr => match P n MTerm ts with Some (t, r) => P n (MExprL t) r | None => None end
    | MExprL acc =>
        match ts with
        | Plus :: r => match P n MTerm r with Some (t, r') => P n (MExprL (EBin Add acc t)) r' | None => None end
        | Minus :: r => match P n MTerm r with Some (t, r') => P n (MExprL (EBin Sub acc t)) r' | None => None end
        | _ => Some (acc, ts)
        end
    | MTerm => match P n MFactor ts with Some (t, r) => P n (MTermL t) r | None => None end
    | MTermL acc =>
        match ts with
        | Star :: r => match P n MFactor r with Some (t, r') => P n (MTermL (EBin Mul acc t)) r' | None => None end
        | Slash :: r => match P n MFactor r with Some (t, r') => P n (MTermL (EBin Div acc t)) r' | None => None end
        | _ => Some (acc, ts)
        end
    | MFactor =>
        match ts with
        | Minus :: r => match P n MFactor r with Some (t, r') => Some (ENeg t, r') | None => None end
        | _ => P n MPower ts
        end
    | MPower =>
        match P n MPrim ts with
        | Some (a, Pow :: r) => match P n MFactor r with Some (b, r') => Some (EBin Power a b, r') | None => None end
        | Some (a, r) => Some (a, r)
        | None => None
        end
    | MPrim =>
        match ts with
        | Word w :: r => P n (MTrail (EWord w)) r
        | LP :: r =>
            match P n MItem r with
            | Some (a, RP :: r') => if only_argument a then None else P n (MTrail a) r'
            | Some (a, Comma :: r') =>
                match P n (MArgs RP) r' with Some (args, r'') => P n (MTrail (ETuple (ECons a args))) r'' | None => None end
            | _ => None
            end
        | LB :: r => match P n (MArgs RB) r with Some (args, r') => P n (MTrail (EList args)) r' | None => None end
        | LC :: r => match P n (MArgs RC) r with Some (args, r') => P n (MTrail (EDict args)) r' | None => None end
        | _ => None
        end
    | MTrail acc =>
        match ts with
        | Dot :: Word w :: r => P n (MTrail (EAttr acc w)) r
        | LP :: r => match P n (MArgs RP) r with Some (args, r') => P n (MTrail (ECall acc args)) r' | None => None end
        | LB :: r => match P n (MArgs RB) r with Some (args, r') => P n (MTrail (EIndex acc args)) r' | None => None end
        | _ => Some (acc, ts)
        end
    | MArgs close =>
        match ts with
        | [] => None
        | t :: r =>
            if closes close t then Some (ENil, r)
            else match P n MItem ts with
                 | Some (a, t' :: r') =>
                     if closes close t' then Some (ECons a ENil, r')
                     else match t' with
                          | Comma => match P n (MArgs close) r' with Some (b, r'') => Some (ECons a b, r'') | None => None end
                          | _ => None
                          end
                 | _ => None
                 end
        end
    | MItem =>
        match ts with
        | Colon :: r => Some (EColon, r)
        | Word w :: Equal :: r => match P n MExpr r with Some (a, r') => Some (EKw w a, r') | None => None end
        | _ => match P n MExpr ts with
               | Some (a, Colon :: r) => match P n MExpr r with Some (b, r') => Some (EPair a b, r') | None => None end
               | x => x
               end
        end
    end
  end.

(** Reading a whole string (compile/pytensor.py:64, base/cge.py:410) *)
Definition parse_tokens (ts : list token) : option pexpr :=
  match P (12 * length ts + 12) MExpr ts with Some (e, []) => Some e | _ => None end.
(** compile/pytensor.py:64, base/cge.py:410 *)
Definition parse (s : string) : option pexpr := parse_tokens (tokenize s).

(** ** normalize_eq *)

(** tools/parsing.py:18-21 re.search and re.split(maxsplit=1) with the pattern
    (?<!axis)=: the text before and after the first "=" not preceded by
    "axis"; [seen] is what has been passed *)
Fixpoint find_eq (seen s : string) : option (string * string) :=
  match s with
  | "" => None
  | String c s' =>
      if Ascii.eqb c "=" && negb (ends_with "axis" seen) then Some (seen, s')
      else find_eq (seen ++ String c "") s'
  end.

(** tools/parsing.py:4-22 normalize_eq *)
Definition normalize_eq (eq : string) : string :=
  match find_eq "" eq with
  | None => eq
  | Some (lhs, rhs) => lhs ++ " - (" ++ rhs ++ ")"
  end.

(** tools/parsing.py:25-26 wrap_in_ravel *)
Definition wrap_in_ravel (eq : string) : string := "(" ++ eq ++ ").ravel()".
