(** Specification vocabulary for C54-C60: the value of an equation string for
    real-valued variables. *)
From Coq Require Import Ascii Reals ZArith.
From Verif Require Import Py PyStr M_PyExpr S_PyExpr.
Local Open Scope string_scope.
Local Open Scope list_scope.

(** Whole numbers *)
Fixpoint digits (acc : nat) (s : string) : option nat :=
  match s with
  | "" => Some acc
  | String c s' => if is_digit c then digits (10 * acc + (nat_of_ascii c - 48)) s' else None
  end.
Definition number (w : string) : option nat := match w with "" => None | _ => digits 0 w end.

(** The value of each name may depend on the positions of the indices, as that
    of the sympy object X[i, j] does. *)
Definition indices := string -> nat.
Definition valuation := string -> indices -> option R.
Definition upd (ix : indices) (i : string) (k : nat) : indices := fun j => if String.eqb i j then k else ix j.

Definition lift2 (f : R -> R -> option R) (a b : option R) : option R :=
  match a, b with Some x, Some y => f x y | _, _ => None end.
(** Quotients have a value if the divisor is not zero, powers if the base is positive. *)
Definition apply_op (op : binop) (x y : R) : option R :=
  match op with
  | Add => Some (x + y)%R
  | Sub => Some (x - y)%R
  | Mul => Some (x * y)%R
  | Div => if Req_EM_T y 0 then None else Some (x / y)%R
  | Power => if Rlt_dec 0 x then Some (Rpower x y) else None
  end.

(** Arithmetic, Sum(e, (i, lo, hi)) and e.subs({i:j}); nothing else has a value. *)
Fixpoint eval (rho : valuation) (ix : indices) (e : pexpr) : option R :=
  match e with
  | EWord w => match number w with Some n => Some (IZR (Z.of_nat n)) | None => rho w ix end
  | EBin op a b => lift2 (apply_op op) (eval rho ix a) (eval rho ix b)
  | ENeg a => option_map Ropp (eval rho ix a)
  | ECall (EWord f) (ECons body (ECons (ETuple (ECons (EWord i) (ECons (EWord lo) (ECons (EWord hi) ENil)))) ENil)) =>
      if String.eqb f "Sum"
      then match number lo, number hi with
           | Some lo, Some hi =>
               fold_right (lift2 (fun x y => Some (x + y)%R)) (Some 0%R)
                          (map (fun k => eval rho (upd ix i k) body) (seq lo (S hi - lo)))
           | _, _ => None
           end
      else None
  | ECall (EAttr a m) (ECons (EDict (ECons (EPair (EWord i) (EWord j)) ENil)) ENil) =>
      if String.eqb m "subs" then eval rho (upd ix i (ix j)) a else None
  | _ => None
  end.

Definition meaning (rho : valuation) (ix : indices) (s : string) : option R :=
  match parse s with Some e => eval rho ix e | None => None end.

(** The equation holds: the normalised equation has the value zero. *)
Definition holds (rho : valuation) (ix : indices) (s : string) : Prop := meaning rho ix (normalize_eq s) = Some 0%R.

(** [s] is an expression (a unit: a name, a number, a call, ... or anything in
    parentheses) with value [v]. *)
Definition expr_val (rho : valuation) (ix : indices) (s : string) (v : R) : Prop := exists e, is_expr s e /\ eval rho ix e = Some v.
Definition unit_val (rho : valuation) (ix : indices) (s : string) (v : R) : Prop := exists e, is_unit s e /\ eval rho ix e = Some v.
(** Written without "=" *)
Definition no_eq (s : string) : Prop := contains_char "=" s = false.
