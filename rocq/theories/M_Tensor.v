(** Equations as the pytensor and jax backends read them: every equation is
    evaluated on whole arrays (/repo/cge_modeling/compile/pytensor.py:35-72,
    compile/pytensor_tools.py:64-123, 141-182). The shapes of all inputs are
    declared, so errors of shape raised while the graph is built are modelled
    as raised when it is evaluated on data. *)
From Coq Require Import Ascii Reals ZArith.
From Verif Require Import Py PyStr NdArray M_Primitives M_PyExpr M_Equations.
Local Open Scope string_scope.
Local Open Scope list_scope.

(** ** Array operations of pytensor.tensor *)

(** The length of an axis after broadcasting (the operators of the strings
    evaluated at compile/pytensor.py:64) *)
Definition broadcast_len (a b : nat) : option nat :=
  if Nat.eqb a b then Some a else if Nat.eqb a 1 then Some b else if Nat.eqb b 1 then Some a else None.
(** Shapes are aligned from the right (compile/pytensor.py:64) *)
Definition pad {A} (x : A) (n : nat) (l : list A) : list A := repeat x (n - length l) ++ l.
(** compile/pytensor.py:64 *)
Fixpoint broadcast_lens (s t : list nat) : option (list nat) :=
  match s, t with
  | a :: s', b :: t' => match broadcast_len a b, broadcast_lens s' t' with Some c, Some r => Some (c :: r) | _, _ => None end
  | _, _ => Some []
  end.
(** compile/pytensor.py:64 *)
Definition broadcast_shape (s t : list nat) : option (list nat) :=
  let n := Nat.max (length s) (length t) in broadcast_lens (pad 1 n s) (pad 1 n t).
(** The element of an operand used at position [idx] of the result (compile/pytensor.py:64) *)
Definition broadcast_index (shape idx : list nat) : list nat :=
  map (fun nk => if Nat.eqb (fst nk) 1 then 0 else snd nk) (combine shape (skipn (length idx - length shape) idx)).

(** The array of shape [s] with element [f idx] at [idx] (compile/pytensor.py:64) *)
Definition build {V} (s : list nat) (f : list nat -> res V) : res (arr V) :=
  let* data := map_res f (ndindex s) in Ok (mkArr s data).

(** + - * / ** on arrays (compile/pytensor.py:64) *)
Definition elemwise {V} (f : V -> V -> V) (a b : arr V) : res (arr V) :=
  match broadcast_shape (ashape a) (ashape b) with
  | None => Err ValueError
  | Some s => build s (fun idx => let* x := aget a (broadcast_index (ashape a) idx) in
                                  let* y := aget b (broadcast_index (ashape b) idx) in Ok (f x y))
  end.

(** An index in brackets: a colon, None or a position (compile/pytensor.py:64) *)
Inductive item := IAll | INew | IAt (k : nat).
(** compile/pytensor.py:64 *)
Fixpoint index_shape (items : list item) (shape : list nat) : res (list nat) :=
  match items, shape with
  | [], s => Ok s
  | INew :: r, s => let* s' := index_shape r s in Ok (1 :: s')
  | IAll :: r, n :: s => let* s' := index_shape r s in Ok (n :: s')
  | IAt k :: r, n :: s => if Nat.ltb k n then index_shape r s else Err IndexError
  | _, [] => Err IndexError
  end.
(** The element of the operand at position [idx] of the result (compile/pytensor.py:64) *)
Fixpoint source_index (items : list item) (idx : list nat) : list nat :=
  match items, idx with
  | [], _ => idx
  | INew :: r, idx' => source_index r (tl idx')
  | IAt k :: r, idx' => k :: source_index r idx'
  | IAll :: r, k :: idx' => k :: source_index r idx'
  | IAll :: r, [] => []
  end.
(** x[...] (compile/pytensor.py:64) *)
Definition index_array {V} (a : arr V) (items : list item) : res (arr V) :=
  let* s := index_shape items (ashape a) in build s (fun idx => aget a (source_index items idx)).

(** x.sum(axis=k), x.prod(axis=k) (compile/pytensor.py:64) *)
Definition reduce_axis {V} (f : V -> V -> V) (z : V) (k : nat) (a : arr V) : res (arr V) :=
  match nth_error (ashape a) k with
  | None => Err ValueError
  | Some n => build (firstn k (ashape a) ++ skipn (S k) (ashape a))
                    (fun idx => let* xs := map_res (fun j => aget a (firstn k idx ++ j :: skipn k idx)) (seq 0 n) in Ok (fold_right f z xs))
  end.
(** x.sum(), x.prod() (compile/pytensor.py:64) *)
Definition reduce_all {V} (f : V -> V -> V) (z : V) (a : arr V) : arr V := mkArr [] [fold_right f z (adata a)].
(** x.ravel() (compile/pytensor.py:64, compile/pytensor_tools.py:97) *)
Definition ravel_array {V} (a : arr V) : arr V := mkArr [length (adata a)] (adata a).

(** ** Evaluation of an equation *)

(** Whole numbers (compile/pytensor.py:64); decimals are outside the model *)
Fixpoint literal_digits (acc : nat) (s : string) : option nat :=
  match s with
  | "" => Some acc
  | String c s' => if is_digit c then literal_digits (10 * acc + (nat_of_ascii c - 48)) s' else None
  end.
(** compile/pytensor.py:64 *)
Definition literal (w : string) : option nat := match w with "" => None | _ => literal_digits 0 w end.

(** The items between brackets (compile/pytensor.py:64). Slices with bounds and
    computed positions are outside the model. *)
Fixpoint index_items (args : pexpr) : res (list item) :=
  match args with
  | ENil => Ok []
  | ECons a rest =>
      let* i := match a with
                | EColon => Ok IAll
                | EWord w => if String.eqb w "None" then Ok INew
                             else match literal w with Some k => Ok (IAt k) | None => Err NotImplementedError end
                | _ => Err NotImplementedError
                end in
      let* l := index_items rest in Ok (i :: l)
  | _ => Err NotImplementedError
  end.

Section Eval.
(** The arithmetic of the numbers, which never raises *)
Variable number_op : binop -> R -> R -> R.

(** x.sum(...), x.prod(...) (compile/pytensor.py:64): no argument, axis=k or k *)
Definition reduce (f : R -> R -> R) (z : R) (a : arr R) (args : pexpr) : res (arr R) :=
  match args with
  | ENil => Ok (reduce_all f z a)
  | ECons (EKw w (EWord k)) ENil =>
      if String.eqb w "axis" then match literal k with Some k => reduce_axis f z k a | None => Err NotImplementedError end
      else Err TypeError
  | ECons (EWord k) ENil => match literal k with Some k => reduce_axis f z k a | None => Err NotImplementedError end
  | _ => Err NotImplementedError
  end.

(** compile/pytensor.py:64: eval(equation, cache). The cache maps names to
    arrays and "pt" to the module (59-60). Functions of pt, attributes other
    than sum, prod and ravel and the other operators of Python are outside the
    model. *)
Fixpoint tensor_eval (cache : dict (arr R)) (e : pexpr) : res (arr R) :=
  match e with
  | EWord w =>
      match literal w with
      | Some n => Ok (mkArr [] [IZR (Z.of_nat n)])
      | None => if (String.eqb w "pt" || String.eqb w "None")%bool then Err TypeError
                else match dget w cache with Some a => Ok a | None => Err NameError end
      end
  | EBin op a b =>
      let* x := tensor_eval cache a in
      let* y := tensor_eval cache b in
      elemwise (number_op op) x y
  | ENeg a => let* x := tensor_eval cache a in Ok (mkArr (ashape x) (map Ropp (adata x)))
  | EIndex a args =>
      let* x := tensor_eval cache a in
      let* items := index_items args in
      index_array x items
  | ECall (EAttr a m) args =>
      let* x := tensor_eval cache a in
      if String.eqb m "sum" then reduce Rplus 0%R x args
      else if String.eqb m "prod" then reduce Rmult 1%R x args
      else if String.eqb m "ravel" then match args with ENil => Ok (ravel_array x) | _ => Err NotImplementedError end
      else Err NotImplementedError
  | _ => Err NotImplementedError
  end.

(** compile/pytensor.py:64: one equation *)
Definition eval_equation (cache : dict (arr R)) (equation : string) : res (arr R) :=
  match parse (normalize_eq equation) with Some e => tensor_eval cache e | None => Err SyntaxError end.

(** compile/pytensor_tools.py:141-182 object_to_pytensor: the declared shape *)
Definition object_shape (c : coords) (o : mobj) : res (list nat) :=
  map_res (fun dim => let* labels := dgetitem dim c in Ok (length labels)) (o_dims o).
(** The inputs of the compiled function (compile/pytensor.py:35-47): the array
    given under the name of each object, which must have the declared shape *)
Definition tensor_inputs (c : coords) (objs : list mobj) (data : dict (arr R)) : res (dict (arr R)) :=
  map_res (fun o => let* s := object_shape c o in
                    let* a := dgetitem (o_name o) data in
                    if list_eq_dec Nat.eq_dec (ashape a) s then Ok (o_name o, a) else Err TypeError) objs.

(** compile/pytensor.py:50-72 cge_primitives_to_pytensor, applied to data: all
    equations, flattened and concatenated (compile/pytensor_tools.py:64-100);
    the length is checked against the names of the unpacked equations (67) *)
Definition pytensor_system (c : coords) (objs : list mobj) (equations names : list string) (data : dict (arr R)) : res (list R) :=
  let* inputs := tensor_inputs c objs data in
  let* arrays := map_res (eval_equation (dict_of_list inputs)) equations in
  residuals_pytensor names arrays.
End Eval.
