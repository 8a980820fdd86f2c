(** Symbolic expressions and the functions of tools/sympy_tools.py that walk
    over them.

    sympy itself is external. Its expressions are modelled as trees; the
    automatic rewriting sympy does when it builds a node (flattening, sorting,
    collecting, cancelling) is not modelled, only that it keeps the value. *)
From Verif Require Import Py PyStr.
Local Open Scope string_scope.
Local Open Scope list_scope.

(** An index of an Indexed: an sp.Idx of the model (base/cge.py:144
    symbolic coords), a label (an sp.Symbol), or an integer position. *)
Inductive idx := IVar (s : string) | ILab (s : string) | IPos (n : nat).

(** the operators of the expressions parsed at base/cge.py:408-420 *)
Inductive binop := OAdd | OSub | OMul | ODiv | OPow.
(** the functions of the expressions parsed at base/cge.py:408-420 *)
Inductive fn1 := FExp | FLog.
(** OPS_TO_FIND of tools/sympy_tools.py:57 *)
Inductive rop := RSum | RProd.

(** The expressions sp.parse_expr builds (base/cge.py:408-420) *)
Inductive sexpr :=
| SNum (z : Z)
| SSym (s : string)
| SIx (base : string) (ixs : list idx)
| SBin (o : binop) (a b : sexpr)
| SFun (f : fn1) (a : sexpr)
| SRed (o : rop) (body : sexpr) (lims : list (string * (nat * nat))).

(** == of sympy, used by subs at tools/sympy_tools.py:338-340 *)
Definition idx_eqb (a b : idx) : bool :=
  match a, b with
  | IVar s, IVar t | ILab s, ILab t => String.eqb s t
  | IPos n, IPos m => Nat.eqb n m
  | _, _ => false
  end.
(** == of sympy, used by subs at tools/sympy_tools.py:338-340 *)
Definition binop_eqb (a b : binop) : bool :=
  match a, b with
  | OAdd, OAdd | OSub, OSub | OMul, OMul | ODiv, ODiv | OPow, OPow => true
  | _, _ => false
  end.
(** == of sympy, used by subs at tools/sympy_tools.py:338-340 *)
Definition fn1_eqb (a b : fn1) : bool :=
  match a, b with FExp, FExp | FLog, FLog => true | _, _ => false end.
(** == of sympy, used by subs at tools/sympy_tools.py:338-340 *)
Definition rop_eqb (a b : rop) : bool :=
  match a, b with RSum, RSum | RProd, RProd => true | _, _ => false end.
(** == of sympy, used by subs at tools/sympy_tools.py:338-340 *)
Definition lim_eqb (a b : string * (nat * nat)) : bool :=
  (String.eqb (fst a) (fst b) && Nat.eqb (fst (snd a)) (fst (snd b)) && Nat.eqb (snd (snd a)) (snd (snd b)))%bool.
(** == of sympy, used by subs at tools/sympy_tools.py:338-340 *)
Fixpoint list_eqb {A} (f : A -> A -> bool) (l m : list A) : bool :=
  match l, m with
  | [], [] => true
  | a :: l, b :: m => (f a b && list_eqb f l m)%bool
  | _, _ => false
  end.

(** == of two sympy expressions: structural (used by subs at tools/sympy_tools.py:338-340) *)
Fixpoint sexpr_eqb (a b : sexpr) : bool :=
  match a, b with
  | SNum x, SNum y => Z.eqb x y
  | SSym s, SSym t => String.eqb s t
  | SIx s l, SIx t m => (String.eqb s t && list_eqb idx_eqb l m)%bool
  | SBin o a1 a2, SBin p b1 b2 => (binop_eqb o p && sexpr_eqb a1 b1 && sexpr_eqb a2 b2)%bool
  | SFun f a1, SFun g b1 => (fn1_eqb f g && sexpr_eqb a1 b1)%bool
  | SRed o a1 l, SRed p b1 m => (rop_eqb o p && sexpr_eqb a1 b1 && list_eqb lim_eqb l m)%bool
  | _, _ => false
  end.

(** The names of the indices occurring anywhere in an expression, bound or
    free: expr.has(idx) of tools/sympy_tools.py:282 *)
Definition idx_name (i : idx) : list string := match i with IVar s => [s] | _ => [] end.
(** tools/sympy_tools.py:282 *)
Fixpoint index_names (e : sexpr) : list string :=
  match e with
  | SNum _ | SSym _ => []
  | SIx _ l => flat_map idx_name l
  | SBin _ a b => index_names a ++ index_names b
  | SFun _ a => index_names a
  | SRed _ a l => index_names a ++ map fst l
  end.
(** eq.has(idx), tools/sympy_tools.py:282 *)
Definition has_index (e : sexpr) (i : string) : bool := mem_str i (index_names e).

(** sorted(l, key=...): a stable insertion sort (tools/sympy_tools.py:283) *)
Fixpoint insert_by {A} (key : A -> nat) (x : A) (l : list A) : list A :=
  match l with
  | [] => [x]
  | y :: l' => if Nat.leb (key x) (key y) then x :: l else y :: insert_by key x l'
  end.
(** sorted, tools/sympy_tools.py:283 *)
Fixpoint sort_by {A} (key : A -> nat) (l : list A) : list A :=
  match l with [] => [] | x :: l' => insert_by key x (sort_by key l') end.

(** index_symbols.index(x), for an x of the list (tools/sympy_tools.py:283) *)
Fixpoint pos_of (x : string) (l : list string) : nat :=
  match l with [] => 0 | y :: l' => if String.eqb x y then 0 else S (pos_of x l') end.

(** tools/sympy_tools.py:281-284 find_equation_dims *)
Definition find_equation_dims (eq : sexpr) (index_symbols : list string) : list string :=
  let found_ids := filter (has_index eq) index_symbols in
  sort_by (fun x => pos_of x index_symbols) found_ids.

(** eq.find(op): the set of sub-expressions made by the operator. Here a list,
    in preorder; the order in which the set is walked is an argument of
    [substitute_reduce_ops] (tools/sympy_tools.py:325). *)
Fixpoint find_ops (o : rop) (e : sexpr) : list sexpr :=
  match e with
  | SNum _ | SSym _ | SIx _ _ => []
  | SBin _ a b => find_ops o a ++ find_ops o b
  | SFun _ a => find_ops o a
  | SRed p a _ => if rop_eqb o p then e :: find_ops o a else find_ops o a
  end.

(** The Indexed of a preorder traversal, tools/sympy_tools.py:333 *)
Fixpoint indexed_exprs (e : sexpr) : list (string * list idx) :=
  match e with
  | SNum _ | SSym _ => []
  | SIx b l => [(b, l)]
  | SBin _ a b => indexed_exprs a ++ indexed_exprs b
  | SFun _ a => indexed_exprs a
  | SRed _ a _ => indexed_exprs a
  end.

(** Substitution of one index by a position, as Sum.doit does it (tools/sympy_tools.py:335) *)
Definition set_idx (i : string) (k : nat) (x : idx) : idx :=
  match x with IVar s => if String.eqb s i then IPos k else x | _ => x end.
(** tools/sympy_tools.py:335 *)
Fixpoint set_index (i : string) (k : nat) (e : sexpr) : sexpr :=
  match e with
  | SNum _ | SSym _ => e
  | SIx b l => SIx b (map (set_idx i k) l)
  | SBin o a b => SBin o (set_index i k a) (set_index i k b)
  | SFun f a => SFun f (set_index i k a)
  | SRed o a l => if mem_str i (map fst l) then e else SRed o (set_index i k a) l
  end.

(** Sum.doit and Product.doit, tools/sympy_tools.py:335 *)
Definition rop_bin (o : rop) : binop := match o with RSum => OAdd | RProd => OMul end.
(** the empty sum and product, tools/sympy_tools.py:335 *)
Definition rop_unit (o : rop) : sexpr := SNum (match o with RSum => 0%Z | RProd => 1%Z end).
(** the range of a limit, tools/sympy_tools.py:335 *)
Definition positions (lo hi : nat) : list nat := seq lo (S hi - lo).
(** Sum.doit / Product.doit for one limit (i, lo, hi) with integer bounds
    (tools/sympy_tools.py:335) *)
Definition doit1 (o : rop) (e : sexpr) (lim : string * (nat * nat)) : sexpr :=
  fold_right (SBin (rop_bin o)) (rop_unit o)
    (map (fun k => set_index (fst lim) k e) (positions (fst (snd lim)) (snd (snd lim)))).
(** op.doit() with the default deep=True: the summand first, then the limits
    from the innermost (first) to the outermost (tools/sympy_tools.py:335) *)
Fixpoint doit (e : sexpr) : sexpr :=
  match e with
  | SNum _ | SSym _ | SIx _ _ => e
  | SBin o a b => SBin o (doit a) (doit b)
  | SFun f a => SFun f (doit a)
  | SRed o a l => fold_left (doit1 o) l (doit a)
  end.

(** The names of the free indices: e.free_symbols, restricted to indices
    (of the equation, base/cge.py:408-452) *)
Fixpoint free_indices (e : sexpr) : list string :=
  match e with
  | SNum _ | SSym _ => []
  | SIx _ l => flat_map idx_name l
  | SBin _ a b => free_indices a ++ free_indices b
  | SFun _ a => free_indices a
  | SRed _ a l => filter (fun i => negb (mem_str i (map fst l))) (free_indices a)
  end.

(** base[(...)] with a label: sympy turns the label string into an expression,
    which is an integer when the string is a numeral (sympy Indexed.__new__,
    called from tools/sympy_tools.py:319 and from base/primitives.py:201).
    Strings that sympy reads as other special objects (pi, E, I, ...) are not
    distinguished from plain symbols. *)
Fixpoint digits_val (acc : nat) (s : string) : option nat :=
  match s with
  | EmptyString => Some acc
  | String c s' =>
    let n := nat_of_ascii c in
    if (Nat.leb 48 n && Nat.leb n 57)%bool then digits_val (acc * 10 + (n - 48)) s' else None
  end.
(** a label that reads as an integer, base[...] at tools/sympy_tools.py:319 *)
Definition numeral (s : string) : option nat :=
  match s with EmptyString => None | _ => digits_val 0 s end.
(** the index a label becomes, tools/sympy_tools.py:319 *)
Definition label_idx (s : string) : idx :=
  match numeral s with Some n => IPos n | None => ILab s end.

Section Reductions.
(** Whether sympy substitutes for [old] inside the summand of a reduction over
    the given index names. (sympy does not when old mentions one of them:
    ExprWithLimits._eval_subs.) *)
Variable sub_into : sexpr -> list string -> bool.
(** The order in which the set of reductions found is walked *)
Variable set_order : list sexpr -> list sexpr.
(** The order in which sympy's subs walks over a dict *)
Variable dict_order : list (sexpr * sexpr) -> list (sexpr * sexpr).

(** e.subs({old: new}), top down (tools/sympy_tools.py:338-340) *)
Fixpoint subs1 (old new e : sexpr) : sexpr :=
  if sexpr_eqb e old then new else
  match e with
  | SNum _ | SSym _ | SIx _ _ => e
  | SBin o a b => SBin o (subs1 old new a) (subs1 old new b)
  | SFun f a => SFun f (subs1 old new a)
  | SRed o a l => if sub_into old (map fst l) then SRed o (subs1 old new a) l else e
  end.
(** e.subs(d) with a dict: one key after the other (tools/sympy_tools.py:338-340) *)
Definition subs (d : list (sexpr * sexpr)) (e : sexpr) : sexpr :=
  fold_left (fun e kv => subs1 (fst kv) (snd kv) e) (dict_order d) e.

Context (coords : dict (list string)).

(** tools/sympy_tools.py:309-313: the entries of labels and numeric_labels for
    one index. [i.name] exists for an index and for a label, not for an
    integer. *)
Definition index_choices (used : list string) (i : idx) : res (list idx * list idx) :=
  match i with
  | IVar s =>
    let* ls := dgetitem s coords in
    if mem_str s used then Ok (map label_idx ls, map IPos (seq 0 (length ls)))
    else Ok (map (fun _ => i) ls, map (fun _ => i) ls)
  | ILab s => let* ls := dgetitem s coords in Ok (map (fun _ => i) ls, map (fun _ => i) ls)
  | IPos _ => Err AttributeError
  end.

(** tools/sympy_tools.py:304-322 make_sub_dict *)
Definition make_sub_dict (var : string * list idx) (used : list string) : res (list (sexpr * sexpr)) :=
  let* cs := map_res (index_choices used) (snd var) in
  Ok (combine (map (SIx (fst var)) (product (map snd cs)))
              (map (SIx (fst var)) (product (map fst cs)))).

(** tools/sympy_tools.py:329-338: the expansion of one reduction *)
Definition expand_op (op : sexpr) : res sexpr :=
  match op with
  | SRed _ expr lims =>
    let used := map fst lims in
    fold_res (fun e var => let* d := make_sub_dict var used in Ok (subs d e)) (doit op) (indexed_exprs expr)
  | _ => Ok op
  end.

(** tools/sympy_tools.py:324-340: one pass of the loop over OPS_TO_FIND *)
Definition substitute_op (eq : sexpr) (o : rop) : res sexpr :=
  fold_res (fun e op => let* r := expand_op op in Ok (subs1 op r e)) eq (set_order (find_ops o eq)).

(** tools/sympy_tools.py:287-349 substitute_reduce_ops *)
Definition substitute_reduce_ops (eq : sexpr) : res sexpr :=
  fold_res substitute_op eq [RSum; RProd].
End Reductions.
