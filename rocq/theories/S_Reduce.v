(** What an indexed expression means: the specification side of C18, C47 and
    C48. Independent of how sympy substitutes. *)
From Coq Require Import Reals.
From Verif Require Import Py PyStr M_SymExpr.
Local Open Scope string_scope.
Local Open Scope list_scope.

(** The elements of the model's arrays: by base name and labels; None when
    there is no such element. Scalars by name. *)
Definition elements := string -> list string -> option R.
Definition scalars := string -> option R.
(** The label an index currently stands for *)
Definition assignment := string -> option string.
Definition set_lab (g : assignment) (i : string) (l : option string) : assignment :=
  fun s => if String.eqb s i then l else g s.

Definition opt2 {A B C} (f : A -> B -> C) (a : option A) (b : option B) : option C :=
  match a, b with Some x, Some y => Some (f x y) | _, _ => None end.
Fixpoint all_some {A} (l : list (option A)) : option (list A) :=
  match l with [] => Some [] | x :: l' => opt2 cons x (all_some l') end.

(** A power: the integer power when the exponent is an integer, otherwise
    exp(b log a) *)
Definition rpow (a b : R) : R :=
  if Req_EM_T b (IZR (Int_part b)) then powerRZ a (Int_part b) else Rpower a b.
Definition bin_val (o : binop) (x y : R) : R :=
  match o with OAdd => x + y | OSub => x - y | OMul => x * y | ODiv => x / y | OPow => rpow x y end%R.
Definition fn_val (f : fn1) (x : R) : R := match f with FExp => exp x | FLog => ln x end.
Definition rop_val (o : rop) (l : list R) : R :=
  match o with RSum => fold_right Rplus 0%R l | RProd => fold_right Rmult 1%R l end.

(** The label an index denotes. An integer index denotes the element whose
    label is that numeral. *)
Definition idx_lab (g : assignment) (i : idx) : option string :=
  match i with IVar s => g s | ILab l => Some l | IPos n => Some (str_of_nat n) end.

Section Meaning.
Context (coords : dict (list string)) (v : elements) (w : scalars).

Definition label_at (i : string) (k : nat) : option string :=
  match dget i coords with Some ls => nth_error ls k | None => None end.

(** A reduction over (i, lo, hi) runs over the labels of i at the positions
    lo..hi; the first limit is the innermost. *)
Fixpoint over (o : rop) (lims : list (string * (nat * nat))) (body : assignment -> option R) (g : assignment) : option R :=
  match lims with
  | [] => body g
  | (i, (lo, hi)) :: rest =>
    over o rest (fun g => option_map (rop_val o)
       (all_some (map (fun k => match label_at i k with Some l => body (set_lab g i (Some l)) | None => None end)
                      (seq lo (S hi - lo))))) g
  end.

Fixpoint den (g : assignment) (e : sexpr) : option R :=
  match e with
  | SNum z => Some (IZR z)
  | SSym s => w s
  | SIx b l => match all_some (map (idx_lab g) l) with Some ls => v b ls | None => None end
  | SBin o a b => opt2 (bin_val o) (den g a) (den g b)
  | SFun f a => option_map (fn_val f) (den g a)
  | SRed o a lims => over o lims (fun g => den g a) g
  end.
End Meaning.

(** No reduction is left *)
Fixpoint no_reduction (e : sexpr) : Prop :=
  match e with
  | SNum _ | SSym _ | SIx _ _ => True
  | SBin _ a b => no_reduction a /\ no_reduction b
  | SFun _ a => no_reduction a
  | SRed _ _ _ => False
  end.
(** No integer position is used as an index *)
Fixpoint no_position (e : sexpr) : Prop :=
  match e with
  | SNum _ | SSym _ => True
  | SIx _ l => forall n, ~ In (IPos n) l
  | SBin _ a b => no_position a /\ no_position b
  | SFun _ a => no_position a
  | SRed _ a _ => no_position a
  end.
(** Reductions are not nested, and inside a reduction every index is one of
    the model's, ranging over the labels of the axis it is used for
    ([axes b]: the labels of each axis of the array b); the limits are
    positions of labels. *)
Fixpoint flat_reductions (coords : dict (list string)) (axes : string -> list (list string)) (e : sexpr) : Prop :=
  match e with
  | SNum _ | SSym _ | SIx _ _ => True
  | SBin _ a b => flat_reductions coords axes a /\ flat_reductions coords axes b
  | SFun _ a => flat_reductions coords axes a
  | SRed _ a lims =>
    no_reduction a /\
    (forall b l, In (b, l) (indexed_exprs a) ->
       Forall2 (fun i labs => exists s, i = IVar s /\ dget s coords = Some labs) l (axes b)) /\
    (forall i lo hi, In (i, (lo, hi)) lims -> lo <= hi /\ exists ls, dget i coords = Some ls /\ hi < length ls)
  end.

(** Every dimension has a label, and no label is a numeral *)
Definition plain_labels (coords : dict (list string)) : Prop :=
  forall i ls, dget i coords = Some ls -> ls <> [] /\ Forall (fun l => numeral l = None) ls.

(** The index i occurs free in e *)
Inductive occurs_free (i : string) : sexpr -> Prop :=
| OfIx b l : In (IVar i) l -> occurs_free i (SIx b l)
| OfL o a b : occurs_free i a -> occurs_free i (SBin o a b)
| OfR o a b : occurs_free i b -> occurs_free i (SBin o a b)
| OfFun f a : occurs_free i a -> occurs_free i (SFun f a)
| OfRed o a lims : occurs_free i a -> ~ In i (map fst lims) -> occurs_free i (SRed o a lims).

(** The index i occurs anywhere in e *)
Inductive occurs (i : string) : sexpr -> Prop :=
| OcIx b l : In (IVar i) l -> occurs i (SIx b l)
| OcL o a b : occurs i a -> occurs i (SBin o a b)
| OcR o a b : occurs i b -> occurs i (SBin o a b)
| OcFun f a : occurs i a -> occurs i (SFun f a)
| OcRed o a lims : occurs i a -> occurs i (SRed o a lims)
| OcLim o a lims : In i (map fst lims) -> occurs i (SRed o a lims).

(** sympy's own rule for substituting inside a reduction: not when the
    expression replaced mentions one of its indices. *)
Definition sympy_rule (old : sexpr) (vars : list string) : bool :=
  forallb (fun i => negb (mem_str i (free_indices old))) vars.

(** A walk over the elements of a set, each once *)
Definition walks_set {A} (order : list A -> list A) : Prop :=
  forall l, NoDup (order l) /\ forall x, In x (order l) <-> In x l.
