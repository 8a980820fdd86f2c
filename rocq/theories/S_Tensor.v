(** Specification vocabulary for C82 and C83: array expressions read in index
    notation. Nothing here refers to arrays or to broadcasting. *)
From Coq Require Import Reals ZArith.
From Verif Require Import Py PyStr NdArray M_Primitives M_PyExpr S_PyExpr S_Meaning S_Production S_Layout.
Local Open Scope string_scope.
Local Open Scope list_scope.

(** What an axis runs over: the labels of a dim, or nothing (an axis inserted
    by None) *)
Notation axis := (option string).
Definition size (c : coords) (d : string) : nat := match dget d c with Some ls => length ls | None => 0 end.
Definition axis_size (c : coords) (a : axis) : nat := match a with Some d => size c d | None => 1 end.
Definition position (ix : indices) (a : axis) : nat := match a with Some d => ix d | None => 0 end.
(** The index of every axis is at one of the positions of its dim *)
Definition within (c : coords) (ix : indices) (axes : list axis) : Prop := forall d, In (Some d) axes -> ix d < size c d.

(** Axes match from the right: they run over the same dim, or one is inserted *)
Definition meet (a b r : axis) : Prop := (r = a /\ (b = a \/ b = None)) \/ (r = b /\ a = None).
Inductive meets : list axis -> list axis -> list axis -> Prop :=
| meets_nil : meets [] [] []
| meets_cons a b r s t u : meet a b r -> meets s t u -> meets (a :: s) (b :: t) (r :: u).
Definition padded (n : nat) (l : list axis) : list axis := repeat None (n - length l) ++ l.
Definition joined (a b r : list axis) : Prop := let n := Nat.max (length a) (length b) in meets (padded n a) (padded n b) r.

(** Brackets holding only colons and None, as in [:, None]: the axes before and after *)
Inductive inserted : pexpr -> list axis -> list axis -> Prop :=
| ins_nil a : inserted ENil a a
| ins_new rest a b : inserted rest a b -> inserted (ECons (EWord "None") rest) a (None :: b)
| ins_all rest x a b : inserted rest a b -> inserted (ECons EColon rest) (x :: a) (x :: b).

(** Sums and products of the values at all positions of dims *)
Definition total_of (f : R -> R -> R) (z : R) (l : list (option R)) : option R :=
  fold_right (lift2 (fun x y => Some (f x y))) (Some z) l.
Definition over (c : coords) (f : R -> R -> R) (z : R) (d : string) (F : indices -> option R) : indices -> option R :=
  fun ix => total_of f z (map (fun k => F (upd ix d k)) (seq 0 (size c d))).
Fixpoint over_all (c : coords) (f : R -> R -> R) (z : R) (axes : list axis) (F : indices -> option R) : indices -> option R :=
  match axes with
  | [] => F
  | Some d :: r => over c f z d (over_all c f z r F)
  | None :: r => over_all c f z r F
  end.
Definition reducer (m : string) (f : R -> R -> R) (z : R) : Prop :=
  (m = "sum" /\ f = Rplus /\ z = 0%R) \/ (m = "prod" /\ f = Rmult /\ z = 1%R).
Definition dims_of (axes : list axis) : list string := flat_map (fun a => match a with Some d => [d] | None => [] end) axes.

(** [reads c objs rho e axes F]: the array expression [e] has one axis for each
    of [axes] and says in index notation what [F] says: its value when the
    indices are at the positions [ix] is [F ix]. *)
Inductive reads (c : coords) (objs : list mobj) (rho : valuation) : pexpr -> list axis -> (indices -> option R) -> Prop :=
| reads_number w n : number w = Some n -> reads c objs rho (EWord w) [] (fun _ => Some (IZR (Z.of_nat n)))
| reads_name o : In o objs -> number (o_name o) = None -> ~ In (o_name o) ["pt"; "None"] ->
    reads c objs rho (EWord (o_name o)) (map Some (o_dims o)) (rho (o_name o))
| reads_op op a b A B r F G : reads c objs rho a A F -> reads c objs rho b B G -> joined A B r ->
    reads c objs rho (EBin op a b) r (fun ix => lift2 (apply_op op) (F ix) (G ix))
| reads_neg a A F : reads c objs rho a A F -> reads c objs rho (ENeg a) A (fun ix => option_map Ropp (F ix))
| reads_insert a args A B F : reads c objs rho a A F -> inserted args A B -> reads c objs rho (EIndex a args) B F
| reads_at a w k d A F : reads c objs rho a (Some d :: A) F -> ~ In (Some d) A -> number w = Some k -> k < size c d ->
    reads c objs rho (EIndex a (ECons (EWord w) ENil)) A (fun ix => F (upd ix d k))
| reads_axis a m f z w A d B F : reads c objs rho a (A ++ Some d :: B) F -> ~ In (Some d) (A ++ B) -> number w = Some (length A) -> reducer m f z ->
    reads c objs rho (ECall (EAttr a m) (ECons (EKw "axis" (EWord w)) ENil)) (A ++ B) (over c f z d F)
| reads_total a m f z A F : reads c objs rho a A F -> NoDup (dims_of A) -> reducer m f z ->
    reads c objs rho (ECall (EAttr a m) ENil) [] (over_all c f z A F)
| reads_ravel a d F : reads c objs rho a [Some d] F -> reads c objs rho (ECall (EAttr a "ravel") ENil) [Some d] F
(** An axis may be read as running over another dim with as many labels: e.subs({i:j}). *)
| reads_rename a i j A B F : reads c objs rho a (A ++ Some i :: B) F -> ~ In (Some i) (A ++ B) -> size c i = size c j ->
    reads c objs rho a (A ++ Some j :: B) (fun ix => F (upd ix i (ix j))).

(** The value of the name of an object, when the indices are at the positions
    [ix]: the element of its array at the positions of its dims *)
Definition array_values (objs : list mobj) (data : dict (arr R)) : valuation := fun w ix =>
  match find (fun o => String.eqb (o_name o) w) objs, dget w data with
  | Some o, Some a => match aget a (map ix (o_dims o)) with Ok v => Some v | Err _ => None end
  | _, _ => None
  end.

(** The equation lhs = rhs says [F] = 0, for every position of [dims]; other
    signs "=" belong to axis= *)
Definition equation_reads (c : coords) (objs : list mobj) (rho : valuation) (s : string) (dims : list string) (F : indices -> option R) : Prop :=
  exists lhs rhs el er, s = (lhs ++ "=" ++ rhs)%string /\ only_axis_eq lhs /\ ends_with "axis" lhs = false /\ is_expr lhs el /\ is_expr rhs er /\
    NoDup dims /\ reads c objs rho (EBin Sub el er) (map Some dims) F.

(** The residuals of an equation, one per combination of positions of its dims,
    in row-major order *)
Definition block_of (c : coords) (dims : list string) (F : indices -> option R) (block : list R) : Prop :=
  let shape := map (size c) dims in
  length block = prodn shape /\
  forall ix, (forall d, In d dims -> ix d < size c d) -> nth_error block (offset shape (map ix dims)) = F ix.
Definition defined_on (c : coords) (dims : list string) (F : indices -> option R) : Prop :=
  forall ix, (forall d, In d dims -> ix d < size c d) -> F ix <> None.

(** The numbers of the machine follow real arithmetic where that is defined *)
Definition real_arithmetic (number_op : binop -> R -> R -> R) : Prop :=
  forall op x y v, apply_op op x y = Some v -> number_op op x y = v.

(** Plain arithmetic: the notation that all backends share *)
Inductive arithmetic : pexpr -> Prop :=
| ar_word w : arithmetic (EWord w)
| ar_op op a b : arithmetic a -> arithmetic b -> arithmetic (EBin op a b)
| ar_neg a : arithmetic a -> arithmetic (ENeg a).
Inductive mentions (w : string) : pexpr -> Prop :=
| mn_word : mentions w (EWord w)
| mn_left op a b : mentions w a -> mentions w (EBin op a b)
| mn_right op a b : mentions w b -> mentions w (EBin op a b)
| mn_neg a : mentions w a -> mentions w (ENeg a).
(** [dims] are the last of [all] *)
Definition suffix (dims all : list string) : Prop := exists l, all = l ++ dims.

(** Every object is given an array of its shape *)
Definition given (c : coords) (objs : list mobj) (data : dict (arr R)) : Prop :=
  NoDup (map o_name objs) /\ forall o, In o objs -> exists a, dget (o_name o) data = Some a /\ fits c o a.
(** An equation in the notation all backends share, whose objects have dims
    that are the last of [dims], one of them all of [dims] *)
Definition shared_notation (objs : list mobj) (s : string) (dims : list string) : Prop :=
  exists lhs rhs el er, s = (lhs ++ "=" ++ rhs)%string /\ only_axis_eq lhs /\ ends_with "axis" lhs = false /\ is_expr lhs el /\ is_expr rhs er /\
    arithmetic el /\ arithmetic er /\ NoDup dims /\
    (forall w, mentions w (EBin Sub el er) -> number w = None -> ~ In w ["pt"; "None"] /\ exists o, In o objs /\ o_name o = w /\ suffix (o_dims o) dims) /\
    (dims = [] \/ exists o, In o objs /\ mentions (o_name o) (EBin Sub el er) /\ number (o_name o) = None /\ o_dims o = dims).

(** Expressions that stand for a number, a vector along [d], a matrix along
    [d1] and [d2], with these elements *)
Definition array0 (c : coords) (objs : list mobj) (rho : valuation) (s : string) (v : R) : Prop :=
  exists e F, is_unit s e /\ reads c objs rho e [] F /\ forall ix, F ix = Some v.
Definition array1 (c : coords) (objs : list mobj) (rho : valuation) (s d : string) (f : nat -> R) : Prop :=
  exists e F, is_unit s e /\ reads c objs rho e [Some d] F /\ forall ix, ix d < size c d -> F ix = Some (f (ix d)).
Definition array2 (c : coords) (objs : list mobj) (rho : valuation) (s d1 d2 : string) (f : nat -> nat -> R) : Prop :=
  exists e F, is_unit s e /\ reads c objs rho e [Some d1; Some d2] F /\
    forall ix, ix d1 < size c d1 -> ix d2 < size c d2 -> F ix = Some (f (ix d1) (ix d2)).
Definition all_zero (l : list R) : Prop := forall r, In r l -> r = 0%R.
(** An optional vector: left out means ones *)
Definition opt_array1 (c : coords) (objs : list mobj) (rho : valuation) (o : option string) (d : string) (f : nat -> R) : Prop :=
  match o with Some s => array1 c objs rho s d f | None => forall k, k < size c d -> f k = 1%R end.
