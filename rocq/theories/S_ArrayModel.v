(** Specification vocabulary for C84: residuals as functions of the flat vector,
    and derivatives. *)
From Coq Require Import Reals.
From Verif Require Import Py PyStr NdArray M_Primitives M_PyExpr S_Layout S_Meaning S_Production S_Tensor.
Local Open Scope string_scope.
Local Open Scope list_scope.

Definition n_elements (c : coords) (o : mobj) : nat := prodn (map (size c) (o_dims o)).
(** The values of the elements when the arrays of [objs] lie one after the other
    in [flat], each in row-major order *)
Fixpoint flat_values (c : coords) (objs : list mobj) (flat : list R) : valuation :=
  match objs with
  | [] => fun _ _ => None
  | o :: objs' => fun w ix =>
      if String.eqb (o_name o) w
      then if forallb (fun d => Nat.ltb (ix d) (size c d)) (o_dims o)
           then nth_error flat (offset (map (size c) (o_dims o)) (map ix (o_dims o))) else None
      else flat_values c objs' (skipn (n_elements c o) flat) w ix
  end.
(** Distinct names, and dims that are in the coords *)
Definition well_declared (c : coords) (objs : list mobj) : Prop :=
  NoDup (map o_name objs) /\ forall o d, In o objs -> In d (o_dims o) -> In d (dkeys c).

(** What the equations say: each has dims, and a residual at each position of
    them, given the values of the objects *)
Notation readings := (list (list string * (valuation -> indices -> option R))).
Definition equations_say (c : coords) (objs : list mobj) (equations : list string) (rs : readings) : Prop :=
  Forall2 (fun s r => forall rho, equation_reads c objs rho s (fst r) (snd r rho)) equations rs.
(** All residuals have a value *)
Definition all_defined (c : coords) (objs : list mobj) (rs : readings) (flat : list R) : Prop :=
  Forall (fun r => defined_on c (fst r) (snd r (flat_values c objs flat))) rs.
(** [v] are the residuals of all equations, one after the other *)
Definition residuals_at (c : coords) (objs : list mobj) (rs : readings) (flat v : list R) : Prop :=
  exists blocks, v = List.concat blocks /\ Forall2 (fun r b => block_of c (fst r) (snd r (flat_values c objs flat)) b) rs blocks.
Definition n_residuals (c : coords) (rs : readings) : nat := list_sum (map (fun r => prodn (map (size c) (fst r))) rs).

(** The vector [x] with [t] as element number [k]; [x] moved by [h] times [p] *)
Definition put (k : nat) (t : R) (x : list R) : list R := firstn k x ++ t :: skipn (S k) x.
Definition move (x p : list R) (h : R) : list R := map (fun ab => fst ab + h * snd ab)%R (combine x p).
Definition near (r : R) (P : R -> Prop) : Prop := exists delta, (0 < delta)%R /\ forall t, (Rabs (t - r) < delta)%R -> P t.
(** Differentiation returns the derivative wherever there is one *)
Definition exact_partial (partial : (list R -> R) -> list R -> nat -> R) : Prop :=
  forall f x k l, k < length x -> derivable_pt_lim (fun t => f (put k t x)) (nth k x 0%R) l -> partial f x k = l.
Definition exact_along (along : (list R -> R) -> list R -> list R -> R) : Prop :=
  forall f x p l, length p = length x -> derivable_pt_lim (fun h => f (move x p h)) 0%R l -> along f x p = l.
(** The sum over the first [n] numbers *)
Fixpoint sum_to (n : nat) (f : nat -> R) : R := match n with 0 => 0%R | S m => (sum_to m f + f m)%R end.

Definition elements_of (c : coords) (objs : list mobj) : nat := list_sum (map (n_elements c) objs).
(** [res] gives the residuals as a function of the vector of the variables *)
Definition residual_function (c : coords) (vars params : list mobj) (rs : readings) (theta : list R) (res : list R -> list R) : Prop :=
  forall x, length x = elements_of c vars -> all_defined c (vars ++ params) rs (x ++ theta) ->
    residuals_at c (vars ++ params) rs (x ++ theta) (res x).
(** Near [x] all residuals have a value, and [d r] is the derivative of residual
    number [r] in element number [k] of the variables *)
Definition residual_partials (c : coords) (vars params : list mobj) (rs : readings) (theta : list R) (res : list R -> list R)
           (x : list R) (k : nat) (d : nat -> R) : Prop :=
  near (nth k x 0%R) (fun t => all_defined c (vars ++ params) rs (put k t x ++ theta)) /\
  forall r, r < n_residuals c rs -> derivable_pt_lim (fun t => nth r (res (put k t x)) 0%R) (nth k x 0%R) (d r).
(** A model of array equations, the values of its parameters, and its residuals
    as a function of the values of its variables *)
Definition array_model (number_op : binop -> R -> R -> R) (c : coords) (vars params : list mobj) (equations names : list string)
           (rs : readings) (theta : list R) (res : list R -> list R) : Prop :=
  real_arithmetic number_op /\ vars <> [] /\ params <> [] /\ well_declared c (vars ++ params) /\
  equations_say c (vars ++ params) equations rs /\ length names = n_residuals c rs /\
  length theta = elements_of c params /\ residual_function c vars params rs theta res.
