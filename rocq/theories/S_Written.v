(** Specification side of C110: models whose equations are written out in the
    notation of C109. *)
From Coq Require Import Reals.
From Verif Require Import Py PyStr NdArray M_Primitives M_PyExpr M_Expand M_Graph M_SymExpr M_Calculus M_Simplify M_Lambdify M_NumbaModel M_SympyTensor M_Tensor M_Parse.
From Verif Require Import S_PyExpr S_Meaning S_Production S_Layout S_Tensor S_Reduce S_Simplify S_Lambdify S_NumbaModel S_SympyTensor S_Parse.
Local Open Scope string_scope.
Local Open Scope list_scope.

Section Written.
Context (c : dict (list string)) (objs : list mobj).
(** The text is an expression, or a unit (see S_PyExpr.v), of the notation;
    without sums if [sums] is false *)
Definition expr_in (sums : bool) (s : string) : Prop := exists e, is_expr s e /\ index_notation c objs sums e.
Definition unit_in (sums : bool) (s : string) : Prop := exists e, is_unit s e /\ index_notation c objs sums e.
(** The text is an equation of the notation. "axis=" in it would not be read as
    the sign of the equation by normalize_eq. *)
Definition equation_in (s : string) : Prop := (exists el er, indexed_equation c objs s el er) /\ forall a b, s <> (a ++ "axis=" ++ b)%string.

(** A position for every dim *)
Definition everywhere (ix : indices) : Prop := forall x, In x (dkeys c) -> ix x < size (lab_coords c) x.
End Written.

(** What the compiled functions return, at the arrays [d], for a model with these
    equation texts: numba (from the flat vectors) and sympytensor *)
Definition numba_returns other sub_into set_order dict_order evaluates cse order c vars params texts x theta (r : list R) : Prop :=
  exists equations f, sympy_equations other c vars params texts = Ok equations /\
    compile_numba_cge_functions sub_into set_order dict_order evaluates cse order c None vars params equations = Ok f /\
    nf_system f x theta = Ok (OVec r).
Definition sympytensor_returns other sub_into set_order dict_order evaluates order c vars params texts d (r : list R) : Prop :=
  exists equations f, sympy_equations other c vars params texts = Ok equations /\
    compile_sympytensor_cge_functions sub_into set_order dict_order evaluates order c None vars params equations = Ok f /\
    sf_system f d = Ok r.

(** Sympy does not decide any of the equations when they are built *)
Definition undecided other evaluates c vars params texts : Prop :=
  forall equations lr, sympy_equations other c vars params texts = Ok equations -> In lr equations -> evaluates (fst lr) (snd lr) = false.

Arguments undecided : clear implicits.
(** A model compiled with numba: the texts are equations of the notation, each
    with a value at every position for the arrays [d] *)
Definition numba_model other (set_order : list sexpr -> list sexpr) (dict_order : list (sexpr * sexpr) -> list (sexpr * sexpr)) evaluates cse order c vars params texts d x theta : Prop :=
  walks_set set_order /\ walks_set dict_order /\ eliminates cse /\ vars <> [] /\ texts <> [] /\
  (exists v w uv up, declaration order c vars params uv up /\ arguments c vars params d v w x theta /\
     forall n, In n (map make_indexed_name (uv ++ up)) -> M_Lambdify.is_name n = true /\ ~ In n reserved) /\
  Forall (equation_in c (vars ++ params)) texts /\ undecided other evaluates c vars params texts /\
  forall s ix, In s texts -> everywhere c ix -> meaning (array_values (vars ++ params) d) ix (normalize_eq s) <> None.
Definition vanishes (r : list R) : Prop := forall y, In y r -> y = 0%R.

(** The inputs of a producer as they are written, with values at a position *)
Definition inputs_at (rho : valuation) (ix : indices) (names prices shares : list string) (l : list factor) : Prop :=
  map f_name l = names /\ map f_price l = prices /\ map f_share l = shares /\ Forall (factor_ok rho ix) l.
Arguments numba_returns : clear implicits.
Arguments sympytensor_returns : clear implicits.
Arguments numba_model : clear implicits.
