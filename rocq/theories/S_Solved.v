(** Specification vocabulary for C93: what the returned data say about the
    elements of the model. *)
From Coq Require Import Reals.
From Verif Require Import Py PyStr NdArray M_Primitives M_Utilities M_SymExpr M_Simulate M_SimResult M_Solve S_Layout S_Meaning S_Reduce S_Simplify S_NumbaModel S_SympyTensor S_Solve.
Local Open Scope string_scope.
Local Open Scope list_scope.

(** The array of [o] in the returned groups *)
Definition returned_array (vars params : list mobj) (ds_v ds_p : dataset R) (o : mobj) (a : arr R) : Prop :=
  (In o vars /\ dget (o_name o) ds_v = Some ("step" :: o_dims o, a)) \/ (In o params /\ dget (o_name o) ds_p = Some ("step" :: o_dims o, a)).
(** [v] and [w] are the elements and scalars returned at step [k]. *)
Definition returned (c : dict (list string)) (vars params : list mobj) (ds_v ds_p : dataset R) (k : nat) (v : elements) (w : scalars) : Prop :=
  (forall b ls r, v b ls = Some r <->
     exists o a idx, returned_array vars params ds_v ds_p o a /\ o_name o = b /\ o_dims o <> [] /\ labels_of c (o_dims o) idx ls /\ aget a (k :: idx) = Ok r) /\
  (forall s r, w s = Some r <->
     exists o a, returned_array vars params ds_v ds_p o a /\ o_name o = s /\ o_dims o = [] /\ aget a [k] = Ok r).

(** A call of simulate with the optimizer, from the state with values [x0] and
    [th0], with a scenario that gives the parameters the values [theta]; the
    solver starts at [start]. *)
Definition prepared {Sys Jac Loss Grad Hess Hessp} (isnan : R -> bool) (vadd vmul : arr R -> arr R -> res (arr R))
  (f_euler : dict (arr R) -> list R -> nat -> res (list (arr R))) (m : model R Sys Jac Loss Grad Hess Hessp)
  (initial : dict (arr R)) (fv fd fp : option (dict (arr R))) (o : options) (x0 th0 theta start : list R) : Prop :=
  state_is (m_coords m) (m_variables m) (m_parameters m) initial x0 th0 /\
  (exists final xf, create_final_param_dict vadd vmul initial fv fd fp = Ok final /\
     S_Solve.holds (m_coords m) o_name final (m_variables m) xf /\ S_Solve.holds (m_coords m) o_name final (m_parameters m) theta) /\
  use_optimizer o = true /\
  starts_from isnan (m_coords m) (m_variables m) (m_parameters m) f_euler initial theta x0 o start.

(** The two sides of the equation are equal for all labels of its dims. *)
Definition satisfied (c : dict (list string)) (v : elements) (w : scalars) (lr : sexpr * sexpr) : Prop :=
  forall dims idx ls, equation_dims c (written lr) dims -> labels_of c dims idx ls ->
    exists r, den c v w (assign dims ls) (fst lr) = Some r /\ den c v w (assign dims ls) (snd lr) = Some r.

(** Called with flat vectors, the function returns the residuals of the written
    equations at the data with these vectors; [enc] makes a returned value of them. *)
Definition gives_residuals {W} (c : dict (list string)) (vars params : list mobj) (equations : list (sexpr * sexpr)) (enc : list R -> W) (f : fn R W) : Prop :=
  forall d v w x th, arguments c vars params d v w x th -> (forall lr, In lr equations -> has_value c v w lr) ->
    exists blocks, Forall2 (residuals c v w) equations blocks /\ call_flat f x th = Ok (enc (List.concat blocks)).
(** Half the sum of the squares of the residuals *)
Definition half_squares (r : list R) : R := (/ 2 * fold_right Rplus 0 (map (fun z => z * z) r))%R.
(** The second step of the returned groups has elements and scalars, and the
    function the solver got has their residuals at the solution [x]. *)
Definition result_means {W} (c : dict (list string)) (vars params : list mobj) (equations : list (sexpr * sexpr)) (enc : list R -> W) (f : fn R W)
  (ds_v ds_p : dataset R) (x theta : list R) : Prop :=
  exists v w, returned c vars params ds_v ds_p 1 v w /\
    ((forall lr, In lr equations -> has_value c v w lr) ->
     exists r, call_flat f x theta = Ok (enc r) /\ (exists blocks, Forall2 (residuals c v w) equations blocks /\ r = List.concat blocks) /\
       ((forall z, In z r -> z = 0%R) <-> forall lr, In lr equations -> satisfied c v w lr)).

(** The value of the name of an object at step [k] of the returned groups, when
    the indices are at the positions [ix] *)
Definition returned_values (vars params : list mobj) (ds_v ds_p : dataset R) (k : nat) : valuation := fun w ix =>
  let value (objs : list mobj) (ds : dataset R) :=
    match find (fun o => String.eqb (o_name o) w) objs, dget w ds with
    | Some o, Some (_, a) => match aget a (k :: map ix (o_dims o)) with Ok r => Some r | Err _ => None end
    | _, _ => None
    end in
  match value vars ds_v with Some r => Some r | None => value params ds_p end.
