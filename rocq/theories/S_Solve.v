(** Specification vocabulary for C92: what a compiled function computes, states
    of a model, and finite steps. *)
From Verif Require Import Py PyStr NdArray M_Primitives M_SimResult M_Solve S_Layout.
Local Open Scope string_scope.
Local Open Scope list_scope.

(** Declared variables and parameters: distinct names, known and distinct dims,
    none of them called step *)
Definition declared (c : coords) (vars params : list mobj) : Prop :=
  vars <> [] /\ params <> [] /\ NoDup (map o_name (vars ++ params)) /\
  forall o, In o (vars ++ params) -> NoDup (o_dims o) /\ ~ In "step" (o_dims o) /\ forall d, In d (o_dims o) -> In d (dkeys c).

(** [x] is as long as the arrays of the objects together *)
Definition sized {V} (c : coords) (objs : list mobj) (x : list V) : Prop :=
  exists shapes, Forall2 (has_shape c) objs shapes /\ length x = total shapes.

(** The arrays of the objects in [d], one after the other, are [x]. *)
Definition holds {V} (c : coords) (name : mobj -> string) (d : dict (arr V)) (objs : list mobj) (x : list V) : Prop :=
  exists arrays, Forall2 (fun o a => dget (name o) d = Some a /\ fits c o a) objs arrays /\ x = List.concat (map (@adata V) arrays).

(** [d] is a state of the model: the values [x] of the variables and [theta] of
    the parameters, and nothing else. *)
Definition state_is {V} (c : coords) (vars params : list mobj) (d : dict (arr V)) (x theta : list V) : Prop :=
  holds c o_name d vars x /\ holds c o_name d params theta /\
  forall k, In k (dkeys d) <-> In k (map o_name (vars ++ params)).

(** A compiled function evaluates [g], whichever way it is called. *)
Definition evaluates {V W} (c : coords) (vars params : list mobj) (f : fn V W) (g : list V -> list V -> res W) : Prop :=
  match f with
  | NoFn => False
  | Pos h => forall x theta, sized c vars x -> sized c params theta -> h x theta = g x theta
  | Kw h => forall d x theta, state_is c vars params d x theta -> h d = g x theta
  end.
(** No object is named like the direction of a variable. *)
Definition no_point (vars params : list mobj) : Prop :=
  forall o v, In o (vars ++ params) -> In v vars -> o_name o <> (o_name v ++ "_point")%string.
(** The same with a direction, given as <name>_point *)
Definition evaluates3 {V W} (c : coords) (vars params : list mobj) (f : fn3 V W) (g : list V -> list V -> list V -> res W) : Prop :=
  match f with
  | NoFn3 => False
  | Pos3 h => forall x p theta, sized c vars x -> sized c vars p -> sized c params theta -> h x p theta = g x p theta
  | Kw3 h => forall d x p theta, holds c o_name d vars x -> holds c o_name d params theta -> holds c (fun o => o_name o ++ "_point")%string d vars p ->
               (forall k, In k (dkeys d) <-> In k (map o_name (vars ++ params) ++ map (fun o => o_name o ++ "_point")%string vars)) -> h d = g x p theta
  end.

(** A solver that calls the function with flat vectors gets [g]. *)
Definition solver_sees {V W} (c : coords) (vars params : list mobj) (f : fn V W) (g : list V -> list V -> res W) : Prop :=
  forall x theta, sized c vars x -> sized c params theta -> call_flat f x theta = g x theta.
Definition solver_sees3 {V W} (c : coords) (vars params : list mobj) (f : fn3 V W) (g : list V -> list V -> list V -> res W) : Prop :=
  forall x p theta, sized c vars x -> sized c vars p -> sized c params theta -> call_flat3 f x p theta = g x p theta.

(** The functions of numba take vectors, those of the others keywords. *)
Definition made_by {V W} (backend : string) (f : fn V W) : Prop :=
  match f with NoFn => True | Pos _ => backend = "numba" | Kw _ => backend = "pytensor" \/ backend = "sympytensor" end.
Definition made_by3 {V W} (backend : string) (f : fn3 V W) : Prop :=
  match f with NoFn3 => True | Pos3 _ => backend = "numba" | Kw3 _ => backend = "pytensor" \/ backend = "sympytensor" end.

(** Trajectories of [n] steps, one per object *)
Definition trajectories {V} (c : coords) (objs : list mobj) (n : nat) (arrays : list (arr V)) : Prop :=
  Forall2 (fun o a => arr_wf a /\ exists s, ashape a = n :: s /\ has_shape c o s) objs arrays.
(** The [j]-th element of the [k]-th step *)
Definition element {V} (a : arr V) (k j : nat) (v : V) : Prop :=
  j < prodn (tl (ashape a)) /\ nth_error (adata a) (k * prodn (tl (ashape a)) + j) = Some v.
Definition finite_step {V} (isnan : V -> bool) (arrays : list (arr V)) (k : nat) : Prop :=
  forall a j v, In a arrays -> element a k j v -> isnan v = false.
(** Exactly the steps up to [k] are finite. *)
Definition finite_until {V} (isnan : V -> bool) (n : nat) (arrays : list (arr V)) (k : nat) : Prop :=
  k < n /\ forall t, t < n -> (finite_step isnan arrays t <-> t <= k).
(** The values of all arrays at step [k], one after the other *)
Definition values_at {V} (arrays : list (arr V)) (k : nat) (x : list V) : Prop :=
  exists rows, Forall2 (fun a r => length r = prodn (tl (ashape a)) /\ forall j v, nth_error r j = Some v -> element a k j v) arrays rows /\
    x = List.concat rows.
(** A group with exactly the given objects, whose step [k] has the values [x] *)
Definition step_of {V} (ds : dataset V) (k : nat) (c : coords) (objs : list mobj) (x : list V) : Prop :=
  dkeys ds = map o_name objs /\
  exists arrays n, k < n /\ trajectories c objs n arrays /\
    Forall2 (fun o a => dget (o_name o) ds = Some ("step" :: o_dims o, a)) objs arrays /\ values_at arrays k x.

(** The keyword use_jac is left out or True. *)
Definition wants_jac (o : options) : Prop := kw_jac o = None \/ kw_jac o = Some (Some true).

(** Where the solver starts: at the initial state, or at the last step that is
    finite in both groups of the Euler approximation *)
Definition starts_from {V} (isnan : V -> bool) (c : coords) (vars params : list mobj)
  (f_euler : dict (arr V) -> list V -> nat -> res (list (arr V))) (initial : dict (arr V)) (theta x0 : list V) (o : options) (start : list V) : Prop :=
  if use_euler o then
    exists av ap n a b, f_euler initial theta (n_iter_euler o) = Ok (av ++ ap) /\
      trajectories c vars n av /\ trajectories c params n ap /\ finite_until isnan n av a /\ finite_until isnan n ap b /\
      values_at av (Nat.min a b) start
  else start = x0.
(** The groups returned under euler: the finite steps of the approximation *)
Definition approximation {V} (isnan : V -> bool) (c : coords) (vars params : list mobj)
  (f_euler : dict (arr V) -> list V -> nat -> res (list (arr V))) (initial : dict (arr V)) (theta : list V) (o : options)
  (eu : option (dataset V * dataset V)) : Prop :=
  match eu with
  | None => use_euler o = false
  | Some (ev, ep) => use_euler o = true /\
      forall av ap n a b, f_euler initial theta (n_iter_euler o) = Ok (av ++ ap) ->
        trajectories c vars n av -> trajectories c params n ap -> finite_until isnan n av a -> finite_until isnan n ap b ->
        (forall k x, step_of ev k c vars x <-> k <= a /\ values_at av k x) /\
        (forall k x, step_of ep k c params x <-> k <= b /\ values_at ap k x)
  end.
