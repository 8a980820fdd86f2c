(** Specification vocabulary for the Euler approximations (C37-C42). *)
From Coq Require Import Reals.
From Verif Require Import Py PyStr NdArray M_Primitives M_Utilities M_Euler S_Layout.
Local Open Scope string_scope.
Local Open Scope list_scope.

(** The flat state (variables then parameters) in row [t] of a trajectory given
    as one array per object, steps along the first axis. *)
Definition row_of (out : list (arr R)) (t : nat) : list R :=
  List.concat (map (fun a => let s := prodn (tl (ashape a)) in slice (adata a) (t * s) s) out).

(** The number of steps taken before the first returned row. *)
Definition first_step (b : backend) : nat := match b with BNumba | BScan => 0 | BJax | BPytensor => 1 end.

(** The backends on which RK4 can be chosen. *)
Definition supports (b : backend) (use_rk4 : bool) : Prop :=
  match b with BNumba | BPytensor => use_rk4 = false | BJax | BScan => True end.

(** A model with at least one variable and one parameter, dimensions with at
    least one label, and names that stay distinct when "_initial" and "_final"
    are appended to the parameters and "n_steps" is added; [data] holds an array
    of the right shape for each object; [x0] and [theta0] are the flat initial
    values and [theta1] the final values of the parameters. *)
Record euler_input (c : coords) (vars params : list mobj) (sv sp : list (list nat)) (data : dict (arr R))
       (x0 theta0 theta1 : list R) : Prop := {
  ei_vars : vars <> [];
  ei_params : params <> [];
  ei_names : NoDup ("n_steps" :: map o_name vars ++ map o_name params ++
                    map (fun o => o_name o ++ "_final")%string params ++
                    map (fun o => o_name o ++ "_initial")%string params);
  ei_keys : NoDup (dkeys data);
  ei_sv : Forall2 (has_shape c) vars sv;
  ei_sp : Forall2 (has_shape c) params sp;
  ei_labels : forall s, In s (sv ++ sp) -> prodn s <> 0;
  ei_data : forall o, In o (vars ++ params) -> exists a, dget (o_name o) data = Some a /\ fits c o a;
  ei_flat : variable_dict_to_flat_array data vars params = Ok (x0, theta0);
  ei_final : length theta1 = total sp }.

(** An increment of [nv] variables for [np] parameters *)
Definition well_sized (inc : increment) (nv np : nat) : Prop :=
  forall x th d, length x = nv -> length th = np -> length d = np -> length (inc x th d) = nv.

(** The value at [k] of the straight line from [a] to [b] after [t] of [n] steps *)
Definition on_line (a b : list R) (t n : nat) (k : nat) (v : R) : Prop :=
  exists u w, nth_error a k = Some u /\ nth_error b k = Some w /\ v = (u + INR t / INR n * (w - u))%R.

Definition zeros (n : nat) : list R := repeat 0%R n.

(** The residuals of an affine system M x + N theta + k *)
Definition residual (M N : list (list R)) (k x th : list R) : list R := vadd (vadd (mv M x) (mv N th)) k.

(** A matrix with [r] rows of length [c] *)
Definition is_matrix (r c : nat) (M : list (list R)) : Prop := length M = r /\ forall row, In row M -> length row = c.

(** [solve] solves the systems with matrix M *)
Definition solves (solve : list (list R) -> list R -> list R) (M : list (list R)) (n : nat) : Prop :=
  forall b, length b = n -> length (solve M b) = n /\ mv M (solve M b) = b.

(** Polynomials by their coefficients, constant first *)
Fixpoint peval (p : list R) (s : R) : R := match p with [] => 0%R | a :: p' => (a + s * peval p' s)%R end.
Fixpoint pder_from (k : nat) (p : list R) : list R :=
  match p with [] => [] | a :: p' => (INR k * a)%R :: pder_from (S k) p' end.
Definition pder (p : list R) : list R := match p with [] => [] | _ :: p' => pder_from 1 p' end.
