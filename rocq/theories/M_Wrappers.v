(** Model of /repo/cge_modeling/base/function_wrappers.py *)
From Verif Require Import Py PyStr NdArray M_Primitives M_Utilities.
Local Open Scope string_scope.

Section Wrappers.
Context {V W : Type}.

(** base/function_wrappers.py:49-56 wrap_pytensor_func_for_scipy, without p.
    [f] is any function of keyword arguments; np.r_ concatenates. *)
Definition wrap_pytensor_func_for_scipy (f : dict (arr V) -> res W) (vars params : list mobj) (c : coords)
           (x0 theta : list V) : res W :=
  let* data := flat_array_to_variable_dict (x0 ++ theta)%list (vars ++ params)%list c in
  f data.

(** base/function_wrappers.py:70 f"{name}_point" *)
Definition point_name (name : string) : string := name ++ "_point".

(** base/function_wrappers.py:58-73 wrap_pytensor_func_for_scipy with include_p *)
Definition wrap_pytensor_func_for_scipy_p (f : dict (arr V) -> res W) (vars params : list mobj) (c : coords)
           (x0 p theta : list V) : res W :=
  let* data := flat_array_to_variable_dict (x0 ++ theta)%list (vars ++ params)%list c in
  let* point_dict := flat_array_to_variable_dict p vars c in
  let point_dict := dict_of_list (map (fun kv => (point_name (fst kv), snd kv)) point_dict) in
  f (dupdate data point_dict).

(** base/function_wrappers.py:97-101 wrap_scipy_func_for_pytensor *)
Definition wrap_scipy_func_for_pytensor (f : list V -> list V -> res W) (vars params : list mobj)
           (kwargs : dict (arr V)) : res W :=
  let* xt := variable_dict_to_flat_array kwargs vars params in
  f (fst xt) (snd xt).

(** base/function_wrappers.py:91: kwargs.pop(name) for each point name, in
    order; the arrays are raveled. *)
Fixpoint pop_all (names : list string) (kwargs : dict (arr V)) : res (list (list V) * dict (arr V)) :=
  match names with
  | [] => Ok ([], kwargs)
  | n :: ns =>
      let* a := dgetitem n kwargs in
      let* r := pop_all ns (ddel n kwargs) in
      Ok (ravel a :: fst r, snd r)
  end.

(** base/function_wrappers.py:83-95 wrap_scipy_func_for_pytensor with
    wrapping_hessp; np.concatenate of no arrays raises ValueError. *)
Definition wrap_scipy_func_for_pytensor_hessp (f : list V -> list V -> list V -> res W) (vars params : list mobj)
           (kwargs : dict (arr V)) : res W :=
  let* r := pop_all (map (fun o => point_name (o_name o)) vars) kwargs in
  let* p := match fst r with [] => Err ValueError | ps => Ok (List.concat ps) end in
  let* xt := variable_dict_to_flat_array (snd r) vars params in
  f (fst xt) p (snd xt).
End Wrappers.

Section Fixed.
Context {V : Type}.

(** What a wrapped model function returns: a number, a vector (residuals,
    gradient) or a matrix (Jacobian, Hessian; a list of rows)
    (base/function_wrappers.py:83-197). *)
Inductive fres := FNum (v : V) | FVec (l : list V) | FMat (rows : list (list V)).

(** base/function_wrappers.py:156-161: masking of the result. *)
Definition mask_result (mask : list bool) (r : fres) : res fres :=
  match r with
  | FNum v => Ok (FNum v)
  | FVec l => let* l := bool_index l mask in Ok (FVec l)
  | FMat rows =>
      let* rows := bool_index rows mask in
      let* rows := map_res (fun row => bool_index row mask) rows in
      Ok (FMat rows)
  end.

(** base/function_wrappers.py:107-163 wrap_fixed_values. [unames] are the
    model's unpacked variable names. The outer result is the call of
    wrap_fixed_values itself, the inner function is what it returns. *)
Definition wrap_fixed_values (f : list V -> list V -> res fres) (fixed : dict (arr V))
           (vars params : list mobj) (c : coords) (unames : list string)
  : res (list V -> list V -> res fres) :=
  if existsb (fun v => negb (mem_str v unames)) (dkeys fixed) then Err ValueError
  else
    let mask := map (fun x => mem_str x (dkeys fixed)) unames in
    Ok (fun x theta =>
      let* data := flat_array_to_variable_dict (x ++ theta)%list vars c in
      if existsb (fun v => mem_str v (dkeys fixed)) (dkeys data) then Err ValueError
      else
        let* xt := variable_dict_to_flat_array (dupdate data fixed) vars params in
        let* r := f (fst xt) (snd xt) in
        mask_result mask r).
End Fixed.
Arguments fres V : clear implicits.

Section Euler.
Context {V : Type}.

(** a.reshape(-1, *shape) (base/function_wrappers.py:190) on a 2-d array given
    by its rows: numpy infers the first length; it refuses when the remaining
    sizes multiply to zero or do not divide. *)
Definition reshape_unknown (data : list V) (shape : list nat) : res (arr V) :=
  let s := prodn shape in
  if Nat.eqb s 0 then Err ValueError
  else if Nat.eqb (length data mod s) 0 then Ok (mkArr (length data / s :: shape) data)
  else Err ValueError.

(** base/function_wrappers.py:185-191: the loop over shapes *)
Fixpoint cut_loop (result : list (list V)) (cursor : nat) (shapes : list (list nat)) : res (list (arr V)) :=
  match shapes with
  | [] => Ok []
  | shape :: shapes' =>
      let s := prodn shape in
      let* a := reshape_unknown (List.concat (map (fun row => slice row cursor s) result)) shape in
      let* rest := cut_loop result (cursor + s) shapes' in
      Ok (a :: rest)
  end.

(** base/function_wrappers.py:170-195 wrap_numba_euler_function. [euler] is the
    compiled approximation: a function of x0, theta0, theta_final and n_steps
    returning the rows of the trajectory; the progress bar is left out. *)
Definition wrap_numba_euler_function (euler : list V -> list V -> list V -> nat -> res (list (list V)))
           (vars params : list mobj) (c : coords) (theta_final : list V) (n_steps : nat) (data : dict (arr V))
  : res (list (arr V)) :=
  let* x0 := concat_named data vars in
  let* theta0 := concat_named data params in
  let* result := euler x0 theta0 theta_final n_steps in
  let* shapes := map_res (infer_shape c) (vars ++ params)%list in
  cut_loop result 0 shapes.
End Euler.
