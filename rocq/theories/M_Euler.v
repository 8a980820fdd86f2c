(** The Euler approximations (/repo/cge_modeling/compile/numba.py:62-129,
    compile/euler.py:20-197, compile/pytensor.py:228-269, compile/jax.py:67-115)
    over exact real numbers: no rounding, no overflow, no NaN. *)
From Coq Require Import Reals.
From Verif Require Import Py PyStr NdArray M_Primitives M_Utilities M_Wrappers.
Local Open Scope string_scope.
Local Open Scope list_scope.

(** numpy elementwise arithmetic on vectors. Simplified: the vectors are meant
    to have one length; the shorter one decides otherwise
    (the arithmetic of compile/numba.py:112-129 and compile/euler.py:80-197). *)
Definition vmap2 (f : R -> R -> R) (a b : list R) : list R := map (fun p => f (fst p) (snd p)) (combine a b).
(** x + y, compile/numba.py:125 *)
Definition vadd := vmap2 Rplus.
(** x - y, compile/numba.py:119 *)
Definition vsub := vmap2 Rminus.
(** c * x, the RK4 weights of compile/euler.py:153-197 *)
Definition vscale (k : R) (a : list R) : list R := map (Rmult k) a.
(** -x, compile/numba.py:160 *)
Definition vneg (a : list R) : list R := map Ropp a.
(** dtheta / n_steps, compile/numba.py:121 *)
Definition vdiv (a : list R) (n : nat) : list R := map (fun x => Rdiv x (INR n)) a.

(** a @ b for a vector or a matrix (list of rows) on the left (compile/numba.py:146) *)
Definition dot (a b : list R) : R := fold_right Rplus 0%R (vmap2 Rmult a b).
(** B @ v, compile/numba.py:146 *)
Definition mv (m : list (list R)) (v : list R) : list R := map (fun row => dot row v) m.

(** Elementwise arithmetic on arrays of one shape (compile/pytensor.py:228-269) *)
Definition amap2 (f : R -> R -> R) (a b : arr R) : arr R := mkArr (ashape a) (vmap2 f (adata a) (adata b)).
(** compile/pytensor.py:228-269 *)
Definition amap (f : R -> R) (a : arr R) : arr R := mkArr (ashape a) (map f (adata a)).

(** compile/numba.py:154-160 f_dX, compile/euler.py:142-145, compile/pytensor.py:246-257,
    compile/jax.py:91-94: the increment -solve(A, B @ dtheta). [A] and [B] are the
    Jacobians in the variables and in the parameters, functions of the state;
    [solve] is numpy's linear solver. *)
Definition euler_inc (A B : list R -> list R -> list (list R)) (solve : list (list R) -> list R -> list R)
           (x theta d : list R) : list R :=
  vneg (solve (A x theta) (mv (B x theta) d)).

(** An increment: variables, parameters, parameter step -> change of variables
    (f_dX of compile/numba.py:154-160 and its counterparts) *)
Definition increment := list R -> list R -> list R -> list R.

(** compile/jax.py:96-101, compile/euler.py:162-187: the RK4 increment *)
Definition rk4_inc (inc : increment) : increment := fun x theta d =>
  let dx1 := inc x theta d in
  let dx2 := inc (vadd x (vscale (1 / 2) dx1)) (vadd theta (vscale (1 / 2) d)) d in
  let dx3 := inc (vadd x (vscale (1 / 2) dx2)) (vadd theta (vscale (1 / 2) d)) d in
  let dx4 := inc (vadd x dx3) (vadd theta d) d in
  map (fun s => Rdiv s 6) (vadd (vadd (vadd dx1 (vscale 2 dx2)) (vscale 2 dx3)) dx4).

(** compile/jax.py:96, compile/euler.py:162: the choice *)
Definition step_inc (use_rk4 : bool) (inc : increment) : increment := if use_rk4 then rk4_inc inc else inc.

(** ** numba *)

(** compile/numba.py:121-125: the rows written by the loop *)
Fixpoint numba_loop (f_step : list R -> list R -> list R) (step : list R) (k : nat) (x : list R) : list (list R) :=
  match k with
  | 0 => []
  | S k' => let dx := f_step step x in
            let x := vadd x (dx ++ step) in
            x :: numba_loop f_step step k' x
  end.

(** compile/numba.py:110-129 euler_approx: the rows of the output.
    float_to_array (compile/numba.py:56-58) and atleast_1d leave vectors of
    floats as they are. *)
Definition euler_approx (f_step : list R -> list R -> list R) (x0 theta0 theta_final : list R) (n : nat)
  : list (list R) :=
  let dtheta := vsub theta_final theta0 in
  let step := vdiv dtheta n in
  (x0 ++ theta0) :: numba_loop f_step step n (x0 ++ theta0).

(** compile/numba.py:146-160: f_dX splits the state by position: the first
    [nv] entries are the variables. *)
Definition numba_f_step (inc : increment) (nv : nat) (step state : list R) : list R :=
  inc (firstn nv state) (skipn nv state) step.

(** ** Ragged lists *)

(** compile/pytensor_tools.py:128-139 flat_tensor_to_ragged_list *)
Fixpoint ragged (tensor : list R) (cursor : nat) (shapes : list (list nat)) : res (list (arr R)) :=
  match shapes with
  | [] => Ok []
  | shape :: shapes' =>
      let s := prodn shape in
      let* x := reshape (slice tensor cursor s) shape in
      let* rest := ragged tensor (cursor + s) shapes' in
      Ok (x :: rest)
  end.

(** jnp.concatenate([ravel(x) for x in xs]), pt.concatenate: ValueError on no
    arrays (compile/jax.py:67-115, compile/euler.py:142-145) *)
Definition concat_arrays (l : list (arr R)) : res (list R) :=
  match l with [] => Err ValueError | _ => Ok (List.concat (map (@adata R) l)) end.

(** ** One step on keyword arguments *)

(** the names {k}_initial, compile/euler.py:35 *)
Definition initial_name (n : string) : string := n ++ "_initial".
(** the names {k}_final, compile/euler.py:34 *)
Definition final_name (n : string) : string := n ++ "_final".

(** compile/jax.py:77-113 f_step *)
Definition jax_step (use_rk4 : bool) (inc : increment) (vars params : list string) (sv sp : list (list nat))
           (n : nat) (kwargs : dict (arr R)) : res (list (arr R)) :=
  let* xs := map_res (fun v => dgetitem v kwargs) vars in
  let* ths := map_res (fun v => dgetitem v kwargs) params in
  let* th0 := map_res (fun v => dgetitem (initial_name v) kwargs) params in
  let* th1 := map_res (fun v => dgetitem (final_name v) kwargs) params in
  let* x := concat_arrays xs in
  let* th := concat_arrays ths in
  let* t0 := concat_arrays th0 in
  let* t1 := concat_arrays th1 in
  let step_size := vdiv (vsub t1 t0) n in
  let step := step_inc use_rk4 inc x th step_size in
  let* x' := ragged (vadd x step) 0 sv in
  let* th' := ragged (vadd th step_size) 0 sp in
  Ok (x' ++ th').

(** compile/pytensor.py:234-269 pytensor_euler_step, evaluated. RK4 is refused
    when the step is compiled (lines 231-232). *)
Definition pytensor_step (inc : increment) (vars params : list string) (sv : list (list nat))
           (n : nat) (kwargs : dict (arr R)) : res (list (arr R)) :=
  let* xs := map_res (fun v => dgetitem v kwargs) vars in
  let* ths := map_res (fun v => dgetitem v kwargs) params in
  let* th0 := map_res (fun v => dgetitem (initial_name v) kwargs) params in
  let* th1 := map_res (fun v => dgetitem (final_name v) kwargs) params in
  let step_size := map (fun p => amap (fun z => Rdiv z (INR n)) (amap2 Rminus (fst p) (snd p))) (combine th1 th0) in
  let* x := concat_arrays xs in
  let* th := concat_arrays ths in
  let* d := concat_arrays step_size in
  let step := inc x th d in
  let* delta := ragged step 0 sv in
  Ok (map (fun p => amap2 Rplus (fst p) (snd p)) (combine xs delta) ++
      map (fun p => amap2 Rplus (fst p) (snd p)) (combine ths step_size)).

(** ** The python loop (compile/euler.py:20-77) *)

(** f( **a, **b, ...): a repeated keyword is a TypeError (compile/euler.py:54-60) *)
Fixpoint nodup_keys (l : list string) : bool :=
  match l with [] => true | x :: l' => negb (mem_str x l') && nodup_keys l' end.
(** the call of f_step, compile/euler.py:54-60 *)
Definition call_kwargs (d : dict (arr R)) : res (dict (arr R)) :=
  if nodup_keys ("n_steps" :: dkeys d) then Ok d else Err TypeError.

(** compile/euler.py:54-70: the states after each of the remaining [k] steps *)
Fixpoint py_loop (f_step : nat -> dict (arr R) -> res (list (arr R))) (vars params : list string)
         (n : nat) (theta_final theta_initial : dict (arr R)) (k : nat) (cp cv : dict (arr R))
  : res (list (dict (arr R))) :=
  match k with
  | 0 => Ok []
  | S k' =>
      let* kwargs := call_kwargs (cp ++ cv ++ theta_final ++ theta_initial) in
      let* vals := f_step n kwargs in
      let cv := dict_of_list (combine vars (firstn (length vars) vals)) in
      let cp := dict_of_list (combine params (skipn (length vars) vals)) in
      let* rest := py_loop f_step vars params n theta_final theta_initial k' cp cv in
      Ok ((cv ++ cp) :: rest)
  end.

(** compile/euler.py:40-43, 68-70: results[k][t] = value, for the steps of one
    object. Simplified: a value of another shape is refused (numpy would
    broadcast it when it can). *)
Definition collect (states : list (dict (arr R))) (n : nat) (shape : list nat) (name : string) : res (arr R) :=
  let* rows := map_res (fun st => let* a := dgetitem name st in
                                  if list_eq_dec Nat.eq_dec (ashape a) shape then Ok (adata a) else Err ValueError)
                       states in
  Ok (mkArr (n :: shape) (List.concat rows)).

(** compile/euler.py:20-77 without the progress bar. Simplified: [data] holds
    the model's objects and nothing else (another key raises KeyError). *)
Definition python_euler (f_step : nat -> dict (arr R) -> res (list (arr R))) (vars params : list mobj) (c : coords)
           (theta_final : list R) (n : nat) (data : dict (arr R)) : res (list (arr R)) :=
  let vn := map o_name vars in
  let pn := map o_name params in
  let cp := filter (fun kv => mem_str (fst kv) pn) data in
  let cv := filter (fun kv => mem_str (fst kv) vn) data in
  let* tf := flat_array_to_variable_dict theta_final params c in
  let tf := dict_of_list (map (fun kv => (final_name (fst kv), snd kv)) tf) in
  let ti := dict_of_list (map (fun kv => (initial_name (fst kv), snd kv)) cp) in
  let* shapes := map_res (fun k => let* a := dgetitem k data in Ok (ashape a)) (vn ++ pn) in
  let* states := py_loop f_step vn pn n tf ti n cp cv in
  map_res (fun ks => collect states n (snd ks) (fst ks)) (combine (vn ++ pn) shapes).

(** ** The scan (compile/euler.py:80-224) *)

(** compile/euler.py:142-152: the compiled step, cut into the variables
    (lines 164, 173, 182, 191, 201) *)
Definition scan_f_step (inc : increment) (sv : list (list nat)) (step_size : list R) (xs ths : list (arr R))
  : res (list (arr R)) :=
  let* x := concat_arrays xs in
  let* th := concat_arrays ths in
  ragged (inc x th step_size) 0 sv.

(** [x + k * dx for x, dx in zip(xs, dxs)] (compile/euler.py:168-203) *)
Definition aplus (k : R) (a b : list (arr R)) : list (arr R) :=
  map (fun p => amap2 (fun u v => Rplus u (Rmult k v)) (fst p) (snd p)) (combine a b).

(** compile/euler.py:154-209: one application of step_func. x + dx is written
    x + 1 * dx. *)
Definition scan_step (use_rk4 : bool) (inc : increment) (sv sp : list (list nat)) (theta_initial theta_final : list R)
           (n : nat) (xs ths : list (arr R)) : res (list (arr R) * list (arr R)) :=
  let step_size := vdiv (vsub theta_final theta_initial) n in
  let* dtheta := ragged step_size 0 sp in
  let* dx :=
    (if use_rk4 then
       let* dx1 := scan_f_step inc sv step_size xs ths in
       let* dx2 := scan_f_step inc sv step_size (aplus (1 / 2) xs dx1) (aplus (1 / 2) ths dtheta) in
       let* dx3 := scan_f_step inc sv step_size (aplus (1 / 2) xs dx2) (aplus (1 / 2) ths dtheta) in
       let* dx4 := scan_f_step inc sv step_size (aplus 1 xs dx3) (aplus 1 ths dtheta) in
       Ok (map (amap (fun s => Rdiv s 6)) (aplus 1 (aplus 2 (aplus 2 dx1 dx2) dx3) dx4))
     else scan_f_step inc sv step_size xs ths) in
  Ok (aplus 1 xs dx, aplus 1 ths dtheta).

(** compile/euler.py:205-211 pytensor.scan: the states after each step *)
Fixpoint scan_loop (step : list (arr R) -> list (arr R) -> res (list (arr R) * list (arr R))) (k : nat)
         (xs ths : list (arr R)) : res (list (list (arr R))) :=
  match k with
  | 0 => Ok []
  | S k' => let* s := step xs ths in
            let* rest := scan_loop step k' (fst s) (snd s) in
            Ok ((fst s ++ snd s) :: rest)
  end.

(** compile/euler.py:213-222: the initial state is put in front. [xs] and [ths]
    are the values of the variables and parameters. *)
Definition scan_euler (use_rk4 : bool) (inc : increment) (xs ths : list (arr R)) (theta_final : list R) (n : nat)
  : res (list (arr R)) :=
  let sv := map (@ashape R) xs in
  let sp := map (@ashape R) ths in
  let* t0 := concat_arrays ths in
  let* states := scan_loop (scan_step use_rk4 inc sv sp t0 theta_final n) n xs ths in
  map_res (fun ix =>
             let* rows := map_res (fun st => match nth_error st (fst ix) with Some a => Ok (adata a) | None => Err IndexError end)
                                  states in
             Ok (mkArr (S n :: ashape (snd ix)) (adata (snd ix) ++ List.concat rows)))
          (combine (seq 0 (length (xs ++ ths))) (xs ++ ths)).

(** ** The backends *)

(** Which implementation computes the approximation: numba
    (compile/numba.py:132-164 with base/function_wrappers.py:170-195), the python
    loop over the jax step (compile/jax.py:190-201) or over the pytensor step
    (compile/pytensor.py:321-334), or the scan (symbolic_euler_approximation
    called directly: through compile/pytensor.py:336-338 it always raises, see
    [scan_compiled]). *)
Inductive backend := BNumba | BJax | BPytensor | BScan.

(** [f] compiled with use_rk4 and called with keyword data, theta_final and
    n_steps. compile/numba.py:133-134 and compile/pytensor.py:231-232 refuse
    RK4. *)
Definition run_euler (b : backend) (use_rk4 : bool) (inc : increment) (vars params : list mobj) (c : coords)
           (theta_final : list R) (n : nat) (data : dict (arr R)) : res (list (arr R)) :=
  let vn := map o_name vars in
  let pn := map o_name params in
  let* sv := map_res (infer_shape c) vars in
  let* sp := map_res (infer_shape c) params in
  let nv := list_sum (map prodn sv) in
  match b with
  | BNumba => if use_rk4 then Err NotImplementedError
              else wrap_numba_euler_function (fun x t tf n => Ok (euler_approx (numba_f_step inc nv) x t tf n))
                                             vars params c theta_final n data
  | BJax => python_euler (jax_step use_rk4 inc vn pn sv sp) vars params c theta_final n data
  | BPytensor => if use_rk4 then Err NotImplementedError
                 else python_euler (pytensor_step inc vn pn sv) vars params c theta_final n data
  | BScan => let* xs := map_res (fun k => dgetitem k data) vn in
             let* ths := map_res (fun k => dgetitem k data) pn in
             scan_euler use_rk4 inc xs ths theta_final n
  end.

(** compile/pytensor.py:336-338: symbolic_euler_approximation is passed grad=,
    which it does not accept (compile/euler.py:80-86). *)
Definition symbolic_euler_keywords : list string := ["system"; "variables"; "parameters"; "jacobian"; "use_rk4"].
(** compile/pytensor.py:336-338 *)
Definition scan_compiled {A} (f : A) : res A :=
  if forallb (fun k => mem_str k symbolic_euler_keywords) ["jacobian"; "grad"; "use_rk4"] then Ok f else Err TypeError.
