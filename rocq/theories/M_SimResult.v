(** Results of simulate and generate_SAM, the start of the optimizer and the
    equilibrium check (/repo/cge_modeling/base/cge.py:761-861, 1014-1062,
    1090-1157; tools/output_tools.py:412-487). *)
From Coq Require Import QArith Qabs.
From Verif Require Import Py PyStr NdArray M_Primitives M_Utilities.
Local Open Scope string_scope.
Close Scope Q_scope.

Section Data.
Context {V : Type}.

(** An xarray Dataset: name -> dims and values. The coords are the model's
    with "step" added; only their lengths matter for construction
    (tools/output_tools.py:449-450, 483-484). *)
Definition dataset := dict (list string * arr V).

(** xr.Dataset(vars, coords): dims are distinct, one per axis, and each has
    the length of its coordinate; otherwise ValueError
    (tools/output_tools.py:449-450, 483-484). *)
Fixpoint nodupb (l : list string) : bool :=
  match l with [] => true | x :: l' => negb (mem_str x l') && nodupb l' end.
(** one entry of xr.Dataset, tools/output_tools.py:449-450, 483-484 *)
Definition check_var (c : coords) (v : list string * arr V) : bool :=
  nodupb (fst v) && Nat.eqb (length (fst v)) (length (ashape (snd v))) &&
  forallb (fun p => match dget (fst p) c with Some ls => Nat.eqb (length ls) (snd p) | None => true end)
          (combine (fst v) (ashape (snd v))).
(** xr.Dataset, tools/output_tools.py:449-450, 483-484 *)
Definition make_dataset (c : coords) (d : dataset) : res dataset :=
  if forallb (fun kv => check_var c (snd kv)) d then Ok d else Err ValueError.

(** np.stack([a, b]): a new leading axis; shapes must agree (tools/output_tools.py:470, 478). *)
Definition stack2 (a b : arr V) : res (arr V) :=
  if list_eq_dec Nat.eq_dec (ashape a) (ashape b)
  then Ok (mkArr (2 :: ashape a) (adata a ++ adata b)%list) else Err ValueError.

(** tools/output_tools.py:466-482: one group of optimizer_result_to_idata *)
Definition optimizer_group (initial result : dict (arr V)) (c : coords) (objs : list mobj) : res dataset :=
  let* l := map_res (fun o => let* a := dgetitem (o_name o) initial in
                              let* b := dgetitem (o_name o) result in
                              let* s := stack2 a b in
                              Ok (o_name o, ("step" :: o_dims o, s))) objs in
  make_dataset c (dict_of_list l).

(** tools/output_tools.py:459-487 optimizer_result_to_idata: the variables and
    parameters groups. [x] is res.x; initial_values is a dict. *)
Definition optimizer_result_to_idata (x theta : list V) (initial : dict (arr V)) (c : coords)
           (vars params : list mobj) : res (dataset * dataset) :=
  let c := dset "step" [LInt 0; LInt 1] c in
  let* result := flat_array_to_variable_dict (x ++ theta)%list (vars ++ params)%list c in
  let* v := optimizer_group initial result c vars in
  let* p := optimizer_group initial result c params in
  Ok (v, p).

(** tools/output_tools.py:431-456 list_of_array_to_idata *)
Definition list_group (arrays : list (arr V)) (i0 : nat) (objs : list mobj) : res (list (string * (list string * arr V))) :=
  map_res (fun io => match nth_error arrays (i0 + fst io) with
                     | Some a => Ok (o_name (snd io), ("step" :: o_dims (snd io), a))
                     | None => Err IndexError
                     end) (combine (seq 0 (length objs)) objs).
(** tools/output_tools.py:431-456 *)
Definition list_of_array_to_idata (arrays : list (arr V)) (c : coords) (vars params : list mobj)
  : res (dataset * dataset) :=
  let* first := match arrays with a :: _ => Ok a | [] => Err IndexError end in
  let* n := match ashape first with n :: _ => Ok n | [] => Err TypeError end in
  let c := dset "step" (map (fun k => LInt (Z.of_nat k)) (seq 0 n)) c in
  let* v := list_group arrays 0 vars in
  let* p := list_group arrays (length vars) params in
  let* v := make_dataset c (dict_of_list v) in
  let* p := make_dataset c (dict_of_list p) in
  Ok (v, p).

(** base/cge.py:838-861 generate_SAM for the root and minimize methods.
    [solver] maps the joint dictionary and the parameter vector to res.x; it
    solves for all of the model's variables (base/cge.py:671, 727). [fixed] are
    the keys of fixed_values. *)
Definition generate_SAM (solver : dict (arr V) -> list V -> res (list V)) (param_dict guess : dict (arr V))
           (fixed : list string) (vars params : list mobj) (c : coords) : res (dict (arr V)) :=
  let joint := dupdate param_dict guess in
  let free := filter (fun v => negb (mem_str (o_name v) fixed)) vars in
  let* vp := variable_dict_to_flat_array joint free params in
  let* x := solver joint (snd vp) in
  flat_array_to_variable_dict x free c.
End Data.
Arguments dataset V : clear implicits.

(** ** The last finite step (base/cge.py:1014-1033) *)

(** Dataset.dropna(dim="step"): the labels of the steps without NaN; [nan] tells
    for each step whether any value of the group is NaN (base/cge.py:1027-1028). *)
Definition kept (nan : list bool) : list nat :=
  map fst (filter (fun p => negb (snd p)) (combine (seq 0 (length nan)) nan)).

(** coords["step"].max().item(): ValueError on no steps (base/cge.py:1030-1031) *)
Definition max_label (labels : list nat) : res nat :=
  match labels with [] => Err ValueError | l => Ok (list_max l) end.

(** isel(step=k): positional selection; the label of the selected row (base/cge.py:1040-1041) *)
Definition isel (labels : list nat) (k : nat) : res nat :=
  match nth_error labels k with Some l => Ok l | None => Err IndexError end.

(** base/cge.py:1019-1033: whether the warning is logged, and the labels of the
    rows of variables and parameters the optimizer starts from. *)
Definition optimizer_start (n_iter : nat) (nan_vars nan_params : list bool) : res (bool * (nat * nat)) :=
  let lv := kept nan_vars in
  let lp := kept nan_params in
  let* mv := max_label lv in
  let* mp := max_label lp in
  let last_step := Nat.min mv mp in
  let warn := negb (Z.eqb (Z.of_nat last_step) (Z.of_nat n_iter - 1)) in
  let* rv := isel lv last_step in
  let* rp := isel lp last_step in
  Ok (warn, (rv, rp)).

(** ** check_for_equilibrium (base/cge.py:1138-1157) over exact rationals.
    Simplified: no rounding, no overflow; [None] = equilibrium reported,
    [Some l] = the equations listed otherwise. *)
Definition sum_sq (errors : list Q) : Q := fold_right (fun e s => Qplus (Qmult e e) s) 0%Q errors.
(** sse < tol, base/cge.py:1143 *)
Definition Qltb (a b : Q) : bool := negb (Qle_bool b a).
(** base/cge.py:1138-1157 *)
Definition check_for_equilibrium (names : list string) (errors : list Q) (tol : Q) : option (list string) :=
  if Qltb (sum_sq errors) tol then None
  else Some (map fst (filter (fun p => Qltb tol (Qabs (snd p))) (combine names errors))).
