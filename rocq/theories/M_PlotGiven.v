(** Model of plot_bar when the caller passes initial values (plotting.py:330-474),
    the variables being plotted separately.

    The given values are an xarray Dataset with its own labels; neither sel nor
    drop_vars is applied to it (plotting.py:409-440), but _plot_one_bar drops the
    same levels (345-346). As in M_PlotBars otherwise. Simplified: the two frames
    have the same labels in the same order; what pandas makes of frames with other
    labels is not modelled (NotImplementedError here, about which no theorem
    speaks). *)
From Coq Require Import Reals.
From Verif Require Import Py PyStr NdArray M_Newton M_Plotting M_Finalize M_PlotBars.
Local Open Scope string_scope.
Local Open Scope list_scope.

(** Given initial values: labels of the dims, and for each variable its dims and
    its array (plotting.py:389) *)
Record given_values := MkGiven { v_coords : dict (list string); v_values : dict (list string * arr R) }.

(** initial_data.to_dataframe().droplevel(level=drop_vars, axis=0), and the except
    branch (plotting.py:346-352) *)
Definition given_frame (c sel : dict (list string)) (x : list string * arr R) : res frame :=
  let* ps := map_res (labels_at c []) (fst x) in
  let* rows := map_res (fun p => let* r := aget (snd x) (map snd p) in Ok (map fst p, r)) (product ps) in
  match droplevel (drop_vars sel) (MkFrame (fst x) rows) with Err ValueError => Err AttributeError | r => r end.

(** plotting.py:358-365: the groups are those for the index of the data *)
Definition grouped_with (group_dict : option (dict (dict string))) (data initial : frame) : res frame :=
  match group_dict, f_levels data with
  | Some gd, [n] =>
      match dget n gd with
      | Some cd => match f_levels initial with [_] => group_sum cd initial | _ => Err KeyError end
      | None => Ok initial
      end
  | _, _ => Ok initial
  end.

(** The same labels in the same order (plotting.py:304-327) *)
Fixpoint same_labels (l1 l2 : list (list string)) : bool :=
  match l1, l2 with
  | [], [] => true
  | a :: l1', b :: l2' => (if list_eq_dec string_dec a b then true else false) && same_labels l1' l2'
  | _, _ => false
  end.

(** plotting.py:330-367 _plot_one_bar *)
Definition plot_one_given (c sel : dict (list string)) (group_dict : option (dict (dict string))) (steps : nat) (x : list string * arr R)
    (gc : dict (list string)) (y : list string * arr R) (metric : string) (threshold : R) : res (list (list string) * bars) :=
  let* data := frame_of c sel (steps - 1) x in
  let* initial := given_frame gc sel y in
  let* initial := grouped_with group_dict data initial in
  let* data := grouped group_dict data in
  if negb (same_labels (map fst (f_rows data)) (map fst (f_rows initial))) then Err NotImplementedError
  else
    let* b := compute_bar_data (map snd (f_rows data)) (map snd (f_rows initial)) metric threshold in
    match f_rows data with [] => Err TypeError | _ => Ok (map fst (f_rows data), b) end.

(** plotting.py:385-470 plot_bar with initial_values *)
Definition plot_bar_given (idata : dict results) (init : given_values) (var_names : list string) (group_dict : option (dict (dict string)))
    (sel : dict (list string)) (n_cols : nat) (metric : string) (threshold : R) : res (list bar_axis) :=
  match (match dget "optimizer" idata with Some g => Some g | None => dget "euler" idata end) with
  | None => Err ValueError
  | Some g =>
      let* xs := map_res (fun v => dgetitem v (r_variables g)) var_names in
      if Nat.eqb (r_steps g) 0 then Err IndexError
      else if negb (forallb (fun d => existsb (fun x => mem_str d (fst x)) xs) (dkeys sel)) then Err KeyError
      else
        let* grid := prepare_gridspec_figure (Nat.min n_cols (length var_names)) (length var_names) in
        map_res (fun p => let* y := dgetitem (fst (fst p)) (v_values init) in
                          let* b := plot_one_given (r_coords g) sel group_dict (r_steps g) (snd (fst p)) (v_coords init) y metric threshold in
                          Ok (MkBarAxis (fst (fst p)) (snd p) (fst b) (snd b)))
                (combine (combine var_names xs) (snd grid))
  end.
