(** Model of plot_bar with plot_together=True (plotting.py:385-440, 471-503):
    the bars of several variables in one plot, with the initial values read from
    the results.

    xarray and pandas are external, as in M_PlotBars. The dims of a Dataset are
    those of its variables in order of first appearance; Dataset.to_dataframe
    has one row per combination of labels of these dims, in row-major order,
    and one column per variable, repeated along the dims it does not have.
    Without dims it raises ValueError, and to_dataarray gives one row per
    variable. Simplified: mod.get(v).dims are the dims of the results; when all
    dims have one selected label the frames of the except branch have indices
    with different levels, and what pandas makes of them is not modelled
    (NotImplementedError here, about which no theorem speaks). *)
From Coq Require Import Reals.
From Verif Require Import Py PyStr NdArray M_Newton M_Plotting M_Finalize M_PlotBars.
Local Open Scope string_scope.
Local Open Scope list_scope.

(** The dims of a Dataset (plotting.py:410-415) *)
Definition dataset_dims (xs : list (list string * arr R)) : list string := dedup (flat_map fst xs).

(** One column of Dataset.to_dataframe (plotting.py:345-346) *)
Definition column (c sel : dict (list string)) (k : nat) (all_dims : list string) (x : list string * arr R) : res frame :=
  let* ps := map_res (labels_at c sel) all_dims in
  let* rows := map_res (fun p =>
      let* ix := map_res (fun d => dgetitem d (combine all_dims (map snd p))) (fst x) in
      let* r := aget (snd x) (k :: ix) in Ok (map fst p, r)) (product ps) in
  Ok (MkFrame all_dims rows).

(** to_dataarray().to_dataframe(name="data") of scalars, with the name of the
    index (plotting.py:348-352) *)
Definition scalar_frame (k : nat) (names : list string) (xs : list (list string * arr R)) : res frame :=
  let* rows := map_res (fun p => let* r := aget (snd (snd p)) [k] in Ok ([fst p], r)) (combine names xs) in
  Ok (MkFrame ["name"] rows).

(** plotting.py:358-367 for one column: the labels of the bars and the bars *)
Definition column_bars (group_dict : option (dict (dict string))) (data initial : frame) (metric : string) (threshold : R) : res (list (list string) * bars) :=
  let* data := grouped group_dict data in
  let* initial := grouped group_dict initial in
  let* b := compute_bar_data (map snd (f_rows data)) (map snd (f_rows initial)) metric threshold in
  match f_rows data with [] => Err TypeError | _ => Ok (map fst (f_rows data), b) end.

(** The bars of one variable of the Dataset (plotting.py:345-346, 358-367) *)
Definition variable_bars (c sel : dict (list string)) (group_dict : option (dict (dict string))) (steps : nat) (all_dims : list string)
    (metric : string) (threshold : R) (x : list string * arr R) : res (list (list string) * bars) :=
  let* data := column c sel (steps - 1) all_dims x in
  let* data := droplevel (drop_vars sel) data in
  let* initial := column c sel 0 all_dims x in
  let* initial := droplevel (drop_vars sel) initial in
  column_bars group_dict data initial metric threshold.

(** The dims of a variable that are not dropped (plotting.py:472-475) *)
Definition var_dims (sel : dict (list string)) (x : list string * arr R) : list string :=
  filter (fun d => negb (mem_str d (drop_vars sel))) (fst x).
(** Equality of lists of dims (plotting.py:476) *)
Fixpoint same_dims (l1 l2 : list string) : bool :=
  match l1, l2 with
  | [], [] => true
  | a :: l1', b :: l2' => String.eqb a b && same_dims l1' l2'
  | _, _ => false
  end.

(** plotting.py:385-440, 471-503 plot_bar with plot_together: the labels of the
    bars, and for each column its name and its bars. A name given twice selects
    its variable once. *)
Definition plot_together (idata : dict results) (var_names : list string) (group_dict : option (dict (dict string))) (sel : dict (list string))
    (metric : string) (threshold : R) : res (list (list string) * list (string * bars)) :=
  match (match dget "optimizer" idata with Some g => Some g | None => dget "euler" idata end) with
  | None => Err ValueError
  | Some g =>
      let names := dedup var_names in
      let* xs := map_res (fun v => dgetitem v (r_variables g)) names in
      if Nat.eqb (r_steps g) 0 then Err IndexError
      else if negb (forallb (fun d => existsb (fun x => mem_str d (fst x)) xs) (dkeys sel)) then Err KeyError
      else
        let* _ := map_res (labels_at (r_coords g) sel) (dataset_dims xs) in
        match xs with
        | [] => Err ValueError
        | x0 :: _ =>
            if negb (forallb (fun x => same_dims (var_dims sel x) (var_dims sel x0)) xs) then Err ValueError
            else
              match dataset_dims xs, var_dims sel x0 with
              | [], _ =>
                  let* data := scalar_frame (r_steps g - 1) names xs in
                  let* initial := scalar_frame 0 names xs in
                  let* b := column_bars group_dict data initial metric threshold in
                  Ok (fst b, [("data", snd b)])
              | _ :: _, [] => Err NotImplementedError
              | all_dims, _ =>
                  let* bs := map_res (variable_bars (r_coords g) sel group_dict (r_steps g) all_dims metric threshold) xs in
                  Ok (match bs with b :: _ => fst b | [] => [] end, combine names (map snd bs))
              end
        end
  end.
