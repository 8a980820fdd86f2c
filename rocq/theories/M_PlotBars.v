(** Model of plot_bar with selected coords and groups (plotting.py:330-474),
    when the variables are plotted separately and the initial values are read
    from the results.

    xarray and pandas are external: DataArray.to_dataframe gives one row per
    combination of labels, in row-major order; sel with a list of labels keeps
    the dim; droplevel raises KeyError for a level the frame does not have and
    ValueError if none would be left; groupby(...).sum() sorts the groups.
    A frame without rows cannot be plotted (TypeError). Simplified: labels are
    strings and no label of a dim is selected twice, numbers are real. *)
From Coq Require Import Reals.
From Verif Require Import Py PyStr NdArray M_Newton M_Plotting M_Finalize.
Local Open Scope string_scope.
Local Open Scope list_scope.

(** A group of the results: number of steps, labels of the dims, and for each
    variable its dims after step and its array (plotting.py:409-440) *)
Record results := MkResults {
  r_steps : nat;
  r_coords : dict (list string);
  r_variables : dict (list string * arr R)
}.

(** drop_vars: the dims with exactly one label selected (plotting.py:407-408) *)
Definition drop_vars (sel : dict (list string)) : list string :=
  map fst (filter (fun p => Nat.eqb (length (snd p)) 1) sel).

(** The labels of a dim that sel keeps, with their positions (plotting.py:413-415):
    KeyError for a label that does not exist *)
Definition labels_at (c sel : dict (list string)) (d : string) : res (list (string * nat)) :=
  let* all := dgetitem d c in
  match dget d sel with
  | None => Ok (combine all (seq 0 (length all)))
  | Some ls => map_res (fun l => match index_of String.eqb l all with Ok i => Ok (l, i) | Err _ => Err KeyError end) ls
  end.

(** A pandas frame with one column: names of the levels of the index, rows
    (plotting.py:345-346) *)
Record frame := MkFrame { f_levels : list string; f_rows : list (list string * R) }.

(** isel(step=k)...sel of the coords, then to_dataframe (plotting.py:410-415, 345-346) *)
Definition to_dataframe (c sel : dict (list string)) (k : nat) (x : list string * arr R) : res frame :=
  let* ps := map_res (labels_at c sel) (fst x) in
  let* rows := map_res (fun p => let* r := aget (snd x) (k :: map snd p) in Ok (map fst p, r)) (product ps) in
  Ok (MkFrame (fst x) rows).

(** The labels of the levels that are not dropped (plotting.py:345-346) *)
Fixpoint kept (drop levels labels : list string) : list string :=
  match levels, labels with
  | d :: levels', l :: labels' => if mem_str d drop then kept drop levels' labels' else l :: kept drop levels' labels'
  | _, _ => []
  end.

(** droplevel(level=drop_vars, axis=0) (plotting.py:345-346) *)
Definition droplevel (drop : list string) (f : frame) : res frame :=
  if negb (forallb (fun d => mem_str d (f_levels f)) drop) then Err KeyError
  else if Nat.leb (length (f_levels f)) (length drop) then Err ValueError
  else Ok (MkFrame (filter (fun d => negb (mem_str d drop)) (f_levels f)) (map (fun r => (kept drop (f_levels f) (fst r), snd r)) (f_rows f))).

(** The try block (plotting.py:344-352): after a ValueError to_dataarray is called,
    which a DataArray does not have. A scalar has no frame (ValueError). *)
Definition frame_of (c sel : dict (list string)) (k : nat) (x : list string * arr R) : res frame :=
  let* f := to_dataframe c sel k x in
  match droplevel (drop_vars sel) f with Err ValueError => Err AttributeError | r => r end.

(** sorted distinct names (plotting.py:364-365 groupby) *)
Fixpoint insert_name (n : string) (l : list string) : list string :=
  match l with [] => [n] | x :: l' => if name_leb n x then n :: l else x :: insert_name n l' end.
(** plotting.py:364-365 *)
Definition group_names (l : list string) : list string := fold_right insert_name [] (dedup l).

(** groupby("group").sum() (plotting.py:361-365): the group of every row is
    coord_dict[label] *)
Definition group_sum (coord_dict : dict string) (f : frame) : res frame :=
  let* gs := map_res (fun r => let* g := dgetitem (hd "" (fst r)) coord_dict in Ok (g, snd r)) (f_rows f) in
  Ok (MkFrame ["group"] (map (fun g => ([g], fold_right Rplus 0%R (map snd (filter (fun p => String.eqb (fst p) g) gs)))) (group_names (map fst gs)))).

(** plotting.py:358-365: group_dict.get(data.index.name); the name of an index of
    several levels is None *)
Definition grouped (group_dict : option (dict (dict string))) (f : frame) : res frame :=
  match group_dict, f_levels f with
  | Some gd, [n] => match dget n gd with Some cd => group_sum cd f | None => Ok f end
  | _, _ => Ok f
  end.

(** plotting.py:330-367 _plot_one_bar: the labels of the bars and the bars *)
Definition plot_one_bar (c sel : dict (list string)) (group_dict : option (dict (dict string))) (steps : nat) (x : list string * arr R)
    (metric : string) (threshold : R) : res (list (list string) * bars) :=
  let* data := frame_of c sel (steps - 1) x in
  let* initial := frame_of c sel 0 x in
  let* data := grouped group_dict data in
  let* initial := grouped group_dict initial in
  let* b := compute_bar_data (map snd (f_rows data)) (map snd (f_rows initial)) metric threshold in
  match f_rows data with [] => Err TypeError | _ => Ok (map fst (f_rows data), b) end.

(** One subplot (plotting.py:456-470) *)
Record bar_axis := MkBarAxis { b_title : string; b_place : loc; b_labels : list (list string); b_bars : bars }.

(** plotting.py:385-470 plot_bar. The results are those of the optimizer if
    there are any, else those of the Euler approximation (409-440). Selecting a
    dim that no variable has raises KeyError. *)
Definition plot_bar (idata : dict results) (var_names : list string) (group_dict : option (dict (dict string))) (sel : dict (list string))
    (n_cols : nat) (metric : string) (threshold : R) : res (list bar_axis) :=
  match (match dget "optimizer" idata with Some g => Some g | None => dget "euler" idata end) with
  | None => Err ValueError
  | Some g =>
      let* xs := map_res (fun v => dgetitem v (r_variables g)) var_names in
      if Nat.eqb (r_steps g) 0 then Err IndexError
      else if negb (forallb (fun d => existsb (fun x => mem_str d (fst x)) xs) (dkeys sel)) then Err KeyError
      else
        let* grid := prepare_gridspec_figure (Nat.min n_cols (length var_names)) (length var_names) in
        map_res (fun p => let* b := plot_one_bar (r_coords g) sel group_dict (r_steps g) (snd (fst p)) metric threshold in
                          Ok (MkBarAxis (fst (fst p)) (snd p) (fst b) (snd b)))
                (combine (combine var_names xs) (snd grid))
  end.
