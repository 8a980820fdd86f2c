(** Model of plot_lines and plot_bar (/repo/cge_modeling/plotting.py:56-197,
    304-327, 330-505): which numbers are drawn where.

    Simplified: the colour map exists; colours, sizes, fonts and figure options
    are left out. In plot_bar no coords are selected, no groups are summed and
    variables are not plotted together. *)
From Coq Require Import Reals.
From Verif Require Import Py PyStr NdArray M_Newton M_Plotting.
Local Open Scope string_scope.
Local Open Scope list_scope.

(** One of the groups euler and optimizer of a simulation: the coordinate step
    and the arrays of the variables, whose first axis is step
    (plotting.py:117-124, 155, 166-167) *)
Record group := MkGroup { g_step : list R; g_variables : dict (arr R) }.

(** data.values.shape[1:], int(np.prod(...)) (plotting.py:157) *)
Definition n_lines (a : arr R) : nat := prodn (tl (ashape a)).

(** x.isel(step=k).data.ravel() for one of the positions of step (plotting.py:166-167, 412) *)
Definition at_step (a : arr R) (k : nat) : list R := slice (adata a) (k * n_lines a) (n_lines a).
(** isel(step=0): IndexError without steps (plotting.py:166, 419) *)
Definition first_step (g : group) (a : arr R) : res (list R) :=
  match g_step g with [] => Err IndexError | _ => Ok (at_step a 0) end.
(** isel(step=-1) (plotting.py:167, 412) *)
Definition last_step (g : group) (a : arr R) : res (list R) :=
  match g_step g with [] => Err IndexError | l => Ok (at_step a (length l - 1)) end.

(** A point of a plot (plotting.py:164, 177-194) *)
Definition point := (R * R)%type.

(** data.plot.line(x="step"), the axes after the first stacked into one
    (plotting.py:161-163): one line per element, in row-major order *)
Definition lines_of (g : group) (a : arr R) : list (list point) :=
  map (fun j => combine (g_step g) (map (fun k => nth (k * n_lines a + j) (adata a) 0%R) (seq 0 (length (g_step g))))) (seq 0 (n_lines a)).

(** step.max(): ValueError for an empty coordinate (plotting.py:173) *)
Definition max_step (g : group) : res R :=
  match g_step g with [] => Err ValueError | x :: l => Ok (fold_left Rmax l x) end.

(** The argument legends (plotting.py:66, 109-116) *)
Inductive legends_arg := NoLegends | AllLegends (b : bool) | SomeLegends (l : list string).
(** legends[var] (plotting.py:109-116, 163) *)
Definition legend_of (l : legends_arg) (var : string) : bool :=
  match l with NoLegends => false | AllLegends b => b | SomeLegends names => mem_str var names end.

(** One subplot (plotting.py:151-194) *)
Record axis := MkAxis {
  ax_title : string;
  ax_place : loc;
  ax_lines : list (list point);
  ax_legend : option bool;
  ax_start : list point;
  ax_end : list point
}.

(** plotting.py:151-194: the body of the loop of plot_lines *)
Definition plot_one (euler optimizer : option group) (rename : dict string) (legends : legends_arg) (var : string) (place : loc) : res axis :=
  let* lines := match euler with
                | None => Ok ([], None)
                | Some g => let* a := dgetitem var (g_variables g) in Ok (lines_of g a, Some (legend_of legends var))
                end in
  let* stars := match optimizer with
                | None => Ok ([], [])
                | Some g =>
                    let* a := dgetitem var (g_variables g) in
                    let* initial := first_step g a in
                    let* final := last_step g a in
                    let* T := match euler with None => Ok 1%R | Some e => let* m := max_step e in Ok (1 * m)%R end in
                    Ok (map (fun v => (0%R, v)) initial, map (fun v => (T, v)) final)
                end in
  Ok (MkAxis (match dget var rename with Some t => t | None => var end) place (fst lines) (snd lines) (fst stars) (snd stars)).

(** plotting.py:117-124: the group is read only when asked for; ValueError when
    it is missing *)
Definition asked_group (wanted : bool) (name : string) (idata : dict group) : res (option group) :=
  if wanted then match dget name idata with Some g => Ok (Some g) | None => Err ValueError end else Ok None.

(** plotting.py:56-197 plot_lines *)
Definition plot_lines (idata : dict group) (variable_names : list string) (n_cols : nat) (var_names : option (list string))
    (initial_values : option (dict (arr R))) (plot_euler plot_optimizer : bool) (rename : dict string) (legends : legends_arg)
  : res (list axis) :=
  let var_names := match var_names with Some l => l | None => variable_names end in
  let* euler := asked_group plot_euler "euler" idata in
  let* optimizer := asked_group plot_optimizer "optimizer" idata in
  let* grid := prepare_gridspec_figure (Nat.min n_cols (length var_names)) (length var_names) in
  map_res (fun p => plot_one euler optimizer rename legends (fst p) (snd p)) (combine var_names (snd grid)).

(** idata[...].isel(step=k)["variables"][var_names]: a Dataset indexed by None
    raises KeyError, as does a list with an unknown name (plotting.py:410-440) *)
Definition read_variables (step : group -> arr R -> res (list R)) (g : group) (var_names : option (list string)) : res (dict (list nat * list R)) :=
  match var_names with
  | None => Err KeyError
  | Some l => map_res (fun v => let* a := dgetitem v (g_variables g) in
                                let* x := step g a in Ok (v, (tl (ashape a), x))) l
  end.

(** plotting.py:409-443: the values of the bars, after and before. [initial] is
    an xarray Dataset. *)
Definition bar_values (idata : dict group) (initial : option (dict (list nat * list R))) (var_names : option (list string))
  : res (dict (list nat * list R) * dict (list nat * list R)) :=
  let* after1 := match dget "optimizer" idata with
                 | Some g => let* d := read_variables last_step g var_names in
                             let* i := match initial with Some i => Ok i | None => read_variables first_step g var_names end in
                             Ok (Some d, Some i)
                 | None => Ok (None, initial)
                 end in
  let* after2 := match dget "euler" idata with
                 | Some g => let* d := match fst after1 with Some d => Ok d | None => read_variables last_step g var_names end in
                             let* i := match snd after1 with Some i => Ok i | None => read_variables first_step g var_names end in
                             Ok (Some d, Some i)
                 | None => Ok after1
                 end in
  match after2 with
  | (Some d, Some i) => Ok (d, i)
  | _ => Err ValueError
  end.

(** _plot_one_bar (plotting.py:330-365): a scalar DataArray has no data frame,
    and the code for this case calls a method that only a Dataset has *)
Definition plot_one_bar (after before : list nat * list R) (metric : string) (threshold : R) : res bars :=
  match fst after with
  | [] => Err AttributeError
  | _ => match fst before with [] => Err AttributeError | _ => compute_bar_data (snd after) (snd before) metric threshold end
  end.

(** plotting.py:385-474 plot_bar with plot_together=False: title, place and bars
    of every subplot *)
Definition plot_bar (idata : dict group) (var_names : option (list string)) (initial : option (dict (list nat * list R)))
    (n_cols : nat) (metric : string) (threshold : R) : res (list (string * loc * bars)) :=
  let* values := bar_values idata initial var_names in
  match var_names with
  | None => Err KeyError
  | Some l =>
      let* grid := prepare_gridspec_figure (Nat.min n_cols (length l)) (length l) in
      map_res (fun p => let* after := dgetitem (fst p) (fst values) in
                        let* before := dgetitem (fst p) (snd values) in
                        let* b := plot_one_bar after before metric threshold in
                        Ok (fst p, snd p, b)) (combine l (snd grid))
  end.
