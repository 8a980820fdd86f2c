(** Specification vocabulary for bar plots with selected labels and groups (C97). *)
From Coq Require Import Reals Sorting.Sorted.
From Verif Require Import Py PyStr NdArray M_Plotting M_PlotBars S_Finalize.
Local Open Scope string_scope.
Local Open Scope list_scope.

(** The element of an array with the given dims, at step [k] and the labels
    [at_label] of the dims *)
Definition element (c : dict (list string)) (dims : list string) (a : arr R) (k : nat) (at_label : string -> option string) (r : R) : Prop :=
  exists idx, Forall2 (fun d i => exists all l, dget d c = Some all /\ nth_error all i = Some l /\ at_label d = Some l) dims idx /\
              aget a (k :: idx) = Ok r.

(** The labels of a dim that are shown *)
Definition shown (c sel : dict (list string)) (d : string) : list string :=
  match dget d sel with Some ls => ls | None => match dget d c with Some all => all | None => [] end end.
(** The dims that get bars: all but those with one selected label *)
Definition plotted (sel : dict (list string)) (dims : list string) : list string :=
  filter (fun d => match dget d sel with Some [_] => false | _ => true end) dims.
(** The label of each dim for the bar labelled [ls] *)
Definition bar_label (c sel : dict (list string)) (dims ls : list string) (d : string) : option string :=
  match dget d sel with
  | Some [l] => Some l
  | _ => dget d (combine (plotted sel dims) ls)
  end.

(** The values of the bars labelled [rows] at step [k] *)
Definition bar_values (c sel : dict (list string)) (dims : list string) (a : arr R) (k : nat) (rows : list (list string)) (values : list R) : Prop :=
  Forall2 (fun ls r => element c dims a k (bar_label c sel dims ls) r) rows values.

(** An array with one row per step, for dims whose labels are known *)
Definition array_of (c : dict (list string)) (steps : nat) (dims : list string) (a : arr R) : Prop :=
  NoDup dims /\ arr_wf a /\ exists shape, ashape a = steps :: shape /\ Forall2 (fun d n => exists all, dget d c = Some all /\ length all = n /\ NoDup all /\ all <> []) dims shape.
(** A selection of existing labels *)
Definition selects (c sel : dict (list string)) (dims : list string) : Prop :=
  forall d ls, In d dims -> dget d sel = Some ls -> ls <> [] /\ NoDup ls /\ exists all, dget d c = Some all /\ forall l, In l ls -> In l all.

(** The sum of the values of the labels of a group *)
Definition total (group : dict string) (labels : list string) (values : list R) (g : string) : R :=
  fold_right Rplus 0%R (map snd (filter (fun p => match dget (fst p) group with Some g' => String.eqb g' g | None => false end) (combine labels values))).
(** The groups, in alphabetical order *)
Definition groups_of (group : dict string) (labels names : list string) : Prop :=
  StronglySorted before names /\ forall g, In g names <-> exists l, In l labels /\ dget l group = Some g.

(** The bars of a metric *)
Inductive drawn (threshold : R) (after before : list R) : string -> bars -> Prop :=
| drawn_pct : drawn threshold after before "pct_change"
    (Bars (map (fun p => if Rlt_dec threshold (snd p) then (fst p - snd p) / snd p else 0)%R (combine after before)))
| drawn_change : drawn threshold after before "change" (Bars (map (fun p => fst p - snd p)%R (combine after before)))
| drawn_abs : drawn threshold after before "abs_change" (Bars (map (fun p => Rabs (fst p - snd p))%R (combine after before)))
| drawn_final : drawn threshold after before "final" (Bars after)
| drawn_initial : drawn threshold after before "initial" (Bars before)
| drawn_both : drawn threshold after before "both" (Joined after before).
(** The metrics *)
Definition metrics : list string := ["pct_change"; "change"; "abs_change"; "final"; "initial"; "both"].

(** The groups of the labels of a variable: there are some if it is plotted
    along one dim and this dim has groups *)
Definition group_for (group_dict : option (dict (dict string))) (rest : list string) : option (string * dict string) :=
  match group_dict, rest with
  | Some gd, [d] => match dget d gd with Some cd => Some (d, cd) | None => None end
  | _, _ => None
  end.

(** The bars of a variable: labels, values at the last step and at the first *)
Definition bars_of (c sel : dict (list string)) (group_dict : option (dict (dict string))) (steps : nat) (dims : list string) (a : arr R)
    (labels : list (list string)) (after before : list R) : Prop :=
  exists rows last first,
    rows = product (map (shown c sel) (plotted sel dims)) /\
    bar_values c sel dims a (steps - 1) rows last /\ bar_values c sel dims a 0 rows first /\
    match group_for group_dict (plotted sel dims) with
    | None => labels = rows /\ after = last /\ before = first
    | Some (d, cd) => exists names, groups_of cd (shown c sel d) names /\ labels = map (fun g => [g]) names /\
        after = map (total cd (shown c sel d) last) names /\ before = map (total cd (shown c sel d) first) names
    end.
(** Every shown label has a group *)
Definition has_groups (c sel : dict (list string)) (group_dict : option (dict (dict string))) (dims : list string) : Prop :=
  forall d cd, group_for group_dict (plotted sel dims) = Some (d, cd) -> forall l, In l (shown c sel d) -> In l (dkeys cd).
(** Some dims are left for the bars, and every dim with one selected label is a
    dim of the variable *)
Definition drawable (sel : dict (list string)) (dims : list string) : Prop :=
  plotted sel dims <> [] /\ forall d l, dget d sel = Some [l] -> In d dims.
