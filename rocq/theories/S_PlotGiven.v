(** Specification vocabulary for bar plots against given initial values (C106). *)
From Coq Require Import Reals.
From Verif Require Import Py PyStr NdArray M_PlotBars M_PlotGiven S_PlotBars.
Local Open Scope string_scope.
Local Open Scope list_scope.

(** The element of an array without steps at the labels [at_label] of its dims *)
Definition given_element (gc : dict (list string)) (dims : list string) (b : arr R) (at_label : string -> option string) (r : R) : Prop :=
  exists idx, Forall2 (fun d i => exists all l, dget d gc = Some all /\ nth_error all i = Some l /\ at_label d = Some l) dims idx /\ aget b idx = Ok r.

(** The given array has the dims of the variable, with the labels that are shown *)
Definition prepared (c sel gc : dict (list string)) (dims : list string) (b : arr R) : Prop :=
  arr_wf b /\ Forall2 (fun d n => dget d gc = Some (shown c sel d) /\ length (shown c sel d) = n) dims (ashape b).

(** The bars of a variable: labels, values at the last step and given values *)
Definition bars_against (c sel gc : dict (list string)) (group_dict : option (dict (dict string))) (steps : nat) (dims : list string) (a b : arr R)
    (labels : list (list string)) (after before : list R) : Prop :=
  exists rows last first,
    rows = product (map (shown c sel) (plotted sel dims)) /\
    bar_values c sel dims a (steps - 1) rows last /\
    Forall2 (fun ls r => given_element gc dims b (bar_label c sel dims ls) r) rows first /\
    match group_for group_dict (plotted sel dims) with
    | None => labels = rows /\ after = last /\ before = first
    | Some (d, cd) => exists names, groups_of cd (shown c sel d) names /\ labels = map (fun g => [g]) names /\
        after = map (total cd (shown c sel d) last) names /\ before = map (total cd (shown c sel d) first) names
    end.
