(** Model of plotting.py. *)
From Coq Require Import Reals.
From Verif Require Import Py PyStr M_Newton.
Local Open Scope string_scope.
Local Open Scope list_scope.

(** ** prepare_gridspec_figure *)

(** A slice with both ends given (plotting.py:44-50) *)
Definition span := (nat * nat)%type.
(** The place of one plot: row slice, column slice (plotting.py:44-51) *)
Definition loc := (span * span)%type.

(** plotting.py:14-53 prepare_gridspec_figure: the number of rows and columns of
    the GridSpec, and the locations. Simplified: the arguments are not negative.
    GridSpec refuses zero rows or columns. *)
Definition prepare_gridspec_figure (n_cols n_plots : nat) : res (nat * nat * list loc) :=
  match n_cols with
  | 0 => Err ZeroDivisionError
  | _ =>
    let remainder := n_plots mod n_cols in
    let has_remainder := if Nat.ltb 0 remainder then 1 else 0 in
    let n_rows := n_plots / n_cols + has_remainder in
    if Nat.eqb n_rows 0 then Err ValueError
    else
      let full := flat_map (fun i => map (fun j => ((i * 2, (i + 1) * 2), (j * 2, (j + 1) * 2))) (seq 0 n_cols))
                           (seq 0 (n_rows - has_remainder)) in
      let last_row := ((n_rows - 1) * 2, n_rows * 2) in
      let left_pad := n_cols - remainder in
      let tail := if Nat.ltb 0 remainder
                  then map (fun j => (last_row, (left_pad + j * 2, left_pad + (j + 1) * 2))) (seq 0 remainder)
                  else [] in
      Ok (2 * n_rows, 2 * n_cols, full ++ tail)
  end.

(** ** _compute_bar_data *)

(** The bars of a plot: one value each, or the two columns of the metric both
    (plotting.py:304-327) *)
Inductive bars := Bars (v : list R) | Joined (final initial : list R).

(** plotting.py:306-311 np.divide with where= and out=zeros *)
Fixpoint pct_change (threshold : R) (data initial : list R) : list R :=
  match data, initial with
  | d :: data', i :: initial' => (if rlt threshold i then (d - i) / i else 0)%R :: pct_change threshold data' initial'
  | _, _ => []
  end.
(** plotting.py:306-311 *)
Fixpoint pointwise (f : R -> R -> R) (data initial : list R) : list R :=
  match data, initial with
  | d :: data', i :: initial' => f d i :: pointwise f data' initial'
  | _, _ => []
  end.

(** plotting.py:304-327 _compute_bar_data. Simplified: one column of floats on
    each side, with the same rows; another number of rows is an error. *)
Definition compute_bar_data (data initial : list R) (metric : string) (threshold : R) : res bars :=
  if negb (Nat.eqb (length data) (length initial)) then Err ValueError
  else if String.eqb metric "pct_change" then Ok (Bars (pct_change threshold data initial))
  else if String.eqb metric "change" then Ok (Bars (pointwise Rminus data initial))
  else if String.eqb metric "abs_change" then Ok (Bars (pointwise (fun d i => Rabs (d - i))%R data initial))
  else if String.eqb metric "final" then Ok (Bars data)
  else if String.eqb metric "initial" then Ok (Bars initial)
  else if String.eqb metric "both" then Ok (Joined data initial)
  else Err ValueError.

(** ** plot_areas *)

(** np.isclose(x, 0): |x| <= 1e-8 (plotting.py:280) *)
Definition is_close0 (x : R) : bool := negb (rlt (1 / 100000000) (Rabs x)).

(** l[~mask] and [a for a, m in zip(l, mask) if not m] (plotting.py:281-284) *)
Fixpoint unmasked {A} (l : list A) (mask : list bool) : list A :=
  match l, mask with
  | a :: l', m :: mask' => if m then unmasked l' mask' else a :: unmasked l' mask'
  | _, _ => []
  end.

(** squarify.plot: the areas in order, each with the label at its position if
    there is one (plotting.py:292-300) *)
Fixpoint label_areas (sizes : list R) (labels : list string) : list (R * option string) :=
  match sizes, labels with
  | [], _ => []
  | s :: sizes', [] => (s, None) :: label_areas sizes' []
  | s :: sizes', l :: labels' => (s, Some l) :: label_areas sizes' labels'
  end.

(** The same dims (plotting.py:260) *)
Fixpoint dims_eqb (a b : list string) : bool :=
  match a, b with
  | [], [] => true
  | x :: a', y :: b' => String.eqb x y && dims_eqb a' b'
  | _, _ => false
  end.

(** plotting.py:259-302 plot_areas: the areas of the two panels. [dims_of] is
    mod.get(var).dims; [initial] and [final] hold the flattened values of each
    variable before and after (at the last step). Simplified: labels are
    strings, arrays of different length are an error. *)
Definition plot_areas (dims_of : dict (list string)) (coords : dict (list string)) (initial final : dict (list R))
    (rename : dict string) (var_names : list string) : res (list (R * option string) * list (R * option string)) :=
  let* dims := map_res (fun v => dgetitem v dims_of) var_names in
  match dims with
  | [] => Err IndexError
  | d0 :: _ =>
      if negb (forallb (fun d => dims_eqb d d0) dims) then Err ValueError
      else
        let* labels := map_res (fun d => dgetitem d coords) d0 in
        let pretty := map (fun l => match dget l rename with Some r => r | None => l end) (List.concat labels) in
        match pretty with
        | [] => Err ValueError
        | _ =>
          let* pre := map_res (fun v => dgetitem v initial) var_names in
          let* post := map_res (fun v => dgetitem v final) var_names in
          let pre := List.concat pre in
          let post := List.concat post in
          if negb (Nat.eqb (length pre) (length post)) then Err ValueError
          else
            let mask := map (fun p => is_close0 (fst p) || is_close0 (snd p)) (combine pre post) in
            let shown := unmasked pretty mask in
            Ok (label_areas (unmasked pre mask) shown, label_areas (unmasked post mask) shown)
        end
  end.
