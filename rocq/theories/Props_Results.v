(** C28-C31: saved results. *)
From Verif Require Import Py PyStr M_Results S_Results L_Results L_Results2.
Local Open Scope string_scope.

(** C28 *)
Theorem c28_fresh :
  forall (R : Type) (date : string) (d : dir R) (name : string) (overwrite save : bool) (compute : res R),
  overwrite = true \/ dget (name ++ ".pkl") d = None ->
  snd (simulate_io date d name overwrite save compute) = compute.
Proof. exact @c28_fresh__p. Qed.
Print Assumptions c28_fresh.
Theorem c28_saved :
  forall (R : Type) (date : string) (d : dir R) (name : string) (overwrite save : bool) (compute : res R) (r : R),
  ends_with "pkl" name = false -> not_dots name ->
  (forall n, In n (dkeys d) -> ~ file_for name n) ->
  compute = Ok r ->
  let d' := fst (simulate_io date d name overwrite save compute) in
  if save then read_results d' name = Ok r else d' = d.
Proof. exact @c28_saved__p. Qed.
Print Assumptions c28_saved.
Theorem c28_other_scenario_refuted :
  forall (R : Type) (date today : string) (d : dir R) (use_euler : bool) (n_iter : nat) (use_optimizer : bool)
         (mode : string) (kwargs : list string) (save2 : bool) (r1 : R) (compute2 : res R),
  let name := default_name today use_euler n_iter use_optimizer mode kwargs in
  ends_with "pkl" name = false ->
  (forall n, In n (dkeys d) -> ~ file_for name n) ->
  let d1 := fst (simulate_io date d name false true (Ok r1)) in
  snd (simulate_io date d1 name false save2 compute2) = Ok r1.
Proof. exact @c28_other_scenario_refuted__p. Qed.
Print Assumptions c28_other_scenario_refuted.
Example c28_fresh_ex :
  let d := [("run.pkl", Whole 1); ("run(1).pkl", Whole 2)] in
  snd (simulate_io "2024-01-01" d "run" true true (Ok 3)) = Ok 3 /\
  snd (simulate_io "2024-01-01" d "other" false true (Ok 3)) = Ok 3 /\
  snd (simulate_io "2024-01-01" d "run" false true (Ok 3)) = Ok 2.
Proof. repeat split; vm_compute; reflexivity. Qed.
Example c28_saved_ex :
  let d := [("run.pkl", Whole 1); ("run(1).pkl", Whole 2)] in
  fst (simulate_io "2024-01-01" d "test" false true (Ok 3)) = (d ++ [("test.pkl", Whole 3)])%list /\
  ends_with "pkl" "test" = false /\ (forall n, In n (dkeys d) -> ~ file_for "test" n).
Proof.
  split; [vm_compute; reflexivity|]. split; [reflexivity|].
  intros n [<-|[<-|[]]] [H|(s & H)]; discriminate.
Qed.
(** The second call is given a scenario that would fail. *)
Example c28_other_scenario_ex :
  let name := default_name "2024-01-01" true 100 true "root" ["method=hybr"] in
  name = "Simulation_2024-01-01_Euler[steps=100]_root[method=hybr]" /\
  let d1 := fst (simulate_io "2024-01-01" [] name false true (Ok 5)) in
  simulate_io "2024-01-01" d1 name false true (Err ValueError) = (d1, Ok 5).
Proof. split; vm_compute; reflexivity. Qed.

(** C29 *)
Theorem c29_terminates :
  forall (R : Type) (d : dir R) (base ext : string) (fuel : nat),
  length d < fuel ->
  exists n, free_name fuel d base ext (base ++ ext) 1 = Some n /\
            free_name (S (length d)) d base ext (base ++ ext) 1 = Some n.
Proof. exact @c29_terminates__p. Qed.
Print Assumptions c29_terminates.
Example c29_terminates_ex :
  free_name 4 [("a.pkl", Whole 1); ("a(1).pkl", Cut); ("a(2).pkl", Whole 2)] "a" ".pkl" ("a" ++ ".pkl") 1 = Some "a(3).pkl" /\
  exists n, free_name 9 [("a.pkl", Whole 1); ("a(1).pkl", Cut); ("a(2).pkl", Whole 2)] "a" ".pkl" ("a" ++ ".pkl") 1 = Some n.
Proof.
  split; [vm_compute; reflexivity|]. destruct (@c29_terminates nat [("a.pkl", Whole 1); ("a(1).pkl", Cut); ("a(2).pkl", Whole 2)] "a" ".pkl" 9) as (n & E & _);
    [simpl; lia|]. exists n. exact E.
Qed.
Theorem c29_no_overwrite :
  forall (R : Type) (date : string) (d : dir R) (r : R) (filename : option string) (stem : string),
  let asked := match filename with None => date ++ ".pkl" | Some f => f end in
  (asked = stem ++ ".pkl" \/ asked = stem /\ forall t, stem <> t ++ ".pkl") ->
  (exists a b c, stem = a ++ String c b /\ c <> "."%char) ->
  let name k := match k with 0 => stem ++ ".pkl" | S _ => stem ++ "(" ++ str_of_nat k ++ ").pkl" end in
  exists d' k,
    write_results date d r filename false = Ok d' /\
    dget (name k) d = None /\ (forall j, j < k -> dget (name j) d <> None) /\
    dget (name k) d' = Some (Whole r) /\
    (forall n, n <> name k -> dget n d' = dget n d).
Proof. exact @c29_no_overwrite__p. Qed.
Print Assumptions c29_no_overwrite.
Theorem c29_existing_files_kept :
  forall (R : Type) (date : string) (d : dir R) (r : R) (filename : option string),
  exists d' n, write_results date d r filename false = Ok d' /\
    dget n d = None /\ dget n d' = Some (Whole r) /\ (forall k, k <> n -> dget k d' = dget k d).
Proof. exact @c29_existing_files_kept__p. Qed.
Print Assumptions c29_existing_files_kept.
Example c29_no_overwrite_ex :
  let d := [("a.pkl", Whole 1); ("a(1).pkl", Cut); ("a(3).pkl", Whole 2)] in
  write_results "2024-01-01" d 9 (Some "a") false = Ok (d ++ [("a(2).pkl", Whole 9)])%list /\
  write_results "2024-01-01" d 9 (Some "a.pkl") false = Ok (d ++ [("a(2).pkl", Whole 9)])%list /\
  write_results "2024-01-01" d 9 (Some "a.pkl.pkl") false = Ok (d ++ [("a.pkl.pkl", Whole 9)])%list /\
  write_results "2024-01-01" d 9 None false = Ok (d ++ [("2024-01-01.pkl", Whole 9)])%list.
Proof. repeat split; vm_compute; reflexivity. Qed.
(** The excluded case: for ".pkl" the next name is ".pkl(1)". *)
Example c29_dotfile_ex :
  write_results "2024-01-01" [(".pkl", Whole 1)] 9 (Some ".pkl") false = Ok [(".pkl", Whole 1); (".pkl(1)", Whole 9)].
Proof. vm_compute. reflexivity. Qed.

(** C30 *)
Theorem c30_latest_without_overwrite :
  forall (R : Type) (date : string) (d : dir R) (f : string) (h : list (string * R * bool)),
  ends_with "pkl" f = false -> not_dots f ->
  (forall n, In n (dkeys d) -> ~ file_for f n) ->
  (forall w r ow, In (w, r, ow) h -> ow = false /\ (asks_for f w \/ asks_for_other f w)) ->
  exists d', saves date d h = Ok d' /\
    read_results d' f = match latest f h with Some r => Ok r | None => Err FileNotFoundError end.
Proof. exact @c30_latest_without_overwrite__p. Qed.
Print Assumptions c30_latest_without_overwrite.
Theorem c30_latest_overwriting :
  forall (R : Type) (date : string) (d : dir R) (f : string) (h : list (string * R * bool)),
  ends_with "pkl" f = false ->
  (forall n, In n (dkeys d) -> ~ file_for f n) ->
  (forall w r ow, In (w, r, ow) h -> (ow = true /\ asks_for f w) \/ asks_for_other f w) ->
  exists d', saves date d h = Ok d' /\
    read_results d' f = match latest f h with Some r => Ok r | None => Err FileNotFoundError end.
Proof. exact @c30_latest_overwriting__p. Qed.
Print Assumptions c30_latest_overwriting.
Theorem c30_overwrite_after_suffix_refuted :
  forall (R : Type) (date : string) (f : string) (r1 r2 r3 : R),
  ends_with "pkl" f = false -> not_dots f ->
  exists d', saves date [] [(f, r1, false); (f, r2, false); (f, r3, true)] = Ok d' /\ read_results d' f = Ok r2.
Proof. exact @c30_overwrite_after_suffix_refuted__p. Qed.
Print Assumptions c30_overwrite_after_suffix_refuted.
Theorem c30_with_extension_refuted :
  exists (d' : dir nat),
    saves "2024-01-01" [] [("run.pkl", 1, false); ("run.pkl", 2, false)] = Ok d' /\
    read_results d' "run.pkl" = Ok 1 /\ read_results d' "run" = Ok 2.
Proof. exact @c30_with_extension_refuted__p. Qed.
Print Assumptions c30_with_extension_refuted.
Theorem c30_pkl_name_refuted :
  exists (d' : dir nat),
    saves "2024-01-01" [] [("runpkl", 1, false)] = Ok d' /\ read_results d' "runpkl" = Err FileNotFoundError.
Proof. exact @c30_pkl_name_refuted__p. Qed.
Print Assumptions c30_pkl_name_refuted.
Example c30_latest_without_overwrite_ex :
  let h := [("run", 1, false); ("other", 2, false); ("run.pkl", 3, false); ("other", 4, false)] in
  (forall w r ow, In (w, r, ow) h -> ow = false /\ (asks_for "run" w \/ asks_for_other "run" w)) /\
  not_dots "run" /\
  saves "2024-01-01" [] h =
    Ok [("run.pkl", Whole 1); ("other.pkl", Whole 2); ("run(1).pkl", Whole 3); ("other(1).pkl", Whole 4)] /\
  latest "run" h = Some 3.
Proof.
  split; [|split; [exists "", "un", "r"%char; split; [reflexivity|discriminate]|split; vm_compute; reflexivity]].
  assert (O : asks_for_other "run" "other") by (exists "other"; split; [now left|split; [|split]; reflexivity]).
  intros w r ow [H|[H|[H|[H|[]]]]]; injection H as <- <- <-; (split; [reflexivity|]); auto.
  - left. now left.
  - left. now right.
Qed.
Example c30_latest_overwriting_ex :
  let h := [("run", 1, true); ("other", 2, false); ("run.pkl", 3, true)] in
  saves "2024-01-01" [] h = Ok [("run.pkl", Whole 3); ("other.pkl", Whole 2)] /\ latest "run" h = Some 3.
Proof. split; vm_compute; reflexivity. Qed.
Example c30_overwrite_after_suffix_ex :
  match saves "2024-01-01" [] [("run", 1, false); ("run", 2, false); ("run", 3, true)] with
  | Ok d => d = [("run.pkl", Whole 3); ("run(1).pkl", Whole 2)] /\ read_results d "run" = Ok 2
  | Err _ => False
  end.
Proof. vm_compute. split; reflexivity. Qed.

(** C31 *)
Theorem c31_no_overwrite_keeps_files :
  forall (R : Type) (date : string) (d : dir R) (r : R) (filename : option string) (states : list (dir R)) (d' : dir R),
  write_states date d r filename false = Ok states -> In d' states ->
  forall n c, dget n d = Some c -> dget n d' = Some c.
Proof. exact @c31_no_overwrite_keeps_files__p. Qed.
Print Assumptions c31_no_overwrite_keeps_files.
Theorem c31_readable_by_file_name :
  forall (R : Type) (date : string) (d : dir R) (r r0 : R) (filename : option string) (f : string)
         (states : list (dir R)) (d' : dir R),
  write_states date d r filename false = Ok states -> In d' states ->
  dget (f ++ ".pkl") d = Some (Whole r0) -> contains "pkl" f = false ->
  (forall n, In n (dkeys d') -> String.prefix (f ++ ".(") n = false) ->
  read_results d' (f ++ ".pkl") = Ok r0.
Proof. exact @c31_readable_by_file_name__p. Qed.
Print Assumptions c31_readable_by_file_name.
Theorem c31_overwrite_refuted :
  forall (R : Type) (date : string) (d : dir R) (r r0 : R) (f : string),
  ends_with "pkl" f = false ->
  dget (f ++ ".pkl") d = Some (Whole r0) -> (forall s, ~ In (f ++ "(" ++ s ++ ").pkl") (dkeys d)) ->
  read_results d f = Ok r0 /\
  exists states d', write_states date d r (Some f) true = Ok states /\ In d' states /\
    read_results d' f = Err UnpicklingError /\ (forall n, dget n d' <> Some (Whole r0) \/ dget n d = dget n d').
Proof. exact @c31_overwrite_refuted__p. Qed.
Print Assumptions c31_overwrite_refuted.
Theorem c31_read_by_name_refuted :
  forall (R : Type) (date : string) (f : string) (r0 r : R),
  ends_with "pkl" f = false -> not_dots f ->
  exists d states d',
    write_results date [] r0 (Some f) false = Ok d /\ read_results d f = Ok r0 /\
    write_states date d r (Some f) false = Ok states /\ In d' states /\
    read_results d' f = Err UnpicklingError.
Proof. exact @c31_read_by_name_refuted__p. Qed.
Print Assumptions c31_read_by_name_refuted.
Example c31_readable_by_file_name_ex :
  let d := [("run.pkl", Whole 1); ("run(1).pkl", Whole 2)] in
  match write_states "2024-01-01" d 3 (Some "run") false with
  | Ok [d0; d1; d2] => d1 = (d ++ [("run(2).pkl", Cut)])%list /\
      read_results d1 "run.pkl" = Ok 1 /\ read_results d1 "run(1).pkl" = Ok 2 /\
      forallb (fun n => negb (String.prefix "run(1).(" n)) (dkeys d1) = true
  | _ => False
  end.
Proof. vm_compute. repeat split; reflexivity. Qed.
Example c31_overwrite_ex :
  let d := [("run.pkl", Whole 1)] in
  match write_states "2024-01-01" d 3 (Some "run") true with
  | Ok [d0; d1; d2] => read_results d "run" = Ok 1 /\ d1 = [("run.pkl", Cut)] /\ read_results d1 "run" = Err UnpicklingError
  | _ => False
  end.
Proof. vm_compute. repeat split; reflexivity. Qed.
