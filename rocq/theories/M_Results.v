(** Result files and the cache of simulate
    (/repo/cge_modeling/base/cge.py:965-975, 1065-1081, 1191-1249). *)
From Coq Require Import DecimalString.
From Verif Require Import Py PyStr.
Local Open Scope string_scope.

Section Results.
Context {R : Type}.

(** A file: a complete pickle of a result, or the bytes of an interrupted
    dump (possibly none) (base/cge.py:1216-1217, 1244-1245). *)
Inductive content := Whole (r : R) | Cut.

(** A directory: file name -> content. A missing directory behaves as an empty
    one: os.path.exists is False in it, write_results creates it
    (base/cge.py:1193-1194), and reading raises FileNotFoundError either way. *)
Definition dir := dict content.

(** base/cge.py:1197-1200: the file name asked for; [date] is today's date.
    Simplified: names without a path separator. *)
Definition target_name (date : string) (filename : option string) : string :=
  let filename := match filename with None => date ++ ".pkl" | Some f => f end in
  if ends_with ".pkl" filename then filename else filename ++ ".pkl".

(** os.path.splitext on a name without path separator: split at the last dot,
    unless only dots precede it (base/cge.py:1202). *)
Fixpoint all_dots (s : string) : bool :=
  match s with
  | EmptyString => true
  | String a s' => Ascii.eqb a "." && all_dots s'
  end.
(** base/cge.py:1202 *)
Fixpoint last_dot (s : string) : option (string * string) :=
  match s with
  | EmptyString => None
  | String a s' =>
      match last_dot s' with
      | Some (r, e) => Some (String a r, e)
      | None => if Ascii.eqb a "." then Some ("", s) else None
      end
  end.
(** os.path.splitext, base/cge.py:1202 *)
Definition splitext (s : string) : string * string :=
  match last_dot s with
  | Some (r, e) => if all_dots r then (s, "") else (r, e)
  | None => (s, "")
  end.

(** base/cge.py:1208: the k-th alternative name *)
Definition numbered (base ext : string) (k : nat) : string := base ++ "(" ++ str_of_nat k ++ ")" ++ ext.

(** base/cge.py:1206-1209: the while loop, cut off after [fuel] rounds. *)
Fixpoint free_name (fuel : nat) (d : dir) (base ext name : string) (counter : nat) : option string :=
  match fuel with
  | 0 => None
  | S f => if dmem name d then free_name f d base ext (numbered base ext counter) (counter + 1)
           else Some name
  end.

(** base/cge.py:1197-1214: the name that will be written. With more rounds
    than files the loop has ended (theorem c29_terminates); None is turned
    into an error to make that visible. *)
Definition output_name (date : string) (d : dir) (filename : option string) (overwrite : bool) : res string :=
  let '(base, ext) := splitext (target_name date filename) in
  if overwrite then Ok (base ++ ext)
  else match free_name (S (length d)) d base ext (base ++ ext) 1 with
       | Some n => Ok n
       | None => Err AssertionError
       end.

(** base/cge.py:1191-1217 write_results: the states of the directory after
    each of its effects: nothing done, file opened for writing (created or
    truncated) and possibly partly written, dump complete. *)
Definition write_states (date : string) (d : dir) (r : R) (filename : option string) (overwrite : bool)
  : res (list dir) :=
  let* n := output_name date d filename overwrite in
  Ok [d; dset n Cut d; dset n (Whole r) d].

(** base/cge.py:1191-1220 write_results run to the end *)
Definition write_results (date : string) (d : dir) (r : R) (filename : option string) (overwrite : bool)
  : res dir :=
  let* n := output_name date d filename overwrite in
  Ok (dset n (Whole r) d).

(** int(s) for a non-empty string of ASCII digits (the group \d+,
    base/cge.py:1232-1237). *)
Definition digits_value (s : string) : option nat :=
  match s with
  | EmptyString => None
  | _ => option_map (fun u => N.to_nat (Pos.of_uint u)) (NilEmpty.uint_of_string s)
  end.

(** base/cge.py:1232-1237: the match of ^base\((\d+)\)\.pkl$ against a file name.
    Simplified: ASCII digits, no trailing newline. *)
Definition suffix_of (base fname : string) : option nat :=
  if String.prefix base fname then
    match drop (slen base) fname with
    | String a rest =>
        if Ascii.eqb a "(" && ends_with ").pkl" rest
        then digits_value (take (slen rest - 5) rest) else None
    | EmptyString => None
    end
  else None.

(** base/cge.py:1231-1239: the largest suffix *)
Definition max_suffix (base : string) (d : dir) : nat :=
  fold_left (fun m fname => match suffix_of base fname with
                            | Some s => if Nat.ltb m s then s else m
                            | None => m
                            end) (dkeys d) 0.

(** base/cge.py:1244-1245: open and unpickle. An interrupted dump raises
    EOFError or UnpicklingError. *)
Definition load (d : dir) (name : string) : res R :=
  match dget name d with
  | None => Err FileNotFoundError
  | Some Cut => Err UnpicklingError
  | Some (Whole r) => Ok r
  end.

(** base/cge.py:1223-1249 read_results *)
Definition read_results (d : dir) (filename : string) : res R :=
  let '(base, filename) :=
    if negb (ends_with "pkl" filename) then (filename, filename ++ ".pkl")
    else (str_replace "pkl" "" filename, filename) in
  let m := max_suffix base d in
  load d (if Nat.ltb 0 m then base ++ "(" ++ str_of_nat m ++ ").pkl" else filename).

(** base/cge.py:965-971: the default simulation name. [kwargs] are the
    optimizer keyword arguments already printed as k=v. *)
Definition default_name (today : string) (use_euler : bool) (n_iter : nat) (use_optimizer : bool)
           (optimizer_mode : string) (kwargs : list string) : string :=
  "Simulation_" ++ today
    ++ (if use_euler then "_Euler[steps=" ++ str_of_nat n_iter ++ "]" else "")
    ++ (if use_optimizer then "_" ++ optimizer_mode ++ "[" ++ join "," kwargs ++ "]" else "").

(** base/cge.py:972-974, 1065-1081: simulate around the actual computation.
    [compute] is everything between the cache test and saving. *)
Definition simulate_io (date : string) (d : dir) (name : string) (overwrite save_results : bool)
           (compute : res R) : dir * res R :=
  if negb overwrite && dmem (name ++ ".pkl") d then (d, read_results d name)
  else match compute with
       | Err e => (d, Err e)
       | Ok r => if save_results then
                   match write_results date d r (Some name) overwrite with
                   | Ok d' => (d', Ok r)
                   | Err e => (d, Err e)
                   end
                 else (d, Ok r)
       end.
End Results.
Arguments content R : clear implicits.
Arguments dir R : clear implicits.
