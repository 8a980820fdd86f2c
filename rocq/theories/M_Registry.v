(** The CGEModel registries: construction, additions and lookup
    (/repo/cge_modeling/base/cge.py:71-234, 318-557;
     base/utilities.py:66-98). *)
From Verif Require Import Py PyStr M_Primitives M_Expand M_Equations.
Local Open Scope string_scope.

(** base/primitives.py:226-239 Equation: name, text and optional eq_id. *)
Record equation := MkEqn { q_name : string; q_text : string; q_id : option nat }.

(** A Python value passed where a model object is expected: a Variable or
    Parameter ([o_kind] tells which), an Equation, or anything else
    (the arguments of base/utilities.py:66-98). *)
Inductive pyobj := PObj (o : mobj) | PEqn (e : equation) | POther.

(** An argument that may be a single object or a list/tuple of them (base/utilities.py:82-98). *)
Inductive pyarg := One (x : pyobj) | Many (l : list pyobj).

(** base/utilities.py:82-98 ensure_input_is_sequence *)
Definition ensure_sequence (a : pyarg) : list pyobj :=
  match a with One x => [x] | Many l => l end.

(** base/utilities.py:66-79 _validate_input with cls Variable or Parameter;
    returns the object when it is an instance. *)
Definition kind_eqb (a b : kind) : bool :=
  match a, b with KVar, KVar | KPar, KPar => true | _, _ => false end.
(** base/utilities.py:66-79 *)
Definition validate_obj (k : kind) (x : pyobj) : res mobj :=
  match x with
  | PObj o => if kind_eqb (o_kind o) k then Ok o else Err ValueError
  | _ => Err ValueError
  end.
(** base/utilities.py:66-79 _validate_input with cls Equation *)
Definition validate_eqn (x : pyobj) : res equation :=
  match x with PEqn e => Ok e | _ => Err ValueError end.

(** What the equation registry can hold: parsed sympy equations with their
    eq_id (base/cge.py:436-446), plain equations (line 451), or — since
    add_pytensor_equation does not validate — any named object. *)
Inductive reqn := RSym (e : seqn) (eq_id : nat) | RText (e : equation) | RObj (o : mobj).

(** The attributes of CGEModel set in base/cge.py:138-158. *)
Record model := MkModel {
  m_coords : coords;
  m_sympy : bool;
  m_numeraire : option mobj;
  m_vars : dict mobj;
  m_pars : dict mobj;
  m_eqs : dict reqn;
  m_uvars : dict mobj;
  m_upars : dict mobj;
  m_ueqs : dict (option seqn)
}.
(** self._variables, base/cge.py:138-158 *)
Definition set_vars (m : model) d := MkModel (m_coords m) (m_sympy m) (m_numeraire m) d (m_pars m) (m_eqs m) (m_uvars m) (m_upars m) (m_ueqs m).
(** self._parameters, base/cge.py:138-158 *)
Definition set_pars (m : model) d := MkModel (m_coords m) (m_sympy m) (m_numeraire m) (m_vars m) d (m_eqs m) (m_uvars m) (m_upars m) (m_ueqs m).
(** self._equations, base/cge.py:138-158 *)
Definition set_eqs (m : model) d := MkModel (m_coords m) (m_sympy m) (m_numeraire m) (m_vars m) (m_pars m) d (m_uvars m) (m_upars m) (m_ueqs m).
(** self._unpacked_variables, base/cge.py:138-158 *)
Definition set_uvars (m : model) d := MkModel (m_coords m) (m_sympy m) (m_numeraire m) (m_vars m) (m_pars m) (m_eqs m) d (m_upars m) (m_ueqs m).
(** self._unpacked_parameters, base/cge.py:138-158 *)
Definition set_upars (m : model) d := MkModel (m_coords m) (m_sympy m) (m_numeraire m) (m_vars m) (m_pars m) (m_eqs m) (m_uvars m) d (m_ueqs m).
(** self._unpacked_equations, base/cge.py:138-158 *)
Definition set_ueqs (m : model) d := MkModel (m_coords m) (m_sympy m) (m_numeraire m) (m_vars m) (m_pars m) (m_eqs m) (m_uvars m) (m_upars m) d.
(** self.numeraire, base/cge.py:138, 158 *)
Definition set_numeraire (m : model) n := MkModel (m_coords m) (m_sympy m) n (m_vars m) (m_pars m) (m_eqs m) (m_uvars m) (m_upars m) (m_ueqs m).

(** A call that mutates a state [S] and then returns or raises: the state is
    kept also when it raises (the methods of base/cge.py:357-461). *)
Definition outcome (S : Type) : Type := (S * res unit)%type.

(** base/cge.py:318-331 _add_object on the dict of the group *)
Definition add_object {V} (d : dict V) (name : string) (v : V) (overwrite : bool) : outcome (dict V) :=
  if mem_str name (dkeys d) && negb overwrite then (d, Err ValueError)
  else (dset name v d, Ok tt).

(** A for loop whose body mutates the state and may raise
    (base/cge.py:363-364, 460-461). *)
Fixpoint loop {S X} (body : S -> X -> outcome S) (s : S) (l : list X) : outcome S :=
  match l with
  | [] => (s, Ok tt)
  | x :: l' => match body s x with
               | (s', Ok _) => loop body s' l'
               | (s', Err e) => (s', Err e)
               end
  end.

(** base/cge.py:357-364 _add_objects *)
Definition add_objects (d : dict mobj) (l : list mobj) (overwrite : bool) : outcome (dict mobj) :=
  loop (fun d o => add_object d (o_name o) o overwrite) d l.

(** base/cge.py:366-368, 381-383 add_parameter, add_variable *)
Definition add_variable (m : model) (x : pyobj) (overwrite : bool) : outcome model :=
  match validate_obj KVar x with
  | Err e => (m, Err e)
  | Ok o => let '(d, r) := add_object (m_vars m) (o_name o) o overwrite in (set_vars m d, r)
  end.
(** base/cge.py:366-368 *)
Definition add_parameter (m : model) (x : pyobj) (overwrite : bool) : outcome model :=
  match validate_obj KPar x with
  | Err e => (m, Err e)
  | Ok o => let '(d, r) := add_object (m_pars m) (o_name o) o overwrite in (set_pars m d, r)
  end.

(** base/cge.py:370-373, 385-388 add_parameters, add_variables: every argument
    is validated before the first is added. *)
Definition add_variables (m : model) (a : pyarg) (overwrite : bool) : outcome model :=
  match map_res (validate_obj KVar) (ensure_sequence a) with
  | Err e => (m, Err e)
  | Ok l => let '(d, r) := add_objects (m_vars m) l overwrite in (set_vars m d, r)
  end.
(** base/cge.py:370-373 *)
Definition add_parameters (m : model) (a : pyarg) (overwrite : bool) : outcome model :=
  match map_res (validate_obj KPar) (ensure_sequence a) with
  | Err e => (m, Err e)
  | Ok l => let '(d, r) := add_objects (m_pars m) l overwrite in (set_pars m d, r)
  end.

(** Parsing by sympy and reduction of sums (base/cge.py:398-434): an
    identifier of the expression and its dims, or None when sympy fails, which
    the code turns into ValueError. It sees the current variables, parameters,
    coords and numeraire. *)
Definition parser := dict mobj -> dict mobj -> coords -> option mobj -> string -> option (nat * list string).

(** base/cge.py:396-448 add_sympy_equation *)
Definition add_sympy_equation (parse : parser) (m : model) (x : pyobj) (overwrite : bool) : outcome model :=
  match validate_eqn x with
  | Err e => (m, Err e)
  | Ok q =>
      match parse (m_vars m) (m_pars m) (m_coords m) (m_numeraire m) (q_text q) with
      | None => (m, Err ValueError)
      | Some (id, dims) =>
          let eq_id := match q_id q with Some i => i | None => length (m_eqs m) + 1 end in
          let '(d, r) := add_object (m_eqs m) (q_name q) (RSym (MkSeqn id (q_name q) dims [] []) eq_id) overwrite in
          (set_eqs m d, r)
      end
  end.

(** base/cge.py:450-451 add_pytensor_equation: no validation; obj.name raises
    AttributeError on an object without a name. *)
Definition add_pytensor_equation (m : model) (x : pyobj) (overwrite : bool) : outcome model :=
  match x with
  | POther => (m, Err AttributeError)
  | PEqn q => let '(d, r) := add_object (m_eqs m) (q_name q) (RText q) overwrite in (set_eqs m d, r)
  | PObj o => let '(d, r) := add_object (m_eqs m) (o_name o) (RObj o) overwrite in (set_eqs m d, r)
  end.

(** base/cge.py:453-461 add_equations *)
Definition add_equations (parse : parser) (m : model) (a : pyarg) (overwrite : bool) : outcome model :=
  match map_res validate_eqn (ensure_sequence a) with
  | Err e => (m, Err e)
  | Ok l => loop (fun m x => if m_sympy m then add_sympy_equation parse m x overwrite
                             else add_pytensor_equation m x overwrite) m (ensure_sequence a)
  end.

(** The calls a user can make after construction (base/cge.py:366-373, 381-388, 396-461). *)
Inductive op :=
| AddVar (x : pyobj) (ow : bool) | AddVars (a : pyarg) (ow : bool)
| AddPar (x : pyobj) (ow : bool) | AddPars (a : pyarg) (ow : bool)
| AddSymEq (x : pyobj) (ow : bool) | AddPytEq (x : pyobj) (ow : bool)
| AddEqs (a : pyarg) (ow : bool).
(** base/cge.py:366-373, 381-388, 396-461 *)
Definition run_op (parse : parser) (m : model) (o : op) : outcome model :=
  match o with
  | AddVar x ow => add_variable m x ow
  | AddVars a ow => add_variables m a ow
  | AddPar x ow => add_parameter m x ow
  | AddPars a ow => add_parameters m a ow
  | AddSymEq x ow => add_sympy_equation parse m x ow
  | AddPytEq x ow => add_pytensor_equation m x ow
  | AddEqs a ow => add_equations parse m a ow
  end.
(** A program making these calls and catching their exceptions (base/cge.py:366-461). *)
Definition run (parse : parser) (m : model) (h : list op) : model :=
  fold_left (fun m o => fst (run_op parse m o)) h m.

(** ** Construction *)

(** Turn an outcome into a value: an exception inside __init__ leaves no model
    (base/cge.py:71-198). *)
Definition finish {S} (o : outcome S) : res S :=
  match o with (s, Ok _) => Ok s | (_, Err e) => Err e end.

(** Iterating over the raw argument in _unpack_objects (base/cge.py:349): a
    single Variable is not iterable; its __getitem__ fallback gets the integer
    0 and getattr raises TypeError. Elements were validated before. *)
Definition iterate (k : kind) (a : pyarg) : res (list mobj) :=
  match a with
  | One _ => Err TypeError
  | Many l => map_res (validate_obj k) l
  end.

(** base/cge.py:200-208, 385-394 _initialize_group(variables, "variables") *)
Definition init_variables (order : list string -> list string) (m : model) (a : option pyarg) : res model :=
  match a with
  | None => Ok m
  | Some a =>
      let* m := finish (add_variables m a false) in
      let* l := iterate KVar a in
      let* u := unpack_group order l (m_coords m) in
      Ok (set_uvars m u)
  end.

(** base/cge.py:200-208, 370-379 _initialize_group(parameters, "parameters") *)
Definition init_parameters (order : list string -> list string) (m : model) (a : option pyarg) : res model :=
  match a with
  | None => Ok m
  | Some a =>
      let* m := finish (add_parameters m a false) in
      let* l := iterate KPar a in
      let* u := unpack_group order l (m_coords m) in
      Ok (set_upars m u)
  end.

(** The name of a registered equation (base/cge.py:396-461). *)
Definition reqn_name (q : reqn) : string :=
  match q with RSym e _ => se_name e | RText e => q_name e | RObj o => o_name o end.
(** The sympy equations of the registry (base/cge.py:467): in sympy mode the
    constructor only registers those. *)
Definition reqn_sym (q : reqn) : res seqn :=
  match q with RSym e _ => Ok e | _ => Err AttributeError end.

(** base/cge.py:463-473 _unpack_equations *)
Definition unpack_equations (m : model) : res (dict (option seqn)) :=
  if m_sympy m then
    let* es := map_res reqn_sym (dvals (m_eqs m)) in
    let* g := unpack_equations_sympy es (m_coords m) in
    Ok (map (fun kv => (fst kv, Some (snd kv))) g)
  else
    let* names := unpack_equations_pytensor (map reqn_name (dvals (m_eqs m))) (m_coords m) in
    Ok (map (fun n => (n, None)) names).

(** base/cge.py:200-208, 453-473 _initialize_group(equations, "equations") *)
Definition init_equations (parse : parser) (m : model) (a : option pyarg) : res model :=
  match a with
  | None => Ok m
  | Some a =>
      let* m := finish (add_equations parse m a false) in
      let* u := unpack_equations m in
      Ok (set_ueqs m u)
  end.

(** base/cge.py:155-158: look the numeraire up among the variables *)
Definition choose_numeraire (m : model) (numeraire : option string) : res model :=
  match numeraire with
  | None => Ok m
  | Some n => match dget n (m_vars m) with
              | None => Err ValueError
              | Some o => Ok (set_numeraire m (Some o))
              end
  end.

(** base/cge.py:166-167: [if numeraire:] skips None and the empty string *)
Definition drop_numeraire (m : model) (numeraire : option string) : model :=
  match numeraire with
  | None | Some "" => m
  | Some n => set_vars m (ddel n (m_vars m))
  end.

(** base/cge.py:71-198 CGEModel.__init__ with check_initialization. The
    simplification of symbols (lines 163-164) changes only the "symbol"
    entries, see [symbol_of]; logging and the unset function slots are left
    out. *)
Definition construct (order : list string -> list string) (parse : parser) (c : coords)
           (vars pars eqs : option pyarg) (numeraire : option string) (sympy : bool) : res model :=
  let m := MkModel c sympy None [] [] [] [] [] [] in
  let* m := init_variables order m vars in
  let* m := choose_numeraire m numeraire in
  let* m := init_parameters order m pars in
  let* m := init_equations parse m eqs in
  let m := drop_numeraire m numeraire in
  if Nat.eqb (length (m_uvars m)) (length (m_ueqs m)) then Ok m else Err ValueError.

(** ** Lookup *)

(** A result that is a single object when exactly one was asked for (base/cge.py:475-540). *)
Inductive got (A : Type) := GotOne (a : A) | GotMany (l : list A).
Arguments GotOne {A} a. Arguments GotMany {A} l.
(** base/cge.py:475-540 *)
Definition unwrap {A} (l : list A) : got A := match l with [a] => GotOne a | _ => GotMany l end.

(** base/cge.py:516-522: the loop body of get *)
Definition get_one (m : model) (name : string) : res mobj :=
  if mem_str name (dkeys (m_vars m)) then dgetitem name (m_vars m)
  else if mem_str name (dkeys (m_pars m)) then dgetitem name (m_pars m)
  else Err ValueError.

(** base/cge.py:496-526 get; a single string is the one-element list
    (lines 512-513) *)
Definition get (m : model) (names : option (list string)) : res (got mobj) :=
  let names := match names with Some l => l | None => (dkeys (m_pars m) ++ dkeys (m_vars m))%list end in
  let* out := map_res (get_one m) names in
  Ok (unwrap out).

(** base/cge.py:210-234: after simplification the symbol of an unpacked object
    is a sympy Symbol with the indexed name and the object's assumptions. *)
Record symbol := MkSymbol { sy_name : string; sy_real : bool; sy_positive : bool }.
(** base/cge.py:210-234 *)
Definition symbol_of (u : mobj) : symbol := MkSymbol (make_indexed_name u) (o_real u) (o_positive u).

(** self._unpacked_...[name]["symbol"]: the key exists in sympy mode only
    (base/cge.py:254, 280, 300, 537-539) *)
Definition symbol_entry (m : model) (name : string) (d : dict mobj) : res symbol :=
  let* u := dgetitem name d in
  if m_sympy m then Ok (symbol_of u) else Err KeyError.

(** What get_symbol iterates over: strings or (line 530) sympy symbols. *)
Inductive name_or_symbol := NName (s : string) | NSym (s : symbol).

(** base/cge.py:535-544: the loop body of get_symbol; a Symbol is never equal
    to a str, so it is in neither list. *)
Definition get_symbol_one (m : model) (n : name_or_symbol) : res symbol :=
  match n with
  | NSym _ => Err ValueError
  | NName name =>
      if mem_str name (dkeys (m_upars m)) then symbol_entry m name (m_upars m)
      else if mem_str name (dkeys (m_uvars m)) then symbol_entry m name (m_uvars m)
      else Err ValueError
  end.

(** base/cge.py:528-549 get_symbol *)
Definition get_symbol (m : model) (names : option (list string)) : res (got symbol) :=
  let* ns := match names with
             | Some l => Ok (map NName l)
             | None => let* syms := map_res (fun n => symbol_entry m n (m_upars m)) (dkeys (m_upars m)) in
                       Ok (map NName (dkeys (m_upars m)) ++ map NSym syms)%list
             end in
  let* out := map_res (get_symbol_one m) ns in
  Ok (unwrap out).

(** base/cge.py:551-557 get_unpacked_parent_object *)
Definition get_unpacked_parent_object (m : model) (name : string) : res mobj :=
  if mem_str name (dkeys (m_uvars m)) then dgetitem name (m_uvars m)
  else if mem_str name (dkeys (m_upars m)) then dgetitem name (m_upars m)
  else Err ValueError.

(** base/cge.py:475-494 get_variables / get_parameters on the group's dict *)
Definition get_group {V} (d : dict V) (names : option (list string)) : res (list V) :=
  map_res (fun n => dgetitem n d) (match names with Some l => l | None => dkeys d end).
