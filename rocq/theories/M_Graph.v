(** Inputs of pytensor graphs: packing of scalar symbols and validation
    (/repo/cge_modeling/compile/pytensor_tools.py:100-125, 185-217;
     compile/pytensor.py:35-72, 109-127). *)
From Verif Require Import Py PyStr NdArray M_Primitives M_Equations M_Registry.
Local Open Scope string_scope.

(** compile/pytensor_tools.py:190-216: one round of make_unpacked_to_packed_map
    for the scalar symbol [name]: the packed array it is replaced by, and the
    index into it ([] = the array itself, lines 204-206). [cache_names] are the
    names of the packed arrays, variables then parameters. *)
Definition packed_index (m : model) (cache_names : list string) (name : string) : res (string * list nat) :=
  let* parent := get_unpacked_parent_object m name in
  let* j := index_of String.eqb (o_base_name parent) cache_names in
  let* parent_pt := match nth_error cache_names j with Some n => Ok n | None => Err IndexError end in
  let* dim_idx := map_res (fun dim => let* labels := dgetitem dim (m_coords m) in
                                      let* v := dgetitem dim (o_dim_vals parent) in
                                      index_of label_eqb v labels) (o_dims parent) in
  Ok (parent_pt, dim_idx).

(** compile/pytensor_tools.py:185-217 make_unpacked_to_packed_map over the names
    of the unpacked cache. *)
Definition make_unpacked_to_packed_map (m : model) (cache_names : list string) (unpacked : list string)
  : res (dict (string * list nat)) :=
  let* l := map_res (fun n => let* p := packed_index m cache_names n in Ok (n, p)) unpacked in
  Ok (dict_of_list l).

(** The value of a scalar symbol in the replaced graph, on packed data
    (compile/pytensor_tools.py:185-217). *)
Definition packed_value {V} (data : dict (arr V)) (map_ : dict (string * list nat)) (name : string) : res V :=
  let* p := dgetitem name map_ in
  let* a := dgetitem (fst p) data in
  aget a (snd p).

(** ** Validation *)

(** A tensor expression: a name, a constant, or an operation on expressions.
    Function names and pt.<op> are not leaves (the argument of eval, compile/pytensor.py:64). *)
Inductive texpr := TName (s : string) | TConst | TOp (args : list texpr).

(** What a name means when the equations are evaluated: the symbolic tensor of
    the [k]-th declared object, or the module pt (the cache of compile/pytensor.py:64). *)
Inductive tvalue := TTensor (k : nat) | TModule.

(** compile/pytensor.py:59-60 with pytensor_tools.py:119-123: the cache from
    names to tensors; later objects of the same name replace earlier ones, and
    "pt" is overwritten by the module. *)
Definition make_cache (names : list string) : dict tvalue :=
  dset "pt" TModule (dict_of_list (combine names (map TTensor (seq 0 (length names))))).

(** compile/pytensor.py:64: eval(equation, cache). The result is represented by
    the tensors it is built from (explicit_graph_inputs, line 116). An unknown
    name raises NameError; the module used as a number raises TypeError. *)
Fixpoint graph_inputs (cache : dict tvalue) (e : texpr) : res (list nat) :=
  match e with
  | TConst => Ok []
  | TName s => match dget s cache with
               | None => Err NameError
               | Some TModule => Err TypeError
               | Some (TTensor k) => Ok [k]
               end
  | TOp args =>
      (fix go (l : list texpr) : res (list nat) :=
         match l with
         | [] => Ok []
         | a :: l' => let* x := graph_inputs cache a in
                      let* y := go l' in
                      Ok (x ++ y)%list
         end) args
  end.

(** membership in the explicit inputs, compile/pytensor.py:116 *)
Definition mem_nat (k : nat) (l : list nat) : bool := existsb (Nat.eqb k) l.

(** compile/pytensor.py:109-127 validate_pytensor_parsing_result on the list of
    declared tensors 0..n-1, the cache and the inputs of the equations. *)
Definition validate_parsing (n : nat) (cache : dict tvalue) (required : list nat) : res unit :=
  let declared := seq 0 n in
  let in_cache k := existsb (fun v => match v with TTensor j => Nat.eqb j k | TModule => false end) (dvals cache) in
  if negb (forallb in_cache declared) then Err ValueError
  else if existsb (fun k => negb (mem_nat k declared)) required then Err ValueError
  else if existsb (fun k => negb (mem_nat k required)) declared then Err ValueError
  else Ok tt.

(** compile/pytensor.py:50-72 followed by the validation: [names] are the names
    of the variables then the parameters. *)
Definition parse_and_validate (names : list string) (eqs : list texpr) : res unit :=
  let cache := make_cache names in
  let* ins := map_res (graph_inputs cache) eqs in
  validate_parsing (length names) cache (List.concat ins).
