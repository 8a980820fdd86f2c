(** Specification vocabulary for the registries (C19-C23): ordered maps and
    sequences of requested additions. Used by statements only. *)
From Verif Require Import Py M_Primitives M_Equations M_Registry.
Local Open Scope string_scope.

(** An ordered map: a partial function and the order of first insertion. *)
Record omap (V : Type) := MkOmap { val_at : string -> option V; names_of : list string }.

Definition insert {V} (n : string) (v : V) (a : omap V) : omap V :=
  MkOmap (fun k => if string_dec k n then Some v else val_at a k)
         (if in_dec string_dec n (names_of a) then names_of a else names_of a ++ [n]).

(** A dict holds the same content as an ordered map, each name once. *)
Definition represents {V} (d : dict V) (a : omap V) : Prop :=
  dkeys d = names_of a /\ NoDup (names_of a) /\ forall n, dget n d = val_at a n.

(** A request looks at the map and asks for an addition, or is itself
    refused. *)
Definition request (V : Type) := omap V -> option (string * V).

(** Requests are served in order until the first that is refused: either by
    itself or, without overwrite, because its name is taken. The flag tells
    whether all were served. *)
Inductive additions {V} (ow : bool) : omap V -> list (request V) -> omap V -> bool -> Prop :=
| add_none a : additions ow a [] a true
| add_one a r l n v a' b :
    r a = Some (n, v) -> (ow = true \/ ~ In n (names_of a)) ->
    additions ow (insert n v a) l a' b -> additions ow a (r :: l) a' b
| add_taken a r l n v :
    r a = Some (n, v) -> ow = false -> In n (names_of a) -> additions ow a (r :: l) a false
| add_refused a r l :
    r a = None -> additions ow a (r :: l) a false.

(** What a call asks of the variables (k = KVar) or parameters (k = KPar):
    nothing at all when one of the arguments has the wrong class. *)
Fixpoint objects_of (k : kind) (l : list pyobj) : option (list mobj) :=
  match l with
  | [] => Some []
  | PObj o :: l' =>
      match objects_of k l' with
      | Some os => if match o_kind o, k with KVar, KVar | KPar, KPar => true | _, _ => false end
                   then Some (o :: os) else None
      | None => None
      end
  | _ :: _ => None
  end.
Definition object_request (o : mobj) : request mobj := fun _ => Some (o_name o, o).

Fixpoint equations_of (l : list pyobj) : option (list equation) :=
  match l with
  | [] => Some []
  | PEqn q :: l' => option_map (cons q) (equations_of l')
  | _ :: _ => None
  end.
(** What adding an equation asks for in sympy mode: refused when the parser
    fails; a missing eq_id is the number of equations present plus one. *)
Definition sympy_request (p : string -> option (nat * list string)) (q : equation) : request reqn :=
  fun a => match p (q_text q) with
           | None => None
           | Some (id, dims) =>
               Some (q_name q, RSym (MkSeqn id (q_name q) dims [] [])
                                    (match q_id q with Some i => i | None => length (names_of a) + 1 end))
           end.
Definition text_request (q : equation) : request reqn := fun _ => Some (q_name q, RText q).
Definition any_request (x : pyobj) : request reqn :=
  fun _ => match x with
           | PEqn q => Some (q_name q, RText q)
           | PObj o => Some (o_name o, RObj o)
           | POther => None
           end.

(** The three registries as ordered maps. *)
Record regs := MkRegs { r_vars : omap mobj; r_pars : omap mobj; r_eqs : omap reqn }.
Definition holds (m : model) (a : regs) : Prop :=
  represents (m_vars m) (r_vars a) /\ represents (m_pars m) (r_pars a) /\ represents (m_eqs m) (r_eqs a).

(** What the objects of a call are. *)
Definition listed (a : pyarg) : list pyobj := match a with One x => [x] | Many l => l end.

(** Serving object requests, or refusing the call as a whole. *)
Definition serve {V} (ow : bool) (a : omap V) (reqs : option (list (request V))) (a' : omap V) (ok : bool) : Prop :=
  match reqs with
  | None => a' = a /\ ok = false
  | Some l => additions ow a l a' ok
  end.

(** One call; [p vars pars] is the parser in a model with these variables and
    parameters. *)
Inductive call_spec (sympy : bool) (p : dict mobj -> dict mobj -> string -> option (nat * list string))
          (vars pars : dict mobj) : regs -> op -> regs -> bool -> Prop :=
| spec_var a x ow v' ok :
    serve ow (r_vars a) (option_map (map object_request) (objects_of KVar [x])) v' ok ->
    call_spec sympy p vars pars a (AddVar x ow) (MkRegs v' (r_pars a) (r_eqs a)) ok
| spec_vars a x ow v' ok :
    serve ow (r_vars a) (option_map (map object_request) (objects_of KVar (listed x))) v' ok ->
    call_spec sympy p vars pars a (AddVars x ow) (MkRegs v' (r_pars a) (r_eqs a)) ok
| spec_par a x ow v' ok :
    serve ow (r_pars a) (option_map (map object_request) (objects_of KPar [x])) v' ok ->
    call_spec sympy p vars pars a (AddPar x ow) (MkRegs (r_vars a) v' (r_eqs a)) ok
| spec_pars a x ow v' ok :
    serve ow (r_pars a) (option_map (map object_request) (objects_of KPar (listed x))) v' ok ->
    call_spec sympy p vars pars a (AddPars x ow) (MkRegs (r_vars a) v' (r_eqs a)) ok
| spec_symeq a x ow v' ok :
    serve ow (r_eqs a) (option_map (map (sympy_request (p vars pars))) (equations_of [x])) v' ok ->
    call_spec sympy p vars pars a (AddSymEq x ow) (MkRegs (r_vars a) (r_pars a) v') ok
| spec_pyteq a x ow v' ok :
    serve ow (r_eqs a) (Some [any_request x]) v' ok ->
    call_spec sympy p vars pars a (AddPytEq x ow) (MkRegs (r_vars a) (r_pars a) v') ok
| spec_eqs a x ow v' ok :
    serve ow (r_eqs a)
          (option_map (map (if sympy then sympy_request (p vars pars) else text_request)) (equations_of (listed x))) v' ok ->
    call_spec sympy p vars pars a (AddEqs x ow) (MkRegs (r_vars a) (r_pars a) v') ok.

(** A model whose objects are all filed under their own names and kinds. *)
Definition well_filed (m : model) : Prop :=
  NoDup (dkeys (m_vars m)) /\ NoDup (dkeys (m_pars m)) /\ NoDup (dkeys (m_eqs m)) /\
  (forall n o, dget n (m_vars m) = Some o -> o_name o = n /\ o_kind o = KVar) /\
  (forall n o, dget n (m_pars m) = Some o -> o_name o = n /\ o_kind o = KPar) /\
  (forall n q, dget n (m_eqs m) = Some q -> reqn_name q = n).
