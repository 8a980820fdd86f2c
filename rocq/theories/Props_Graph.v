(** C52-C53: inputs of the tensor graphs. *)
From Verif Require Import Py PyStr NdArray M_Primitives M_Utilities M_Expand M_Equations M_Registry M_Graph.
From Verif Require Import S_Layout S_Graph L_Graph.
Local Open Scope string_scope.
Local Open Scope list_scope.

(** C52 *)
Theorem c52_packed_value :
  forall (V : Type) (order : list string -> list string) (m : model) (vars params uvs ups : list mobj)
         (data : dict (arr V)) (xv xp : list V) (unpacked : list string),
  (forall o, In o (vars ++ params) -> NoDup (o_dims o) /\ o_dim_vals o = [] /\ o_base_name o = o_name o /\
                          exists a, dget (o_name o) data = Some a /\ fits (m_coords m) o a) ->
  (forall d ls, dget d (m_coords m) = Some ls -> NoDup ls) ->
  unpack_objects order vars (m_coords m) = Ok uvs -> unpack_objects order params (m_coords m) = Ok ups ->
  NoDup (map make_indexed_name (uvs ++ ups)) ->
  unpack_group order vars (m_coords m) = Ok (m_uvars m) ->
  unpack_group order params (m_coords m) = Ok (m_upars m) ->
  variable_dict_to_flat_array data vars params = Ok (xv, xp) ->
  (forall n, In n unpacked -> In n (dkeys (m_uvars m) ++ dkeys (m_upars m))) ->
  exists map_,
    make_unpacked_to_packed_map m (map o_name (vars ++ params)) unpacked = Ok map_ /\
    (forall n, In n (dkeys map_) <-> In n unpacked) /\
    length (dkeys (m_uvars m) ++ dkeys (m_upars m)) = length (xv ++ xp) /\
    (forall k n, In n unpacked -> nth_error (dkeys (m_uvars m) ++ dkeys (m_upars m)) k = Some n ->
       exists v, packed_value data map_ n = Ok v /\ nth_error (xv ++ xp) k = Some v).
Proof. exact @c52_packed_value__p. Qed.
Print Assumptions c52_packed_value.
Definition gx_coords : coords := [("i", [LStr "A"; LStr "B"]); ("j", [LStr "x"; LStr "y"])].
Definition gx_vars := [exobj KVar "Y" ["i"; "j"]; exobj KVar "w" []].
Definition gx_params := [exobj KPar "a" ["j"]].
Definition gx_data : dict (arr nat) :=
  [("Y", mkArr [2; 2] [1; 2; 3; 4]); ("w", mkArr [] [5]); ("a", mkArr [2] [6; 7])].
Definition gx_model : model :=
  match unpack_group (fun l => l) gx_vars gx_coords, unpack_group (fun l => l) gx_params gx_coords with
  | Ok uv, Ok up => MkModel gx_coords true None [] [] [] uv up []
  | _, _ => MkModel [] true None [] [] [] [] [] []
  end.
Example c52_ex :
  (forall o, In o (gx_vars ++ gx_params) -> NoDup (o_dims o) /\ o_dim_vals o = [] /\ o_base_name o = o_name o /\
                          exists a, dget (o_name o) gx_data = Some a /\ fits gx_coords o a) /\
  unpack_group (fun l => l) gx_vars gx_coords = Ok (m_uvars gx_model) /\
  unpack_group (fun l => l) gx_params gx_coords = Ok (m_upars gx_model) /\
  dkeys (m_uvars gx_model) ++ dkeys (m_upars gx_model) =
    ["Y_A_x"; "Y_A_y"; "Y_B_x"; "Y_B_y"; "w"; "a_x"; "a_y"] /\
  variable_dict_to_flat_array gx_data gx_vars gx_params = Ok ([1; 2; 3; 4; 5], [6; 7]) /\
  match make_unpacked_to_packed_map gx_model ["Y"; "w"; "a"] ["Y_B_x"; "a_y"; "w"] with
  | Ok d => d = [("Y_B_x", ("Y", [1; 0])); ("a_y", ("a", [1])); ("w", ("w", []))] /\
            packed_value gx_data d "Y_B_x" = Ok 3 /\ packed_value gx_data d "w" = Ok 5
  | Err _ => False
  end.
Proof.
  split.
  - intros o [<-|[<-|[<-|[]]]]; simpl; (split; [repeat constructor; simpl; intuition discriminate|]);
      (split; [reflexivity|]); (split; [reflexivity|]); eexists; (split; [reflexivity|]); split; try reflexivity;
      repeat constructor; eexists; split; reflexivity.
  - split; [vm_compute; reflexivity|]. split; [vm_compute; reflexivity|]. split; [vm_compute; reflexivity|].
    split; vm_compute; repeat split.
Qed.

(** C53 *)
Theorem c53_accepts_iff :
  forall (names : list string) (eqs : list texpr),
  NoDup names -> ~ In "pt"%string names ->
  (parse_and_validate names eqs = Ok tt <->
   forall s, In s names <-> exists e, In e eqs /\ uses s e).
Proof. exact @c53_accepts_iff__p. Qed.
Print Assumptions c53_accepts_iff.
Theorem c53_pt_rejected :
  forall (names : list string) (eqs : list texpr),
  In "pt"%string names -> NoDup names -> exists e, parse_and_validate names eqs = Err e.
Proof. exact @c53_pt_rejected__p. Qed.
Print Assumptions c53_pt_rejected.
Example c53_ex :
  let eqs := [TOp [TName "Y"; TOp [TName "a"; TConst]]; TOp [TName "Y"]] in
  parse_and_validate ["Y"; "a"] eqs = Ok tt /\
  parse_and_validate ["Y"; "a"; "b"] eqs = Err ValueError /\
  parse_and_validate ["Y"] eqs = Err NameError /\
  parse_and_validate ["Y"; "a"; "pt"] eqs = Err ValueError.
Proof. repeat split; vm_compute; reflexivity. Qed.
