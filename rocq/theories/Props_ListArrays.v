(** C25: trajectories that list_of_array_to_idata refuses. *)
From Coq Require Import QArith.
From Verif Require Import Py PyStr NdArray M_Primitives M_Utilities M_SimResult L_ListArrays.
Local Open Scope string_scope.
Local Open Scope list_scope.
Close Scope Q_scope.

(** C25 *)
Theorem c25_euler_refused :
  forall (V : Type) (c : coords) (vars params : list mobj) (arrays : list (arr V)),
    (arrays = [] -> list_of_array_to_idata arrays c vars params = Err IndexError) /\
    (forall a rest, arrays = a :: rest -> ashape a = [] -> list_of_array_to_idata arrays c vars params = Err TypeError) /\
    (forall a rest, arrays = a :: rest -> ashape a <> [] -> length arrays < length (vars ++ params) -> list_of_array_to_idata arrays c vars params = Err IndexError).
Proof. exact @c25_euler_refused__p. Qed.
Print Assumptions c25_euler_refused.

(** Two objects, but a single trajectory; and a single number *)
Definition la_obj (name : string) : mobj := MkObj KVar name [] [] name name name name true true 0.
Example c25_euler_refused_ex :
  list_of_array_to_idata [mkArr [2] [1; 2]] [] [la_obj "X"] [la_obj "T"] = Err IndexError /\
  list_of_array_to_idata [mkArr [] [1]; mkArr [] [2]] [] [la_obj "X"] [la_obj "T"] = Err TypeError.
Proof.
  split.
  - apply (proj2 (proj2 (c25_euler_refused [] [la_obj "X"] [la_obj "T"] [mkArr [2] [1; 2]])) (mkArr [2] [1; 2]) []); [reflexivity|discriminate|cbn; lia].
  - now apply (proj1 (proj2 (c25_euler_refused [] [la_obj "X"] [la_obj "T"] [mkArr [] [1]; mkArr [] [2]])) (mkArr [] [1]) [mkArr [] [2]]).
Qed.
