(** create_final_param_dict with numpy's in-place arithmetic made explicit.

    In base/utilities.py:456-462 the statements [scenario_params[k] += v] and
    [*= v] call ndarray.__iadd__/__imul__, which write into the array object
    the dictionary refers to; for Python floats and numpy scalars they rebind
    the dictionary entry. Line 432 deep-copies the initial dictionary first;
    copy.deepcopy keeps sharing between entries (its memo table).

    The heap maps locations (list positions) to array contents. Arrays are
    modelled as values of an arbitrary type [V]. *)
From Verif Require Import Py M_Utilities.

Section Heap.
Context {V : Type}.

(** A dictionary value: an immutable number or a reference to an array
    (base/utilities.py:426-464). *)
Inductive pyval := VNum (v : V) | VRef (loc : nat).
(** the arrays alive during base/utilities.py:426-464 *)
Definition heap := list V.

(** heap[loc] := v (base/utilities.py:457, 461) *)
Fixpoint hset (h : heap) (loc : nat) (v : V) : heap :=
  match h, loc with
  | [], _ => []
  | _ :: h', 0 => v :: h'
  | x :: h', S l => x :: hset h' l v
  end.

(** The number or array contents a dictionary value denotes (base/utilities.py:426-464). *)
Definition deref (h : heap) (x : pyval) : option V :=
  match x with VNum v => Some v | VRef l => nth_error h l end.

(** memo table lookup of copy.deepcopy (base/utilities.py:432) *)
Fixpoint memo_get (l : nat) (memo : list (nat * nat)) : option nat :=
  match memo with
  | [] => None
  | (a, b) :: memo' => if Nat.eqb l a then Some b else memo_get l memo'
  end.

(** copy.deepcopy of a dict of numbers and arrays (base/utilities.py:432).
    A dangling reference cannot occur in Python; the model raises. *)
Fixpoint deepcopy_go (h : heap) (memo : list (nat * nat)) (d : dict pyval)
  : res (heap * dict pyval) :=
  match d with
  | [] => Ok (h, [])
  | (k, VNum v) :: d' =>
      let* r := deepcopy_go h memo d' in
      Ok (fst r, (k, VNum v) :: snd r)
  | (k, VRef l) :: d' =>
      match memo_get l memo with
      | Some l' =>
          let* r := deepcopy_go h memo d' in
          Ok (fst r, (k, VRef l') :: snd r)
      | None =>
          match nth_error h l with
          | None => Err ValueError
          | Some v =>
              let l' := length h in
              let* r := deepcopy_go (h ++ [v]) ((l, l') :: memo) d' in
              Ok (fst r, (k, VRef l') :: snd r)
          end
      end
  end.
(** base/utilities.py:432 *)
Definition deepcopy (h : heap) (d : dict pyval) : res (heap * dict pyval) := deepcopy_go h [] d.

(** d[k] op= v (base/utilities.py:457, 461): in place for an array, rebinding
    for a number. *)
Definition apply_op_heap (op : V -> V -> res V) (s : heap * dict pyval) (kv : string * pyval)
  : res (heap * dict pyval) :=
  let '(h, d) := s in
  let* old := dgetitem (fst kv) d in
  match deref h (snd kv) with
  | None => Err ValueError
  | Some v =>
      match old with
      | VNum o => let* n := op o v in Ok (h, dset (fst kv) (VNum n) d)
      | VRef l =>
          match nth_error h l with
          | None => Err ValueError
          | Some o => let* n := op o v in Ok (hset h l n, d)
          end
      end
  end.

(** base/utilities.py:426-464 create_final_param_dict on a heap. *)
Definition create_final_param_dict_heap (vadd vmul : V -> V -> res V) (h : heap)
           (initial fv fd fp : dict pyval) : res (heap * dict pyval) :=
  let* c := deepcopy h initial in
  let all := (dkeys fv ++ dkeys fd ++ dkeys fp)%list in
  match all with
  | [] => Err ValueError
  | _ =>
    if has_repeat all then Err ValueError
    else
      let s0 := (fst c, dupdate (snd c) fv) in
      let* s1 := fold_res (apply_op_heap vadd) s0 fd in
      fold_res (apply_op_heap vmul) s1 fp
  end.
End Heap.
Arguments pyval V : clear implicits.
Arguments heap V : clear implicits.
