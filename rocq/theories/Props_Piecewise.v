(** C96: Piecewise expressions printed for numba. *)
From Coq Require Import ZArith Lia.
From Verif Require Import Py PyStr M_Piecewise S_Piecewise L_Piecewise.
Local Open Scope string_scope.
Local Open Scope list_scope.

(** C96. A Piecewise of numbers with a final True is printed as one bracketed
    Python expression whose value is that of the first case that holds. *)
Theorem c96_value :
  forall (N C V : Type) (print_float : N -> string) (print_cond : C -> string) (atom : string -> option V) (truth : V -> bool)
         (value : N -> V) (holds : C -> bool) (cases : list (N * C)) (n : N) (c : C),
    (forall n c, In (n, c) cases -> readable print_float print_cond atom truth value holds n c) ->
    balanced (print_float n) -> python_value atom truth (print_float n) = Some (value n) -> print_cond c = "True"%string ->
    exists text,
      print_piecewise print_float print_cond (map (fun nc => (Number (fst nc), snd nc)) (cases ++ [(n, c)])) = Ok ("(" ++ text ++ ")")%string /\
      balanced text /\
      python_value atom truth ("(" ++ text ++ ")")%string = Some (first_case (map (fun nc => (value (fst nc), holds (snd nc))) cases) (value n)).
Proof. exact @c96_value__p. Qed.
Print Assumptions c96_value.

(** C96. Without a final True the value is None when no case holds. *)
Theorem c96_no_default :
  forall (N C V : Type) (print_float : N -> string) (print_cond : C -> string) (atom : string -> option V) (truth : V -> bool)
         (value : N -> V) (holds : C -> bool) (case : N * C) (cases : list (N * C)) (none : V),
    (forall n c, In (n, c) (case :: cases) -> readable print_float print_cond atom truth value holds n c) ->
    print_cond (snd (last (case :: cases) case)) <> "True"%string ->
    atom "None"%string = Some none ->
    exists text,
      print_piecewise print_float print_cond (map (fun nc => (Number (fst nc), snd nc)) (case :: cases)) = Ok ("(" ++ text ++ ")")%string /\
      balanced text /\
      python_value atom truth ("(" ++ text ++ ")")%string = Some (first_case (map (fun nc => (value (fst nc), holds (snd nc))) (case :: cases)) none).
Proof. exact @c96_no_default__p. Qed.
Print Assumptions c96_no_default.

(** C96, refuted for branches that are not numbers: no text is printed. *)
Theorem c96_symbolic_refuted :
  forall (N C : Type) (print_float : N -> string) (print_cond : C -> string) (cases : list (N * C)) (c : C) (rest : list (branch N * C)),
    print_piecewise print_float print_cond (map (fun nc => (Number (fst nc), snd nc)) cases ++ (Symbolic, c) :: rest) = Err TypeError.
Proof. exact @c96_symbolic_refuted__p. Qed.
Print Assumptions c96_symbolic_refuted.

(** Piecewise((1/2, x < 0), (2, (x < 1) if inside brackets), (3, True)) at x = 0,
    with values numbered: Z for numbers, 1 and 0 for true and false *)
Definition pw_atom (s : string) : option Z :=
  if String.eqb s "0.5" then Some 5%Z else if String.eqb s "2.0" then Some 20%Z else if String.eqb s "3.0" then Some 30%Z
  else if String.eqb s "numpy.less(x, 0)" then Some 0%Z else if String.eqb s "numpy.less(x, (1 if y else 2))" then Some 1%Z
  else if String.eqb s "None" then Some (-1)%Z else None.
Definition pw_float (n : Z) : string := if Z.eqb n 5 then "0.5" else if Z.eqb n 20 then "2.0" else "3.0".
Definition pw_cond (c : nat) : string :=
  match c with 0 => "numpy.less(x, 0)" | 1 => "numpy.less(x, (1 if y else 2))" | _ => "True" end.

(** A decision procedure for the examples: all the ways to cut a text *)
Fixpoint cuts (p s : string) : list (string * string) :=
  (p, s) :: match s with "" => [] | String c s' => cuts (p ++ String c "") s' end.
Lemma cuts_all q : forall a p, In ((a ++ p)%string, q) (cuts a (p ++ q)).
Proof.
  intros a p. revert a. induction p as [|c p IH]; intros a; cbn [append].
  - rewrite sapp_nil_r. destruct q; now left.
  - right. specialize (IH (a ++ String c "")%string). rewrite sapp_assoc in IH. exact IH.
Qed.
Definition cut_ok (pq : string * string) : bool :=
  (Z.leb 0 (depth (fst pq)) &&
   (negb (String.prefix " if" (snd pq)) || Z.ltb 0 (depth (fst pq))) &&
   (negb (String.prefix " else" (snd pq)) || Z.ltb 0 (depth (fst pq))))%bool.
Lemma operand_check s : (Z.eqb (depth s) 0 && forallb cut_ok (cuts "" s))%bool = true -> operand s.
Proof.
  intros H. apply Bool.andb_true_iff in H. destruct H as (D & F). apply Z.eqb_eq in D.
  rewrite forallb_forall in F.
  assert (X : forall p q, s = (p ++ q)%string -> cut_ok (p, q) = true).
  { intros p q ->. apply F. exact (cuts_all q "" p). }
  split; [split; [exact D|]|split].
  - intros p q E. specialize (X p q E). unfold cut_ok in X. cbn [fst snd] in X. rewrite !Bool.andb_true_iff in X.
    destruct X as ((X & _) & _). lia.
  - intros p q E. specialize (X p _ E). unfold cut_ok in X. cbn [fst snd] in X. rewrite !Bool.andb_true_iff in X.
    destruct X as ((_ & X) & _). rewrite prefix_app in X. cbn [negb orb] in X. lia.
  - intros p q E. specialize (X p _ E). unfold cut_ok in X. cbn [fst snd] in X. rewrite !Bool.andb_true_iff in X.
    destruct X as (_ & X). rewrite prefix_app in X. cbn [negb orb] in X. lia.
Qed.

Lemma pw_readable : forall n c, In (n, c) [(5%Z, 0); (20%Z, 1)] ->
  readable pw_float pw_cond pw_atom (Z.eqb 1) (fun n => n) (Nat.eqb 1) n c.
Proof.
  intros n c [E | [E | []]]; injection E as <- <-;
    (split; [apply operand_check; reflexivity | split; [reflexivity | split; [apply operand_check; reflexivity|]]]).
  - exists 0%Z. split; reflexivity.
  - exists 1%Z. split; reflexivity.
Qed.

Example c96_value_ex :
  exists text,
    print_piecewise pw_float pw_cond [(Number 5%Z, 0); (Number 20%Z, 1); (Number 30%Z, 2)] = Ok ("(" ++ text ++ ")")%string /\
    text = "(0.5) if numpy.less(x, 0) else (2.0) if numpy.less(x, (1 if y else 2)) else (3.0)" /\
    python_value pw_atom (Z.eqb 1) ("(" ++ text ++ ")")%string = Some 20%Z.
Proof.
  destruct (@c96_value Z nat Z pw_float pw_cond pw_atom (Z.eqb 1) (fun n => n) (Nat.eqb 1) [(5%Z, 0); (20%Z, 1)] 30%Z 2
              pw_readable ltac:(apply operand_check; reflexivity) eq_refl eq_refl) as (text & P & _ & V).
  exists text. split; [exact P|]. split; [|exact V].
  vm_compute in P. injection P as P. apply (@sapp_inv_tail _ _ ")"). symmetry. exact P.
Qed.

Example c96_no_default_ex :
  exists text,
    print_piecewise pw_float pw_cond [(Number 5%Z, 0)] = Ok ("(" ++ text ++ ")")%string /\
    text = "(0.5) if numpy.less(x, 0) else None" /\
    python_value pw_atom (Z.eqb 1) ("(" ++ text ++ ")")%string = Some (-1)%Z.
Proof.
  destruct (@c96_no_default Z nat Z pw_float pw_cond pw_atom (Z.eqb 1) (fun n => n) (Nat.eqb 1) (5%Z, 0) [] (-1)%Z
              ltac:(intros n c [E | []]; apply pw_readable; left; exact E) ltac:(discriminate) eq_refl) as (text & P & _ & V).
  exists text. split; [exact P|]. split; [|exact V].
  vm_compute in P. injection P as P. apply (@sapp_inv_tail _ _ ")"). symmetry. exact P.
Qed.

Example c96_symbolic_refuted_ex :
  print_piecewise pw_float pw_cond [(Number 5%Z, 0); (Symbolic, 2)] = Err TypeError.
Proof. exact (c96_symbolic_refuted pw_float pw_cond [(5%Z, 0)] 2 []). Qed.
