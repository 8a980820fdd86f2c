(** C51. *)
From Coq Require Import Reals Lra.
From Verif Require Import Py PyStr M_SymExpr M_Calculus S_Reduce M_Recursive S_Recursive L_Reduce L_NumbaStep.
Local Open Scope string_scope.
Local Open Scope list_scope.

Lemma put_fill known e : put known e = fill known e.
Proof. induction e; cbn; congruence. Qed.
Lemma value_fill v known e : agrees v known -> value v (fill known e) = value v e.
Proof.
  intros A. induction e; cbn [fill value]; auto; try congruence.
  destruct (dget s known) eqn:E; auto. symmetry. now apply A.
Qed.
Lemma holds_fill v known e : agrees v known -> holds v (fill known e) <-> holds v e.
Proof. intros A. unfold holds. now rewrite value_fill. Qed.
Lemma value_ext v w e : (forall s, In s (atoms e) -> v s = w s) -> value v e = value w e.
Proof.
  induction e; cbn [atoms value]; intros H; auto.
  - apply H. now left.
  - rewrite IHe1, IHe2; auto; intros; apply H; apply in_app_iff; auto.
  - now rewrite IHe.
Qed.
Lemma value_const v w e : constant e -> value v e = value w e.
Proof. intros C. apply value_ext. rewrite C. intros s []. Qed.
Lemma fill_const known e : constant e -> fill known e = e.
Proof.
  unfold constant. induction e; cbn; intros C; auto; try discriminate.
  - apply app_eq_nil in C as (C1 & C2). now rewrite IHe1, IHe2.
  - now rewrite IHe.
  - now rewrite IHe.
Qed.
Lemma atoms_fill known e s : (forall s c, dget s known = Some c -> constant c) ->
  In s (atoms (fill known e)) -> In s (atoms e) /\ dget s known = None.
Proof.
  intros K. induction e; cbn [fill]; try (cbn; tauto).
  - destruct (dget s0 known) eqn:E.
    + rewrite (K _ _ E). intros [].
    + cbn. intros [<-|[]]. auto.
  - cbn [atoms]. rewrite !in_app_iff. tauto.
Qed.
Lemma free_in e s : In s (free_symbols e) <-> In s (atoms e).
Proof. apply nodup_In. Qed.
Lemma free_nil e : free_symbols e = [] -> constant e.
Proof.
  intros F. unfold constant. destruct (atoms e) as [|a l] eqn:A; auto.
  assert (In a (free_symbols e)) by (apply free_in; rewrite A; now left). rewrite F in H. destruct H.
Qed.
Lemma free_one e x : free_symbols e = [x] -> forall s, In s (atoms e) <-> s = x.
Proof. intros F s. rewrite <- free_in, F. cbn. intuition. Qed.
Lemma free_two e x y l : free_symbols e = x :: y :: l -> x <> y /\ In x (atoms e) /\ In y (atoms e).
Proof.
  intros F. assert (N : NoDup (free_symbols e)) by apply NoDup_nodup. rewrite F in N. inversion N; subst.
  split; [intros ->; apply H1; now left|]. rewrite <- !free_in, F. cbn. auto.
Qed.

(** * One pass *)
Definition few (e : sexpr) : bool := match free_symbols e with [] | [_] => true | _ => false end.

Lemma list_remove_pre x pre l : (forall y, In y pre -> y <> x) -> list_remove x (pre ++ x :: l) = Ok (pre ++ l).
Proof.
  induction pre as [|y pre IH]; cbn; intros H.
  - now rewrite (proj2 (sexpr_eqb_eq x x) eq_refl).
  - destruct (sexpr_eqb y x) eqn:E; [apply sexpr_eqb_eq in E; exfalso; apply (H y); auto|]. rewrite IH by auto. reflexivity.
Qed.
Lemma remove_few l : forall pre, (forall y, In y pre -> few y = false) ->
  fold_res (fun l eq => list_remove eq l) (pre ++ l) (filter few l) = Ok (pre ++ filter (fun e => negb (few e)) l).
Proof.
  induction l as [|e l IH]; intros pre P; cbn [filter]; [reflexivity|]. destruct (few e) eqn:F; cbn [negb fold_res].
  - rewrite list_remove_pre by (intros y Hy ->; rewrite P in F; [discriminate|auto]). cbn [bind]. now apply IH.
  - replace (pre ++ e :: l) with ((pre ++ [e]) ++ l) by (rewrite <- app_assoc; reflexivity).
    rewrite IH; [rewrite <- app_assoc; reflexivity|]. intros y Hy. apply in_app_iff in Hy as [Hy|[<-|[]]]; auto.
Qed.

Section Run.
Context (simplify evalf : sexpr -> sexpr) (solve : sexpr -> string -> list sexpr).
Notation try_ := (try_equation evalf solve).

Lemma try_remove l : forall st, ps_remove (fold_left try_ l st) = ps_remove st ++ filter few l.
Proof.
  induction l as [|e l IH]; intros st; cbn [fold_left filter]; [now rewrite app_nil_r|].
  rewrite IH. unfold try_equation, few. destruct (free_symbols e) as [|x [|y r]]; cbn [ps_remove]; auto; rewrite <- app_assoc; reflexivity.
Qed.
Lemma one_pass_eq known unsolved :
  let l := map (fun eq => simplify (fill known eq)) unsolved in
  let st := fold_left try_ l {| ps_known := known; ps_found := false; ps_remove := [] |} in
  one_pass simplify evalf solve known unsolved = Ok (ps_known st, ps_found st, filter (fun e => negb (few e)) l).
Proof.
  intros l st. unfold one_pass. fold l. fold st. unfold st at 1. rewrite try_remove. cbn [ps_remove app].
  assert (Q := @remove_few l [] (fun y (F : In y []) => match F with end)). cbn [app] in Q. rewrite Q. reflexivity.
Qed.
(** The keys added are free in some equation of the pass *)
Lemma try_known l : forall st s, (forall e, In e l -> ~ In s (atoms e)) -> dget s (ps_known (fold_left try_ l st)) = dget s (ps_known st).
Proof.
  induction l as [|e l IH]; intros st s H; cbn [fold_left]; auto. rewrite IH by (intros; apply H; now right).
  unfold try_equation. destruct (free_symbols e) as [|x [|y r]] eqn:F; auto. cbn [ps_known]. apply dget_dset_other.
  intros ->. apply (H e); [now left|]. apply free_in. rewrite F. now left.
Qed.
Lemma try_found l : forall st, ps_found (fold_left try_ l st) = (ps_found st || existsb (fun e => Nat.eqb (length (free_symbols e)) 1) l)%bool.
Proof.
  induction l as [|e l IH]; intros st; cbn [fold_left existsb]; [now rewrite orb_false_r|]. rewrite IH. unfold try_equation.
  destruct (free_symbols e) as [|x [|y r]]; cbn; auto. now rewrite orb_true_r.
Qed.
Lemma try_keys l : forall st s, dget s (ps_known st) <> None -> dget s (ps_known (fold_left try_ l st)) <> None.
Proof.
  induction l as [|e l IH]; intros st s H; cbn [fold_left]; auto. apply IH. unfold try_equation.
  destruct (free_symbols e) as [|x [|y r]] eqn:F; auto. cbn [ps_known]. destruct (String.string_dec s x) as [->|N].
  - rewrite dget_dset_same. discriminate.
  - now rewrite dget_dset_other.
Qed.
Lemma try_keys_in l : forall st e x, In e l -> free_symbols e = [x] -> dget x (ps_known (fold_left try_ l st)) <> None.
Proof.
  induction l as [|e' l IH]; intros st e x H F; [destruct H|]. cbn [fold_left]. destruct H as [->|H]; [|eapply IH; eauto].
  apply try_keys. unfold try_equation. rewrite F. cbn [ps_known]. rewrite dget_dset_same. discriminate.
Qed.
Definition consts (known : dict sexpr) : Prop := forall s c, dget s known = Some c -> constant c.
Definition extends (known known' : dict sexpr) : Prop := forall s c, dget s known = Some c -> dget s known' = Some c.
Lemma agrees_extends v k k' : extends k k' -> agrees v k' -> agrees v k.
Proof. intros E A s c H. apply A. now apply E. Qed.

Context (GS : good_simplify simplify).
Lemma pass_extends known l0 : consts known ->
  let l := map (fun eq => simplify (fill known eq)) l0 in
  forall b r, extends known (ps_known (fold_left try_ l {| ps_known := known; ps_found := b; ps_remove := r |})).
Proof.
  intros K l b r s c H. rewrite try_known; auto. intros e He. apply in_map_iff in He as (e0 & <- & _). intros A.
  apply GS in A. apply atoms_fill in A as (_ & A); auto. congruence.
Qed.

Section Solution.
Context (GE : good_evalf evalf) (vs : string -> R).
Lemma try_good l : forall st, consts (ps_known st) -> agrees vs (ps_known st) ->
  (forall e x, In e l -> free_symbols e = [x] -> exists r rest, solve e x = r :: rest /\ constant r /\ value vs r = vs x) ->
  consts (ps_known (fold_left try_ l st)) /\ agrees vs (ps_known (fold_left try_ l st)).
Proof.
  induction l as [|e l IH]; intros st K A H; cbn [fold_left]; auto. 
  assert (G : consts (ps_known (try_ st e)) /\ agrees vs (ps_known (try_ st e))).
  { unfold try_equation. destruct (free_symbols e) as [|x [|y r]] eqn:F; auto. cbn [ps_known].
    destruct (H e x (or_introl eq_refl) F) as (r & rest & -> & C & V). rewrite fill_const by auto. destruct (@GE r C) as (C' & V'). split.
    - intros s c. destruct (String.string_dec s x) as [->|N]; [rewrite dget_dset_same; intros Q; now injection Q as <-|]. rewrite dget_dset_other by auto. apply K.
    - intros s c. destruct (String.string_dec s x) as [->|N]; [rewrite dget_dset_same; intros Q; injection Q as <-; now rewrite V'|]. rewrite dget_dset_other by auto. apply A. }
  destruct G. apply IH; auto. intros; apply H; auto. now right.
Qed.

Context (equations : list sexpr) (SOL : forall e, In e equations -> holds vs e).
Context (SV : forall e x, reduced simplify vs equations e -> (forall s, In s (atoms e) <-> s = x) ->
   exists r rest, solve e x = r :: rest /\ constant r /\ value vs r = vs x).
Lemma reduced_holds e : reduced simplify vs equations e -> holds vs e.
Proof. induction 1; auto. apply GS. rewrite put_fill. now apply holds_fill. Qed.

Definition invariant (known0 known : dict sexpr) (unsolved : list sexpr) : Prop :=
  consts known /\ agrees vs known /\ extends known0 known /\
  (forall u, In u unsolved -> reduced simplify vs equations u) /\
  (forall e, In e equations -> (forall v, agrees v known -> holds v e) \/
     exists u, In u unsolved /\ forall v, agrees v known -> (holds v u <-> holds v e)).

Lemma pass_invariant known0 known unsolved known' found unsolved' :
  invariant known0 known unsolved -> one_pass simplify evalf solve known unsolved = Ok (known', found, unsolved') -> invariant known0 known' unsolved'.
Proof.
  intros (K & A & X & Rd & I) H. rewrite one_pass_eq in H. set (l := map (fun eq => simplify (fill known eq)) unsolved) in *.
  set (st := fold_left try_ l _) in *. assert (E1 : ps_known st = known') by congruence. assert (E2 : filter (fun e => negb (few e)) l = unsolved') by congruence.
  clear H. subst known' unsolved'.
  assert (RL : forall e, In e l -> reduced simplify vs equations e).
  { intros e He. apply in_map_iff in He as (e0 & <- & He). rewrite <- put_fill. apply reduced_step; auto. }
  destruct (@try_good l {| ps_known := known; ps_found := false; ps_remove := [] |} K A) as (K' & A').
  { intros e x He F. apply SV; [auto|]. now apply free_one. }
  fold st in K', A'. assert (X' : extends known (ps_known st)) by (apply pass_extends; auto).
  split; [auto|]. split; [auto|]. split; [intros s c Hs; now apply X', X|]. split.
  { intros u Hu. apply filter_In in Hu. now apply RL. }
  intros e He. destruct (I e He) as [D|(u & Hu & Eq)].
  - left. intros v Av. apply D. eapply agrees_extends; eauto.
  - set (u' := simplify (fill known u)). assert (Hu' : In u' l) by (apply in_map_iff; exists u; split; [reflexivity|exact Hu]).
    assert (Eq' : forall v, agrees v (ps_known st) -> (holds v u' <-> holds v e)).
    { intros v Av. assert (Av' := agrees_extends X' Av). unfold u'. rewrite (proj1 (GS _)), holds_fill by auto. auto. }
    assert (Hs := reduced_holds (RL _ Hu')).
    destruct (few u') eqn:F.
    + left. intros v Av. apply Eq'; auto. unfold holds in *. rewrite <- Hs. apply value_ext. unfold few in F.
      destruct (free_symbols u') as [|x [|y r]] eqn:Fr; [|clear F|discriminate].
      * apply free_nil in Fr. rewrite Fr. intros s [].
      * intros s Ins. apply (free_one _ Fr) in Ins. subst s.
        destruct (dget x (ps_known st)) as [c|] eqn:Dx; [|exfalso; apply (@try_keys_in l {| ps_known := known; ps_found := false; ps_remove := [] |} u' x Hu' Fr); auto].
        rewrite (A' _ _ Dx), (Av _ _ Dx). apply value_const. eapply K'; eauto.
    + right. exists u'. split; auto. apply filter_In. rewrite F. auto.
Qed.
Lemma passes_invariant known0 n m : forall known unsolved known' unsolved', invariant known0 known unsolved ->
  passes simplify evalf solve m n known unsolved = Ok (known', unsolved') -> invariant known0 known' unsolved'.
Proof.
  induction m as [|m IH]; intros known unsolved known' unsolved' I H; cbn [passes] in H.
  - now injection H as <- <-.
  - destruct (one_pass simplify evalf solve known unsolved) as [((k1 & f1) & u1)|] eqn:E; [|discriminate]. cbn [bind] in H.
    assert (I1 := pass_invariant I E). destruct (Nat.eqb (length k1) n); [injection H as <- <-; auto|]. destruct (negb f1); [injection H as <- <-; auto|]. eapply IH; eauto.
Qed.
End Solution.
End Run.

Lemma c51_solution__p :
  forall simplify evalf solve, good_simplify simplify -> good_evalf evalf ->
  forall equations known max_iter v0,
    (forall s c, dget s known = Some c -> constant c) -> agrees v0 known ->
    (forall e, In e equations -> holds v0 e) ->
    (forall e x, reduced simplify v0 equations e -> (forall s, In s (atoms e) <-> s = x) ->
       exists r rest, solve e x = r :: rest /\ constant r /\ value v0 r = v0 x) ->
    forall result, recursive_solve_symbolic simplify evalf solve equations known max_iter = Ok result ->
      (forall s c, dget s known = Some c -> dget s result = Some c) /\
      agrees v0 result /\
      forall v, agrees v result -> forall e, In e equations -> holds v e.
Proof.
  intros simplify evalf solve GS GE equations known m v0 K A SOL SV result H. unfold recursive_solve_symbolic in H.
  destruct (passes simplify evalf solve m (length equations) known equations) as [(k & u)|] eqn:E; [|discriminate]. cbn [bind snd fst] in H.
  destruct u; [|discriminate]. injection H as <-.
  destruct (@passes_invariant simplify evalf solve GS GE v0 equations SOL SV known (length equations) m known equations k [] ) as (_ & A' & X & _ & I); auto.
  - split; [exact K|]. split; [exact A|]. split; [intros s c Hs; exact Hs|]. split; [intros u Hu; now apply reduced_eq|].
    intros e He. right. exists e. split; auto. tauto.
  - split; [exact X|]. split; [exact A'|]. intros v Av e He. destruct (I e He) as [D|(u & [] & _)]. now apply D.
Qed.

(** * Without assumptions on the solver *)
Lemma try_nothing evalf solve l : existsb (fun e => Nat.eqb (length (free_symbols e)) 1) l = false ->
  forall st, ps_known (fold_left (try_equation evalf solve) l st) = ps_known st.
Proof.
  induction l as [|a l IH]; intros F st; cbn [fold_left]; auto. cbn [existsb] in F. apply orb_false_iff in F as (F1 & F2). rewrite IH by auto.
  unfold try_equation. destruct (free_symbols a) as [|x [|y r]]; auto. discriminate.
Qed.
Section Any.
Context (simplify evalf : sexpr -> sexpr) (solve : sexpr -> string -> list sexpr) (GS : good_simplify simplify).
Notation try_ := (try_equation evalf solve).
Context (CE : forall e, constant e -> constant (evalf e)).
Context (CS : forall e x r, (forall s, In s (atoms e) <-> s = x) -> In r (solve e x) -> constant r).

Lemma try_consts l : forall st, consts (ps_known st) -> consts (ps_known (fold_left try_ l st)).
Proof.
  induction l as [|e l IH]; intros st K; cbn [fold_left]; auto. apply IH. unfold try_equation.
  destruct (free_symbols e) as [|x [|y r]] eqn:F; auto. cbn [ps_known].
  assert (C : constant (match solve e x with [] => SNum 0 | s :: _ => s end)).
  { destruct (solve e x) as [|r rest] eqn:Q; [reflexivity|]. apply (@CS e x); [now apply free_one|rewrite Q; now left]. }
  rewrite fill_const by auto. intros s c. destruct (String.string_dec s x) as [->|N]; [rewrite dget_dset_same; intros Q; injection Q as <-; now apply CE|].
  rewrite dget_dset_other by auto. apply K.
Qed.

Context (equations : list sexpr).
Definition inv2 (known0 known : dict sexpr) (unsolved : list sexpr) : Prop :=
  consts known /\ extends known0 known /\
  (forall u, In u unsolved -> exists e, In e equations /\ forall v, agrees v known -> (holds v u <-> holds v e)).
Definition stuck (known : dict sexpr) (unsolved : list sexpr) : Prop :=
  forall u, In u unsolved -> exists x y, x <> y /\ In x (atoms u) /\ In y (atoms u) /\ dget x known = None /\ dget y known = None.

Lemma pass_inv2 known0 known unsolved known' found unsolved' :
  inv2 known0 known unsolved -> one_pass simplify evalf solve known unsolved = Ok (known', found, unsolved') ->
  inv2 known0 known' unsolved' /\ (found = true -> length unsolved' < length unsolved) /\ (found = false -> stuck known' unsolved').
Proof.
  intros (K & X & I) H. rewrite one_pass_eq in H. set (l := map (fun eq => simplify (fill known eq)) unsolved) in *.
  set (st := fold_left try_ l _) in *. assert (E1 : ps_known st = known') by congruence. assert (E2 : filter (fun e => negb (few e)) l = unsolved') by congruence.
  assert (E3 : ps_found st = found) by congruence. clear H. subst known' unsolved' found.
  assert (X' : extends known (ps_known st)) by (apply pass_extends; auto). split; [|split].
  - split; [now apply try_consts|]. split; [intros s c Hs; now apply X', X|]. intros u Hu. apply filter_In in Hu as (Hu & _). apply in_map_iff in Hu as (u0 & <- & Hu).
    destruct (I u0 Hu) as (e & He & Q). exists e. split; auto. intros v Av. assert (Av' := agrees_extends X' Av). rewrite (proj1 (GS _)), holds_fill by auto. auto.
  - intros F. unfold st in F. rewrite try_found in F. cbn [ps_found orb] in F. apply existsb_exists in F as (e & He & Q).
    rewrite <- (map_length (fun eq => simplify (fill known eq)) unsolved). fold l. clear - He Q. assert (Fe : few e = true) by (unfold few; destruct (free_symbols e) as [|x [|y r]]; auto; discriminate).
    induction l as [|a l IH]; [destruct He|]. cbn [filter length]. assert (L : forall l, length (filter (fun e => negb (few e)) l) <= length l).
    { clear. induction l; cbn; auto. destruct (negb _); cbn; lia. }
    destruct He as [->|He].
    + rewrite Fe. cbn. specialize (L l). lia.
    + specialize (IH He). destruct (negb (few a)); cbn; lia.
  - intros F u Hu. apply filter_In in Hu as (Hu & Fu).
    assert (KS : ps_known st = known).
    { unfold st in F |- *. rewrite try_found in F. cbn [ps_found orb] in F. now rewrite try_nothing. }
    rewrite KS. unfold few in Fu. destruct (free_symbols u) as [|x [|y r]] eqn:Fr; try discriminate.
    destruct (free_two _ Fr) as (N & Ix & Iy). exists x, y. apply in_map_iff in Hu as (u0 & Eu & _).
    assert (U : forall s, In s (atoms u) -> dget s known = None).
    { intros s Hs. rewrite <- Eu in Hs. apply GS in Hs. now apply atoms_fill in Hs. }
    split; [exact N|]. auto 6.
Qed.

Lemma passes_inv2 known0 n m : forall known unsolved known' unsolved', inv2 known0 known unsolved ->
  passes simplify evalf solve m n known unsolved = Ok (known', unsolved') ->
  inv2 known0 known' unsolved' /\ (length unsolved < m -> length known' <> n -> stuck known' unsolved').
Proof.
  induction m as [|m IH]; intros known unsolved known' unsolved' I H; cbn [passes] in H.
  - injection H as <- <-. split; auto. lia.
  - destruct (one_pass simplify evalf solve known unsolved) as [((k1 & f1) & u1)|] eqn:E; [|discriminate]. cbn [bind] in H.
    destruct (pass_inv2 I E) as (I1 & P & Q). destruct (Nat.eqb_spec (length k1) n); [injection H as <- <-; split; auto; tauto|].
    destruct f1; cbn [negb] in H.
    + destruct (IH _ _ _ _ I1 H) as (I2 & Z). split; auto. intros L. apply Z. specialize (P eq_refl). lia.
    + injection H as <- <-. auto.
Qed.
Lemma passes_ok n m : forall known unsolved, exists r, passes simplify evalf solve m n known unsolved = Ok r.
Proof.
  induction m as [|m IH]; intros known unsolved; cbn [passes]; [eauto|]. rewrite one_pass_eq. cbn [bind].
  destruct (Nat.eqb _ n); eauto. destruct (negb _); eauto.
Qed.
End Any.

Lemma c51_initial_kept__p :
  forall simplify evalf solve, good_simplify simplify ->
    (forall e, constant e -> constant (evalf e)) ->
    (forall e x r, (forall s, In s (atoms e) <-> s = x) -> In r (solve e x) -> constant r) ->
  forall equations known max_iter result,
    (forall s c, dget s known = Some c -> constant c) ->
    recursive_solve_symbolic simplify evalf solve equations known max_iter = Ok result ->
    (forall s c, dget s known = Some c -> dget s result = Some c) /\
    (forall s c, dget s result = Some c -> constant c).
Proof.
  intros simplify evalf solve GS CE CS equations known m result K H. unfold recursive_solve_symbolic in H.
  destruct (passes simplify evalf solve m (length equations) known equations) as [(k & u)|] eqn:E; [|discriminate]. cbn [bind snd fst] in H.
  destruct u; [|discriminate]. injection H as <-.
  assert (I0 : inv2 equations known known equations).
  { split; [exact K|]. split; [intros s c Hs; exact Hs|]. intros e He. exists e. split; auto. tauto. }
  destruct (@passes_inv2 simplify evalf solve GS CE CS equations known (length equations) m known equations k [] I0 E) as ((K' & X & _) & _). split; auto.
Qed.

Lemma c51_stuck__p :
  forall simplify evalf solve, good_simplify simplify ->
    (forall e, constant e -> constant (evalf e)) ->
    (forall e x r, (forall s, In s (atoms e) <-> s = x) -> In r (solve e x) -> constant r) ->
  forall equations known max_iter err,
    (forall s c, dget s known = Some c -> constant c) -> length equations < max_iter ->
    recursive_solve_symbolic simplify evalf solve equations known max_iter = Err err ->
    err = ValueError /\
    exists known' rest, passes simplify evalf solve max_iter (length equations) known equations = Ok (known', rest) /\
      rest <> [] /\ (forall s c, dget s known = Some c -> dget s known' = Some c) /\
      forall u, In u rest ->
        (exists e, In e equations /\ forall v, agrees v known' -> (holds v u <-> holds v e)) /\
        (length known' <> length equations ->
         exists x y, x <> y /\ In x (atoms u) /\ In y (atoms u) /\ dget x known' = None /\ dget y known' = None).
Proof.
  intros simplify evalf solve GS CE CS equations known m err K L H. unfold recursive_solve_symbolic in H.
  destruct (passes_ok simplify evalf solve (length equations) m known equations) as ((k & u) & E). rewrite E in H. cbn [bind snd fst] in H.
  destruct u as [|u0 u]; [discriminate|]. split; [congruence|]. exists k, (u0 :: u). split; [exact E|]. split; [discriminate|].
  assert (I0 : inv2 equations known known equations).
  { split; [exact K|]. split; [intros s c Hs; exact Hs|]. intros e He. exists e. split; auto. tauto. }
  destruct (@passes_inv2 simplify evalf solve GS CE CS equations known (length equations) m known equations k (u0 :: u) I0 E) as ((_ & X & I) & St).
  split; [exact X|]. intros w Hw. split; [now apply I|]. intros N. now apply St.
Qed.
