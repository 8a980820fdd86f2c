(** C110: a solution of the compiled system solves the written equations. *)
From Coq Require Import Ascii Reals Lra Lia ZArith.
From Verif Require Import Py PyStr NdArray M_Primitives M_Utilities M_PyExpr M_Expand M_Graph M_SymExpr M_Calculus M_Simplify M_Lambdify M_NumbaModel M_SympyTensor M_Equations M_Tensor M_Production M_Parse.
From Verif Require Import S_PyExpr S_Meaning S_Layout S_Tensor S_Calculus S_Reduce S_Simplify S_Lambdify S_NumbaModel S_SympyTensor S_Parse S_Written S_Production.
From Verif Require Import L_Markers L_Reduce L_Reduce5 L_PyExpr L_Production L_Production2 L_Production3 L_Production4 L_Production5 L_Production6 L_ArrayModel L_Simplify L_Simplify2 L_Lambdify L_NumbaModel L_SympyTensor2 L_Solved L_Tensor3 L_Parse L_Parse2 L_Parse3 L_Parse4 L_Written L_Written2 L_Written3 Props_Parse.
Local Open Scope string_scope.
Local Open Scope list_scope.

(** One model with a block of every kind, over the dims i and j with two labels
    each: two inputs X and Z at prices w and r make Y at the price P; M is a
    matrix of inputs at prices Q; U at the price V is made from the X over i *)
Definition wx_c : dict (list string) := [("i", ["a"; "b"]); ("j", ["p"; "q"])].
Definition wx_vars : list mobj :=
  [exobj KVar "X" ["i"]; exobj KVar "Z" ["i"]; exobj KVar "Y" ["i"]; exobj KVar "P" ["i"]; exobj KVar "w" ["i"]; exobj KVar "r" ["i"];
   exobj KVar "U" []; exobj KVar "V" []; exobj KVar "M" ["i"; "j"]].
Definition wx_params : list mobj :=
  [exobj KPar "s" ["i"]; exobj KPar "B" ["i"]; exobj KPar "A" []; exobj KPar "eps" []; exobj KPar "Q" ["i"; "j"]; exobj KPar "D" ["i"; "j"]].
Definition wx_objs : list mobj := wx_vars ++ wx_params.
(** A solution: prices and shares of inputs are a half, the elasticity is two,
    everything else is one *)
Definition wx_val (n : string) : R := if mem_str n ["w"; "r"; "s"; "Q"] then (/ 2)%R else if String.eqb n "eps" then 2%R else 1%R.
Definition wx_arr (o : mobj) : arr R := let shape := map (fun _ => 2) (o_dims o) in mkArr shape (repeat (wx_val (o_name o)) (prodn shape)).
Definition wx_d : dict (arr R) := map (fun o => (o_name o, wx_arr o)) wx_objs.
Definition wx_x : list R := flat_map (fun o => adata (wx_arr o)) wx_vars.
Definition wx_theta : list R := flat_map (fun o => adata (wx_arr o)) wx_params.

Definition wx_cd : list string := match fst (cobb_douglass (Many ["X"; "Z"]) (Many ["w"; "r"]) "Y" "P" (Many ["s"; "s"]) "A" true) with Ok l => l | _ => [] end.
Definition wx_ces : list string := match fst (CES (Many ["X"; "Z"]) (Many ["w"; "r"]) "Y" "P" "A" (Many ["s"; "s"]) "eps" None false) with Ok l => l | _ => [] end.
Definition wx_leontief : list string := match leontief (Many ["X"; "Z"]) (Many ["w"; "r"]) "Y" "P" (Many ["B"; "B"]) (One "i") wx_c None false false "numba" with Ok l => l | _ => [] end.
Definition wx_matrix : list string := match leontief (One "M") (One "Q") "Y" "P" (One "D") (Many ["i"; "j"]) wx_c None false false "numba" with Ok l => l | _ => [] end.
Definition wx_ds : list string := match dixit_stiglitz (One "X") (One "w") "U" "V" "eps" "i" wx_c "numba" (Some "A") (Some (One "s")) false with Ok (a, b) => [a; b] | _ => [] end.
Definition wx_texts : list string := wx_cd ++ wx_ces ++ wx_leontief ++ wx_matrix ++ wx_ds.
Example wx_texts_are : wx_texts =
  ["Y * P = w * X + r * Z"; "X = (s) * Y * (P) / (w)"; "Z = (s) * Y * (P) / (r)"] ++ wx_ces ++
  ["Y = (w * X + r * Z) / (P)"; "X = Y * B"; "Z = Y * B"; "Y = Sum(Q * M, (j, 0, 1)) / P"; "M = D * Y";
   "U = A * Sum(s * X ** ((eps - 1) / eps), (i, 0, 1)) ** (eps / (eps - 1))"; "X = U / A * (A * s * V / w) ** eps"].
Proof. reflexivity. Qed.

Lemma wx_in n b : In n (map o_name wx_objs) -> unit_in wx_c wx_objs b n.
Proof.
  intros I. apply in_map_iff in I as (o & <- & I). exists (EWord (o_name o)). cbn in I.
  repeat (destruct I as [<-|I]; [split; [repeat constructor|apply in_object; [cbn; tauto|reflexivity|cbn; intuition discriminate]]|]). destruct I.
Qed.
Ltac known := apply wx_in; cbn; tauto.
Ltac all_known := repeat (constructor; [known|]); constructor.
Lemma wx_expr n b : In n (map o_name wx_objs) -> expr_in wx_c wx_objs b n.
Proof. intros I. destruct (@wx_in n b I) as (e & U & N). exists e. split; [|exact N]. unfold is_expr, is_unit in *. now apply G_term, G_factor, G_power, G_prim. Qed.

Lemma wx_value ix n : everywhere wx_c ix -> In n (map o_name wx_objs) -> array_values wx_objs wx_d n ix = Some (wx_val n).
Proof.
  intros E I. assert (Ei : ix "i" < 2) by (apply (E "i"); now left). assert (Ej : ix "j" < 2) by (apply (E "j"); right; now left). clear E.
  apply in_map_iff in I as (o & <- & I). cbn in I.
  repeat (destruct I as [<-|I]; [destruct (ix "i") as [|[|]] eqn:E1; try lia; destruct (ix "j") as [|[|]] eqn:E2; try lia; cbn; rewrite ?E1, ?E2; reflexivity|]). destruct I.
Qed.
Lemma wx_unit ix n : everywhere wx_c ix -> In n (map o_name wx_objs) -> unit_val (array_values wx_objs wx_d) ix n (wx_val n).
Proof.
  intros E I. exists (EWord n). assert (N : S_Meaning.number n = None /\ is_unit n (EWord n)).
  { cbn in I. repeat (destruct I as [<-|I]; [split; [reflexivity|repeat constructor]|]). destruct I. }
  split; [apply N|]. cbn [eval]. rewrite (proj1 N). now apply wx_value.
Qed.
Lemma wx_expr_val ix n : everywhere wx_c ix -> In n (map o_name wx_objs) -> expr_val (array_values wx_objs wx_d) ix n (wx_val n).
Proof. intros E I. destruct (@wx_unit ix n E I) as (e & U & V). exists e. split; [|exact V]. unfold is_expr, is_unit in *. now apply G_term, G_factor, G_power, G_prim. Qed.

Lemma Rpower_one x : Rpower 1 x = 1%R. Proof. unfold Rpower. now rewrite ln_1, Rmult_0_r, exp_0. Qed.
Definition wx_l (shares : list string) : list factor := map (fun z => mkFactor (fst (fst z)) (snd (fst z)) (snd z) 1 (/ 2) (wx_val (snd z))) (combine [("X", "w"); ("Z", "r")] shares).
Lemma wx_factors ix s1 s2 : everywhere wx_c ix -> In s1 (map o_name wx_objs) -> In s2 (map o_name wx_objs) -> Forall (factor_ok (array_values wx_objs wx_d) ix) (wx_l [s1; s2]).
Proof.
  intros E I1 I2.
  assert (F : forall n p s, In n ["X"; "Z"] -> In p ["w"; "r"] -> In s (map o_name wx_objs) -> factor_ok (array_values wx_objs wx_d) ix (mkFactor n p s 1 (/ 2) (wx_val s))).
  { intros n p s In' Ip Is. unfold factor_ok. cbn [f_name f_price f_share qty price share].
    split; [destruct In' as [<-|[<-|[]]]; [apply (@wx_unit ix "X")|apply (@wx_unit ix "Z")]; auto; cbn; tauto|].
    split; [destruct Ip as [<-|[<-|[]]]; [apply (@wx_unit ix "w")|apply (@wx_unit ix "r")]; auto; cbn; tauto|].
    split; [now apply wx_expr_val|]. split; [destruct In' as [<-|[<-|[]]]; reflexivity|lra]. }
  constructor; [apply F; cbn in *; tauto|]. constructor; [apply F; cbn in *; tauto|]. constructor.
Qed.
Ltac val n := (apply (@wx_unit _ n); [assumption|cbn; tauto]).

Ltac name := split; [discriminate|split; reflexivity].
Lemma wx_nodup : NoDup (map o_name wx_objs). Proof. cbn. nodup. Qed.
Lemma wx_equations : Forall (equation_in wx_c wx_objs) wx_texts.
Proof.
  unfold wx_texts. repeat (apply Forall_app; split).
  - apply (@c110_cobb_douglas_text__p wx_c wx_objs ["X"; "Z"] ["w"; "r"] ["s"; "s"] "Y" "P" "A" true); try reflexivity; [discriminate|all_known|all_known|repeat (constructor; [apply wx_expr; cbn; tauto|]); constructor|known..].
  - apply (@c110_ces_text__p wx_c wx_objs ["X"; "Z"] ["w"; "r"] ["s"; "s"] "Y" "P" "A" "eps" false); try reflexivity; [discriminate|all_known|all_known|repeat (constructor; [apply wx_expr; cbn; tauto|]); constructor|known..].
  - apply (@c110_leontief_text__p wx_c wx_objs ["X"; "Z"] ["w"; "r"] ["B"; "B"] "Y" "P" "i" wx_c None false false "numba"); try reflexivity; [all_known|all_known|all_known|known|apply wx_expr; cbn; tauto].
  - apply (@c110_leontief_matrix_text__p wx_c wx_objs "i" "j" ["p"; "q"] ["i"; "j"] None false false "M" "Q" "Y" "P" "D"). all: [> name|name|discriminate|now left|reflexivity|discriminate|discriminate|left; auto|cbn; intuition discriminate|name|name|all_known|reflexivity].
  - destruct (@c110_dixit_stiglitz_text__p wx_c wx_objs "i" ["a"; "b"] "X" "w" "U" "V" "eps" (Some "A") (Some "s") (nth 0 wx_ds "") (nth 1 wx_ds "")) as (H1 & H2); try reflexivity; try discriminate; try name;
      [cbn; intuition discriminate|all_known|intros s [E|E]; injection E as <-; known|]. constructor; [exact H1|constructor; [exact H2|constructor]].
Qed.
Lemma holds_same ix ix' s : In s wx_texts -> (forall x, ix x = ix' x) -> holds (array_values wx_objs wx_d) ix s -> holds (array_values wx_objs wx_d) ix' s.
Proof.
  intros I S. unfold holds. pose proof wx_equations as W. rewrite Forall_forall in W. destruct (W s I) as ((el & er & Q) & NA). rewrite !(@equation_meaning _ _ _ _ _ Q NA).
  destruct Q as (? & ? & _ & _ & _ & Nl & Nr). intros <-. symmetry. apply (@eval_same wx_c wx_objs wx_d true); [exact wx_nodup|now apply in_op|auto].
Qed.
Lemma wx_holds s ix : In s wx_texts -> everywhere wx_c ix -> holds (array_values wx_objs wx_d) ix s.
Proof.
  intros I E. unfold wx_texts in I. repeat (apply in_app_or in I; destruct I as [I|I]).
  - destruct (@c55_meaning__p (array_values wx_objs wx_d) ix (wx_l ["s"; "s"]) "Y" "P" "A" 1%R 1%R 1%R true) as (eqs & E1 & _ & H);
      [discriminate|apply wx_factors; [exact E|cbn; tauto..]|intros f [<-|[<-|[]]]; cbn; lra|val "Y"|reflexivity|val "P"|reflexivity|val "A"|].
    assert (eqs = wx_cd) as -> by (unfold wx_cd; cbn [map wx_l f_name f_price f_share combine fst snd] in E1; now rewrite E1). destruct H as (_ & H). rewrite Forall_forall in H. apply H; [|exact I].
    split; [cbn; lra|]. intros f [<-|[<-|[]]]; cbn; lra.
  - destruct (@c56_equivalent__p (array_values wx_objs wx_d) ix (wx_l ["s"; "s"]) "Y" "P" "A" "eps" 1%R 1%R 1%R 2%R) as (value & production & demands & EV & EP & HD & HV & HP & HE);
      [discriminate|apply wx_factors; [exact E|cbn; tauto..]|intros f [<-|[<-|[]]]; cbn; lra|lra|val "Y"|reflexivity|val "P"|reflexivity|val "A"|val "eps"|lra|lra|].
    assert (Q : production :: demands = wx_ces) by (unfold wx_ces; cbn [map wx_l f_name f_price f_share combine fst snd] in EP; now rewrite EP). rewrite <- Q in I.
    destruct I as [<-|I].
    + apply HP. cbn. rewrite !Rpower_one. replace (/ 2 * 1 + (/ 2 * 1 + 0))%R with 1%R by lra. rewrite Rpower_one. lra.
    + destruct HD as (_ & HD). rewrite Forall_forall in HD. apply HD; [|exact I]. intros f [<-|[<-|[]]]; cbn; (replace (/ 2 * 1 * 1 / / 2)%R with 1%R by lra; rewrite Rpower_one; lra).
  - destruct (@c57_one_dim__p (array_values wx_objs wx_d) ix (wx_l ["B"; "B"]) "Y" "P" "i" wx_c None false false "numba" 1%R 1%R) as (eqs & E1 & _ & H);
      [cbn; lia|apply wx_factors; [exact E|cbn; tauto..]|constructor; [|constructor; [|constructor]]; val "B"|val "Y"|reflexivity|apply (@wx_expr_val ix "P"); [exact E|cbn; tauto]|lra|lra|].
    assert (eqs = wx_leontief) as -> by (unfold wx_leontief; cbn [map wx_l f_name f_price f_share combine fst snd] in E1; now rewrite E1). destruct H as (_ & H). rewrite Forall_forall in H. apply H; [|exact I].
    split; [cbn; lra|]. intros f [<-|[<-|[]]]; cbn; lra.
  - assert (Ei : ix "i" < 2) by (apply (E "i"); now left). assert (Ej : ix "j" < 2) by (apply (E "j"); right; now left).
    assert (EV : forall i k, i < 2 -> k < 2 -> everywhere wx_c (at2 ix "i" "j" i k)) by (intros i k Hi Hk; unfold at2; eapply everywhere_upd; [eapply everywhere_upd; [exact E|reflexivity|exact Hi]|reflexivity|exact Hk]).
    assert (U2 : forall n, In n (map o_name wx_objs) -> unit_at2 (array_values wx_objs wx_d) ix "i" "j" 2 2 n (fun _ _ => wx_val n)).
    { intros n In'. destruct (@wx_unit (at2 ix "i" "j" 0 0) n) as (e & U & _); [apply EV; lia|exact In'|]. exists (EWord n).
      assert (N : S_Meaning.number n = None /\ is_unit n (EWord n)) by (cbn in In'; repeat (destruct In' as [<-|In']; [split; [reflexivity|repeat constructor]|]); destruct In').
      split; [apply N|]. intros i k Hi Hk. cbn [eval]. rewrite (proj1 N). apply wx_value; auto. }
    assert (NA : forall n, In n ["Y"; "P"] -> name_at (array_values wx_objs wx_d) ix "i" "j" 2 n (fun _ => 1%R)).
    { intros n In'. destruct In' as [<-|[<-|[]]]; (split; [name|split; [reflexivity|]]); intros i k Hi; destruct i as [|[|]]; try lia; reflexivity. }
    destruct (@c57_two_dims__p (array_values wx_objs wx_d) ix "i" "j" ["a"; "b"] ["p"; "q"] wx_c ["i"; "j"] None false false "M" "Q" "Y" "P" "D" (fun _ _ => 1%R) (fun _ _ => (/ 2)%R) (fun _ _ => 1%R) (fun _ => 1%R) (fun _ => 1%R)) as (eqs & E1 & H);
      try reflexivity; try discriminate; try name; [left; auto|apply (U2 "M"); cbn; tauto|apply (U2 "Q"); cbn; tauto|apply (U2 "D"); cbn; tauto|apply NA; cbn; tauto|apply NA; cbn; tauto|intros; split; lra|].
    assert (eqs = wx_matrix) as -> by (unfold wx_matrix; now rewrite E1). destruct H as (_ & H).
    assert (HH : forall i k, i < 2 -> k < 2 -> Forall (holds (array_values wx_objs wx_d) (at2 ix "i" "j" i k)) wx_matrix).
    { apply H. intros i Hi. split; [cbn; lra|]. intros k Hk. cbv beta. lra. }
    specialize (HH (ix "i") (ix "j") Ei Ej). rewrite Forall_forall in HH. apply (@holds_same (at2 ix "i" "j" (ix "i") (ix "j")) ix s); [unfold wx_texts; rewrite !in_app_iff; tauto| |now apply HH].
    intros x. unfold at2, upd. destruct (String.eqb_spec "j" x) as [<-|]; [reflexivity|]. destruct (String.eqb_spec "i" x) as [<-|]; reflexivity.
  - assert (Ei : ix "i" < 2) by (apply (E "i"); now left).
    assert (EV : forall k, k < 2 -> everywhere wx_c (upd ix "i" k)) by (intros k Hk; eapply everywhere_upd; [exact E|reflexivity|exact Hk]).
    assert (U1 : forall n, In n (map o_name wx_objs) -> unit_at (array_values wx_objs wx_d) ix "i" 2 n (fun _ => wx_val n)).
    { intros n In'. exists (EWord n).
      assert (N : S_Meaning.number n = None /\ is_unit n (EWord n)) by (cbn in In'; repeat (destruct In' as [<-|In']; [split; [reflexivity|repeat constructor]|]); destruct In').
      split; [apply N|]. intros k Hk. cbn [eval]. rewrite (proj1 N). apply wx_value; auto. }
    destruct (@c58_meaning__p (array_values wx_objs wx_d) ix "i" ["a"; "b"] wx_c "X" "w" "U" "V" "eps" (Some "A") (Some "s") (fun _ => 1%R) (fun _ => (/ 2)%R) (fun _ => (/ 2)%R) 1%R 1%R 1%R 2%R) as (def & dem & E1 & H1 & H2);
      try reflexivity; try discriminate; try name; [apply (U1 "X"); cbn; tauto|apply (U1 "w"); cbn; tauto|apply (U1 "s"); cbn; tauto|apply (U1 "U"); cbn; tauto|apply (U1 "V"); cbn; tauto|apply (U1 "A"); cbn; tauto|apply (U1 "eps"); cbn; tauto|lra|lra|intros; lra|lra|lra|].
    assert (Q : [def; dem] = wx_ds) by (unfold wx_ds; cbn [option_map] in E1; now rewrite E1). pose proof I as I0. rewrite <- Q in I.
    apply (@holds_same (upd ix "i" (ix "i")) ix s); [unfold wx_texts; rewrite !in_app_iff; tauto|intros x; unfold upd; destruct (String.eqb_spec "i" x) as [<-|]; reflexivity|].
    destruct I as [<-|[<-|[]]].
    + apply (H1 (ix "i") Ei). unfold aggregate, sum_n. cbn. rewrite !Rpower_one. replace (/ 2 * 1 + (/ 2 * 1 + 0))%R with 1%R by lra. rewrite Rpower_one. lra.
    + apply (H2 ltac:(discriminate) (ix "i") Ei). replace (/ 2 * 1 * 1 / / 2)%R with 1%R by lra. rewrite Rpower_one. lra.
Qed.
Definition wx_other : pexpr -> res sexpr := fun _ => Err ValueError.
Lemma wx_setup : exists v w uv up, declaration (fun l => l) wx_c wx_vars wx_params uv up /\ arguments wx_c wx_vars wx_params wx_d v w wx_x wx_theta /\
  (forall n, In n (map make_indexed_name (uv ++ up)) -> M_Lambdify.is_name n = true /\ ~ In n reserved) /\ ~ In "hess_point" (map make_indexed_name (uv ++ up)).
Proof.
  assert (NL : forall i ls, dget i wx_c = Some ls -> NoDup ls).
  { intros i ls E. apply dget_In in E. destruct E as [E|[E|[]]]; injection E as <- <-; nodup. }
  assert (SU : exists uv up, unpack_objects (fun l => l) wx_vars (lab_coords wx_c) = Ok uv /\ unpack_objects (fun l => l) wx_params (lab_coords wx_c) = Ok up /\ NoDup (map make_indexed_name (uv ++ up)) /\
    (forall n, In n (map make_indexed_name (uv ++ up)) -> M_Lambdify.is_name n = true /\ ~ In n reserved) /\ ~ In "hess_point" (map make_indexed_name (uv ++ up))).
  { eexists. eexists. split; [reflexivity|]. split; [reflexivity|]. split; [vm_compute; nodup|]. split; [|vm_compute; intuition discriminate]. intros n Hn. vm_compute in Hn. repeat (destruct Hn as [<-|Hn]; [split; [reflexivity|cbn; intuition discriminate]|]). destruct Hn. }
  destruct SU as (uv & up & EU & EP & NN & NM & NH). destruct (@data_exists wx_c (wx_vars ++ wx_params) wx_d NL wx_nodup) as (v & w & DA). exists v, w, uv, up. split; [|split; [|split; [exact NM|exact NH]]].
  - split; [|split; [nodup|split; [exact NL|split; [exact EU|split; [exact EP|split; [exact NN|exact wx_nodup]]]]]].
    intros i ls E. apply dget_In in E. destruct E as [E|[E|[]]]; injection E as <- <-; (split; [discriminate|repeat constructor]).
  - split; [|split; [unfold wx_d, dkeys; rewrite map_map; auto|split; [reflexivity|exact DA]]].
    intros o I. cbn in I. repeat (destruct I as [<-|I]; [split;
      [split; [cbn; nodup|split; [reflexivity|split; [reflexivity|cbn; intuition]]]
      |eexists; split; [reflexivity|split; [reflexivity|unfold has_shape; cbn; repeat (constructor; [eexists; split; reflexivity|]); constructor]]]|]). destruct I.
Qed.
Lemma wx_undecided : undecided wx_other sexpr_eqb wx_c wx_vars wx_params wx_texts.
Proof.
  intros equations lr E I. vm_compute in E. apply ok_eq in E. subst equations. repeat (destruct I as [<-|I]; [reflexivity|]). destruct I.
Qed.
Lemma wx_model cse : eliminates cse -> numba_model wx_other (uniq sexpr_eqb) (uniq pair_eqb) sexpr_eqb cse (fun l => l) wx_c wx_vars wx_params wx_texts wx_d wx_x wx_theta.
Proof.
  intros EC. destruct wx_setup as (v & w & uv & up & DC & AR & NM & _).
  split; [exact (@uniq_walks _ _ sexpr_eqb_eq)|]. split; [exact (@uniq_walks _ _ pair_eqb_eq)|]. split; [exact EC|]. split; [discriminate|]. split; [discriminate|].
  split; [exists v, w, uv, up; auto|]. split; [exact wx_equations|]. split; [exact wx_undecided|]. intros s ix I E. pose proof (@wx_holds s ix I E) as H. unfold holds in H. unfold wx_objs in H. rewrite H. discriminate.
Qed.
Lemma wx_zero cse : eliminates cse -> exists r, numba_returns wx_other sympy_rule (uniq sexpr_eqb) (uniq pair_eqb) sexpr_eqb cse (fun l => l) wx_c wx_vars wx_params wx_texts wx_x wx_theta r /\ vanishes r.
Proof.
  intros EC. destruct (@c110_solved__p wx_other sympy_rule _ _ _ _ _ _ _ _ _ _ _ _ (wx_model EC)) as (r & NR & H). exists r. split; [exact NR|]. apply H. exact wx_holds.
Qed.

Theorem c110_solved :
  forall other sub_into set_order dict_order evaluates cse order c vars params texts d x theta,
    numba_model other set_order dict_order evaluates cse order c vars params texts d x theta ->
    exists r, numba_returns other sub_into set_order dict_order evaluates cse order c vars params texts x theta r /\
      (vanishes r <-> forall s ix, In s texts -> everywhere c ix -> holds (array_values (vars ++ params) d) ix s).
Proof. exact @c110_solved__p. Qed.
Print Assumptions c110_solved.
Example c110_solved_ex :
  numba_model wx_other (uniq sexpr_eqb) (uniq pair_eqb) sexpr_eqb no_cse (fun l => l) wx_c wx_vars wx_params wx_texts wx_d wx_x wx_theta /\
  (exists r, numba_returns wx_other sympy_rule (uniq sexpr_eqb) (uniq pair_eqb) sexpr_eqb no_cse (fun l => l) wx_c wx_vars wx_params wx_texts wx_x wx_theta r /\ vanishes r) /\
  holds (array_values wx_objs wx_d) (fun _ => 1) "X = U / A * (A * s * V / w) ** eps".
Proof.
  split; [exact (wx_model no_cse_ok)|]. split; [exact (wx_zero no_cse_ok)|]. apply wx_holds; [rewrite wx_texts_are; cbn; tauto|]. intros x [<-|[<-|[]]]; cbn; lia.
Qed.

Theorem c110_solved_sympytensor :
  forall other sub_into set_order dict_order evaluates order, walks_set set_order -> walks_set dict_order ->
  forall c vars params texts d v w uv up x theta,
    declaration order c vars params uv up -> arguments c vars params d v w x theta -> vars <> [] -> texts <> [] ->
    ~ In "hess_point"%string (map make_indexed_name (uv ++ up)) ->
    Forall (equation_in c (vars ++ params)) texts -> undecided other evaluates c vars params texts ->
    (forall equations o, sympy_equations other c vars params texts = Ok equations -> In o (vars ++ params) -> exists lr es, In lr equations /\
       equation_symbols sub_into set_order dict_order evaluates c None (uv ++ up) (fst lr) (snd lr) = Ok es /\ occurs_in c es o) ->
    (forall s ix, In s texts -> everywhere c ix -> meaning (array_values (vars ++ params) d) ix (normalize_eq s) <> None) ->
    exists r, sympytensor_returns other sub_into set_order dict_order evaluates order c vars params texts d r /\
      (vanishes r <-> forall s ix, In s texts -> everywhere c ix -> holds (array_values (vars ++ params) d) ix s).
Proof. exact @c110_solved_sympytensor__p. Qed.
Print Assumptions c110_solved_sympytensor.
Example c110_solved_sympytensor_ex : exists r,
  sympytensor_returns wx_other sympy_rule (uniq sexpr_eqb) (uniq pair_eqb) sexpr_eqb (fun l => l) or_c or_vars px_params [px_text] px_d r /\ ~ vanishes r.
Proof.
  destruct px_setup as (up & EU & NM & NH & DC & v & w & AR).
  assert (ES : exists es, equation_symbols sympy_rule (uniq sexpr_eqb) (uniq pair_eqb) sexpr_eqb or_c None ([px_Y] ++ up) (SSym "Y") (SRed RSum (SIx "A" [IVar "i"; IVar "j"]) [("i", (0, 1))]) = Ok es /\
      exists e1 e2, es = [e1; e2] /\ In "Y" (atoms e1) /\ In "A_a_p" (atoms e1)).
  { clear - EU. vm_compute in EU. apply ok_eq in EU. subst up. eexists. split; [vm_compute; reflexivity|]. do 2 eexists. split; [reflexivity|]. cbn. auto 10. }
  destruct ES as (es & ES & e1 & e2 & -> & Q1 & Q2).
  assert (SE : forall equations, sympy_equations wx_other or_c or_vars px_params [px_text] = Ok equations -> equations = px_equations) by (intros eqs E; apply ok_eq in E; now rewrite <- E).
  assert (EQ : equation_in or_c px_objs px_text).
  { split; [eexists; eexists; exact px_indexed|]. change px_text with ("Y" ++ " = " ++ "Sum(A, (i, 0, 1))")%string. apply no_axis_sign; reflexivity. }
  assert (MV : forall ix, everywhere or_c ix -> exists r, meaning (array_values px_objs px_d) ix (normalize_eq px_text) = Some r /\ (ix "j" = 0 -> r = 6%R)).
  { intros ix E. destruct EQ as (_ & NA). rewrite (@equation_meaning _ _ _ _ _ px_indexed NA). destruct (px_value ix) as (r & Ev & Nr); [apply (E "j"); right; now left|]. exists r. split; [exact Ev|]. intros Z. rewrite Z in Nr. cbn in Nr. congruence. }
  destruct (@c110_solved_sympytensor wx_other sympy_rule (uniq sexpr_eqb) (uniq pair_eqb) sexpr_eqb (fun l => l) (@uniq_walks _ _ sexpr_eqb_eq) (@uniq_walks _ _ pair_eqb_eq)
    or_c or_vars px_params [px_text] px_d v w [px_Y] up [10]%R [1; 2; 3; 4]%R DC AR) as (r & SR & H); try discriminate.
  - exact NH.
  - constructor; [exact EQ|constructor].
  - intros eqs lr E I. rewrite (SE eqs E) in I. destruct I as [<-|[]]. reflexivity.
  - intros eqs o E Io. rewrite (SE eqs E). exists (SSym "Y", SRed RSum (SIx "A" [IVar "i"; IVar "j"]) [("i", (0, 1))]), [e1; e2]. split; [now left|]. split; [exact ES|]. destruct Io as [<-|[<-|[]]].
    + exists e1, []. split; [now left|]. split; [constructor|exact Q1].
    + exists e1, ["a"; "p"]. split; [now left|]. split; [|exact Q2]. repeat (constructor; [eexists; split; [reflexivity|now left]|]). constructor.
  - intros s ix [<-|[]] E. destruct (MV ix E) as (r & Er & _). unfold px_objs in Er. rewrite Er. discriminate.
  - exists r. split; [exact SR|]. intros V. assert (E0 : everywhere or_c (fun _ => 0)) by (intros x [<-|[<-|[]]]; cbn; lia).
    pose proof (proj1 H V px_text (fun _ => 0) (or_introl eq_refl) E0) as Z. destruct (MV _ E0) as (r0 & Er & R0). unfold holds in Z. unfold px_objs in Er. rewrite Er in Z. specialize (R0 eq_refl). injection Z as Z. lra.
Qed.

Theorem c110_cobb_douglas_text :
  forall c objs names prices shares output output_price TFP use_value eqs,
    names <> [] -> length prices = length names -> length shares = length names ->
    Forall (unit_in c objs false) names -> Forall (unit_in c objs false) prices -> Forall (expr_in c objs false) shares ->
    unit_in c objs false output -> unit_in c objs false output_price -> unit_in c objs false TFP ->
    fst (cobb_douglass (Many names) (Many prices) output output_price (Many shares) TFP use_value) = Ok eqs -> Forall (equation_in c objs) eqs.
Proof. exact @c110_cobb_douglas_text__p. Qed.
Print Assumptions c110_cobb_douglas_text.
Example c110_cobb_douglas_text_ex : Forall (equation_in wx_c wx_objs) ["Y * P = w * X + r * Z"; "X = (s) * Y * (P) / (w)"; "Z = (s) * Y * (P) / (r)"] /\
  fst (cobb_douglass (Many ["X"; "Z"]) (Many ["w"; "r"]) "Y" "P" (Many ["s"; "s"]) "A" true) = Ok ["Y * P = w * X + r * Z"; "X = (s) * Y * (P) / (w)"; "Z = (s) * Y * (P) / (r)"].
Proof. split; [|reflexivity]. pose proof wx_equations as W. unfold wx_texts in W. apply Forall_app in W. exact (proj1 W). Qed.
Theorem c110_ces_text :
  forall c objs names prices shares output output_price TFP epsilon use_value eqs,
    names <> [] -> length prices = length names -> length shares = length names ->
    Forall (unit_in c objs false) names -> Forall (unit_in c objs false) prices -> Forall (expr_in c objs false) shares ->
    unit_in c objs false output -> unit_in c objs false output_price -> unit_in c objs false TFP -> unit_in c objs false epsilon ->
    fst (CES (Many names) (Many prices) output output_price TFP (Many shares) epsilon None use_value) = Ok eqs -> Forall (equation_in c objs) eqs.
Proof. exact @c110_ces_text__p. Qed.
Print Assumptions c110_ces_text.
Example c110_ces_text_ex : Forall (equation_in wx_c wx_objs) wx_ces /\ length wx_ces = 3 /\ fst (CES (Many ["X"; "Z"]) (Many ["w"; "r"]) "Y" "P" "A" (Many ["s"; "s"]) "eps" None false) = Ok wx_ces.
Proof. split; [|split; reflexivity]. pose proof wx_equations as W. unfold wx_texts in W. rewrite !Forall_app in W. tauto. Qed.
Theorem c110_leontief_text :
  forall c objs names prices shares output output_price d coords sum_dim expand_price_dim transpose_output backend eqs,
    2 <= length names -> length prices = length names -> length shares = length names ->
    Forall (unit_in c objs false) names -> Forall (unit_in c objs false) prices -> Forall (unit_in c objs false) shares ->
    unit_in c objs false output -> expr_in c objs false output_price ->
    leontief (Many names) (Many prices) output output_price (Many shares) (One d) coords sum_dim expand_price_dim transpose_output backend = Ok eqs ->
    Forall (equation_in c objs) eqs.
Proof. exact @c110_leontief_text__p. Qed.
Print Assumptions c110_leontief_text.
Example c110_leontief_text_ex : Forall (equation_in wx_c wx_objs) ["Y = (w * X + r * Z) / (P)"; "X = Y * B"; "Z = Y * B"] /\
  leontief (Many ["X"; "Z"]) (Many ["w"; "r"]) "Y" "P" (Many ["B"; "B"]) (One "i") wx_c None false false "numba" = Ok ["Y = (w * X + r * Z) / (P)"; "X = Y * B"; "Z = Y * B"].
Proof. split; [|reflexivity]. change (Forall (equation_in wx_c wx_objs) wx_leontief). pose proof wx_equations as W. unfold wx_texts in W. rewrite !Forall_app in W. tauto. Qed.
Theorem c110_leontief_matrix_text :
  forall c objs (core batch : string) labels dims sum_dim expand_price_dim (transpose_output : bool) factor price output output_price share eqs,
    is_name core -> is_name batch -> core <> batch -> In core (dkeys c) -> dget batch c = Some labels -> labels <> [] ->
    (transpose_output = true -> dget core c = Some labels) ->
    dims = [core; batch] /\ (sum_dim = None \/ sum_dim = Some batch) \/ dims = [batch; core] /\ sum_dim = Some batch ->
    ~ In "Sum" (map o_name objs ++ dkeys c) -> is_name output -> is_name output_price ->
    Forall (unit_in c objs false) [factor; price; output; output_price; share] ->
    leontief (One factor) (One price) output output_price (One share) (Many dims) c sum_dim expand_price_dim transpose_output "numba" = Ok eqs ->
    Forall (equation_in c objs) eqs.
Proof. exact @c110_leontief_matrix_text__p. Qed.
Print Assumptions c110_leontief_matrix_text.
(** Also when the outputs are written with the other index *)
Example c110_leontief_matrix_text_ex : exists eqs, 
  leontief (One "M") (One "M") "Y" "P" (One "M") (Many ["i"; "k"]) [("i", ["a"; "b"]); ("k", ["a"; "b"])] None false true "numba" = Ok eqs /\
  eqs = ["Y.subs({k:i}) = Sum(M * M, (k, 0, 1)) / P.subs({k:i})"; "M = M * Y"] /\
  Forall (equation_in [("i", ["a"; "b"]); ("k", ["a"; "b"])] [exobj KVar "M" ["i"; "k"]; exobj KVar "Y" ["k"]; exobj KVar "P" ["k"]]) eqs.
Proof.
  eexists. split; [reflexivity|]. split; [reflexivity|].
  eapply (@c110_leontief_matrix_text _ _ "i" "k" ["a"; "b"] ["i"; "k"] None false true "M" "M" "Y" "P" "M"); try reflexivity; try discriminate; try name; [now left|left; auto|cbn; intuition discriminate|].
  repeat (constructor; [eexists; split; [repeat constructor|apply (@in_object _ _ _ (exobj KVar "M" ["i"; "k"])) || apply (@in_object _ _ _ (exobj KVar "Y" ["k"])) || apply (@in_object _ _ _ (exobj KVar "P" ["k"])); [cbn; tauto|reflexivity|cbn; intuition discriminate]]|]). constructor.
Qed.
Theorem c110_dixit_stiglitz_text :
  forall c objs i labels factor price output output_price epsilon (TFP shares : option string) definition demand,
    is_name i -> dget i c = Some labels -> labels <> [] -> ~ In "Sum" (map o_name objs ++ dkeys c) ->
    Forall (unit_in c objs false) [factor; price; output; output_price; epsilon] ->
    (forall s, TFP = Some s \/ shares = Some s -> unit_in c objs false s) ->
    dixit_stiglitz (One factor) (One price) output output_price epsilon i c "numba" TFP (option_map One shares) false = Ok (definition, demand) ->
    equation_in c objs definition /\ equation_in c objs demand.
Proof. exact @c110_dixit_stiglitz_text__p. Qed.
Print Assumptions c110_dixit_stiglitz_text.
Example c110_dixit_stiglitz_text_ex :
  dixit_stiglitz (One "X") (One "w") "U" "V" "eps" "i" wx_c "numba" (Some "A") (Some (One "s")) false =
    Ok ("U = A * Sum(s * X ** ((eps - 1) / eps), (i, 0, 1)) ** (eps / (eps - 1))", "X = U / A * (A * s * V / w) ** eps") /\
  equation_in wx_c wx_objs "U = A * Sum(s * X ** ((eps - 1) / eps), (i, 0, 1)) ** (eps / (eps - 1))" /\ equation_in wx_c wx_objs "X = U / A * (A * s * V / w) ** eps".
Proof. split; [reflexivity|]. pose proof wx_equations as W. rewrite Forall_forall in W. split; apply W; rewrite wx_texts_are; cbn; tauto. Qed.

Lemma wx_at0 : everywhere wx_c (fun _ => 0). Proof. intros x [<-|[<-|[]]]; cbn; lia. Qed.
Lemma wx_inputs s : In s (map o_name wx_objs) -> inputs_at (array_values wx_objs wx_d) (fun _ => 0) ["X"; "Z"] ["w"; "r"] [s; s] (wx_l [s; s]).
Proof. intros I. split; [reflexivity|]. split; [reflexivity|]. split; [reflexivity|]. apply wx_factors; [exact wx_at0|exact I|exact I]. Qed.

Theorem c110_cobb_douglas :
  forall other sub_into set_order dict_order evaluates cse order c vars params texts d x theta r names prices shares output output_price TFP use_value eqs,
    numba_model other set_order dict_order evaluates cse order c vars params texts d x theta ->
    numba_returns other sub_into set_order dict_order evaluates cse order c vars params texts x theta r -> vanishes r ->
    fst (cobb_douglass (Many names) (Many prices) output output_price (Many shares) TFP use_value) = Ok eqs -> incl eqs texts ->
    let rho := array_values (vars ++ params) d in
    forall ix l y p a, everywhere c ix -> inputs_at rho ix names prices shares l -> l <> [] -> (forall f, In f l -> 0 < qty f)%R ->
      unit_val rho ix output y -> no_eq output -> unit_val rho ix output_price p -> no_eq output_price -> unit_val rho ix TFP a ->
      (if use_value then y * p = sum_over (fun f => price f * qty f) l else y = a * prod_over (fun f => Rpower (qty f) (share f)) l)%R /\
      forall f, In f l -> (price f * qty f = share f * (p * y))%R.
Proof. exact @c110_cobb_douglas__p. Qed.
Print Assumptions c110_cobb_douglas.
Example c110_cobb_douglas_ex : exists r,
  numba_model wx_other (uniq sexpr_eqb) (uniq pair_eqb) sexpr_eqb no_cse (fun l => l) wx_c wx_vars wx_params wx_texts wx_d wx_x wx_theta /\
  numba_returns wx_other sympy_rule (uniq sexpr_eqb) (uniq pair_eqb) sexpr_eqb no_cse (fun l => l) wx_c wx_vars wx_params wx_texts wx_x wx_theta r /\ vanishes r /\
  fst (cobb_douglass (Many ["X"; "Z"]) (Many ["w"; "r"]) "Y" "P" (Many ["s"; "s"]) "A" true) = Ok wx_cd /\ incl wx_cd wx_texts /\
  everywhere wx_c (fun _ => 0) /\ inputs_at (array_values wx_objs wx_d) (fun _ => 0) ["X"; "Z"] ["w"; "r"] ["s"; "s"] (wx_l ["s"; "s"]) /\
  (forall f, In f (wx_l ["s"; "s"]) -> 0 < qty f)%R.
Proof.
  destruct (wx_zero no_cse_ok) as (r & NR & Z). exists r. split; [exact (wx_model no_cse_ok)|]. split; [exact NR|]. split; [exact Z|]. split; [reflexivity|].
  split; [intros x I; unfold wx_texts; rewrite !in_app_iff; tauto|]. split; [exact wx_at0|]. split; [apply wx_inputs; cbn; tauto|]. intros f [<-|[<-|[]]]; cbn; lra.
Qed.

Theorem c110_ces :
  forall other sub_into set_order dict_order evaluates cse order c vars params texts d x theta r names prices shares output output_price TFP epsilon use_value eqs,
    numba_model other set_order dict_order evaluates cse order c vars params texts d x theta ->
    numba_returns other sub_into set_order dict_order evaluates cse order c vars params texts x theta r -> vanishes r ->
    fst (CES (Many names) (Many prices) output output_price TFP (Many shares) epsilon None use_value) = Ok eqs -> incl eqs texts ->
    let rho := array_values (vars ++ params) d in
    forall ix l y p a e, everywhere c ix -> inputs_at rho ix names prices shares l -> l <> [] -> (forall f, In f l -> 0 < qty f /\ 0 < share f)%R -> (0 < y /\ 0 < p /\ 0 < a)%R ->
      unit_val rho ix output y -> no_eq output -> unit_val rho ix output_price p -> no_eq output_price -> unit_val rho ix TFP a -> unit_val rho ix epsilon e -> e <> 0%R -> e <> 1%R ->
      (y = a * Rpower (sum_over (fun f => share f * Rpower (qty f) ((e - 1) / e)) l) (e / (e - 1)))%R /\
      (y * p = sum_over (fun f => price f * qty f) l)%R /\
      (p = Rpower (sum_over (fun f => Rpower (share f) e * Rpower (price f) (1 - e)) l) (1 / (1 - e)) / a)%R /\
      forall f, In f l -> (qty f = y / a * Rpower (share f * p * a / price f) e)%R.
Proof. exact @c110_ces__p. Qed.
Print Assumptions c110_ces.
Example c110_ces_ex : exists r,
  numba_model wx_other (uniq sexpr_eqb) (uniq pair_eqb) sexpr_eqb no_cse (fun l => l) wx_c wx_vars wx_params wx_texts wx_d wx_x wx_theta /\
  numba_returns wx_other sympy_rule (uniq sexpr_eqb) (uniq pair_eqb) sexpr_eqb no_cse (fun l => l) wx_c wx_vars wx_params wx_texts wx_x wx_theta r /\ vanishes r /\
  fst (CES (Many ["X"; "Z"]) (Many ["w"; "r"]) "Y" "P" "A" (Many ["s"; "s"]) "eps" None false) = Ok wx_ces /\ incl wx_ces wx_texts /\
  everywhere wx_c (fun _ => 0) /\ inputs_at (array_values wx_objs wx_d) (fun _ => 0) ["X"; "Z"] ["w"; "r"] ["s"; "s"] (wx_l ["s"; "s"]) /\
  (forall f, In f (wx_l ["s"; "s"]) -> 0 < qty f /\ 0 < share f)%R /\ unit_val (array_values wx_objs wx_d) (fun _ => 0) "eps" 2.
Proof.
  destruct (wx_zero no_cse_ok) as (r & NR & Z). exists r. split; [exact (wx_model no_cse_ok)|]. split; [exact NR|]. split; [exact Z|]. split; [reflexivity|].
  split; [intros x I; unfold wx_texts; rewrite !in_app_iff; tauto|]. split; [exact wx_at0|]. split; [apply wx_inputs; cbn; tauto|]. split; [intros f [<-|[<-|[]]]; cbn; lra|].
  apply (@wx_unit _ "eps"); [exact wx_at0|cbn; tauto].
Qed.

Theorem c110_leontief :
  forall other sub_into set_order dict_order evaluates cse order c vars params texts d x theta r names prices shares output output_price dim coords sum_dim expand_price_dim transpose_output backend eqs,
    numba_model other set_order dict_order evaluates cse order c vars params texts d x theta ->
    numba_returns other sub_into set_order dict_order evaluates cse order c vars params texts x theta r -> vanishes r ->
    leontief (Many names) (Many prices) output output_price (Many shares) (One dim) coords sum_dim expand_price_dim transpose_output backend = Ok eqs -> incl eqs texts ->
    let rho := array_values (vars ++ params) d in
    forall ix l y p, everywhere c ix -> inputs_at rho ix names prices shares l -> 2 <= length l -> Forall (fun f => unit_val rho ix (f_share f) (share f)) l ->
      unit_val rho ix output y -> no_eq output -> expr_val rho ix output_price p -> p <> 0%R -> y <> 0%R ->
      (p = sum_over (fun f => price f * share f) l)%R /\ forall f, In f l -> (qty f = share f * y)%R.
Proof. exact @c110_leontief__p. Qed.
Print Assumptions c110_leontief.
Example c110_leontief_ex : exists r,
  numba_model wx_other (uniq sexpr_eqb) (uniq pair_eqb) sexpr_eqb no_cse (fun l => l) wx_c wx_vars wx_params wx_texts wx_d wx_x wx_theta /\
  numba_returns wx_other sympy_rule (uniq sexpr_eqb) (uniq pair_eqb) sexpr_eqb no_cse (fun l => l) wx_c wx_vars wx_params wx_texts wx_x wx_theta r /\ vanishes r /\
  leontief (Many ["X"; "Z"]) (Many ["w"; "r"]) "Y" "P" (Many ["B"; "B"]) (One "i") wx_c None false false "numba" = Ok wx_leontief /\ incl wx_leontief wx_texts /\
  inputs_at (array_values wx_objs wx_d) (fun _ => 0) ["X"; "Z"] ["w"; "r"] ["B"; "B"] (wx_l ["B"; "B"]) /\
  Forall (fun f => unit_val (array_values wx_objs wx_d) (fun _ => 0) (f_share f) (share f)) (wx_l ["B"; "B"]).
Proof.
  destruct (wx_zero no_cse_ok) as (r & NR & Z). exists r. split; [exact (wx_model no_cse_ok)|]. split; [exact NR|]. split; [exact Z|]. split; [reflexivity|].
  split; [intros x I; unfold wx_texts; rewrite !in_app_iff; tauto|]. split; [apply wx_inputs; cbn; tauto|].
  constructor; [|constructor; [|constructor]]; (apply (@wx_unit _ "B"); [exact wx_at0|cbn; tauto]).
Qed.

Theorem c110_leontief_matrix :
  forall other sub_into set_order dict_order evaluates cse order c vars params texts d x theta r (core batch : string) labels_c labels_b dims sum_dim expand_price_dim transpose_output
         factor price output output_price share eqs,
    numba_model other set_order dict_order evaluates cse order c vars params texts d x theta ->
    numba_returns other sub_into set_order dict_order evaluates cse order c vars params texts x theta r -> vanishes r ->
    is_name core -> is_name batch -> core <> batch -> dget core c = Some labels_c -> dget batch c = Some labels_b -> labels_b <> [] ->
    dims = [core; batch] /\ (sum_dim = None \/ sum_dim = Some batch) \/ dims = [batch; core] /\ sum_dim = Some batch ->
    leontief (One factor) (One price) output output_price (One share) (Many dims) c sum_dim expand_price_dim transpose_output "numba" = Ok eqs -> incl eqs texts ->
    let rho := array_values (vars ++ params) d in let m := length labels_c in let n := length labels_b in
    forall ix (quantity prices coefficient : nat -> nat -> R) (y p : nat -> R), everywhere c ix ->
      unit_at2 rho ix core batch m n factor quantity -> no_eq factor -> unit_at2 rho ix core batch m n price prices -> unit_at2 rho ix core batch m n share coefficient ->
      name_at rho ix core batch m output y -> name_at rho ix core batch m output_price p -> (forall i, i < m -> y i <> 0%R /\ p i <> 0%R) ->
      forall i, i < m -> p i = sum_n (fun k => prices i k * coefficient i k)%R n /\ forall k, k < n -> quantity i k = (coefficient i k * y i)%R.
Proof. exact @c110_leontief_matrix__p. Qed.
Print Assumptions c110_leontief_matrix.
Example c110_leontief_matrix_ex : exists r,
  numba_model wx_other (uniq sexpr_eqb) (uniq pair_eqb) sexpr_eqb no_cse (fun l => l) wx_c wx_vars wx_params wx_texts wx_d wx_x wx_theta /\
  numba_returns wx_other sympy_rule (uniq sexpr_eqb) (uniq pair_eqb) sexpr_eqb no_cse (fun l => l) wx_c wx_vars wx_params wx_texts wx_x wx_theta r /\ vanishes r /\
  leontief (One "M") (One "Q") "Y" "P" (One "D") (Many ["i"; "j"]) wx_c None false false "numba" = Ok wx_matrix /\ incl wx_matrix wx_texts /\
  unit_at2 (array_values wx_objs wx_d) (fun _ => 0) "i" "j" 2 2 "Q" (fun _ _ => / 2)%R /\ name_at (array_values wx_objs wx_d) (fun _ => 0) "i" "j" 2 "Y" (fun _ => 1%R).
Proof.
  destruct (wx_zero no_cse_ok) as (r & NR & Z). exists r. split; [exact (wx_model no_cse_ok)|]. split; [exact NR|]. split; [exact Z|]. split; [reflexivity|].
  split; [intros x I; unfold wx_texts; rewrite !in_app_iff; tauto|]. split.
  - exists (EWord "Q"). split; [repeat constructor|]. intros i k Hi Hk. destruct i as [|[|]], k as [|[|]]; try lia; reflexivity.
  - split; [name|]. split; [reflexivity|]. intros i k Hi. destruct i as [|[|]]; try lia; reflexivity.
Qed.

Theorem c110_dixit_stiglitz :
  forall other sub_into set_order dict_order evaluates cse order c vars params texts d x theta r i labels factor price output output_price epsilon (TFP shares : option string) definition demand,
    numba_model other set_order dict_order evaluates cse order c vars params texts d x theta ->
    numba_returns other sub_into set_order dict_order evaluates cse order c vars params texts x theta r -> vanishes r ->
    is_name i -> dget i c = Some labels -> labels <> [] ->
    dixit_stiglitz (One factor) (One price) output output_price epsilon i c "numba" TFP (option_map One shares) false = Ok (definition, demand) -> In definition texts -> In demand texts ->
    let rho := array_values (vars ++ params) d in let n := length labels in
    forall ix (quantity prices weight : nat -> R) (y p a e : R), everywhere c ix ->
      unit_at rho ix i n factor quantity -> unit_at rho ix i n price prices -> opt_at rho ix i n shares weight -> unit_at rho ix i n output (fun _ => y) ->
      unit_at rho ix i n output_price (fun _ => p) -> opt_at rho ix i n TFP (fun _ => a) -> unit_at rho ix i n epsilon (fun _ => e) ->
      no_eq factor -> no_eq output -> e <> 0%R -> e <> 1%R ->
      (forall k, k < n -> (0 < quantity k /\ 0 < prices k /\ 0 < weight k)%R) -> (0 < p)%R -> (0 < a)%R ->
      y = aggregate a e weight quantity n /\ (TFP <> None -> forall k, k < n -> quantity k = (y / a * Rpower (weight k * p * a / prices k) e)%R).
Proof. exact @c110_dixit_stiglitz__p. Qed.
Print Assumptions c110_dixit_stiglitz.
Example c110_dixit_stiglitz_ex : exists r definition demand,
  numba_model wx_other (uniq sexpr_eqb) (uniq pair_eqb) sexpr_eqb no_cse (fun l => l) wx_c wx_vars wx_params wx_texts wx_d wx_x wx_theta /\
  numba_returns wx_other sympy_rule (uniq sexpr_eqb) (uniq pair_eqb) sexpr_eqb no_cse (fun l => l) wx_c wx_vars wx_params wx_texts wx_x wx_theta r /\ vanishes r /\
  dixit_stiglitz (One "X") (One "w") "U" "V" "eps" "i" wx_c "numba" (Some "A") (option_map One (Some "s")) false = Ok (definition, demand) /\ In definition wx_texts /\ In demand wx_texts /\
  unit_at (array_values wx_objs wx_d) (fun _ => 0) "i" 2 "X" (fun _ => 1%R) /\ opt_at (array_values wx_objs wx_d) (fun _ => 0) "i" 2 (Some "s") (fun _ => / 2)%R.
Proof.
  destruct (wx_zero no_cse_ok) as (r & NR & Z). exists r. do 2 eexists. split; [exact (wx_model no_cse_ok)|]. split; [exact NR|]. split; [exact Z|]. split; [reflexivity|].
  split; [rewrite wx_texts_are; cbn; tauto|]. split; [rewrite wx_texts_are; cbn; tauto|]. split; [exists (EWord "X")|exists (EWord "s")]; (split; [repeat constructor|]; intros k Hk; destruct k as [|[|]]; try lia; reflexivity).
Qed.
