(** Model of production_functions.py: the equations as strings.
    string.Template substitution is modelled as insertion of the arguments;
    arguments holding a "$" are outside the model. *)
From Coq Require Import ZArith.
From Verif Require Import Py PyStr.
Local Open Scope string_scope.
Local Open Scope list_scope.

(** An argument that is a string or a list of strings. Tuples are outside the model
    (production_functions.py:29-80). *)
Inductive names := One (s : string) | Many (l : list string).

(** tools/utils.py:55-72 at_least_list *)
Definition at_least_list (x : names) : list string := match x with One s => [s] | Many l => l end.

(** Iterating over the argument: a string is iterated by character
    (production_functions.py:158-180) *)
Fixpoint chars (s : string) : list string := match s with "" => [] | String c s' => String c "" :: chars s' end.
(** production_functions.py:171, 202 *)
Definition iter (x : names) : list string := match x with One s => chars s | Many l => l end.

(** production_functions.py:22-26 unwrap_singleton_list *)
Definition unwrap_singleton_list (x : names) : names := match x with Many [s] => One s | _ => x end.

(** production_functions.py:13-19 _check_pairwise_lengths_match, of three arguments *)
Definition check_lengths (a b c : names) : res unit :=
  let n x := length (at_least_list x) in
  if Nat.eqb (n a) (n b) && Nat.eqb (n a) (n c) && Nat.eqb (n b) (n c) then Ok tt else Err ValueError.

(** production_functions.py:83-95 _add_second_alpha: the list of shares, and what
    the caller's argument is afterwards (a list is appended to in place) *)
Definition add_second_alpha (alpha factors : names) : list string * names :=
  match factors, alpha with
  | Many [_; _], One a => ([a; ("1 - " ++ a)%string], One a)
  | Many [_; _], Many [a] => ([a; ("1 - " ++ a)%string], Many [a; ("1 - " ++ a)%string])
  | _, _ => (at_least_list alpha, alpha)
  end.

(** zip of three (production_functions.py:202, 331) *)
Fixpoint zip3 {A B C} (a : list A) (b : list B) (c : list C) : list (A * B * C) :=
  match a, b, c with x :: a', y :: b', z :: c' => (x, y, z) :: zip3 a' b' c' | _, _, _ => [] end.

(** " + ".join([f"{factor_price} * {factor}" ...]) (production_functions.py:176-178, 304-306, 492) *)
Definition total_value (factor_prices factors : list string) : string :=
  join " + " (map (fun pf => (fst pf ++ " * " ++ snd pf)%string) (combine factor_prices factors)).

(** production_functions.py:162-174 *)
Definition cd_production (factors factor_shares : list string) (output TFP : string) : string :=
  output ++ " = " ++ TFP ++ " * " ++
  join " * " (map (fun fs => (fst fs ++ " ** (" ++ snd fs ++ ")")%string) (combine factors factor_shares)).

(** production_functions.py:179-185, 307-313 *)
Definition value_definition (factors factor_prices : list string) (output output_price : string) : string :=
  output ++ " * " ++ output_price ++ " = " ++ total_value factor_prices factors.

(** production_functions.py:187-203 *)
Definition cd_demand (output output_price factor factor_price factor_share : string) : string :=
  factor ++ " = (" ++ factor_share ++ ") * " ++ output ++ " * (" ++ output_price ++ ") / (" ++ factor_price ++ ")".

(** production_functions.py:98-205 cobb_douglass: the equations, and the caller's
    factor_shares afterwards (a string is wrapped at 153-154) *)
Definition cobb_douglass (factors factor_prices : names) (output output_price : string) (factor_shares : names)
    (TFP : string) (use_value_definition : bool) : res (list string) * names :=
  let '(shares, after) := add_second_alpha factor_shares factors in
  (let* _ := check_lengths factors factor_prices (Many shares) in
   let production := if use_value_definition
                     then value_definition (iter factors) (iter factor_prices) output output_price
                     else cd_production (iter factors) shares output TFP in
   Ok (production :: map (fun t => let '(f, p, s) := t in cd_demand output output_price f p s)
                         (zip3 (iter factors) (iter factor_prices) shares)),
   after).

(** production_functions.py:285-303 *)
Definition ces_production (factors factor_shares : list string) (output TFP epsilon : string) : string :=
  output ++ " = " ++ TFP ++ " * (" ++
  join " + " (map (fun fs => ("(" ++ snd fs ++ ") * " ++ fst fs ++ " ** ((" ++ epsilon ++ " - 1) / " ++ epsilon ++ ")")%string)
                  (combine factors factor_shares)) ++
  ") ** (" ++ epsilon ++ " / (" ++ epsilon ++ " - 1))".

(** production_functions.py:315-332 *)
Definition ces_demand (output output_price TFP epsilon factor factor_price factor_share : string) : string :=
  factor ++ " = " ++ output ++ " / " ++ TFP ++ " * ((" ++ factor_share ++ ") * " ++ output_price ++ " * " ++ TFP ++
  " / (" ++ factor_price ++ ")) ** " ++ epsilon.

(** production_functions.py:316-319: expand_price_dim *)
Definition expand (opts : list string) (expand_price_dim : option string) (p : string) : string :=
  match expand_price_dim with
  | Some d => if existsb (String.eqb d) opts then (p ++ "[:, None]")%string else p
  | None => p
  end.

(** production_functions.py:208-334 CES: the equations, and the caller's factor_shares afterwards *)
Definition CES (factors factor_prices : names) (output output_price TFP : string) (factor_shares : names) (epsilon : string)
    (expand_price_dim : option string) (use_value_definition : bool) : res (list string) * names :=
  let '(shares, after) := add_second_alpha factor_shares factors in
  (let* _ := check_lengths factors factor_prices (Many shares) in
   let production := if use_value_definition
                     then value_definition (iter factors) (iter factor_prices) output output_price
                     else ces_production (iter factors) shares output TFP epsilon in
   let output_price := expand ["output"; "both"] expand_price_dim output_price in
   let prices := map (expand ["input"; "both"] expand_price_dim) (iter factor_prices) in
   Ok (production :: map (fun t => let '(f, p, s) := t in ces_demand output output_price TFP epsilon f p s)
                         (zip3 (iter factors) prices shares)),
   after).

(** An optional factor: f"{share_str}", f"{TFP_str}" (production_functions.py:424-425) *)
Definition times (x : option string) : string := match x with Some s => (s ++ " * ")%string | None => "" end.

(** production_functions.py:427-432 *)
Definition ds_kernel (factor epsilon : string) (share : option string) : string :=
  times share ++ factor ++ " ** ((" ++ epsilon ++ " - 1) / " ++ epsilon ++ ")".
(** production_functions.py:436-441 *)
Definition ds_rhs (backend dims : string) (dim_len : Z) (kernel epsilon : string) : res string :=
  if String.eqb backend "numba"
  then Ok ("Sum(" ++ kernel ++ ", (" ++ dims ++ ", 0, " ++ str_of_Z dim_len ++ ")) ** (" ++ epsilon ++ " / (" ++ epsilon ++ " - 1))")%string
  else if String.eqb backend "pytensor"
  then Ok ("(" ++ kernel ++ ").sum() ** (" ++ epsilon ++ " / (" ++ epsilon ++ " - 1))")%string
  else Err ValueError.
(** production_functions.py:453-460 *)
Definition ds_value (factor factor_price output output_price : string) : string :=
  output ++ " = (" ++ factor_price ++ " * " ++ factor ++ ").sum() / (" ++ output_price ++ ")".
(** production_functions.py:462-472 *)
Definition ds_demand (factor factor_price output output_price epsilon : string) (TFP share : option string) : string :=
  factor ++ " = " ++ output ++ " / " ++ times TFP ++ "(" ++ times TFP ++ times share ++ output_price ++ " / " ++ factor_price ++ ") ** " ++ epsilon.

(** production_functions.py:408-422: a list must have length one; the single string *)
Definition single (x : names) : res string :=
  match x with One s => Ok s | Many [s] => Ok s | Many _ => Err ValueError end.
(** production_functions.py:337-476 dixit_stiglitz *)
Definition dixit_stiglitz (factors factor_prices : names) (output output_price epsilon dims : string) (coords : dict (list string))
    (backend : string) (TFP : option string) (factor_shares : option names) (use_value_definition : bool) : res (string * string) :=
  let* factor := single factors in
  let* price := single factor_prices in
  let* share := match factor_shares with None => Ok None | Some x => let* s := single x in Ok (Some s) end in
  let* labels := dgetitem dims coords in
  let dim_len := (Z.of_nat (length labels) - 1)%Z in
  let* rhs := ds_rhs backend dims dim_len (ds_kernel factor epsilon share) epsilon in
  let production := if use_value_definition then ds_value factor price output output_price
                    else (output ++ " = " ++ times TFP ++ rhs)%string in
  Ok (production, ds_demand factor price output output_price epsilon TFP share).

(** production_functions.py:479-499 _1d_leontief *)
Definition leontief_profit (factors factor_prices : list string) (output output_price : string) : string :=
  output ++ " = (" ++ total_value factor_prices factors ++ ") / (" ++ output_price ++ ")".
(** production_functions.py:495-497 *)
Definition leontief_demand (output factor share : string) : string := factor ++ " = " ++ output ++ " * " ++ share.
(** production_functions.py:479-499 _1d_leontief *)
Definition leontief_1d (factors factor_prices : list string) (output output_price : string) (factor_shares : list string) : list string :=
  leontief_profit factors factor_prices output output_price ::
  map (fun fs => leontief_demand output (fst fs) (snd fs)) (combine factors factor_shares).

(** list.index (production_functions.py:549) and list.pop (565) *)
Fixpoint index_of (x : string) (l : list string) : option nat :=
  match l with [] => None | y :: l' => if String.eqb x y then Some 0 else option_map S (index_of x l') end.
(** list.pop, production_functions.py:565 *)
Definition pop (n : nat) (l : list string) : list string := firstn n l ++ skipn (S n) l.

(** production_functions.py:551-553 _swapaxes *)
Definition swapaxes (x i j : string) : string := x ++ ".subs({" ++ i ++ ":" ++ j ++ "})".

(** production_functions.py:502-594 _2d_leontief, given the single factor, price and share *)
Definition leontief_2d (factor price output output_price share : string) (dims : list string) (coords : dict (list string))
    (sum_dim : option string) (expand_price_dim transpose_output : bool) (backend : string) : res (list string) :=
  let* sum_dim := match sum_dim with
                  | Some d => Ok d
                  | None => match dims with [] => Err IndexError | _ => Ok (last dims "") end
                  end in
  let* sum_axis := match index_of sum_dim dims with Some k => Ok k | None => Err ValueError end in
  if String.eqb backend "numba" then
    let batch_dim := sum_dim in
    let* core_dim := match pop sum_axis dims with [] => Err IndexError | d :: _ => Ok d end in
    let* _ := dgetitem core_dim coords in
    let* batch := dgetitem batch_dim coords in
    let tr x := if transpose_output then swapaxes x batch_dim core_dim else x in
    Ok [(tr output ++ " = Sum(" ++ price ++ " * " ++ factor ++ ", (" ++ batch_dim ++ ", 0, " ++
         str_of_Z (Z.of_nat (length batch) - 1) ++ ")) / " ++ tr output_price)%string;
        (factor ++ " = " ++ share ++ " * " ++ output)%string]
  else if String.eqb backend "pytensor" then
    let price_slice := if expand_price_dim then "[:, None]" else "" in
    Ok [(output ++ " = (" ++ price ++ price_slice ++ " * " ++ factor ++ ").sum(axis=" ++ str_of_nat sum_axis ++
         ").ravel() / (" ++ output_price ++ ")")%string;
        (factor ++ " = " ++ share ++ " * " ++ output ++ "[None]")%string]
  else Err ValueError.

(** production_functions.py:597-710 leontief. In the 2d case prices and shares
    are strings or lists of length one, by the length check. *)
Definition leontief (factors factor_prices : names) (output output_price : string) (factor_shares dims : names)
    (coords : dict (list string)) (sum_dim : option string) (expand_price_dim transpose_output : bool) (backend : string) : res (list string) :=
  let* _ := check_lengths factors factor_prices factor_shares in
  let factors := at_least_list factors in
  let one_dim := match dims with One _ => true | Many l => Nat.eqb (length l) 1 end in
  if one_dim
  then if Nat.eqb (length factors) 1 then Err ValueError
       else Ok (leontief_1d factors (iter factor_prices) output output_price (iter factor_shares))
  else match factors with
       | [factor] =>
           let* price := single factor_prices in
           let* share := single factor_shares in
           leontief_2d factor price output output_price share (at_least_list dims) coords sum_dim expand_price_dim transpose_output backend
       | _ => Err ValueError
       end.

(** production_functions.py:29-80 unpack_string_inputs: with every input a list,
    or without coords or dims, the inputs as lists; otherwise every input (a
    string) with every combination of labels *)
Fixpoint label_product (labels : list (list string)) : list (list string) :=
  match labels with
  | [] => [[]]
  | l :: rest => flat_map (fun x => map (fun xs => x :: xs) (label_product rest)) l
  end.
(** isinstance(x, list), production_functions.py:61 *)
Definition is_many (x : names) : bool := match x with Many _ => true | One _ => false end.
(** production_functions.py:29-80 unpack_string_inputs *)
Definition unpack_string_inputs (inputs : list names) (dims : option (list string)) (coords : option (dict (list string))) : res (list (list string)) :=
  let inputs := map unwrap_singleton_list inputs in
  if forallb is_many inputs then Ok (map at_least_list inputs)
  else match coords, dims with
       | Some coords, Some dims =>
           if forallb (fun d => dmem d coords) dims
           then let* labels := map_res (fun d => dgetitem d coords) dims in
                let prod := label_product labels in
                (* "_".join([input, *label_list]) fails on a list, once there is a combination *)
                map_res (fun x => match x with
                                  | One s => Ok (map (fun ls => join "_" (s :: ls)) prod)
                                  | Many _ => match prod with [] => Ok [] | _ => Err TypeError end
                                  end) inputs
           else Err KeyError
       | _, _ => Ok (map at_least_list inputs)
       end.
