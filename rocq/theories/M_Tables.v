(** The tables shown for a model: CGEModel.summary and equation_table
    (/repo/cge_modeling/base/cge.py:563-616) and the printing of cells
    (tools/output_tools.py:230-351). *)
From Coq Require Import Reals.
From Verif Require Import Py PyStr NdArray M_Primitives M_Expand M_SymExpr M_Calibrate M_Output.
Local Open Scope string_scope.
Local Open Scope list_scope.

(** The values that can stand in a table (tools/output_tools.py:234-248); an
    equation by its two sides *)
Inductive cell :=
| CObj (o : mobj)
| CFloat (x : float)
| CInt (n : nat)
| CStr (s : string)
| CEq (lhs rhs : sexpr)
| COther.

(** A printed cell: LaTeX text or a number (tools/output_tools.py:234-248) *)
Inductive shown := Latex (s : string) | Number (x : float) | Whole (n : nat).

(** str.isnumeric for ASCII text: at least one character, all digits
    (tools/output_tools.py:241) *)
Definition is_digit (a : Ascii.ascii) : bool := let n := Ascii.nat_of_ascii a in Nat.leb 48 n && Nat.leb n 57.
(** tools/output_tools.py:241 *)
Fixpoint all_digits (s : string) : bool := match s with EmptyString => true | String a s' => is_digit a && all_digits s' end.
(** tools/output_tools.py:241 *)
Definition isnumeric (s : string) : bool := match s with EmptyString => false | _ => all_digits s end.

(** tools/output_tools.py:230-231 heading_to_latex *)
Definition heading_to_latex (s : string) : string := "\textbf{" ++ s ++ "}".

(** tools/output_tools.py:234-248 parse_data. The LaTeX printer of sympy is
    external. *)
Definition parse_data (doprint : sexpr -> sexpr -> string) (x : cell) : res shown :=
  match x with
  | CObj o => Ok (Latex (o_full_latex o))
  | CFloat f => Ok (Number f)
  | CInt n => Ok (Whole n)
  | CStr s => Ok (Latex (if isnumeric s then s else "\text{" ++ s ++ "}"))
  | CEq l r => Ok (Latex (doprint l r))
  | COther => Err ValueError
  end.

(** tools/output_tools.py:251-275 make_table: the heading rows and the data rows
    handed to Texttable *)
Definition print_table (doprint : sexpr -> sexpr -> string) (info_dict : list (string * item cell)) : res (list (list string) * list (list shown)) :=
  let* t := make_table info_dict in
  let '(headings, n_data, datas) := t in
  let headings := map (map (fun s => match s with Some s => heading_to_latex s | None => "" end)) headings in
  let* rows := map_res (fun row => map_res (fun col => match nth_error col row with Some x => parse_data doprint x | None => Err IndexError end) datas) (seq 0 n_data) in
  Ok (headings, rows).

(** The argument variables of summary (base/cge.py:565) *)
Inductive summary_request := AllObjects | OnlyVariables | OnlyParameters | Names (l : list string).

(** base/cge.py:574-582: the requested names. get_variables and get_parameters
    list the dictionaries in order (482-494). *)
Definition summary_names (vars params : dict mobj) (q : summary_request) : list string :=
  match q with
  | AllObjects => map o_name (dvals vars) ++ map o_name (dvals params)
  | OnlyVariables => map o_name (dvals vars)
  | OnlyParameters => map o_name (dvals params)
  | Names l => l
  end.

(** base/cge.py:586-592: the object of a name *)
Definition summary_item (vars params : dict mobj) (name : string) : res mobj :=
  match dget name params with
  | Some o => Ok o
  | None => match dget name vars with Some o => Ok o | None => Err ValueError end
  end.

(** result.to_frame().loc[names, :].values.T (base/cge.py:601-602,
    base/primitives.py:304-312): a missing row label is a KeyError *)
Definition result_columns (r : result) (names : list string) : res (list float * list float) :=
  let* initial := map_res (fun n => dgetitem n (initial_dict r)) names in
  let* final := map_res (fun n => dgetitem n (fitted_dict r)) names in
  Ok (initial, final).

(** base/cge.py:563-605 summary. A result comes with its name. *)
Definition summary (vars params : dict mobj) (q : summary_request) (results : list (string * result)) : res (dict (item cell)) :=
  let names := summary_names vars params q in
  let* items := map_res (summary_item vars params) names in
  let info := [("Symbol", Data (map CObj items));
               ("Description", Data (map (fun o => CStr (replace_dim_marker_with_dim_name (o_description o))) items))] in
  fold_res (fun info nr =>
    let* c := result_columns (snd nr) names in
    Ok (dset (fst nr) (Sub [("Initial", Data (map CFloat (fst c))); ("Final", Data (map CFloat (snd c)))]) info)) info results.

(** An equation of the model: parsed to sympy, with its name and the two sides
    written with LaTeX names, or a plain Equation, which has no to_dict
    (base/primitives.py:225-280) *)
Inductive model_equation := SympyEquation (name : string) (lhs rhs : sexpr) | PlainEquation (name : string).

(** base/cge.py:608-614 the table of equations *)
Definition equation_info (equations : list model_equation) : res (dict (item cell)) :=
  let* l := map_res (fun e => match e with SympyEquation n l r => Ok (n, (l, r)) | PlainEquation _ => Err AttributeError end) equations in
  Ok [("", Data (map CInt (seq 1 (length l))));
      ("Name", Data (map (fun d => CStr (replace_dim_marker_with_dim_name (fst d))) l));
      ("Equation", Data (map (fun d => CEq (fst (snd d)) (snd (snd d))) l))].
(** base/cge.py:608-616 equation_table, up to the drawing of the table *)
Definition equation_table (doprint : sexpr -> sexpr -> string) (equations : list model_equation) : res (list (list string) * list (list shown)) :=
  let* info := equation_info equations in print_table doprint info.

(** tools/output_tools.py:278-299 make_summary_table: the rows. An entry of
    variables is the pair latex_name, description. *)
Definition make_summary_table (variables : list (string * string)) (values : option (list float)) : list (list shown) :=
  let headings := ["\text{Symbol}"; "\text{Description}"] ++ match values with Some _ => ["\text{Calibrated Value}"] | None => [] end in
  let data_rows :=
    match values with
    | None => map (fun d => [Latex (fst d); Latex ("\text{" ++ snd d ++ "}")]) variables
    | Some vs => map (fun dv => [Latex (fst (fst dv)); Latex ("\text{" ++ snd (fst dv) ++ "}"); Number (snd dv)]) (combine variables vs)
    end in
  map Latex headings :: data_rows.

(** tools/output_tools.py:302-318 make_equation_table: the rows. An entry is
    eq_id, name and the two sides of fancy_eq. *)
Definition make_equation_table (doprint : sexpr -> sexpr -> string) (equations : list (nat * string * (sexpr * sexpr))) : list (list shown) :=
  map Latex [""; "\text{Equation}"; "\text{Equation}"] ::
  map (fun d => let '(id, name, (l, r)) := d in [Whole id; Latex ("\text{" ++ name ++ "}"); Latex (doprint l r)]) equations.
