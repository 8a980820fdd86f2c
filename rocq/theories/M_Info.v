(** Model of the helpers for dictionaries that describe variables
    (tools/output_tools.py:354-391, tools/sympy_tools.py:250-262).

    An index and its value are given by their texts, str(idx) and str(value).
    Simplified: the text of an index has no character with a meaning in regular
    expressions, and the text of a value no backslash. Substitution in the index
    symbols themselves (Idx.subs) is external. *)
From Verif Require Import Py PyStr M_Indices.
Local Open Scope string_scope.
Local Open Scope list_scope.

(** The characters of the class [\^_,{] (tools/output_tools.py:368) *)
Definition opens (c : ascii) : bool := (Ascii.eqb c "^" || Ascii.eqb c "_" || Ascii.eqb c "," || Ascii.eqb c "{")%bool.

(** re.sub of a character of the class followed by idx (tools/output_tools.py:367-369).
    [skip]: characters left of the last match. *)
Fixpoint sub_opened (idx value : string) (skip : nat) (s : string) : string :=
  match s with
  | EmptyString => EmptyString
  | String c s' =>
      match skip with
      | S k => sub_opened idx value k s'
      | O => if opens c && String.prefix idx s' then String c (value ++ sub_opened idx value (slen idx) s')
             else String c (sub_opened idx value 0 s')
      end
  end.

(** re.sub(idx + "}", value + "}", s), tools/output_tools.py:370 *)
Definition sub_closed (idx value s : string) : string := str_replace (idx ++ "}") (value ++ "}") s.

(** re.sub(" idx$", " value", s), tools/output_tools.py:372: the end of the text,
    also before a final newline *)
Fixpoint sub_last (idx value : string) (s : string) : string :=
  if String.eqb s (" " ++ idx) then " " ++ value
  else if String.eqb s (" " ++ idx ++ String "010" "") then " " ++ value ++ String "010" ""
  else match s with EmptyString => EmptyString | String c s' => String c (sub_last idx value s') end.

(** re.sub(" idx ", " value ", s), tools/output_tools.py:373 *)
Definition sub_between (idx value s : string) : string := str_replace (" " ++ idx ++ " ") (" " ++ value ++ " ") s.

(** tools/output_tools.py:363, 366-370: the LaTeX name *)
Definition sub_latex (sub_dict : list (string * string)) (latex : string) : string :=
  fold_left (fun s iv => sub_closed (fst iv) (snd iv) (sub_opened (fst iv) (snd iv) 0 s)) sub_dict latex.

(** tools/output_tools.py:364, 366, 372-373: the description *)
Definition sub_description (sub_dict : list (string * string)) (text : string) : string :=
  fold_left (fun s iv => sub_between (fst iv) (snd iv) (sub_last (fst iv) (snd iv) s)) sub_dict text.

(** A dictionary of info (tools/output_tools.py:357-360) *)
Record info := MkInfo { i_name : string; i_index : option (list string); i_latex : string; i_description : string }.

(** tools/output_tools.py:354-383 sub_info_dicts; [subs] is x.subs(sub_dict) *)
Definition sub_info_dicts (subs : string -> string) (infos : list info) (sub_dict : list (string * string)) : list info :=
  map (fun d => MkInfo (i_name d) (Some (map subs (match i_index d with Some l => l | None => [] end)))
                       (sub_latex sub_dict (i_latex d)) (sub_description sub_dict (i_description d))) infos.

(** A sympy Symbol: name and assumptions. Two symbols are equal if both agree
    (tools/sympy_tools.py:250-258). Simplified: sympy compares what follows from
    the assumptions. *)
Definition sym := (string * list (string * bool))%type.
(** tools/sympy_tools.py:250-258: equality of symbols *)
Definition sym_eq_dec (a b : sym) : {a = b} + {a <> b}.
Proof. repeat decide equality. Defined.
(** value_dict.get(symbol) (tools/output_tools.py:388, 390) *)
Fixpoint sym_get {V} (s : sym) (d : list (sym * V)) : option V :=
  match d with [] => None | (k, v) :: d' => if sym_eq_dec s k then Some v else sym_get s d' end.
(** tools/sympy_tools.py:261-262 symbols: later entries replace the value of
    equal keys, here all values are the same *)
Definition symbols {V} (name : string) (value : V) (sectors : list string) (assumptions : option (list (string * bool))) : list (sym * V) :=
  map (fun s => ((symbol name [s], match assumptions with Some a => a | None => [] end), value)) sectors.
(** tools/output_tools.py:386-391 get_info; a value may be None *)
Definition get_info {V} (name : string) (value_dict : list (sym * option V)) (sectors : list string) : option V :=
  let x := match sym_get (symbol name sectors, []) value_dict with Some x => x | None => None end in
  match x with
  | None => match sym_get (symbol name [], []) value_dict with Some x => x | None => None end
  | Some _ => x
  end.
