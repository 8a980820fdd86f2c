(** C66: the headings of a table. *)
From Verif Require Import Py PyStr M_Output S_Output L_Output L_Output2.
Local Open Scope string_scope.
Local Open Scope list_scope.

(** A table with a plain column and two groups *)
Definition tb : list (string * item nat) :=
  [("X", Data [1; 2]); ("A", Sub [("u", Data [3; 4]); ("v", Data [5; 6])]); ("B", Sub [("w", Data [7; 8])])].
Lemma tb_two : two_levels tb.
Proof.
  intros k v [H|[H|[H|[]]]]; injection H as <- <-; [exact I| |]; intros k' v' Hi; simpl in Hi.
  - destruct Hi as [H|[H|[]]]; injection H as _ <-; eexists; reflexivity.
  - destruct Hi as [H|[]]; injection H as _ <-; eexists; reflexivity.
Qed.

Theorem c66_headings :
  forall (V : Type) (d : list (string * item V)), two_levels d -> d <> [] ->
  exists depth, make_headings (build_tree d) = map (fun level => aligned_row level d) (seq 0 depth) /\
    1 <= depth <= 2 /\
    (* every row is as wide as the table *)
    (forall row, In row (make_headings (build_tree d)) -> length row = fold_right Nat.add 0 (map (fun kv => columns (snd kv)) d)).
Proof. exact @c66_headings__p. Qed.
Print Assumptions c66_headings.
Example c66_headings_ex : make_headings (build_tree tb) =
  [[Some "X"; Some "A"; None; Some "B"]; [None; Some "u"; Some "v"; Some "w"]].
Proof.
  destruct (c66_headings tb_two ltac:(discriminate)) as (depth & E & D & _). rewrite E.
  destruct depth as [|[|[|depth]]]; [lia| |reflexivity|lia]. exfalso. vm_compute in E. discriminate.
Qed.
Theorem c66_table :
  forall (V : Type) (d : list (string * item V)) (n : nat), two_levels d -> d <> [] ->
  (forall k v, In (k, v) d -> v <> Sub []) ->
  (forall col, In col (flat_map (fun kv => data_columns (snd kv)) d) -> length col = n) ->
  exists headings, make_table d = Ok (headings, n, flat_map (fun kv => data_columns (snd kv)) d) /\
    forall row, In row headings -> length row = length (flat_map (fun kv => data_columns (snd kv)) d).
Proof. exact @c66_table__p. Qed.
Print Assumptions c66_table.
Example c66_table_ex : exists headings, make_table tb = Ok (headings, 2, [[1; 2]; [3; 4]; [5; 6]; [7; 8]]).
Proof.
  destruct (@c66_table _ tb 2 tb_two ltac:(discriminate)) as (h & H & _).
  - intros k v [H|[H|[H|[]]]]; injection H as <- <-; discriminate.
  - simpl. intros col [<-|[<-|[<-|[<-|[]]]]]; reflexivity.
  - exists h. exact H.
Qed.
Theorem c66_three_levels :
  forall (V : Type) (d : list (string * item V)), three_levels d -> d <> [] ->
  exists depth, 1 <= depth <= 3 /\ length (make_headings (build_tree d)) = depth /\
    (* below the first row everything is over its own columns *)
    (forall level row, 1 <= level -> nth_error (make_headings (build_tree d)) level = Some row -> row = aligned_row level d) /\
    (* the first row exactly if groups two levels down have two columns on average *)
    (nth_error (make_headings (build_tree d)) 0 = Some (aligned_row 0 d) <->
     forall k v, In (k, v) d -> list_sum (group_sizes v) = 2 * length (group_sizes v)).
Proof. exact @c66_three_levels__p. Qed.
Print Assumptions c66_three_levels.
(** A plain column next to a group of two, and a group of three next to a group of one *)
Definition tb3 : list (string * item nat) :=
  [("A", Sub [("x", Data [1]); ("B", Sub [("y", Data [2]); ("z", Data [3])])]);
   ("C", Sub [("D", Sub [("u", Data [4]); ("v", Data [5]); ("w", Data [6])]); ("E", Sub [("s", Data [7])])])].
Example c66_three_levels_ex : three_levels tb3 /\ map (fun kv => group_sizes (snd kv)) tb3 = [[2]; [3; 1]] /\
  make_headings (build_tree tb3) =
    [[Some "A"; None; None; Some "C"; None; None; None];
     [Some "x"; Some "B"; None; Some "D"; None; None; Some "E"];
     [None; Some "y"; Some "z"; Some "u"; Some "v"; Some "w"; Some "s"]].
Proof.
  split; [|split; reflexivity]. intros k v [H|[H|[]]]; injection H as <- <-; intros k' v' Hi; cbn in Hi.
  - destruct Hi as [H|[H|[]]]; injection H as <- <-; [exact I|]. intros k'' v'' [H|[H|[]]]; injection H as _ <-; eexists; reflexivity.
  - destruct Hi as [H|[H|[]]]; injection H as <- <-; intros k'' v'' Hj; cbn in Hj.
    + destruct Hj as [H|[H|[H|[]]]]; injection H as _ <-; eexists; reflexivity.
    + destruct Hj as [H|[]]; injection H as _ <-; eexists; reflexivity.
Qed.
(** Three levels: the heading A spans two columns of three. *)
Theorem c66_three_levels_refuted :
  exists d : list (string * item nat),
    make_headings (build_tree d) =
      [[Some "A"; None]; [Some "B"; None; None]; [Some "x"; Some "y"; Some "z"]] /\
    aligned_row 0 d = [Some "A"; None; None].
Proof. exact @c66_three_levels_refuted__p. Qed.
Print Assumptions c66_three_levels_refuted.
(** A column that ends two levels above the deepest one is skipped. *)
Theorem c66_uneven_refuted :
  exists d : list (string * item nat),
    nth 3 (make_headings (build_tree d)) [] = [Some "y"; Some "z"] /\
    aligned_row 3 d = [None; Some "y"; Some "z"].
Proof. exact @c66_uneven_refuted__p. Qed.
Print Assumptions c66_uneven_refuted.
