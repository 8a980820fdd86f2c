(** Specification vocabulary for rebalancing (C61-C64). *)
From Coq Require Import Reals.
From Verif Require Import Py PyStr NdArray M_Rebalance.
Local Open Scope list_scope.

(** A square SAM: the same distinct accounts label rows and columns, in one order. *)
Definition square (s : sam) : Prop := NoDup (sindex s) /\ scolumns s = sindex s.

(** Total payments and receipts of an account *)
Definition row_total (s : sam) (a : string) : R := fold_right Rplus 0%R (map (fun b => scell s a b) (scolumns s)).
Definition col_total (s : sam) (a : string) : R := fold_right Rplus 0%R (map (fun b => scell s b a) (sindex s)).
Definition grand_total (s : sam) : R := fold_right Rplus 0%R (map (row_total s) (sindex s)).
Definition balanced (s : sam) : Prop := forall a, In a (sindex s) -> row_total s a = col_total s a.

(** The same accounts and the same cells *)
Definition same_sam (s s' : sam) : Prop :=
  sindex s' = sindex s /\ scolumns s' = scolumns s /\
  forall r c, In r (sindex s) -> In c (scolumns s) -> scell s' r c = scell s r c.

(** A matrix with [r] rows of length [c] *)
Definition is_table (r c : nat) (z : list (list R)) : Prop := length z = r /\ forall row, In row z -> length row = c.

(** The entry in row [i] and column [j] *)
Definition cell (z : list (list R)) (i j : nat) : R := nth j (nth i z []) 0%R.

(** Cell (i, j) of a table with [c] columns is the [k]-th one, reading row by
    row, that [sel] selects. *)
Definition kth_cell (sel : R -> Prop) (z : list (list R)) (c k i j : nat) : Prop :=
  i < length z /\ j < c /\ sel (cell z i j) /\
  exists before, NoDup before /\ length before = k /\
    forall p, In p before <-> fst p < length z /\ snd p < c /\ fst p * c + snd p < i * c + j /\ sel (cell z (fst p) (snd p)).
