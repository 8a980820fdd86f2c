(** Rebalancing a social accounting matrix
    (/repo/cge_modeling/tools/rebalance.py) over exact real numbers. The
    optimizers (cvxpy, scipy) are an argument that returns a point. *)
From Coq Require Import Reals.
From Verif Require Import Py PyStr NdArray M_Euler M_Newton.
Local Open Scope string_scope.
Local Open Scope list_scope.

(** the sums of tools/rebalance.py:35, 119-122 *)
Definition sumR (l : list R) : R := fold_right Rplus 0%R l.

(** A DataFrame of numbers: row labels, column labels, and the cell at two
    labels. Simplified: one level of labels, which are strings; [scell] is only
    meaningful at labels of the frame (the df of tools/rebalance.py:20-81). *)
Record sam := mkSam { sindex : list string; scolumns : list string; scell : string -> string -> R }.

(** df.values (tools/rebalance.py:85, 180) *)
Definition values (s : sam) : list (list R) := map (fun r => map (scell s r) (scolumns s)) (sindex s).

(** pd.DataFrame(values, index, columns) (the labels of tools/rebalance.py:199) *)
Fixpoint position (x : string) (l : list string) : nat :=
  match l with [] => 0 | y :: l' => if String.eqb x y then 0 else S (position x l') end.
(** pd.DataFrame(Z_new, index, columns), tools/rebalance.py:199 *)
Definition frame (v : list (list R)) (index columns : list string) : sam :=
  mkSam index columns (fun r c => nth (position c columns) (nth (position r index) v []) 0%R).

(** df.loc[r, c] = v (tools/rebalance.py:61-62, 77-78) *)
Definition set_cell (f : string -> string -> R) (r c : string) (v : R) : string -> string -> R :=
  fun r' c' => if String.eqb r' r && String.eqb c' c then v else f r' c'.

(** tools/rebalance.py:20-52 SAMTransformer, fitted: scale and negative_locs. melt
    lists the cells column by column. *)
Record transformer := mkT { t_scale : R; t_negative : list (string * string) }.

(** tools/rebalance.py:29-52 *)
Definition fit (s : sam) : transformer :=
  mkT (sumR (map (fun c => sumR (map (fun r => scell s r c) (sindex s))) (scolumns s)))
      (flat_map (fun c => map (fun r => (r, c)) (filter (fun r => rlt (scell s r c) 0) (sindex s))) (scolumns s)).

(** tools/rebalance.py:59-61 *)
Definition move_to (f : string -> string -> R) (rc : string * string) : string -> string -> R :=
  let '(row, col) := rc in
  let f := set_cell f col row (- f row col)%R in
  set_cell f row col 0%R.

(** tools/rebalance.py:53-63 transform; [None] is a transformer that was not fitted *)
Definition transform (t : option transformer) (s : sam) : res sam :=
  match t with
  | None => Err ValueError
  | Some t => Ok (mkSam (sindex s) (scolumns s)
                        (fold_left move_to (t_negative t) (fun r c => scell s r c / t_scale t)%R))
  end.

(** tools/rebalance.py:75-77 *)
Definition move_back (f : string -> string -> R) (rc : string * string) : string -> string -> R :=
  let '(row, col) := rc in
  let f := set_cell f row col (- f col row)%R in
  set_cell f col row 0%R.

(** tools/rebalance.py:69-80 inverse_transform *)
Definition inverse_transform (t : option transformer) (s : sam) : res sam :=
  match t with
  | None => Err ValueError
  | Some t => let f := fold_left move_back (t_negative t) (scell s) in
              Ok (mkSam (sindex s) (scolumns s) (fun r c => f r c * t_scale t)%R)
  end.

(** tools/rebalance.py:65-67 fit_transform *)
Definition fit_transform (s : sam) : transformer * res sam := (fit s, transform (Some (fit s)) s).

(** the nonzero test of Z.nonzero(), tools/rebalance.py:160 *)
Definition rnz (x : R) : bool := if Req_EM_T x 0 then false else true.

(** tools/rebalance.py:159-171 sparse_to_vector_and_matrix of csr_array(values): the
    nonzero positions in row order, their values, and the matrix that has a one
    at (row * n_columns + column, k) for the k-th of them. *)
Definition nonzero (z : list (list R)) : list (nat * nat) :=
  flat_map (fun i => map (fun j => (i, j)) (filter (fun j => rnz (nth j (nth i z []) 0%R)) (seq 0 (length (nth i z [])))))
           (seq 0 (length z)).
(** tools/rebalance.py:159-171 *)
Definition sparse_to_vector_and_matrix (z : list (list R)) (n_columns : nat) : list R * list (list R) :=
  let idx := nonzero z in
  let x := map (fun p => nth (snd p) (nth (fst p) z []) 0%R) idx in
  let a_rows := map (fun p => fst p * n_columns + snd p) idx in
  let a := map (fun i => map (fun r => if Nat.eqb r i then 1 else 0)%R a_rows) (seq 0 (length z * n_columns)) in
  (x, a).

(** v.reshape((r, c)) (tools/rebalance.py:185, 198) *)
Definition reshape2 (v : list R) (r c : nat) : list (list R) := map (fun i => slice v (i * c) c) (seq 0 r).

(** X.sum(axis=1), X.sum(axis=0) (tools/rebalance.py:121, 190) *)
Definition row_sums (z : list (list R)) : list R := map sumR z.
(** X.sum(axis=0), tools/rebalance.py:121, 190 *)
Definition col_sums (z : list (list R)) (c : nat) : list R := map (fun j => sumR (map (fun row => nth j row 0%R) z)) (seq 0 c).

(** tools/rebalance.py:178-185, 196: the matrix for a point of the optimizer *)
Definition cvx_matrix (normalized : sam) (x : list R) : list (list R) :=
  let n := length (sindex normalized) in
  let '(_, a) := sparse_to_vector_and_matrix (values normalized) n in
  reshape2 (mv a x) n n.

(** tools/rebalance.py:187-191: the constraints *)
Definition cvx_constraints (normalized : sam) (scale : R) (x : list R) : Prop :=
  let n := length (sindex normalized) in
  length x = length (fst (sparse_to_vector_and_matrix (values normalized) n)) /\
  sumR x = 1%R /\ Forall (fun v => 0 <= v)%R x /\
  map (fun v => v * scale)%R (col_sums (cvx_matrix normalized x) n) =
  map (fun v => v * scale)%R (row_sums (cvx_matrix normalized x)).

(** tools/rebalance.py:84-86 get_flat_nonzero_values *)
Definition get_flat_nonzero_values (s : sam) : list R := filter (fun v => rlt 0 v) (List.concat (values s)).

(** tools/rebalance.py:111-115: X = zeros; X[df.values > 0] = x, on the flat values.
    A wrong number of values is an error. *)
Fixpoint set_masked (flat x : list R) : res (list R) :=
  match flat with
  | [] => match x with [] => Ok [] | _ => Err ValueError end
  | v :: flat' =>
      if rlt 0 v then match x with [] => Err ValueError | y :: x' => let* r := set_masked flat' x' in Ok (y :: r) end
      else let* r := set_masked flat' x in Ok (0%R :: r)
  end.
(** tools/rebalance.py:111-115 *)
Definition f_X (normalized : sam) (x : list R) : res (list (list R)) :=
  let* v := set_masked (List.concat (values normalized)) x in
  Ok (reshape2 v (length (sindex normalized)) (length (scolumns normalized))).

(** tools/rebalance.py:121-122, 249-253: the constraints and bounds *)
Definition scipy_constraints (normalized : sam) (x : list R) : Prop :=
  exists z, f_X normalized x = Ok z /\
  norm1 (vsub (col_sums z (length (scolumns normalized))) (row_sums z)) = 0%R /\ (sumR x - 1)%R = 0%R /\
  Forall (fun v => 0 <= v <= 1)%R x.

(** tools/rebalance.py:271-314 balance_SAM: what each optimizer returned is an
    argument, the point and whether it reports success. *)
Definition balance_SAM (how : string) (use_cvxpy : bool) (cvx scipy : sam -> res (list R * bool)) (s : sam)
  : res (sam * bool) :=
  if negb (String.eqb how "cross-entropy") then Err NotImplementedError
  else
    let '(t, n) := fit_transform s in
    let* normalized := n in
    let* zs := if use_cvxpy
               then let* p := cvx normalized in Ok (cvx_matrix normalized (fst p), snd p)
               else let* p := scipy normalized in let* z := f_X normalized (fst p) in Ok (z, snd p) in
    let* out := inverse_transform (Some t) (frame (fst zs) (sindex normalized) (scolumns normalized)) in
    Ok (out, snd zs).
