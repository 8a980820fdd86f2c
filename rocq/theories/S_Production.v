(** Specification vocabulary for C55-C60. *)
From Coq Require Import Reals.
From Verif Require Import Py PyStr M_PyExpr S_PyExpr S_Meaning.
Local Open Scope list_scope.

(** A factor of production: how its quantity, price and share are written, and
    their values *)
Record factor := mkFactor { f_name : string; f_price : string; f_share : string; qty : R; price : R; share : R }.

Definition sum_over (f : factor -> R) (l : list factor) : R := fold_right (fun x acc => (f x + acc)%R) 0%R l.
Definition prod_over (f : factor -> R) (l : list factor) : R := fold_right (fun x acc => (f x * acc)%R) 1%R l.

(** The strings of a factor are units with these values, its price is positive. *)
Definition factor_ok (rho : valuation) (ix : indices) (f : factor) : Prop :=
  unit_val rho ix (f_name f) (qty f) /\ unit_val rho ix (f_price f) (price f) /\ expr_val rho ix (f_share f) (share f) /\
  no_eq (f_name f) /\ (0 < price f)%R.

(** Vectors indexed by the positions of a dimension: [s] is a unit whose value at
    position [k < n] of the index [i] is [f k]; sums over positions *)
Definition unit_at (rho : valuation) (ix : indices) (i : string) (n : nat) (s : string) (f : nat -> R) : Prop :=
  exists e, is_unit s e /\ forall k, k < n -> eval rho (upd ix i k) e = Some (f k).
Definition sum_n (f : nat -> R) (n : nat) : R := fold_right Rplus 0%R (map f (seq 0 n)).

(** A Python identifier *)
Fixpoint all_word (s : string) : bool := match s with EmptyString => true | String c s' => is_word c && all_word s' end.
Definition is_name (w : string) : Prop := w <> EmptyString /\ all_word w = true /\ starts_digit w = false.

(** The valuation that gives names the listed values *)
Definition env (values : list (string * R)) : valuation := fun w _ => option_map snd (find (fun e => String.eqb (fst e) w) values).

(** Matrices: positions [i] of the index [c] and [k] of the index [d] *)
Definition at2 (ix : indices) (c d : string) (i k : nat) : indices := upd (upd ix c i) d k.
Definition unit_at2 (rho : valuation) (ix : indices) (c d : string) (m n : nat) (s : string) (f : nat -> nat -> R) : Prop :=
  exists e, is_unit s e /\ forall i k, i < m -> k < n -> eval rho (at2 ix c d i k) e = Some (f i k).
(** A name whose value depends on the position of [c] but not of [d] *)
Definition name_at (rho : valuation) (ix : indices) (c d : string) (m : nat) (s : string) (f : nat -> R) : Prop :=
  is_name s /\ number s = None /\ forall i k, i < m -> rho s (at2 ix c d i k) = Some (f i).

(** An optional argument: left out means one *)
Definition opt_at (rho : valuation) (ix : indices) (i : string) (n : nat) (o : option string) (f : nat -> R) : Prop :=
  match o with Some s => unit_at rho ix i n s f | None => forall k, k < n -> f k = 1%R end.
(** The aggregate of the quantities [x] with weights [s] and elasticity [e] *)
Definition aggregate (a e : R) (s x : nat -> R) (n : nat) : R :=
  (a * Rpower (sum_n (fun k => s k * Rpower (x k) ((e - 1) / e)) n) (e / (e - 1)))%R.

(** Sums and products over factors and other quantities [zs] of them *)
Definition sum_with (g : factor -> R -> R) (l : list factor) (zs : list R) : R :=
  fold_right Rplus 0%R (map (fun fz => g (fst fz) (snd fz)) (combine l zs)).
Definition prod_with (g : factor -> R -> R) (l : list factor) (zs : list R) : R :=
  fold_right Rmult 1%R (map (fun fz => g (fst fz) (snd fz)) (combine l zs)).

(** The same quantities, prices and shares, whatever they are called *)
Definition same_values (f g : factor) : Prop := qty f = qty g /\ price f = price g /\ share f = share g.

(** Every "=" of [s] belongs to the keyword argument axis *)
Definition only_axis_eq (s : string) : Prop := forall a b, s = (a ++ "=" ++ b)%string -> ends_with "axis" a = true.

(** The name of the element of [s] at these labels: s_label_label... *)
Definition element_name (s : string) (labels : list string) : string := fold_left (fun acc l => acc ++ "_" ++ l)%string labels s.
