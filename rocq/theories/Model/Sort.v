(** [np.sort] / [np.partition] on one row, and the quantile methods of NumPy
    1.24 that the code uses. *)
From Verif.Model Require Import Base.
Open Scope R_scope.

Fixpoint insert (x : R) (l : list R) : list R :=
  match l with
  | [] => [x]
  | y :: ys => if Rleb x y then x :: l else y :: insert x ys
  end.

(** [np.sort(row)]. *)
Fixpoint sortR (l : list R) : list R :=
  match l with
  | [] => []
  | x :: xs => insert x (sortR xs)
  end.

(** [np.partition(row, k)[k]]: element at sorted position [k];
    ValueError when [k] is out of bounds. *)
Definition partition_at (row : list R) (k : nat) : result R :=
  match nth_error (sortR row) k with
  | Some v => Ok v
  | None => Raise ValueError
  end.

(** NumPy's [_quantile]: value of the sorted array [s] at the real-valued
    ("virtual") index [v]: first element if [v < 0], last if [v >= n-1],
    linear interpolation otherwise. *)
Definition at_virtual_index (s : list R) (v : R) : R :=
  let n := List.length s in
  if Rltb v 0 then nth 0 s 0
  else if Rleb (INR (n - 1)) v then nth (n - 1) s 0
  else
    let i := Z.to_nat (Rfloor v) in
    let gamma := v - IZR (Rfloor v) in
    nth i s 0 + (nth (S i) s 0 - nth i s 0) * gamma.

(** Virtual index of [method='median_unbiased'] (alpha = beta = 1/3):
    n*q + (alpha + q*(1 - alpha - beta)) - 1. *)
Definition virtual_median_unbiased (n : nat) (q : R) : R :=
  INR n * q + (1 / 3 + q * (1 - 1 / 3 - 1 / 3)) - 1.

(** Virtual index of [method='linear']: (n-1)*q. *)
Definition virtual_linear (n : nat) (q : R) : R := INR (n - 1) * q.

Definition quantile_with (virtual : nat -> R -> R) (l : list R) (q : R) : result R :=
  if Rltb q 0 || Rltb 1 q then Raise ValueError       (* "Quantiles must be in the range [0, 1]" *)
  else match l with
       | [] => Raise IndexError
       | _ => Ok (at_virtual_index (sortR l) (virtual (List.length l) q))
       end.

Definition quantile_median_unbiased := quantile_with virtual_median_unbiased.
Definition quantile_linear := quantile_with virtual_linear.
