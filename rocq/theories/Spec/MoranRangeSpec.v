(** How large Moran's I can be, and its mean over rearrangements (C181). *)
From Verif.Model Require Import Base.
From Verif.Spec Require Import MoranSpec.
Open Scope nat_scope.
Open Scope R_scope.

Definition nonnegative (w : matrix R) (n : nat) : Prop := forall i j, (i < n)%nat -> (j < n)%nat -> 0 <= mget 0 w i j.

(** Sum of the weights of the locations for themselves. *)
Definition own_weights (n : nat) (v : nat -> nat -> R) : R := sum_n n (fun i => v i i).

(** What location [i] gives to and gets from others, averaged. *)
Definition influence (n : nat) (v : nat -> nat -> R) (i : nat) : R := (sum_n n (fun j => v i j) + sum_n n (fun j => v j i)) / 2.
