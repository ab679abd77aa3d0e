(** Specification vocabulary for several stacking fits on one weight matrix (C165). *)
From Verif.Model Require Import Base Ext Csr Neighbour Distance WeightModel NumbaImpl Stacking.
From Verif.Spec Require Import NeighbourSpec StackingSpec.
Open Scope nat_scope.
Open Scope R_scope.

Section Fits.
  Variable est : Type.
  Variable fit_est : nat -> matrix R -> list R -> list R -> result est.
  Variable predict_est : est -> matrix R -> result (list R).
  Variable meta : Type.
  Variable fit_meta : R -> nat -> matrix R -> list R -> list R -> result meta.
  Variable predict_meta : meta -> matrix R -> result (list R).
  Variable solve : matrix R -> list R -> result (list R).
  Variable G : Type.
  Variable seed0 : G.
  Variable choice : G -> list nat -> nat -> G * list nat.
  Variable cpu : nat.
  Variable wm : filesystem -> list coords -> list coords -> filesystem * result swts.

  (** A successful fit of some model with a positive meta_fitting_shrink_rate to some [n]
      observations, given the weight matrix object [w], leaves the object [w']. *)
  Definition fit_on (n : nat) (w w' : swts) : Prop :=
    exists r c g fs s0 X y coords q,
      let o := sfit est fit_est predict_est meta fit_meta predict_meta solve G seed0 choice cpu wm r c g fs s0 X y coords (Some w) in
      List.length X = n /\ valid_runtime r n (patches cpu c) /\ valid_rates c /\ sc_meta_shrink c = Some q /\ 0 < q /\
      so_result est meta G o = Ok tt /\ so_weights est meta G o = Some w'.

  (** [k] of them, one after the other on the same object. *)
  Inductive fits_on (n : nat) : nat -> swts -> swts -> Prop :=
  | no_fit w : fits_on n 0 w w
  | one_more_fit k w w' w'' : fits_on n k w w' -> fit_on n w' w'' -> fits_on n (S k) w w''.
End Fits.

(** The non-zero weights of a row are all different. *)
Definition distinct_weights (row : list R) : Prop := NoDup (filter (fun x => negb (Reqb x 0)) row).

(** What [k] fits leave of a row of the weights. *)
Record thinned (k : nat) (row row' : list R) : Prop := {
  th_length : List.length row' = List.length row;
  th_kept_or_zero : forall j, nth j row' 0 = nth j row 0 \/ nth j row' 0 = 0;
  th_max : forall j, nth j row 0 <> 0 -> (forall l, nth l row 0 <> 0 -> nth l row 0 <= nth j row 0) -> nth j row' 0 = nth j row 0;
  th_count : distinct_weights row -> (num_nonzero row' <= Nat.max 1 (num_nonzero row - k))%nat
}.
