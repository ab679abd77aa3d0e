(** Property C195: mutual neighbours. *)
From Coq Require Import Lra Lia.
From Verif.Model Require Import Base Ext Kernel Distance WeightMatrix.
From Verif.Spec Require Import KernelSpec WeightSpec NoiseSpec.
From Verif.Spec Require Import MutualSpec.
From Verif.Proofs Require Import MutualProps.
From Verif.Proofs Require Import OneDimProps.
Open Scope string_scope.
Open Scope nat_scope.
Open Scope R_scope.

(** With fixed bandwidths, j is a neighbour of i exactly if i is one of j. *)
Theorem C195_mutual :
  forall Ds kt bw nc n W, symmetric_distances Ds n -> fixed_bandwidths kt bw nc (List.length Ds) -> (0 < n)%nat ->
  weight_matrix_from_distance (map A2 Ds) kt RNone bw nc = Ok W ->
  forall i j, (i < n)%nat -> (j < n)%nat -> mget NaN W i j <> Fin 0 -> mget NaN W j i <> Fin 0.
Proof. exact mutual. Qed.
Print Assumptions C195_mutual.

(** Their weights have the inverse ratio of one number for each observation. *)
Theorem C195_balance :
  forall Ds kt bw nc n W, symmetric_distances Ds n -> fixed_bandwidths kt bw nc (List.length Ds) -> (0 < n)%nat ->
  weight_matrix_from_distance (map A2 Ds) kt RNone bw nc = Ok W ->
  exists (w : nat -> nat -> R) (t : nat -> R), weights_are W n w /\
    (forall i, (i < n)%nat -> 0 <= t i /\ (t i = 0 <-> forall j, (j < n)%nat -> w i j = 0)) /\
    forall i j, (i < n)%nat -> (j < n)%nat -> t i * w i j = t j * w j i.
Proof. exact balance. Qed.
Print Assumptions C195_balance.

(** Around three observations the product of the weights is the same in both directions. *)
Theorem C195_cycle :
  forall Ds kt bw nc n W, symmetric_distances Ds n -> fixed_bandwidths kt bw nc (List.length Ds) -> (0 < n)%nat ->
  weight_matrix_from_distance (map A2 Ds) kt RNone bw nc = Ok W ->
  forall i j k w, (i < n)%nat -> (j < n)%nat -> (k < n)%nat -> weights_are W n w ->
  w i j * w j k * w k i = w i k * w k j * w j i.
Proof. exact cycle. Qed.
Print Assumptions C195_cycle.

(** Local means keep a weighted total of the values, whatever the values are. *)
Theorem C195_mean_kept :
  forall Ds kt bw nc n W, self_distances Ds n -> symmetric_distances Ds n ->
  (forall dim, (dim < List.length Ds)%nat -> exists k b, requests kt bw nc dim k (FixedBandwidth b) /\ 0 <= b) -> (0 < n)%nat ->
  weight_matrix_from_distance (map A2 Ds) kt RNone bw nc = Ok W ->
  exists w t, weights_are W n w /\ (forall i, (i < n)%nat -> 1 <= t i) /\
    forall y : nat -> R,
    Rsum (tabulate n (fun i => t i * Rsum (tabulate n (fun j => w i j * y j)))) = Rsum (tabulate n (fun i => t i * y i)).
Proof. exact mean_kept. Qed.
Print Assumptions C195_mean_kept.

(** Euclidean distances among one set of points meet the hypotheses. *)
Theorem C195_coordinates :
  forall mkw scipy kw pts n d, rect pts n d -> (0 < n)%nat ->
  exists D, distance_matrix (fun x => x) mkw scipy pts (Some pts) "euclidean" kw = Ok (A2 D) /\ self_distances [D] n /\ symmetric_distances [D] n.
Proof. exact euclidean_symmetric. Qed.
Print Assumptions C195_coordinates.

(** Relied on: the weights themselves are symmetric.  False: two neighbours with 1/2 and 1/3. *)
Theorem C195_symmetric_refuted :
  exists Ds W, self_distances Ds 4 /\ symmetric_distances Ds 4 /\
    weight_matrix_from_distance (map A2 Ds) (DScal "boxcar") RNone (DScal 1) DNone = Ok W /\
    mget NaN W 0 1 = Fin (1 / 2) /\ mget NaN W 1 0 = Fin (1 / 3).
Proof. exact not_symmetric. Qed.
Print Assumptions C195_symmetric_refuted.

(** Relied on: neighbours are mutual with neighbour_count too.  False with every kernel of
    limited reach. *)
Theorem C195_count_refuted :
  forall k, vanishing_kernel k \/ k = "boxcar" ->
  exists Ds W, self_distances Ds 4 /\ symmetric_distances Ds 4 /\
    weight_matrix_from_distance (map A2 Ds) (DScal k) RNone DNone (DScal (CInt 3)) = Ok W /\
    mget NaN W 3 2 <> Fin 0 /\ mget NaN W 2 3 = Fin 0.
Proof. exact count_not_mutual. Qed.
Print Assumptions C195_count_refuted.

(** Four points on a line, bandwidth 1: the hypotheses hold, with weights 1/2 and 1/3. *)
Example C195_example :
  symmetric_distances [line] 4 /\ self_distances [line] 4 /\ fixed_bandwidths (DScal "boxcar") (DScal 1) DNone 1 /\
  exists W, weight_matrix_from_distance (map A2 [line]) (DScal "boxcar") RNone (DScal 1) DNone = Ok W.
Proof.
  split; [exact line_symmetric|]. split; [exact line_self|].
  assert (K : known_kernel "boxcar") by (unfold known_kernel; tauto).
  assert (Q : fixed_bandwidths (DScal "boxcar") (DScal 1) DNone 1) by (intros dim Hd; exists "boxcar", 1; repeat split; cbn; auto).
  split; [exact Q|].
  destruct (OneDimProps.merge_success [line] [1] 4 4 "boxcar" line_valid ltac:(lia) eq_refl K) as (W & HW). exists W. exact HW.
Qed.
