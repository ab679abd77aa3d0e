(** Properties C60 and C61: ridge_cholesky and the numba r2_score. *)
From Coq Require Import Lra Psatz.
From Verif.Model Require Import Base Ext NumbaImpl.
From Verif.Spec Require Import RidgeSpec.
From Verif.Proofs Require Import ListFacts SumFacts RidgeProps SolverExists.
Open Scope nat_scope.
Open Scope R_scope.

(** C60: the result minimises the weighted ridge objective; for alpha > 0 it is
    the only minimiser. *)
Theorem C60_minimiser :
  forall p m X y w alpha, rect X m p -> length y = m -> length w = m ->
  (forall i, (i < m)%nat -> 0 <= nth i w 0) -> Rsum w <> 0 -> 0 <= alpha ->
  forall solve, exact_solver solve -> (0 < m)%nat ->
  forall c b, ridge_cholesky solve p X y alpha w = Ok (c, b) ->
  length c = p /\ exists b0, b = Fin b0 /\
  (forall c' b', ridge_objective p X y w alpha c b0 <= ridge_objective p X y w alpha c' b') /\
  (0 < alpha -> forall c' b', length c' = p ->
     ridge_objective p X y w alpha c' b' <= ridge_objective p X y w alpha c b0 -> c' = c /\ b' = b0).
Proof. exact ridge_minimises. Qed.
Print Assumptions C60_minimiser.

(** For alpha > 0 the linear system is never singular. *)
Theorem C60_total :
  forall p m X y w alpha, rect X m p -> length y = m -> length w = m ->
  (forall i, (i < m)%nat -> 0 <= nth i w 0) -> Rsum w <> 0 ->
  forall solve, exact_solver solve -> (0 < m)%nat ->
  0 < alpha -> exists c b, ridge_cholesky solve p X y alpha w = Ok (c, b).
Proof. exact ridge_total. Qed.
Print Assumptions C60_total.

(** Exact solvers exist, and on two points with weights 1 and 3. *)
Example C60_example : exact_solver solve_exact /\ rect [[1; 0]; [2; 5]] 2 2 /\ Rsum [1; 3] <> 0 /\
  exists c b, ridge_cholesky solve_exact 2 [[1; 0]; [2; 5]] [4; 6] 10 [1; 3] = Ok (c, b).
Proof.
  split; [exact solve_exact_exact|]. split; [repeat constructor|]. split; [unfold Rsum; simpl; lra|].
  apply (C60_total 2 2 [[1; 0]; [2; 5]] [4; 6] [1; 3] 10); try exact solve_exact_exact; auto; try lra; try lia.
  - repeat constructor.
  - intros [|[|i]] Hi; simpl; try lra; lia.
  - unfold Rsum; simpl; lra.
Qed.

(** C61. *)
Theorem C61_at_most_one : forall y q, length q = length y -> r2_numba y q <= 1.
Proof. exact r2_le_1. Qed.
Print Assumptions C61_at_most_one.

Theorem C61_one_iff_exact : forall y q, length q = length y ->
  ~ (forall i j, (i < length y)%nat -> (j < length y)%nat -> nth i y 0 = nth j y 0) -> (r2_numba y q = 1 <-> q = y).
Proof. exact r2_eq_1. Qed.
Print Assumptions C61_one_iff_exact.

Theorem C61_constant_targets : forall y q,
  (forall i j, (i < length y)%nat -> (j < length y)%nat -> nth i y 0 = nth j y 0) -> r2_numba y q = 1.
Proof. exact r2_constant. Qed.
Print Assumptions C61_constant_targets.

Theorem C61_shift_scale : forall y q a b, a <> 0 -> length q = length y ->
  r2_numba (map (fun v => a * v + b) y) (map (fun v => a * v + b) q) = r2_numba y q.
Proof. exact r2_affine. Qed.
Print Assumptions C61_shift_scale.

(** The score is not the constant 1. *)
Example C61_example : r2_numba [1; 3] [1; 1] = -1 /\ r2_numba [2; 2] [5; 7] = 1.
Proof.
  split.
  - unfold r2_numba. replace (Rsum [1; 3] / INR (length [1; 3])) with 2 by (unfold Rsum; simpl; lra).
    assert (E : Rsum (map (fun a => (a - 2) ^ 2) [1; 3]) = 2) by (unfold Rsum; simpl; lra). rewrite E.
    unfold Reqb. destruct (Req_EM_T 2 0); [lra|]. unfold Rsum; simpl; lra.
  - apply C61_constant_targets. intros [|[|i]] [|[|j]]; simpl; intros; try lia; reflexivity.
Qed.
