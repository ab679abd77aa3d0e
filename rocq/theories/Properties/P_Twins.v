(** C178: repeated observations. *)
From Coq Require Import Lra Lia.
From Verif.Model Require Import Base Ext Csr Kernel Neighbour Distance WeightMatrix WeightModel.
From Verif.Spec Require Import KernelSpec WeightSpec NeighbourSpec WeightModelSpec TwinsSpec.
From Verif.Proofs Require Import ListFacts NeighbourProps FitExamples TwinsProps.
Open Scope string_scope.
Open Scope nat_scope.
Open Scope R_scope.

(** Relied on: with leave_local_out the score is about observations the local models
    have not seen.  False where each observation is repeated among its neighbours: a
    learner that reproduces its training targets scores 1, whatever the targets. *)
Theorem C178_leak :
  forall est fit_est predict_est G choice cpu wm c order g fs s0 X y coords given w W N,
  @reproduces est fit_est predict_est -> valid_choice choice -> (0 < cpu)%nat -> List.length X = N ->
  in_force wm fs coords given w -> holds w W N -> schedule (num_tasks cpu c (num_locations c N)) order -> aligned c w ->
  consistent X y -> (forall i, (i < N)%nat -> exists j, (j < N)%nat /\ repeats X y i j /\ mget (Fin 0) W i j <> Fin 0) ->
  let o := fit est fit_est predict_est G choice cpu wm c order g fs s0 X y coords given in
  o_result est G o = Ok tt ->
  local_predict_ est (o_state est G o) = y_sample_ est (o_state est G o) /\ llocv_score_ est (o_state est G o) = Some (Fin 1).
Proof. exact twins_score. Qed.
Print Assumptions C178_leak.

(** Observations at the same place are always neighbours of each other. *)
Theorem C178_same_place :
  forall Ds kt bw nc r c W i j,
  valid_distances Ds r c -> (0 < r)%nat -> (i < r)%nat -> (j < c)%nat -> (forall dim b, arg_at bw dim = Some b -> 0 <= b) ->
  (forall dim, (dim < List.length Ds)%nat -> mget 0 (nth dim Ds []) i j = 0) ->
  weight_matrix_from_distance (map A2 Ds) kt RNone bw nc = Ok W -> mget (Fin 0) W i j <> Fin 0.
Proof. exact coincident_weight. Qed.
Print Assumptions C178_same_place.

(** Two places with two observations each, whose targets are any two numbers. *)
Example C178_example : forall a b,
  reproduces memo_fit memo_predict /\ consistent tX (ty a b) /\ leave_local_out tcfg = true /\
  (forall i, (i < 4)%nat -> exists j, (j < 4)%nat /\ repeats tX (ty a b) i j /\ mget (Fin 0) tW i j <> Fin 0) /\
  o_result _ nat (fit _ memo_fit memo_predict nat first_choice 2 no_wm tcfg [1; 0]%nat 0%nat no_fs (init_state _) tX (ty a b) None (Some (WDense tW))) = Ok tt.
Proof.
  intros a b. split; [exact memo_reproduces|]. split; [apply twins_consistent|]. split; [reflexivity|]. split; [apply twins_repeat|apply twins_ok].
Qed.
Example C178_same_place_example :
  valid_distances [[[0; 0]; [0; 0]]] 2 2 /\ mget 0 [[0; 0]; [0; 0]] 0 1 = 0.
Proof. split; [apply valid2; lra|reflexivity]. Qed.
