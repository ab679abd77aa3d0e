(** Property C187: leave-one-out scores of simulation_for_robust.py. *)
From Coq Require Import Lra Lia.
From Verif.Model Require Import Base Ext Csr Neighbour Distance WeightModel Inspect LeaveOneOut.
From Verif.Spec Require Import KernelSpec NeighbourSpec WeightModelSpec InspectSpec LeaveOneOutSpec.
From Verif.Proofs Require Import NeighbourProps FitExamples LeaveOneOutProps LeaveOneOutExamples.
Open Scope nat_scope.
Open Scope R_scope.

(** C187: fit_llocv_models returns exactly if there are at least two observations and each
    can be predicted by a learner trained on all the others, coordinates included among
    the features; the score is the coefficient of determination of these predictions. *)
Theorem C187_score : forall est fit_plain predict_est X y points s,
  List.length X = List.length points -> List.length y = List.length X ->
  fit_llocv_models est fit_plain predict_est X y points = Ok s <->
  (2 <= List.length X)%nat /\ exists ps score, s = Fin score /\ List.length ps = List.length X /\ is_r2 y ps score /\
    forall i, (i < List.length X)%nat -> left_out_prediction fit_plain predict_est (map2 (@app R) X points) y i (nth i ps 0).
Proof. intros. apply llocv_iff; auto. Qed.
Print Assumptions C187_score.

(** C187: a WeightModel with leave_local_out whose weights are the same for all
    observations fits exactly if fit_llocv_models returns, and llocv_score_ is its score,
    whatever the schedule, the storage of the weights, n_jobs and n_patches. *)
Theorem C187_same_as_local_models : forall est fit_est fit_plain predict_est, @counts_alike est fit_est fit_plain ->
  forall G choice cpu wm c order g fs s0 X y points coords given w W N omega,
  valid_choice choice -> (0 < cpu)%nat -> List.length X = N -> List.length points = N -> valid_data (map2 (@app R) X points) y ->
  (forall i, (i < N)%nat -> 0 < omega i) -> (forall i j, (i < N)%nat -> (j < N)%nat -> mget (Fin 0) W i j = Fin (omega i)) ->
  in_force wm fs coords given w -> holds w W N -> schedule (num_tasks cpu c N) order ->
  leave_local_out c = true -> sample_local_rate c = None -> valid_jobs c ->
  let o := fit est fit_est predict_est G choice cpu wm c order g fs s0 (map2 (@app R) X points) y coords given in
  forall s, fit_llocv_models est fit_plain predict_est X y points = Ok s <-> o_result est G o = Ok tt /\ llocv_score_ est (o_state est G o) = Some s.
Proof. intros. eapply covering; eauto. Qed.
Print Assumptions C187_same_as_local_models.

(** C187: relied on: a learner that knows nothing but the mean of its targets scores 0, so
    that a negative score means worse than knowing nothing.  False: for n observations it
    scores 1 - (n / (n - 1))^2, whatever the targets, unless they are all the same; then
    it scores 1. *)
Theorem C187_mean_refuted : forall est fit_plain predict_est X y points n,
  @knows_the_mean est fit_plain predict_est -> List.length X = n -> List.length points = n -> List.length y = n -> (2 <= n)%nat ->
  1 - (INR n / (INR n - 1)) ^ 2 < 0 /\
  ((exists i j, (i < n)%nat /\ (j < n)%nat /\ nth i y 0 <> nth j y 0) ->
     fit_llocv_models est fit_plain predict_est X y points = Ok (Fin (1 - (INR n / (INR n - 1)) ^ 2))) /\
  ((forall i j, (i < n)%nat -> (j < n)%nat -> nth i y 0 = nth j y 0) -> fit_llocv_models est fit_plain predict_est X y points = Ok (Fin 1)).
Proof.
  intros est fp pe X y points n HK HX HP HY Hn. split; [|apply mean_of_others; auto].
  assert (H : 2 <= INR n) by (apply (le_INR 2); auto). assert (1 < INR n / (INR n - 1)).
  { apply (Rmult_lt_reg_r (INR n - 1)); [lra|]. unfold Rdiv. rewrite Rmult_assoc, Rinv_l by lra. lra. }
  assert (1 * 1 < INR n / (INR n - 1) * (INR n / (INR n - 1))) by (apply Rmult_gt_0_lt_compat; lra). simpl. lra.
Qed.
Print Assumptions C187_mean_refuted.

(** C187: the same of llocv_score_ where local models see everything with equal weights. *)
Theorem C187_local_mean_refuted : forall est fit_est fit_plain predict_est, @counts_alike est fit_est fit_plain -> knows_the_mean fit_plain predict_est ->
  forall G choice cpu wm c order g fs s0 X y points coords given w W N omega,
  valid_choice choice -> (0 < cpu)%nat -> List.length X = N -> List.length points = N -> valid_data (map2 (@app R) X points) y ->
  (forall i, (i < N)%nat -> 0 < omega i) -> (forall i j, (i < N)%nat -> (j < N)%nat -> mget (Fin 0) W i j = Fin (omega i)) ->
  in_force wm fs coords given w -> holds w W N -> schedule (num_tasks cpu c N) order ->
  leave_local_out c = true -> sample_local_rate c = None -> valid_jobs c ->
  (exists i j, (i < N)%nat /\ (j < N)%nat /\ nth i y 0 <> nth j y 0) ->
  let o := fit est fit_est predict_est G choice cpu wm c order g fs s0 (map2 (@app R) X points) y coords given in
  o_result est G o = Ok tt /\ llocv_score_ est (o_state est G o) = Some (Fin (1 - (INR N / (INR N - 1)) ^ 2)).
Proof.
  intros est fe fp pe HC HK G choice cpu wm c order g fs s0 X y points coords given w W N omega Hch Hcpu HX HP HV Ho HW Hf Hh HS HL HR HJ HD o.
  assert (HY : List.length y = N).
  { destruct HV as (q & [E _] & _). rewrite ListFacts.map2_length in E. lia. }
  assert (2 <= N)%nat by (destruct HD as (i & j & Hi & Hj & Hne); destruct (Nat.eq_dec i j) as [->|]; [contradiction|lia]).
  eapply (C187_same_as_local_models est fe fp pe HC); eauto. apply (C187_mean_refuted est fp pe X y points N); auto.
Qed.
Print Assumptions C187_local_mean_refuted.

(** Three observations, three equal weights of 1/3, means: -5/4. *)
Example C187_example :
  counts_alike wmean_fit mean_fit /\ knows_the_mean mean_fit wmean_predict /\ valid_data (map2 (@app R) fX one_points) fy /\
  holds (WDense one_W) one_W 3 /\ (forall i j, (i < 3)%nat -> (j < 3)%nat -> mget (Fin 0) one_W i j = Fin (1 / 3)) /\
  fit_llocv_models R mean_fit wmean_predict fX fy one_points = Ok (Fin (-5 / 4)) /\
  let o := fit R wmean_fit wmean_predict nat first_choice 2 no_wm (cfg true None None None) [1; 0]%nat 0%nat no_fs s_init (map2 (@app R) fX one_points) fy None (Some (WDense one_W)) in
  o_result R nat o = Ok tt /\ llocv_score_ R (o_state R nat o) = Some (Fin (-5 / 4)).
Proof.
  assert (HD : exists i j, (i < 3)%nat /\ (j < 3)%nat /\ nth i fy 0 <> nth j fy 0) by (exists 0%nat, 1%nat; split; [lia|]; split; [lia|]; cbn; lra).
  split; [exact mean_alike|]. split; [exact mean_knows|]. split; [exact one_data|]. split; [exact one_holds|]. split; [exact one_entries|].
  replace (-5 / 4) with (1 - (INR 3 / (INR 3 - 1)) ^ 2) by (cbn; field). split.
  - apply (C187_mean_refuted R mean_fit wmean_predict fX fy one_points 3 mean_knows); auto.
  - apply (C187_local_mean_refuted R wmean_fit mean_fit wmean_predict mean_alike mean_knows nat first_choice 2 no_wm (cfg true None None None) [1; 0]%nat 0%nat no_fs s_init
      fX fy one_points None (Some (WDense one_W)) (WDense one_W) one_W 3 (fun _ => 1 / 3)); auto.
    + exact first_choice_valid.
    + exact one_data.
    + intros; lra.
    + exact one_entries.
    + left; reflexivity.
    + exact one_holds.
    + apply Permutation.perm_swap.
    + exact I.
Qed.
