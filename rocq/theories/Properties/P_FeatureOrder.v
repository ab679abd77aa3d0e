(** C184: the order of the features.  Column [k] of [map (reordered 0 perm) X] is
    column [nth k perm 0] of [X]. *)
From Coq Require Import Lra Lia.
From Verif.Model Require Import Base Ext Csr Neighbour Distance Ale WeightModel Inspect LocalImportance PartialDependence.
From Verif.Spec Require Import KernelSpec NeighbourSpec WeightModelSpec InspectSpec FeatureUnitsSpec FeatureOrderSpec.
From Verif.Proofs Require Import ListFacts NeighbourProps WeightModelProps FitProps FitExamples InspectProps4 InspectExamples AleExamples FeatureUnits FeatureOrder FeatureOrderExamples.
Open Scope string_scope.
Open Scope nat_scope.
Open Scope R_scope.

(** With a learner indifferent to the order, local importances come out in the
    new order: every feature is shuffled the same way. *)
Theorem C184_local_importance :
  forall est fit_est predict_est F perm, ordering F perm -> (0 < F)%nat -> overlooks F (reordered 0 perm) fit_est predict_est ->
  forall G choice cpu wm H shuffle (seed : nat -> H) c order g fs s0 s0' X y coords given order2 r m, rows_of F X -> cache_data c = true ->
  let FIT := fit est fit_est predict_est G choice cpu wm in
  let o := FIT c order g fs s0 X y coords given in
  let o' := FIT c order g fs s0' (map (reordered 0 perm) X) y coords given in
  let importance s := importance_score_local est (fun i => permutation_importance_sk est predict_est H shuffle (seed i)) c order2 s r in
  o_result est G o = Ok tt ->
  importance (o_state est G o) = Ok m ->
  o_result est G o' = Ok tt /\ importance (o_state est G o') = Ok (map (reordered NaN perm) m).
Proof.
  intros est fe pe F perm Hp HF Hov G ch cpu wm H sh seed c order g fs s0 s0' X y coords given order2 r m HX Hc FIT o o' imp Hok Hm.
  destruct (fit_mirrors fe pe F perm Hp HF Hov G ch cpu wm c order g fs s0 s0' X y coords given HX Hc Hok) as (Hok' & es & es' & HM).
  split; [exact Hok'|]. exact (local_importance_order pe F perm Hp H sh seed c order2 _ _ X es es' r m HM Hm).
Qed.
Print Assumptions C184_local_importance.

(** So do partial dependence curves. *)
Theorem C184_partial_dependence :
  forall est fit_est predict_est F perm, ordering F perm -> (0 < F)%nat -> overlooks F (reordered 0 perm) fit_est predict_est ->
  forall G choice cpu wm store resolution c order g fs s0 s0' X y coords given order2 curves by_feature, rows_of F X -> cache_data c = true ->
  let FIT := fit est fit_est predict_est G choice cpu wm in
  let o := FIT c order g fs s0 X y coords given in
  let o' := FIT c order g fs s0' (map (reordered 0 perm) X) y coords given in
  let PD := partial_dependence est (partial_dependence_sk est predict_est store resolution) order2 in
  o_result est G o = Ok tt ->
  PD (o_state est G o) = Ok (curves, by_feature) ->
  PD (o_state est G o') = Ok (map (reordered ([], []) perm) curves, reordered [] perm by_feature).
Proof.
  intros est fe pe F perm Hp HF Hov G ch cpu wm store res c order g fs s0 s0' X y coords given order2 cs bf HX Hc FIT o o' PD Hok Hm.
  destruct (fit_mirrors fe pe F perm Hp HF Hov G ch cpu wm c order g fs s0 s0' X y coords given HX Hc Hok) as (_ & es & es' & HM).
  exact (pd_order pe F perm Hp store res order2 _ _ X es es' cs bf HM Hm).
Qed.
Print Assumptions C184_partial_dependence.

Theorem C184_local_ICE :
  forall est fit_est predict_est F perm, ordering F perm -> (0 < F)%nat -> overlooks F (reordered 0 perm) fit_est predict_est ->
  forall G choice cpu wm store resolution c order g fs s0 s0' X y coords given curves by_feature, rows_of F X -> cache_data c = true ->
  let FIT := fit est fit_est predict_est G choice cpu wm in
  let o := FIT c order g fs s0 X y coords given in
  let o' := FIT c order g fs s0' (map (reordered 0 perm) X) y coords given in
  let ICE := local_ICE est predict_est (grid_from_X_sk resolution) store in
  o_result est G o = Ok tt ->
  ICE (o_state est G o) = Ok (curves, by_feature) ->
  ICE (o_state est G o') = Ok (map (reordered ([], []) perm) curves, reordered [] perm by_feature).
Proof.
  intros est fe pe F perm Hp HF Hov G ch cpu wm store res c order g fs s0 s0' X y coords given cs bf HX Hc FIT o o' ICE Hok Hm.
  destruct (fit_mirrors fe pe F perm Hp HF Hov G ch cpu wm c order g fs s0 s0' X y coords given HX Hc Hok) as (_ & es & es' & HM).
  exact (ice_order pe F perm Hp store res _ _ X es es' cs bf HM Hm).
Qed.
Print Assumptions C184_local_ICE.

(** The accumulated local effects of a feature do not depend on its position. *)
Theorem C184_ALE :
  forall est fit_est predict_est F perm, ordering F perm -> (0 < F)%nat -> overlooks F (reordered 0 perm) fit_est predict_est ->
  forall G choice cpu wm store c order g fs s0 s0' X y coords given k, rows_of F X -> cache_data c = true -> (k < F)%nat ->
  let FIT := fit est fit_est predict_est G choice cpu wm in
  let o := FIT c order g fs s0 X y coords given in
  let o' := FIT c order g fs s0' (map (reordered 0 perm) X) y coords given in
  o_result est G o = Ok tt ->
  (forall r, local_ALE store est predict_est (o_state est G o) (nth k perm 0%nat) = Ok r -> local_ALE store est predict_est (o_state est G o') k = Ok r) /\
  (forall r, global_ALE store est predict_est (o_state est G o) (nth k perm 0%nat) = Ok r -> global_ALE store est predict_est (o_state est G o') k = Ok r).
Proof.
  intros est fe pe F perm Hp HF Hov G ch cpu wm store c order g fs s0 s0' X y coords given k HX Hc Hk FIT o o' Hok.
  destruct (fit_mirrors fe pe F perm Hp HF Hov G ch cpu wm c order g fs s0 s0' X y coords given HX Hc Hok) as (_ & es & es' & HM).
  split; intros r Hr; [exact (local_ale_order pe F perm Hp store _ _ X es es' k r HM Hk Hr)|exact (global_ale_order pe F perm Hp store _ _ X es es' k r HM Hk Hr)].
Qed.
Print Assumptions C184_ALE.

(** Relied on: so does the global importance.  False: the features share one stream
    of random numbers, so a feature in another place meets other shuffles. *)
Theorem C184_global_importance_refuted :
  exists est fit_est predict_est F perm X y W s0 c (permute : nat -> list nat -> nat * list nat),
  ordering F perm /\ overlooks F (reordered 0 perm) fit_est predict_est /\ rows_of F X /\ valid_permute permute /\
  let FIT X := fit est fit_est predict_est nat first_choice 2 no_wm c [1; 0]%nat 0%nat no_fs s0 X y None (Some (WDense W)) in
  let importance s := snd (importance_score_global est predict_est nat permute c s 0%nat 1) in
  o_result est nat (FIT X) = Ok tt /\ o_result est nat (FIT (map (reordered 0 perm) X)) = Ok tt /\
  exists a b, importance (o_state est nat (FIT X)) = Ok a /\ importance (o_state est nat (FIT (map (reordered 0 perm) X))) = Ok b /\ b <> reordered NaN perm a.
Proof.
  exists R, total_fit, total_predict, 2%nat, [1; 0]%nat, q_X, q_y, fW, s_init, (cfg true None None None), turn_permute.
  split; [exact q_ordering|]. split; [exact (total_overlooks _ _ q_ordering)|]. split; [exact (proj2 q_rect)|]. split; [exact turn_valid|]. intros FIT importance.
  split; [exact (q_ok _ q_rect q_total)|]. split; [rewrite q_swap; exact (q_ok _ s_rect s_total)|]. destruct q_global_values as [E1 E2]. do 2 eexists. split; [exact E1|]. split; [exact E2|].
  cbn. intros E. injection E as E _. lra.
Qed.
Print Assumptions C184_global_importance_refuted.

(** Two features added up, exchanged. *)
Example C184_example : ordering 2 [1; 0]%nat /\ overlooks 2 (reordered 0 [1; 0]%nat) total_fit total_predict /\ rows_of 2 q_X /\ map (reordered 0 [1; 0]%nat) q_X = q_swapped /\
  o_result R nat (q_fit q_X) = Ok tt /\
  (exists m, importance_score_local R (fun i => permutation_importance_sk R total_predict nat turn_permute 1%nat) i_cfg [2; 0; 1]%nat (q_state q_X) 1 = Ok m) /\
  (exists by_feature, q_pd [2; 0; 1]%nat (q_state q_X) = Ok (q_curves, by_feature)) /\ (exists by_feature, q_ice (q_state q_X) = Ok (q_ices, by_feature)) /\
  (exists q a, global_ALE (fun v => v) R total_predict (q_state q_X) (nth 0 [1; 0]%nat 0%nat) = Ok (q, a)).
Proof.
  split; [exact q_ordering|]. split; [exact (total_overlooks _ _ q_ordering)|]. split; [exact (proj2 q_rect)|]. split; [exact q_swap|]. split; [exact (q_ok _ q_rect q_total)|].
  split; [exact q_local_importance|]. split; [exact q_pd_ok|]. split; [exact q_ice_ok|exact q_global_ale].
Qed.

(** Eight observations, enough for local_ALE. *)
Example C184_ALE_example : rows_of 2 e_X /\ o_result R nat e_fit = Ok tt /\ exists curves, local_ALE (fun v => v) R total_predict (o_state R nat e_fit) (nth 0 [1; 0]%nat 0%nat) = Ok curves.
Proof. split; [exact (proj2 e_rect)|]. split; [exact e_ok|exact e_ale]. Qed.
