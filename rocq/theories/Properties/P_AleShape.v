(** Property C168: shapes of ALE curves.  [store] is the dtype of X: float data keep
    every value. *)
From Coq Require Import Lra Lia Permutation.
From Verif.Model Require Import Base Ext Distance WeightModel Inspect Ale.
From Verif.Spec Require Import InspectSpec AleSpec AleShapeSpec.
From Verif.Proofs Require Import InspectExamples AleProps2 AleExamples AleShape AleOrder AleShapeExamples.
Open Scope nat_scope.
Open Scope R_scope.

(** A prediction x_f * h(others) + r(others): between two grid points the curve has
    the slope given by the weighted mean of h over the observations in between. *)
Theorem C168_interaction :
  forall store X N F f h r predictor w normalize m q a,
  (forall v, store v = v) -> rect X N F -> (0 < N)%nat -> (0 <= m)%Z ->
  rowwise predictor (fun z => nth f z 0 * h z + r z) -> independent_of f h -> independent_of f r ->
  weighted_ale store X f predictor (Some w) normalize m = Ok (q, a) ->
  forall k, (1 <= k < List.length q)%nat ->
  let bin := members q k (feature_values X f) in
  exists slope, average_of (map (fun i => nth i w 0) bin) (map (fun i => h (nth i X [])) bin) slope /\
    nth k a 0 - nth (k - 1) a 0 = slope * (nth k q 0 - nth (k - 1) q 0).
Proof.
  intros store X N F f h r p w n m q a Hs HX HN Hm HG Hh Hr H.
  exact (interaction store Hs X N F f h r p w n m q a HX HG Hh Hr (proj1 (wale_inv store X N F f p w n m q a HX HN Hm H))).
Qed.
Print Assumptions C168_interaction.

(** It is the line of slope [mu] where the mean is [mu] in every bin... *)
Theorem C168_interaction_line :
  forall store X N F f h r predictor w normalize m q a mu,
  (forall v, store v = v) -> rect X N F -> (0 < N)%nat -> (0 <= m)%Z ->
  rowwise predictor (fun z => nth f z 0 * h z + r z) -> independent_of f h -> independent_of f r ->
  weighted_ale store X f predictor (Some w) normalize m = Ok (q, a) ->
  (forall k, (1 <= k < List.length q)%nat -> let bin := members q k (feature_values X f) in
     average_of (map (fun i => nth i w 0) bin) (map (fun i => h (nth i X [])) bin) mu) ->
  exists c, forall k, (k < List.length q)%nat -> nth k a 0 = mu * nth k q 0 + c.
Proof.
  intros store X N F f h r p w n m q a mu Hs HX HN Hm HG Hh Hr H.
  exact (straight_line store Hs X N F f h r p w n m q a mu HX HG Hh Hr (proj1 (wale_inv store X N F f p w n m q a HX HN Hm H))).
Qed.
Print Assumptions C168_interaction_line.

(** ... but not in general: predicting x0 * x1, slope 17/3 and then 9/2. *)
Theorem C168_interaction_line_refuted :
  exists a, weighted_ale (fun v => v) eX 0 i_pred (Some ew) false 1 = Ok ([0; 3 / 2; 4], a) /\
    nth 1 a 0 - nth 0 a 0 = 17 / 3 * (3 / 2 - 0) /\ nth 2 a 0 - nth 1 a 0 = 9 / 2 * (4 - 3 / 2) /\
    ~ exists mu c, forall k, (k < 3)%nat -> nth k a 0 = mu * nth k [0; 3 / 2; 4] 0 + c.
Proof.
  destruct i_bent as (a & H & E1 & E2). exists a. split; [exact H|]. split; [exact E1|]. split; [exact E2|]. intros (mu & c & HL).
  rewrite (HL 0%nat), (HL 1%nat) in E1 by lia. rewrite (HL 1%nat), (HL 2%nat) in E2 by lia. cbn in E1, E2. lra.
Qed.
Print Assumptions C168_interaction_line_refuted.

(** Predictions that never fall when the feature rises: a curve that never falls. *)
Theorem C168_increasing :
  forall store X N F f G predictor w normalize m q a,
  (forall v, store v = v) -> rect X N F -> (0 < N)%nat -> (0 <= m)%Z ->
  rowwise predictor G -> increasing_in f G -> (forall i, (i < N)%nat -> 0 <= nth i w 0) ->
  weighted_ale store X f predictor (Some w) normalize m = Ok (q, a) ->
  forall k l, (k <= l)%nat -> (l < List.length q)%nat -> nth k a 0 <= nth l a 0.
Proof.
  intros store X N F f G p w n m q a Hs HX HN Hm HG HI Hw H.
  exact (increasing store Hs X N F f G p w n m q a HX HG HI Hw (proj1 (wale_inv store X N F f p w n m q a HX HN Hm H))).
Qed.
Print Assumptions C168_increasing.

Theorem C168_local_ALE_increasing :
  forall est (predict_est : est -> matrix R -> result (list R)) store, (forall v, store v = v) ->
  forall s X y es W N F f curves,
  data_X est s = Some X -> data_y est s = Some y -> List.length y = N ->
  local_estimators est s = Some es -> fitted_weights s W N -> rect X N F ->
  (forall e, In (Some e) es -> exists G, rowwise (predict_est e) G /\ increasing_in f G) ->
  local_ALE store est predict_est s f = Ok curves ->
  forall q a, In (q, a) curves -> forall k l, (k <= l)%nat -> (l < List.length q)%nat -> nth k a 0 <= nth l a 0.
Proof. exact @local_increasing. Qed.
Print Assumptions C168_local_ALE_increasing.

Theorem C168_global_ALE_increasing :
  forall est (predict_est : est -> matrix R -> result (list R)) store, (forall v, store v = v) ->
  forall s X es N F f q a,
  data_X est s = Some X -> local_estimators est s = Some es -> rect X N F -> (0 < N)%nat -> (f < F)%nat ->
  (forall e, In (Some e) es -> exists G, rowwise (predict_est e) G /\ increasing_in f G) ->
  global_ALE store est predict_est s f = Ok (q, a) ->
  forall k l, (k <= l)%nat -> (l < List.length q)%nat -> nth k a 0 <= nth l a 0.
Proof. exact @global_increasing. Qed.
Print Assumptions C168_global_ALE_increasing.

(** The curve is at most as steep as the predictions. *)
Theorem C168_steepness :
  forall store X N F f G L predictor w normalize m q a,
  (forall v, store v = v) -> rect X N F -> (0 < N)%nat -> (0 <= m)%Z ->
  rowwise predictor G -> lipschitz_in f L G -> (forall i, (i < N)%nat -> 0 <= nth i w 0) ->
  weighted_ale store X f predictor (Some w) normalize m = Ok (q, a) ->
  forall k l, (k <= l)%nat -> (l < List.length q)%nat -> Rabs (nth l a 0 - nth k a 0) <= L * (nth l q 0 - nth k q 0).
Proof.
  intros store X N F f G L p w n m q a Hs HX HN Hm HG HI Hw H.
  exact (lipschitz store Hs X N F f G L p w n m q a HX HG HI Hw (proj1 (wale_inv store X N F f p w n m q a HX HN Hm H))).
Qed.
Print Assumptions C168_steepness.

(** The curve of c * first + d * second model, such as the mean of two models. *)
Theorem C168_linear_in_the_model :
  forall store X N F f p1 p2 p3 G1 G2 c d w normalize m q1 a1 q2 a2 q3 a3,
  rect X N F -> (0 < N)%nat -> (0 <= m)%Z ->
  rowwise p1 G1 -> rowwise p2 G2 -> rowwise p3 (fun z => c * G1 z + d * G2 z) ->
  weighted_ale store X f p1 (Some w) normalize m = Ok (q1, a1) -> weighted_ale store X f p2 (Some w) normalize m = Ok (q2, a2) ->
  weighted_ale store X f p3 (Some w) normalize m = Ok (q3, a3) ->
  q1 = q3 /\ q2 = q3 /\ List.length a1 = List.length q3 /\ List.length a2 = List.length q3 /\
  forall k, (k < List.length q3)%nat -> nth k a3 0 = c * nth k a1 0 + d * nth k a2 0.
Proof. exact linear_combination. Qed.
Print Assumptions C168_linear_in_the_model.

(** Only the proportions of the weights matter. *)
Theorem C168_scale_of_the_weights :
  forall store X f predictor w normalize m c, c <> 0 ->
  weighted_ale store X f predictor (Some (map (Rmult c) w)) normalize m = weighted_ale store X f predictor (Some w) normalize m.
Proof. exact weights_scale. Qed.
Print Assumptions C168_scale_of_the_weights.

(** Observations in another order, each with its weight. *)
Theorem C168_order_of_the_observations :
  forall store X w X' w' N F f G predictor normalize m,
  rect X N F -> (0 < N)%nat -> List.length w = N -> List.length X' = List.length w' ->
  rowwise predictor G -> Permutation (combine X w) (combine X' w') ->
  weighted_ale store X' f predictor (Some w') normalize m = weighted_ale store X f predictor (Some w) normalize m.
Proof. exact order_free. Qed.
Print Assumptions C168_order_of_the_observations.

(** Predicting 3 x0 + x1 from four observations. *)
Example C168_example : let predictor rows := Ok (map (fun z => 3 * nth 0 z 0 + nth 1 z 0) rows) in
  rect eX 4 2 /\ (forall i, (i < 4)%nat -> 0 <= nth i ew 0) /\ rowwise predictor (fun z => 3 * nth 0 z 0 + nth 1 z 0) /\
  increasing_in 0 (fun z => 3 * nth 0 z 0 + nth 1 z 0) /\ lipschitz_in 0 3 (fun z => 3 * nth 0 z 0 + nth 1 z 0) /\
  Permutation (combine eX ew) (combine (rev eX) (rev ew)) /\
  exists a, weighted_ale (fun v => v) eX 0 predictor (Some ew) false 1 = Ok ([0; 3 / 2; 4], a).
Proof.
  intros predictor. split; [exact eX_rect|]. split; [intros i Hi; left; exact (ew_pos i Hi)|]. split; [intros rows; reflexivity|].
  split; [intros x x' [_ H] Hle; rewrite (H 1%nat) by lia; lra|]. split.
  - intros x x' [_ H]. rewrite (H 1%nat) by lia. replace (_ - _) with (3 * (nth 0 x' 0 - nth 0 x 0)) by ring. rewrite Rabs_mult, (Rabs_right 3) by lra. lra.
  - split; [exact (Permutation_rev (combine eX ew))|]. exact (ale_example_of predictor _ false (fun rows => eq_refl)).
Qed.
