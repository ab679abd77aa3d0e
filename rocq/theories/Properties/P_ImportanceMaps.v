(** C182: maps of the local importances.  [m] is what importance_score_local returns, with
    sklearn's permutation importance written out as in C172. *)
From Coq Require Import Lra Lia.
From Verif.Model Require Import Base Ext Csr Neighbour Distance WeightModel Inspect LocalImportance ImportanceMaps.
From Verif.Spec Require Import NeighbourSpec WeightModelSpec InspectSpec LocalImportanceSpec ImportanceMapsSpec.
From Verif.Proofs Require Import ListFacts NeighbourProps InspectProps InspectProps3 FitExamples InspectExamples InspectProps4 StackingExamples LocalImportanceExamples ImportanceMapsProps.
Open Scope string_scope.
Open Scope nat_scope.
Open Scope R_scope.

(** Examples/local_importance.py draws one map per feature, with every location's own
    importance at its point. *)
Theorem C182_maps_of_the_example :
  forall est predict_est (G : Type) shuffle (seed : nat -> G) (point : Type) (points : list point),
  forall c order s X y es N F score W r m,
  fitted_model s X y es N F score -> fitted_weights s W N -> cache_data c = true -> cache_estimator c = true -> schedule N order ->
  importance_score_local est (fun i => permutation_importance_sk est predict_est G shuffle (seed i)) c order s r = Ok m ->
  List.length points = N ->
  exists pictures, example_script points m = Ok pictures /\ List.length pictures = F /\
    forall f picture, nth_error pictures f = Some picture -> shows points (fun j => nth f (nth j m []) NaN) picture.
Proof. exact @api_example. Qed.
Print Assumptions C182_maps_of_the_example.

(** Relied on: simulation_for_importance.py scales the importances of every location to
    [0, 1] and draws one map per feature.  False: with two or more features it raises
    ValueError unless there are as many features as locations ... *)
Theorem C182_scaling_by_location_refuted :
  forall est predict_est (G : Type) shuffle (seed : nat -> G) (point : Type) (points : list point),
  forall c order s X y es N F score W r m,
  fitted_model s X y es N F score -> fitted_weights s W N -> cache_data c = true -> cache_estimator c = true -> schedule N order ->
  importance_score_local est (fun i => permutation_importance_sk est predict_est G shuffle (seed i)) c order s r = Ok m ->
  (2 <= F)%nat -> F <> N -> importance_script points m = Raise ValueError.
Proof. exact @api_rows_raise. Qed.
Print Assumptions C182_scaling_by_location_refuted.

(** ... and if there are, column [j] is scaled with the range of location [j], not with
    that of the location it belongs to ... *)
Theorem C182_square :
  forall M N, rect M N N -> (2 <= N)%nat ->
  exists n, normalise_rows (map (map Fin) M) = Ok n /\ rect n N N /\
    forall i j, (i < N)%nat -> (j < N)%nat -> exists lo hi, lowest (nth j M []) lo /\ highest (nth j M []) hi /\
      nth j (nth i n []) NaN = ediv (Fin (nth j (nth i M []) 0 - lo)) (Fin (hi - lo)).
Proof. exact square_rows. Qed.
Print Assumptions C182_square.

(** ... so that the result need not lie in [0, 1]. *)
Theorem C182_square_range_refuted :
  exists M n v, rect M 2 2 /\ normalise_rows (map (map Fin) M) = Ok n /\ nth 0 (nth 1 n []) NaN = Fin v /\ 1 < v.
Proof.
  set (M := [[0; 1]; [10; 20]]). assert (HM : rect M 2 2) by (split; [reflexivity|repeat constructor]).
  destruct (square_rows M 2 HM ltac:(lia)) as (n & E & _ & H). destruct (H 1%nat 0%nat) as (lo & hi & L & U & V); [lia|lia|].
  assert (lo = 0) as ->. { destruct L as [[<-|[<-|[]]] L]; [reflexivity|]. specialize (L 0 (or_introl eq_refl)). lra. }
  assert (hi = 1) as ->. { destruct U as [[<-|[<-|[]]] U]; [|reflexivity]. specialize (U 1 (or_intror (or_introl eq_refl))). lra. }
  exists M, n, 10. split; [exact HM|]. split; [exact E|]. split; [|lra]. rewrite V. cbn [M nth ediv]. destruct (Req_EM_T (1 - 0) 0); [lra|]. f_equal. field.
Qed.
Print Assumptions C182_square_range_refuted.

(** With one feature there are as many columns as locations, and no value is a number. *)
Theorem C182_one_feature :
  forall m N, rect m N 1 -> (2 <= N)%nat ->
  exists n, normalise_rows m = Ok n /\ rect n N N /\ forall i j, ~ is_number (nth j (nth i n []) NaN).
Proof. exact single_feature. Qed.
Print Assumptions C182_one_feature.

(** simulation_data_fitting.py scales all importances together, if they are numbers and
    not all equal: order is kept, the lowest becomes 0 and the highest 1.  Its map shows
    the first feature. *)
Theorem C182_scaling_together :
  forall M lo hi, lowest (List.concat M) lo -> highest (List.concat M) hi -> lo < hi ->
  normalise_all (map (map Fin) M) = Ok (map (map (fun a => Fin ((a - lo) / (hi - lo)))) M) /\
  (forall a, In a (List.concat M) -> 0 <= (a - lo) / (hi - lo) <= 1) /\ (lo - lo) / (hi - lo) = 0 /\ (hi - lo) / (hi - lo) = 1 /\
  (forall a b, a < b <-> (a - lo) / (hi - lo) < (b - lo) / (hi - lo)) /\
  forall (point : Type) (points : list point) N F, rect M N F -> (0 < F)%nat -> List.length points = N ->
    exists picture, fitting_script_map points (map (map Fin) M) = Ok picture /\
      shows points (fun j => Fin ((nth 0 (nth j M []) 0 - lo) / (hi - lo))) picture.
Proof.
  intros M lo hi HL HH H. assert (Hi : 0 < / (hi - lo)) by (apply Rinv_0_lt_compat; lra).
  split; [apply all_numbers; auto|]. split.
  { intros a Ha. pose proof (proj2 HL a Ha). pose proof (proj2 HH a Ha). split; [apply Rmult_le_pos; lra|].
    apply (Rmult_le_reg_r (hi - lo)); [lra|]. unfold Rdiv. rewrite Rmult_assoc, Rinv_l by lra. lra. }
  split; [unfold Rdiv; rewrite Rminus_diag_eq by reflexivity; ring|]. split; [field; lra|]. split.
  { intros a b. unfold Rdiv. split; intros Hab; [apply Rmult_lt_compat_r; lra|]. apply Rmult_lt_reg_r in Hab; lra. }
  intros point points N F HR HF HP. apply (fitting_map points M N F); auto.
Qed.
Print Assumptions C182_scaling_together.

(** If all are equal, none of the results is a number. *)
Theorem C182_all_equal :
  forall M c, (forall row a, In row M -> In a row -> a = c) -> List.concat M <> [] ->
  exists n, normalise_all (map (map Fin) M) = Ok n /\ Forall (Forall (fun x => x = NaN)) n.
Proof. exact all_equal. Qed.
Print Assumptions C182_all_equal.

(** Relied on: that map shows the importances of the other locations if one has none.
    False: one location with a single neighbour (C172) blanks the whole map. *)
Theorem C182_one_location_blanks_the_map_refuted :
  forall est predict_est (G : Type) shuffle (seed : nat -> G), valid_permute shuffle -> forall (point : Type) (points : list point),
  forall c order s X y es N F score W r m i e j,
  fitted_model s X y es N F score -> fitted_weights s W N -> cache_data c = true -> cache_estimator c = true -> schedule N order ->
  importance_score_local est (fun i => permutation_importance_sk est predict_est G shuffle (seed i)) c order s r = Ok m ->
  List.length points = N ->
  nth_error es i = Some e -> (0 < r)%nat -> predicts predict_est F e -> positive_set W N i = [j] ->
  exists picture, fitting_script_map points m = Ok picture /\ shows points (fun _ => NaN) picture.
Proof. exact @api_blank. Qed.
Print Assumptions C182_one_location_blanks_the_map_refuted.

(** A fitted model with three locations and two features meets the hypotheses, and so
    does a table of numbers. *)
Example C182_example (p r a b c : R) : a <> c -> exists es score m,
  fitted_model (l_state p r a b c) (l_X p r) [a; b; c] es 3 2 score /\ fitted_weights (l_state p r a b c) fW_left_out 3 /\
  valid_permute rot_permute /\ schedule 3 [2; 0; 1]%nat /\ cache_data i_cfg = true /\ cache_estimator i_cfg = true /\
  importance_score_local R (fun _ => permutation_importance_sk R off_predict nat rot_permute 0%nat) i_cfg [2; 0; 1]%nat (l_state p r a b c) 1 = Ok m /\
  (exists j, positive_set fW_left_out 3 0 = [j]) /\ (forall e : R, predicts off_predict 2 e) /\
  importance_script [tt; tt; tt] m = Raise ValueError.
Proof.
  intros Hac. destruct (l_fitted p r a b c) as (es & score & HM). exists es, score. eexists.
  split; [exact HM|]. split; [apply l_weights|]. split; [exact rot_permute_valid|]. split; [exact sched3|]. split; [reflexivity|]. split; [reflexivity|].
  split; [exact (l_importance p r a b c Hac)|]. destruct i_sets as (E0 & _). split; [eexists; exact E0|]. split; [intros e; apply off_predicts|]. reflexivity.
Qed.

Example C182_example_numbers : let M := [[0; 1]; [2; 3]; [4; 8]] in
  rect M 3 2 /\ lowest (List.concat M) 0 /\ highest (List.concat M) 8 /\ (0 : R) < 8.
Proof.
  cbv zeta. split; [split; [reflexivity|repeat constructor]|]. unfold lowest, highest. cbn [List.concat app].
  split; [split; [left; reflexivity|]|]. { intros a H. repeat (destruct H as [<-|H]; [lra|]). destruct H. }
  split; [|lra]. split; [simpl; tauto|]. intros a H. repeat (destruct H as [<-|H]; [lra|]). destruct H.
Qed.
