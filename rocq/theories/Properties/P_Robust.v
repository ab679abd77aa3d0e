(** Property C188: the simulation script that compares seven models. *)
From Verif.Model Require Import Base Ext Distance WeightModel Constructor Variation Robust.
From Verif.Spec Require Import RobustSpec.
From Verif.Proofs Require Import RobustProps RobustExamples.
Open Scope string_scope.
Open Scope nat_scope.

(** C188: a run that returns has appended one line to the file.  For each model the line
    holds the scores and the duration of a fit to the training data.  Keys that belong
    neither to a model nor to the info given do not occur. *)
Theorem C188_line : forall I world fit_train predict_test fit_test y_test (w w' : world) file file' (info line : dict I),
  robust I world fit_train predict_test fit_test y_test w file info = (w', file', Ok line) ->
  file' = (file ++ [line])%list /\
  (forall l, exists w1 scores seconds, snd (fit_train l w1) = Ok (scores, seconds) /\ shows info line l scores seconds) /\
  (forall k, ~ in_info info k -> (forall l, ~ In k (score_keys l ++ time_keys l)%list) -> dict_get line k = None).
Proof. intros. eapply run_line; eauto. Qed.
Print Assumptions C188_line.

(** C188: relied on: the line written tells how the models do on the test data, for which
    predictions are made and scored, and how XGB does.  False: with the same outcomes of
    the training fits of the other six models, two runs write the same line, whatever the
    test data, the predictions for them, the refits to them, and XGB. *)
Theorem C188_test_data_refuted : forall I world world' fit_train fit_train' predict_test predict_test' fit_test fit_test' y_test y_test'
    (outcome : learner -> list ext * R),
  (forall l, l <> XGB -> always fit_train l (fst (outcome l)) (snd (outcome l))) ->
  (forall l, l <> XGB -> always fit_train' l (fst (outcome l)) (snd (outcome l))) ->
  forall (w w1 : world) (w' w1' : world') file file' file1 file1' (info line line' : dict I),
  robust I world fit_train predict_test fit_test y_test w file info = (w1, file1, Ok line) ->
  robust I world' fit_train' predict_test' fit_test' y_test' w' file' info = (w1', file1', Ok line') -> line = line'.
Proof.
  intros I world world' ft ft' p p' t t' yt yt' outcome A A' w w1 w' w1' file file' file1 file1' info line line' H H'.
  exact (run_alike I world world' ft ft' p p' t t' yt yt' outcome A A' w w' file file' info w1 w1' file1 file1' line line' H H').
Qed.
Print Assumptions C188_test_data_refuted.

(** C188: relied on: the scores from the training data are kept even if something that is
    only printed fails.  False: if predictions of one model for the test data cannot be
    made, or it cannot be refitted to them, the run raises and the file is as before,
    whatever the training fits gave. *)
Theorem C188_failure_refuted : forall I world fit_train predict_test fit_test y_test l,
  (forall w : world, exists e, snd (predict_test l w) = Raise e) \/ (l <> XGB /\ forall w, exists e, snd (fit_test l w) = Raise e) ->
  forall w file (info : dict I), exists w' e, robust I world fit_train predict_test fit_test y_test w file info = (w', file, Raise e).
Proof. intros. eapply run_fails; eauto. Qed.
Print Assumptions C188_failure_refuted.

(** C188: a run that raises leaves the file as it was. *)
Theorem C188_no_partial_line : forall I world fit_train predict_test fit_test y_test (w w' : world) file file' (info : dict I) e,
  robust I world fit_train predict_test fit_test y_test w file info = (w', file', Raise e) -> file' = file.
Proof. intros. eapply run_failure; eauto. Qed.
Print Assumptions C188_no_partial_line.

(** C188: relied on: the experiments of the script can be run.  False: those that give
    fit_models only the training data raise TypeError before anything is fitted, whatever
    the data and settings; the three arguments with the test data have no default. *)
Theorem C188_calls_refuted : forall obj defaults X y points values, call_without_test obj defaults X y points values = Raise TypeError.
Proof. intros. apply call_three. Qed.
Print Assumptions C188_calls_refuted.

(** C188: the two experiments that give the test data pass the check of the arguments,
    and every argument arrives under its name. *)
Theorem C188_calls : forall obj defaults X y points X_test y_test points_test values, exists b,
  call_with_test obj defaults X y points X_test y_test points_test values = Ok b /\
  (arg obj b "X" = X /\ arg obj b "y" = y /\ arg obj b "points" = points /\
   arg obj b "X_test" = X_test /\ arg obj b "y_test" = y_test /\ arg obj b "points_test" = points_test) /\
  forall k, In k ["stacking_neighbour_count"; "stacking_neighbour_leave_out_rate"; "grf_neighbour_count"; "grf_n_estimators"; "gwr_neighbour_count"; "rf_n_estimators"; "info"] ->
    arg obj b k = values k.
Proof. intros. apply call_six. Qed.
Print Assumptions C188_calls.

(** Perfect predictions and the reverse of the test values: both runs return, and hence
    write the same line. *)
Example C188_example_same_line : exists line,
  robust nat unit ex_train ex_good ex_refit ex_y_test tt [] [("count", Info 1000)] = (tt, [line], Ok line) /\
  robust nat unit ex_train ex_bad ex_refit ex_y_test tt [] [("count", Info 1000)] = (tt, [line], Ok line) /\
  dict_get line "Stacking" = Some (Num (Fin (1 / 2)%R)) /\ dict_get line "XGB" = None.
Proof.
  destruct (ex_run ex_good (or_introl eq_refl) [] [("count", Info 1000)]) as [d H].
  destruct (ex_run ex_bad (or_intror eq_refl) [] [("count", Info 1000)]) as [d' H'].
  assert (E : d = d').
  { assert (A : forall l, l <> XGB -> always ex_train l (fst (ex_outcome l)) (snd (ex_outcome l))).
    { intros l _ w. unfold ex_train. destruct (ex_outcome l); reflexivity. }
    exact (C188_test_data_refuted _ _ _ _ _ _ _ _ _ _ _ ex_outcome A A _ _ _ _ _ _ _ _ _ _ _ H H'). }
  subst d'. exists d. split; [exact H|]. split; [exact H'|].
  destruct (C188_line _ _ _ _ _ _ _ _ _ _ _ _ H) as [_ [S0 N]]. split.
  - destruct (S0 Stacking) as [w1 [scores [seconds [Hf [Hs _]]]]].
    cbn in Hf. injection Hf as <- <-. apply (Hs 1 "Stacking" (Fin (1 / 2)%R)); [reflexivity|reflexivity|].
    intros [v [A|[]]]. discriminate.
  - apply N; [intros [v [A|[]]]; discriminate|]. intros []; cbn; intros A; intuition discriminate.
Qed.
(** The very last step, a refit of LR, fails: nothing is written. *)
Example C188_example_last_step : exists w' e, robust nat unit ex_train ex_good ex_no_refit ex_y_test tt [] [] = (w', [], Raise e).
Proof.
  apply (C188_failure_refuted nat unit ex_train ex_good ex_no_refit ex_y_test LR).
  right. split; [discriminate|]. intros w. exists ValueError. reflexivity.
Qed.
