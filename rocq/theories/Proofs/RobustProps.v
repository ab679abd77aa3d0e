(** Proofs about the simulation script for seven models. *)
From Verif.Model Require Import Base Ext Distance WeightModel Constructor Variation Robust.
From Verif.Spec Require Import RobustSpec.
Open Scope string_scope.
Open Scope nat_scope.

Lemma get_set : forall I (d : dict I) k v k', dict_get (dict_set d k v) k' = if String.eqb k k' then Some v else dict_get d k'.
Proof.
  induction d as [|[k0 v0] d IH]; intros k v k'; cbn; [destruct (String.eqb k k'); reflexivity|].
  destruct (String.eqb_spec k0 k) as [->|N]; cbn.
  - destruct (String.eqb k k'); reflexivity.
  - destruct (String.eqb_spec k0 k') as [->|N']; [|apply IH].
    destruct (String.eqb_spec k k'); [congruence|reflexivity].
Qed.

Lemma note_other : forall I keys values (d : dict I) k, ~ In k keys -> dict_get (note I d keys values) k = dict_get d k.
Proof.
  induction keys as [|k0 keys IH]; intros values d k N; [reflexivity|].
  destruct values as [|v values]; [reflexivity|].
  change (dict_get (note I (dict_set d k0 (Num v)) keys values) k = dict_get d k).
  rewrite IH, get_set by (intros H; apply N; right; exact H).
  destruct (String.eqb_spec k0 k) as [->|]; [contradiction N; left; reflexivity|reflexivity].
Qed.
Lemma note_in : forall I keys values (d : dict I) i k v, NoDup keys -> nth_error keys i = Some k -> nth_error values i = Some v ->
  dict_get (note I d keys values) k = Some (Num v).
Proof.
  induction keys as [|k0 keys IH]; intros values d i k v ND Hk Hv; [destruct i; discriminate|].
  inversion ND as [|? ? N0 ND' E]; subst.
  destruct values as [|v0 values]; [destruct i; discriminate|].
  change (dict_get (note I (dict_set d k0 (Num v0)) keys values) k = Some (Num v)).
  destruct i as [|i]; cbn in Hk, Hv.
  - injection Hk as ->; injection Hv as ->. rewrite note_other by exact N0. rewrite get_set, String.eqb_refl. reflexivity.
  - apply (IH values _ i); assumption.
Qed.

Lemma update_other : forall I (e d : dict I) k, ~ in_info e k -> dict_get (dict_update d e) k = dict_get d k.
Proof.
  induction e as [|[k0 v0] e IH]; intros d k N; [reflexivity|].
  change (dict_get (dict_update (dict_set d k0 v0) e) k = dict_get d k).
  rewrite IH, get_set.
  - destruct (String.eqb_spec k0 k) as [->|]; [|reflexivity]. contradiction N. exists v0; left; reflexivity.
  - intros [v H]; apply N; exists v; right; exact H.
Qed.

Lemma score_keys_once : forall l, NoDup (score_keys l).
Proof. intros []; cbn; repeat constructor; cbn; intros H; intuition discriminate. Qed.
Lemma keys_apart : forall l l' k, In k (score_keys l ++ time_keys l)%list -> In k (score_keys l' ++ time_keys l')%list -> l = l'.
Proof. intros [] [] k; cbn; intros H H'; try reflexivity; exfalso; intuition (subst; discriminate). Qed.
Lemma score_not_time : forall l k, In k (score_keys l) -> ~ In k (time_keys l).
Proof. intros [] k; cbn; intros H H'; intuition (subst; discriminate). Qed.

Section Run.
  Variable I world : Type.
  Variable fit_train : learner -> world -> world * result (list ext * R).
  Variable predict_test : learner -> world -> world * result (list R).
  Variable fit_test : learner -> world -> world * result unit.
  Variable y_test : list R.
  Notation one := (one_model I world fit_train predict_test fit_test y_test).
  Notation all := (all_models I world fit_train predict_test fit_test y_test).
  Notation run := (robust I world fit_train predict_test fit_test y_test).

  Definition add (d : dict I) (l : learner) (o : list ext * R) : dict I :=
    note I (note I d (score_keys l) (fst o)) (time_keys l) [Fin (snd o)].

  Lemma one_inv : forall l w d w' d', one l w d = (w', Ok d') ->
    exists o, snd (fit_train l w) = Ok o /\ d' = add d l o.
  Proof.
    intros l w d w' d'. unfold one_model, add.
    destruct (fit_train l w) as [w1 [[scores seconds]|e]] eqn:E1; [|discriminate].
    destruct (predict_test l w1) as [w2 [p|e]] eqn:E2; [|discriminate].
    destruct (r2_score y_test p) as [s|e] eqn:E3; [|discriminate].
    intros H. exists (scores, seconds). split; [reflexivity|]. cbn.
    destruct l; try (destruct (fit_test _ w2) as [w3 [u|e]]; [|discriminate]); injection H as <- <-; reflexivity.
  Qed.

  Lemma all_other : forall ls w d w' d' k, all ls w d = (w', Ok d') ->
    (forall l, In l ls -> ~ In k (score_keys l ++ time_keys l)%list) -> dict_get d' k = dict_get d k.
  Proof.
    induction ls as [|l ls IH]; intros w d w' d' k H N.
    - injection H as <- <-; reflexivity.
    - cbn [all_models] in H. destruct (one l w d) as [w1 [d1|e]] eqn:E; [|discriminate].
      rewrite (IH _ _ _ _ k H) by (intros l' Hl'; apply N; right; exact Hl').
      apply one_inv in E. destruct E as [o [_ ->]]. unfold add.
      pose proof (N l (or_introl eq_refl)) as N0. rewrite in_app_iff in N0.
      rewrite !note_other by (intros H'; apply N0; auto). reflexivity.
  Qed.

  Lemma all_shows : forall ls w d w' d' l, NoDup ls -> all ls w d = (w', Ok d') -> In l ls ->
    exists w1 scores seconds, snd (fit_train l w1) = Ok (scores, seconds) /\ shows [] d' l scores seconds.
  Proof.
    induction ls as [|l0 ls IH]; intros w d w' d' l ND H Hl; [destruct Hl|].
    inversion ND as [|? ? N0 ND' E0]; subst.
    cbn [all_models] in H. destruct (one l0 w d) as [w1 [d1|e]] eqn:E; [|discriminate].
    destruct Hl as [->|Hl]; [|exact (IH _ _ _ _ l ND' H Hl)].
    apply one_inv in E. destruct E as [[scores seconds] [Hfit ->]].
    exists w, scores, seconds. split; [exact Hfit|].
    assert (K : forall k, In k (score_keys l ++ time_keys l)%list -> dict_get d' k = dict_get (add d l (scores, seconds)) k).
    { intros k Hk. apply (all_other _ _ _ _ _ k H). intros l' Hl' Hk'. rewrite (keys_apart l l' k Hk Hk') in N0. exact (N0 Hl'). }
    split.
    - intros i k v Hk Hv _. pose proof (nth_error_In _ _ Hk) as Hin.
      rewrite K by (apply in_or_app; left; exact Hin). unfold add; cbn [fst snd].
      rewrite note_other by (apply score_not_time; exact Hin).
      apply (note_in _ _ _ _ i); [apply score_keys_once|exact Hk|exact Hv].
    - intros k Hk _. rewrite K by (apply in_or_app; right; exact Hk). unfold add; cbn [fst snd].
      apply (note_in _ _ _ _ 0); [|destruct l; cbn in Hk |- *; intuition (subst; reflexivity)|reflexivity].
      destruct l; cbn; repeat constructor; intros [].
  Qed.

  Lemma learners_once : NoDup learners.
  Proof. unfold learners. repeat constructor; cbn; intros H; intuition discriminate. Qed.
  Lemma learners_all : forall l, In l learners.
  Proof. intros []; cbn; tauto. Qed.

  Lemma run_inv : forall w file info w' file' d, run w file info = (w', file', Ok d) ->
    exists d0, all learners w [] = (w', Ok d0) /\ d = dict_update d0 info /\ file' = (file ++ [d])%list.
  Proof.
    intros w file info w' file' d. unfold robust.
    destruct (all learners w []) as [w1 [d0|e]]; [|discriminate].
    intros H. injection H as <- <- <-. exists d0; repeat split.
  Qed.

  Lemma run_line : forall w file info w' file' d, run w file info = (w', file', Ok d) ->
    file' = (file ++ [d])%list /\
    (forall l, exists w1 scores seconds, snd (fit_train l w1) = Ok (scores, seconds) /\ shows info d l scores seconds) /\
    (forall k, ~ in_info info k -> (forall l, ~ In k (score_keys l ++ time_keys l)%list) -> dict_get d k = None).
  Proof.
    intros w file info w' file' d H. apply run_inv in H. destruct H as [d0 [H0 [-> ->]]].
    split; [reflexivity|]. split.
    - intros l. destruct (all_shows _ _ _ _ _ l learners_once H0 (learners_all l)) as [w1 [scores [seconds [Hf [S1 S2]]]]].
      exists w1, scores, seconds. split; [exact Hf|]. split.
      + intros i k v Hk Hv N. rewrite update_other by exact N. apply (S1 i); [exact Hk|exact Hv|intros [x []]].
      + intros k Hk N. rewrite update_other by exact N. apply S2; [exact Hk|intros [x []]].
    - intros k N NK. rewrite update_other by exact N. rewrite (all_other _ _ _ _ _ k H0) by (intros l _; apply NK). reflexivity.
  Qed.

  Lemma run_failure : forall w file info w' file' e, run w file info = (w', file', Raise e) -> file' = file.
  Proof.
    intros w file info w' file' e. unfold robust.
    destruct (all learners w []) as [w1 [d0|e0]]; [discriminate|]. intros H. injection H as _ <- _; reflexivity.
  Qed.

  (** A step on the test data that cannot be done. *)
  Lemma all_fails : forall l, (forall w d, exists e, snd (one l w d) = Raise e) ->
    forall ls w d, In l ls -> exists e, snd (all ls w d) = Raise e.
  Proof.
    intros l F. induction ls as [|l0 ls IH]; intros w d Hl; [destruct Hl|]. cbn [all_models].
    destruct (one l0 w d) as [w1 [d1|e]] eqn:E; [|exists e; reflexivity].
    destruct Hl as [->|Hl]; [|apply IH; exact Hl].
    destruct (F w d) as [e He]. rewrite E in He. discriminate.
  Qed.
  Lemma one_fails : forall l,
    (forall w, exists e, snd (predict_test l w) = Raise e) \/ (l <> XGB /\ forall w, exists e, snd (fit_test l w) = Raise e) ->
    forall w d, exists e, snd (one l w d) = Raise e.
  Proof.
    intros l H w d. unfold one_model.
    destruct (fit_train l w) as [w1 [[scores seconds]|e]]; [|exists e; reflexivity].
    destruct (predict_test l w1) as [w2 [p|e]] eqn:E; [|exists e; reflexivity].
    destruct H as [H|[N H]].
    - destruct (H w1) as [e He]. rewrite E in He. discriminate.
    - destruct (r2_score y_test p) as [s|e]; [|exists e; reflexivity].
      destruct (H w2) as [e He].
      destruct l; try (contradiction N; reflexivity); destruct (fit_test _ w2) as [w3 [u|e']]; cbn in He; try discriminate; exists e'; reflexivity.
  Qed.
  Lemma run_fails : forall l,
    (forall w, exists e, snd (predict_test l w) = Raise e) \/ (l <> XGB /\ forall w, exists e, snd (fit_test l w) = Raise e) ->
    forall w file info, exists w' e, run w file info = (w', file, Raise e).
  Proof.
    intros l H w file info. unfold robust.
    destruct (all_fails l (one_fails l H) learners w [] (learners_all l)) as [e He].
    destruct (all learners w []) as [w1 r]. cbn in He; subst r. exists w1, e. reflexivity.
  Qed.
End Run.

(** The line depends only on the training fits of the models other than XGB. *)
Section Alike.
  Variable I : Type.
  Variable world world' : Type.
  Variable fit_train : learner -> world -> world * result (list ext * R).
  Variable fit_train' : learner -> world' -> world' * result (list ext * R).
  Variable outcome : learner -> list ext * R.
  Hypothesis same : forall l, l <> XGB -> always fit_train l (fst (outcome l)) (snd (outcome l)).
  Hypothesis same' : forall l, l <> XGB -> always fit_train' l (fst (outcome l)) (snd (outcome l)).
  Variable pt : learner -> world -> world * result (list R).
  Variable pt' : learner -> world' -> world' * result (list R).
  Variable ft : learner -> world -> world * result unit.
  Variable ft' : learner -> world' -> world' * result unit.

  Lemma all_is : forall yt ls w d w1 d1,
    all_models I world fit_train pt ft yt ls w d = (w1, Ok d1) ->
    d1 = fold_left (fun d l => match l with XGB => d | _ => add I d l (outcome l) end) ls d.
  Proof.
    induction ls as [|l ls IH]; intros w d w1 d1 H; [injection H as _ <-; reflexivity|].
    cbn [all_models] in H. destruct (one_model _ _ _ _ _ _ l w d) as [w2 [d2|e]] eqn:E; [|discriminate].
    apply one_inv in E. destruct E as [o [Ho ->]]. apply IH in H. rewrite H. cbn [fold_left]. f_equal.
    destruct l; try reflexivity;
      (match goal with |- add _ _ ?l _ = _ => pose proof (same l ltac:(discriminate) w) as S0 end;
       rewrite S0 in Ho; injection Ho as <-; destruct (outcome _); reflexivity).
  Qed.
End Alike.

Lemma run_alike : forall I world world' fit_train fit_train' pt pt' ft ft' yt yt' (outcome : learner -> list ext * R),
  (forall l, l <> XGB -> always fit_train l (fst (outcome l)) (snd (outcome l))) ->
  (forall l, l <> XGB -> always fit_train' l (fst (outcome l)) (snd (outcome l))) ->
  forall w w' file file' info w1 w1' file1 file1' d d',
  robust I world fit_train pt ft yt w file info = (w1, file1, Ok d) ->
  robust I world' fit_train' pt' ft' yt' w' file' info = (w1', file1', Ok d') -> d = d'.
Proof.
  intros I world world' fit_train fit_train' pt pt' ft ft' yt yt' outcome S1 S2 w w' file file' info w1 w1' file1 file1' d d' H H'.
  apply run_inv in H. apply run_inv in H'.
  destruct H as [d0 [H0 [-> _]]]. destruct H' as [d0' [H0' [-> _]]].
  apply (all_is I world fit_train outcome S1) in H0. apply (all_is I world' fit_train' outcome S2) in H0'.
  congruence.
Qed.

(** The calls. *)
Lemma call_three : forall obj defaults X y points values, call_without_test obj defaults X y points values = Raise TypeError.
Proof. reflexivity. Qed.
Lemma call_six : forall obj defaults X y points X_test y_test points_test values, exists b,
  call_with_test obj defaults X y points X_test y_test points_test values = Ok b /\
  (arg obj b "X" = X /\ arg obj b "y" = y /\ arg obj b "points" = points /\
   arg obj b "X_test" = X_test /\ arg obj b "y_test" = y_test /\ arg obj b "points_test" = points_test) /\
  forall k, In k ["stacking_neighbour_count"; "stacking_neighbour_leave_out_rate"; "grf_neighbour_count"; "grf_n_estimators"; "gwr_neighbour_count"; "rf_n_estimators"; "info"] ->
    arg obj b k = values k.
Proof.
  intros. eexists. split; [reflexivity|]. split; [repeat split|].
  intros k Hk. cbn [In] in Hk. repeat destruct Hk as [<-|Hk]; try reflexivity; destruct Hk.
Qed.
