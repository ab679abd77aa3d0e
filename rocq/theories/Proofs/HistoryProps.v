(** Proofs for C155 and C156. *)
From Verif.Model Require Import Base Ext Distance WeightModel Inspect Ale History.
From Verif.Spec Require Import KernelSpec NeighbourSpec WeightModelSpec HistorySpec.
From Verif.Proofs Require Import ListFacts AdaptiveFacts WeightModelFacts WeightModelProps FitProps.
Open Scope nat_scope.
Open Scope R_scope.

Lemma mapM_same {A B} (f f' : A -> result B) l : (forall a, f a = f' a) -> mapM f l = mapM f' l.
Proof. intros H. induction l as [|a l IH]; [reflexivity|]. cbn. rewrite H, IH. reflexivity. Qed.

Section P.
  Variable est : Type.
  Variable fit_est : nat -> matrix R -> list R -> list ext -> result est.
  Variable predict_est : est -> matrix R -> result (list R).
  Variable G : Type.
  Variable choice : G -> list nat -> nat -> G * list nat.
  Variable cpu : nat.
  Variable wm : filesystem -> list coords -> list coords -> filesystem * result weights.
  Variable permute : G -> list nat -> G * list nat.
  Notation FIT := (fit est fit_est predict_est G choice cpu wm).
  Notation RUN := (run est fit_est predict_est G choice cpu wm permute).
  Notation DO := (do_call est fit_est predict_est G choice cpu wm permute).

  Lemma same_model_refl (s : state est) : same_model s s.
  Proof. unfold same_model. tauto. Qed.
  Lemma same_model_trans (a b c : state est) : same_model a b -> same_model b c -> same_model a c.
  Proof. unfold same_model. intuition congruence. Qed.
  Lemma same_model_sym (a b : state est) : same_model a b -> same_model b a.
  Proof. unfold same_model. intuition congruence. Qed.

  (** A fit of any object behaves as the fit of a new one. *)
  Lemma fit_forgets c order g fs s s' X y v given :
    let o := FIT c order g fs s X y v given in
    let o' := FIT c order g fs s' X y v given in
    o_result est G o = o_result est G o' /\ o_weights est G o = o_weights est G o' /\
    o_gen est G o = o_gen est G o' /\ o_fs est G o = o_fs est G o' /\
    (o_result est G o = Ok tt ->
     cache_data c = true \/ (data_X est s = data_X est s' /\ data_y est s = data_y est s' /\ data_coords est s = data_coords est s') ->
     same_model (o_state est G o) (o_state est G o')).
  Proof.
    cbv zeta. unfold fit.
    destruct (check_X_y X y); [|cbn; repeat split; discriminate].
    assert (A : forall s, set_shape est s (ncols X) (length X) = set_shape est s (ncols X) (length X)) by reflexivity.
    destruct v as [v|], given as [w0|]; try (cbn; repeat split; discriminate);
      try (destruct (wm fs v v) as [fs' [w|e]]; [|cbn; repeat split; discriminate]);
      (destruct (sample_locations G choice g (sample_local_rate c) (length X)) as [[g' locs]|e]; [|cbn; repeat split; discriminate]);
      (destruct (fit_all est fit_est predict_est cpu order X y (seq 0 (length X)) _ (Some locs) (cache_estimator c) None (init_jobs cpu c)) as [[preds es]|e]; [|cbn; repeat split; discriminate]);
      (destruct (bind (squeeze preds) _) as [[p score]|e]; [|cbn; repeat split; discriminate]);
      cbn [o_result o_weights o_gen o_fs o_state]; repeat (split; [reflexivity|]); intros _ H;
      destruct (cache_data c); unfold same_model; cbn; (destruct H as [H|(H1 & H2 & H3)]; [try discriminate; tauto|]); tauto.
  Qed.

  (** What inspections leave alone. *)
  Lemma importance_same c s g r s' g' o :
    importance_score_global est predict_est G permute c s g r = (s', g', o) -> same_model s' s.
  Proof.
    unfold importance_score_global. destruct (negb (cache_data c) || negb (cache_estimator c)).
    - intros [= <- _ _]. apply same_model_refl.
    - destruct (importance_trials est predict_est G permute s g r) as [g1 t].
      destruct (bind t _); intros [= <- _ _]; [unfold same_model; cbn; tauto|apply same_model_refl].
  Qed.
  Lemma interaction_same c buffer s g r s' g' o :
    interaction_score_global est predict_est G permute c buffer s g r = (s', g', o) -> same_model s' s.
  Proof.
    unfold interaction_score_global. destruct (negb (cache_data c) || negb (cache_estimator c)).
    - intros [= <- _ _]. apply same_model_refl.
    - destruct (match permutation_score_decrease_ est s with Some _ => (s, g, Ok []) | None => importance_score_global est predict_est G permute c s g 5 end)
        as [[s1 g1] first] eqn:E1.
      assert (H1 : same_model s1 s).
      { destruct (permutation_score_decrease_ est s); [injection E1 as <- _ _; apply same_model_refl|exact (importance_same _ _ _ _ _ _ _ E1)]. }
      match goal with |- context [match ?x with Ok _ => _ | Raise _ => _ end] => destruct x as [[[[[[[single n] F] X] y] es] llocv]|e] end;
        [|intros [= <- _ _]; exact H1].
      destruct (pair_loop G _ g1 (pairs F)) as [g2 vals].
      destruct (bind vals _); intros [= <- _ _]; [|exact H1].
      apply same_model_trans with s1; [unfold same_model; cbn; tauto|exact H1].
  Qed.

  Lemma do_same c w k : ~ is_fit k -> same_model (w_state est G (DO c w k)) (w_state est G w).
  Proof.
    destruct w as [s g fs], k as [order X y v given|X v given|order X v given|r|buffer r]; cbn; intros H; try tauto; try apply same_model_refl.
    - destruct (importance_score_global est predict_est G permute c s g r) as [[s' g'] o] eqn:E. exact (importance_same _ _ _ _ _ _ _ E).
    - destruct (interaction_score_global est predict_est G permute c buffer s g r) as [[s' g'] o] eqn:E. exact (interaction_same _ _ _ _ _ _ _ _ E).
  Qed.
  Lemma run_same c ks : forall w, Forall (fun k => ~ is_fit k) ks -> same_model (w_state est G (RUN c w ks)) (w_state est G w).
  Proof.
    induction ks as [|k ks IH]; intros w H; [apply same_model_refl|].
    inversion H; subst. apply same_model_trans with (w_state est G (DO c w k)); [apply IH; auto|apply do_same; auto].
  Qed.

  (** Without caching no data is ever kept. *)
  Definition no_data (s : state est) : Prop := data_X est s = None /\ data_y est s = None /\ data_coords est s = None.
  Lemma fit_no_data c order g fs s X y v given : cache_data c = false -> no_data s -> no_data (o_state est G (FIT c order g fs s X y v given)).
  Proof.
    intros Hc HN. unfold fit, no_data. rewrite Hc.
    destruct (check_X_y X y); [|exact HN].
    destruct v as [v|], given as [w0|]; try exact HN;
      try (destruct (wm fs v v) as [fs' [w|e]]; [|exact HN]);
      (destruct (sample_locations G choice g (sample_local_rate c) (length X)) as [[g' locs]|e]; [|exact HN]);
      (destruct (fit_all est fit_est predict_est cpu order X y (seq 0 (length X)) _ (Some locs) (cache_estimator c) None (init_jobs cpu c)) as [[preds es]|e]; [|exact HN]);
      (destruct (bind (squeeze preds) _) as [[p score]|e]; exact HN).
  Qed.
  Lemma run_no_data c ks : cache_data c = false -> forall w, no_data (w_state est G w) -> no_data (w_state est G (RUN c w ks)).
  Proof.
    intros Hc. induction ks as [|k ks IH]; intros w HN; [exact HN|]. apply IH.
    destruct k as [order X y v given|X v given|order X v given|r|buffer r] eqn:Ek.
    - destruct w as [s g fs]. cbn. apply fit_no_data; auto.
    - destruct (do_same c w k) as (_ & _ & _ & E1 & E2 & E3 & _); subst k; [cbn; tauto|]. unfold no_data. rewrite E1, E2, E3. exact HN.
    - destruct (do_same c w k) as (_ & _ & _ & E1 & E2 & E3 & _); subst k; [cbn; tauto|]. unfold no_data. rewrite E1, E2, E3. exact HN.
    - destruct (do_same c w k) as (_ & _ & _ & E1 & E2 & E3 & _); subst k; [cbn; tauto|]. unfold no_data. rewrite E1, E2, E3. exact HN.
    - destruct (do_same c w k) as (_ & _ & _ & E1 & E2 & E3 & _); subst k; [cbn; tauto|]. unfold no_data. rewrite E1, E2, E3. exact HN.
  Qed.

  Lemma refit c ks g0 fs0 g fs order X y v given :
    let used := w_state est G (RUN c (World est G (init_state est) g0 fs0) ks) in
    let o := FIT c order g fs used X y v given in
    let o' := FIT c order g fs (init_state est) X y v given in
    o_result est G o = o_result est G o' /\ o_weights est G o = o_weights est G o' /\
    o_gen est G o = o_gen est G o' /\ o_fs est G o = o_fs est G o' /\
    (o_result est G o = Ok tt -> same_model (o_state est G o) (o_state est G o')).
  Proof.
    cbv zeta. set (used := w_state est G _).
    destruct (fit_forgets c order g fs used (init_state est) X y v given) as (H1 & H2 & H3 & H4 & H5).
    repeat (split; [assumption|]). intros HR. apply H5; [exact HR|].
    destruct (cache_data c) eqn:Hc; [auto|right].
    destruct (run_no_data c ks Hc (World est G (init_state est) g0 fs0)) as (E1 & E2 & E3); [repeat split|].
    unfold used. rewrite E1, E2, E3. auto.
  Qed.

  (** Methods that read only these attributes. *)
  Variable permutation_importance : nat -> est -> matrix R -> list R -> list ext -> nat -> result (list ext).
  Variable sk_partial : est -> matrix R -> nat -> result (list R * matrix R).
  Variable grid_from_X : matrix R -> nat -> result (list R).
  Variable store : R -> R.

  Lemma local_view_same s s' i : same_model s s' -> local_view est s i = local_view est s' i.
  Proof. intros (E1 & E2 & E3 & E4 & E5 & E6 & E7 & E8 & E9 & E10 & E11 & E12 & E13 & E14). unfold local_view. rewrite E11, E7, E8, E4, E5. reflexivity. Qed.

  Lemma same_answers s s' : same_model s s' ->
    (forall c fs X v w, predict_by_weight est predict_est wm c fs s X v w = predict_by_weight est predict_est wm c fs s' X v w) /\
    (forall c order fs X v w, predict_by_fit est fit_est predict_est cpu wm c order fs s X v w = predict_by_fit est fit_est predict_est cpu wm c order fs s' X v w) /\
    (forall c order r, importance_score_local est permutation_importance c order s r = importance_score_local est permutation_importance c order s' r) /\
    (forall g r, importance_trials est predict_est G permute s g r = importance_trials est predict_est G permute s' g r) /\
    (forall order, partial_dependence est sk_partial order s = partial_dependence est sk_partial order s') /\
    local_ICE est predict_est grid_from_X store s = local_ICE est predict_est grid_from_X store s' /\
    (forall f, local_ALE store est predict_est s f = local_ALE store est predict_est s' f) /\
    (forall f, global_ALE store est predict_est s f = global_ALE store est predict_est s' f).
  Proof.
    intros H. pose proof H as (E1 & E2 & E3 & E4 & E5 & E6 & E7 & E8 & E9 & E10 & E11 & E12 & E13 & E14).
    assert (HV : forall i, local_view est s i = local_view est s' i) by (intros i; apply local_view_same; exact H).
    assert (HM : forall l, mapM (local_view est s) l = mapM (local_view est s') l).
    { intros l. induction l as [|a l IH]; [reflexivity|]. cbn. rewrite HV. destruct (local_view est s' a); [cbn; rewrite IH|]; reflexivity. }
    repeat split; intros.
    - unfold predict_by_weight. rewrite E11, E6. reflexivity.
    - unfold predict_by_fit. rewrite E6, E4, E5. reflexivity.
    - unfold importance_score_local. rewrite E3. destruct (negb (cache_data c) || negb (cache_estimator c)); [reflexivity|].
      destruct (n_obs est s'); cbn; [rewrite HM|]; reflexivity.
    - unfold importance_trials, need_score. rewrite E3, E2, E4, E11, E5, E13. reflexivity.
    - unfold partial_dependence. rewrite E3, E2. destruct (n_obs est s'); cbn; [rewrite HM|]; reflexivity.
    - unfold local_ICE. rewrite E3, E2, E4. destruct (n_obs est s'); [|reflexivity]. destruct (n_features_in est s'); [|reflexivity].
      destruct (data_X est s'); [|reflexivity]. cbn.
      erewrite mapM_same; [reflexivity|]. intros a. cbn beta. rewrite HV. reflexivity.
    - unfold local_ALE. rewrite E11. destruct (local_estimators est s'); [|reflexivity]. cbn.
      apply mapM_same. intros a. cbn beta. rewrite HV. reflexivity.
    - unfold global_ALE. rewrite E4, E11. reflexivity.
  Qed.

  (** C156: what a failed fit of valid data leaves. *)
  Definition left_by_failure c order g fs (s : state est) X y v given (s' : state est) : Prop :=
    data_X est s' = Some X /\ data_y est s' = Some y /\ data_coords est s' = v /\
    is_fitted est s' = Some true /\ n_obs est s' = Some (length X) /\ n_features_in est s' = Some (ncols X) /\
    local_predict_ est s' = local_predict_ est s /\ llocv_score_ est s' = llocv_score_ est s /\ local_residual_ est s' = local_residual_ est s /\
    ((forall w g' locs r, in_force wm fs v given w -> sample_locations G choice g (sample_local_rate c) (length X) = Ok (g', locs) -> fit_all est fit_est predict_est cpu order X y (seq 0 (length X)) (if leave_local_out c then clear_diagonal w else w) (Some locs) (cache_estimator c) None (init_jobs cpu c) <> Ok r) ->
     local_estimators est s' = local_estimators est s).
  Lemma failed_fit c order g fs s X y v given e :
    check_X_y X y = Ok tt -> v <> None \/ given <> None -> cache_data c = true ->
    let o := FIT c order g fs s X y v given in
    o_result est G o = Raise e -> left_by_failure c order g fs s X y v given (o_state est G o).
  Proof.
    intros HX Hv Hc. cbv zeta. unfold fit. rewrite HX, Hc.
    assert (HH : forall w fs' W0, (in_force wm fs v given w) ->
      let o := match sample_locations G choice g (sample_local_rate c) (length X) with
          | Raise e => Outcome est G (set_weights est (set_data est (set_shape est s (ncols X) (length X)) X y v) (if leave_local_out c then clear_diagonal w else w)) W0 g fs' (Raise e)
          | Ok (g', locs) =>
            match fit_all est fit_est predict_est cpu order X y (seq 0 (length X)) (if leave_local_out c then clear_diagonal w else w) (Some locs) (cache_estimator c) None (init_jobs cpu c) with
            | Raise e => Outcome est G (set_locations est (set_weights est (set_data est (set_shape est s (ncols X) (length X)) X y v) (if leave_local_out c then clear_diagonal w else w)) locs (take 0 y locs)) W0 g' fs' (Raise e)
            | Ok (preds, es) =>
              match (p <- squeeze preds ;; score <- r2_score (take 0 y locs) p ;; Ok (p, score)) with
              | Raise e => Outcome est G (set_estimators est (set_locations est (set_weights est (set_data est (set_shape est s (ncols X) (length X)) X y v) (if leave_local_out c then clear_diagonal w else w)) locs (take 0 y locs)) es) W0 g' fs' (Raise e)
              | Ok (p, score) => Outcome est G (set_scores est (set_estimators est (set_locations est (set_weights est (set_data est (set_shape est s (ncols X) (length X)) X y v) (if leave_local_out c then clear_diagonal w else w)) locs (take 0 y locs)) es) p score (map2 Rminus (take 0 y locs) p)) W0 g' fs' (Ok tt)
              end
            end
          end in
      o_result est G o = Raise e -> left_by_failure c order g fs s X y v given (o_state est G o)).
    { intros w fs' W0 Hw. cbv zeta. unfold left_by_failure.
      destruct (sample_locations G choice g (sample_local_rate c) (length X)) as [[g' locs]|?] eqn:El; [|cbn; intros _; repeat split; auto].
      destruct (fit_all est fit_est predict_est cpu order X y (seq 0 (length X)) (if leave_local_out c then clear_diagonal w else w) (Some locs) (cache_estimator c) None (init_jobs cpu c)) as [[preds es]|?] eqn:Ef; [|cbn; intros _; repeat split; auto].
      destruct (bind (squeeze preds) _) as [[p score]|?]; [discriminate|cbn; intros _; repeat split; auto].
      intros HN. exfalso. exact (HN _ _ _ _ Hw eq_refl Ef). }
    destruct v as [v|], given as [w0|]; try (destruct Hv; congruence).
    - apply HH. left. reflexivity.
    - destruct (wm fs v v) as [fs' [w|?]] eqn:Ew.
      + apply HH. right. split; [reflexivity|]. exists v. rewrite Ew. auto.
      + cbn. intros _. unfold left_by_failure. cbn. repeat split; auto.
    - apply HH. left. reflexivity.
  Qed.

  (** Why a fit of valid data fails: no weights, or a location that cannot be fitted. *)
  Lemma cannot_train c order g fs X y v given :
    (0 < cpu)%nat ->
    untrainable fit_est cpu wm c order fs X y v given -> length y = length X ->
    forall w g' locs r, in_force wm fs v given w -> sample_locations G choice g (sample_local_rate c) (length X) = Ok (g', locs) ->
    fit_all est fit_est predict_est cpu order X y (seq 0 (length X)) (if leave_local_out c then clear_diagonal w else w) (Some locs) (cache_estimator c) None (init_jobs cpu c) <> Ok r.
  Proof.
    intros Hcpu H Hy w g' locs r Hf Hl Hfa.
    destruct H as [(t & e & -> & -> & Hw)|(w1 & W & i & Hs & Hf1 & Hh & HS & Hi & Hno)].
    - destruct Hf as [Hf|[_ [t' [Et Hw']]]]; [discriminate|]. injection Et as <-. congruence.
    - assert (w1 = w) by (eapply in_force_fun; eauto). subst w1. rewrite Hs in Hl. cbn in Hl. injection Hl as _ <-.
      pose proof (holds_effective (leave_local_out c) _ _ _ Hh) as Hw'.
      set (w' := if leave_local_out c then clear_diagonal w else w) in *.
      destruct r as [preds es].
      assert (HS' : schedule (num_tasks cpu c (length (seq 0 (length X)))) order) by (rewrite seq_length; auto).
      assert (Hle : (length (seq 0 (length X)) <= length X)%nat) by (rewrite seq_length; auto).
      pose proof (proj1 (fit_all_iff est fit_est predict_est cpu order X y w' (seq 0 (length X)) (cache_estimator c) c preds es (length X) eq_refl (holds_nrows _ _ _ Hw') Hle Hcpu HS') Hfa) as Hfa'.
      clear Hfa. rename Hfa' into Hfa.
      destruct Hfa as [_ (rs & Hm & _ & _)].
      assert (HP : paired c w' (seq 0 (length X)) = seq 0 (length X)).
      { unfold paired. destruct (n_jobs c); auto. destruct w'; auto. rewrite seq_length. reflexivity. }
      rewrite HP in Hm.
      assert (Hrs : exists b, task est fit_est predict_est X y (seq 0 (length X)) w' X (cache_estimator c) i = Ok b).
      { apply mapM_ok_iff in Hm. apply (fun H => Forall2_nth _ _ _ 0%nat ([], None) i H) in Hm; [|rewrite seq_length; auto].
        rewrite seq_nth in Hm by auto. eexists. exact Hm. }
      destruct Hrs as [[q e] He].
      destruct Hw' as [HWr' Hw'].
      rewrite (task_simple _ _ _ X y (length X) (effective_weights (leave_local_out c) W) w' (length X) (seq 0 (length X)) X (cache_estimator c) i i (nth i X []) (length X)) in He; auto; try congruence.
      2:{ rewrite (getitem_lt 0%nat) by (rewrite seq_length; auto). rewrite seq_nth by auto. reflexivity. }
      2:{ rewrite (getitem_lt (@nil R)) by congruence. reflexivity. }
      destruct Hh as [HWr Hh].
      apply (simple_task_ok _ _ _ X y (leave_local_out c) W (length X) i) in He; auto.
      destruct He as (e0 & He0 & _). exact (Hno e0 He0).
  Qed.

  (** C156 *)
  Lemma failed_refit c order g fs s X y v given :
    (0 < cpu)%nat -> cache_data c = true -> valid_data X y -> v <> None \/ given <> None ->
    untrainable fit_est cpu wm c order fs X y v given ->
    let o := FIT c order g fs s X y v given in
    raises (o_result est G o) /\
    data_X est (o_state est G o) = Some X /\ data_y est (o_state est G o) = Some y /\ data_coords est (o_state est G o) = v /\
    local_estimators est (o_state est G o) = local_estimators est s /\ local_predict_ est (o_state est G o) = local_predict_ est s /\
    llocv_score_ est (o_state est G o) = llocv_score_ est s /\ local_residual_ est (o_state est G o) = local_residual_ est s.
  Proof.
    intros Hcpu Hc HV Hv HU o.
    assert (Hck : check_X_y X y = Ok tt) by (apply check_iff; exact HV).
    assert (Hy : length y = length X) by (apply check_ok in Hck; destruct Hck as [E _]; congruence).
    pose proof (cannot_train c order g fs X y v given Hcpu HU Hy) as HN.
    assert (HR : raises (o_result est G o)).
    { destruct (o_result est G o) as [[]|e] eqn:E; [|eexists; reflexivity]. exfalso.
      destruct (fit_inv est fit_est predict_est G choice cpu wm _ _ _ _ _ _ _ _ _ E) as (w & g' & locs & preds & es & p & score & _ & Hf & Hl & Hfa & _).
      exact (HN _ _ _ _ Hf Hl Hfa). }
    split; [exact HR|]. destruct HR as [e He].
    destruct (failed_fit c order g fs s X y v given e Hck Hv Hc He) as (H1 & H2 & H3 & _ & _ & _ & H4 & H5 & H6 & H7).
    repeat (split; [assumption|]). split; [apply H7; exact HN|auto].
  Qed.

  (** predict_by_fit only reads the training data. *)
  Lemma pbf_data c order fs s s' X v w :
    data_X est s = data_X est s' -> data_y est s = data_y est s' -> data_coords est s = data_coords est s' ->
    predict_by_fit est fit_est predict_est cpu wm c order fs s X v w = predict_by_fit est fit_est predict_est cpu wm c order fs s' X v w.
  Proof. intros E1 E2 E3. unfold predict_by_fit. rewrite E1, E2, E3. reflexivity. Qed.
  (** predict_by_weight only reads the local estimators and the coordinates. *)
  Lemma pbw_reads c fs s s' X v w :
    local_estimators est s = local_estimators est s' -> data_coords est s = data_coords est s' ->
    predict_by_weight est predict_est wm c fs s X v w = predict_by_weight est predict_est wm c fs s' X v w.
  Proof. intros E1 E2. unfold predict_by_weight. rewrite E1, E2. reflexivity. Qed.
End P.
