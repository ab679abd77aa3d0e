(** Proofs for C157. *)
From Verif.Model Require Import Base Ext Csr Neighbour Distance WeightModel Inspect History.
From Verif.Spec Require Import KernelSpec NeighbourSpec WeightModelSpec HistorySpec.
From Verif.Proofs Require Import ListFacts CsrFacts NeighbourFacts ShrinkFacts SampleFacts WeightModelFacts WeightModelProps FitProps HistoryProps.
Open Scope nat_scope.
Open Scope R_scope.

Lemma fill_fill {A} (x : A) m n : rect m n n -> fill_diagonal x (fill_diagonal x m) = fill_diagonal x m.
Proof.
  intros HR. pose proof (fill_diagonal_rect x m n n HR) as HR2. pose proof (fill_diagonal_rect x _ n n HR2) as HR3.
  assert (HL : length m = n) by apply HR. assert (HL2 : length (fill_diagonal x m) = n) by apply HR2. assert (HL3 : length (fill_diagonal x (fill_diagonal x m)) = n) by apply HR3.
  apply (nth_ext _ _ [] []); [congruence|]. intros i Hi. rewrite HL3 in Hi.
  rewrite fill_diagonal_nth by lia. rewrite fill_diagonal_nth by lia. 
  assert (Hr : length (nth i m []) = n) by (apply (rect_row m n n); auto).
  apply (nth_ext _ _ x x); [rewrite !list_set_length; auto|]. intros j Hj. rewrite !list_set_length in Hj.
  destruct (Nat.eq_dec i j) as [->|Hne].
  - rewrite !list_set_nth_eq; auto; rewrite ?list_set_length; lia.
  - rewrite list_set_nth_neq by auto. reflexivity.
Qed.

Lemma clear_clear w W n : holds w W n -> clear_diagonal (clear_diagonal w) = clear_diagonal w.
Proof.
  intros H. pose proof (holds_clear _ _ _ H) as H1. pose proof (holds_clear _ _ _ H1) as H2.
  destruct H as [HR H]. rewrite (fill_fill _ _ n HR) in H2.
  destruct H as [->|[c [-> _]]].
  - cbn. rewrite (fill_fill _ _ n HR). reflexivity.
  - destruct H1 as [_ [H1|[c1 [E1 H1]]]]; [discriminate|]. destruct H2 as [_ [H2|[c2 [E2 H2]]]]; [discriminate|].
    rewrite E2, E1. unfold csr_form in H1, H2. congruence.
Qed.

Section P.
  Variable est : Type.
  Variable fit_est : nat -> matrix R -> list R -> list ext -> result est.
  Variable predict_est : est -> matrix R -> result (list R).
  Variable G : Type.
  Variable choice : G -> list nat -> nat -> G * list nat.
  Variable cpu : nat.
  Variable wm : filesystem -> list coords -> list coords -> filesystem * result weights.
  Notation HAP := (happen est fit_est predict_est G choice cpu wm).
  Notation ALL := (happen_all est fit_est predict_est G choice cpu wm).
  Notation SFIT := (fit_shared est fit_est predict_est G choice cpu wm).
  Notation now := (model_now est G).
  Notation fit_outcome := (History.fit_outcome est fit_est predict_est G choice cpu wm).

  Lemma object_kept es m : forall w, Forall (fun e => ~ fits_model m e) es -> s_objects est G (ALL w es) m = s_objects est G w m.
  Proof.
    induction es as [|e es IH]; intros w HF; [reflexivity|]. apply Forall_cons_iff in HF as [He HF].
    cbn. fold (ALL (HAP w e) es). rewrite IH by exact HF. destruct w as [h obs g fs], e as [m' c order xa ya ca wa|a v|a v|a v|a v]; cbn; try reflexivity.
    destruct (SFIT c order g fs h (obs m') xa ya ca wa) as [[h' b'] o]. cbn. unfold update. cbn in He.
    destruct (Nat.eqb_spec m m'); congruence.
  Qed.

  (** C157: what a fit computed belongs to the model. *)
  Lemma results_owned es m w : Forall (fun e => ~ fits_model m e) es -> same_results (now (ALL w es) m) (now w m).
  Proof.
    intros HF. pose proof (object_kept es m w HF) as E. unfold model_now. rewrite E. unfold same_results, view. cbn. tauto.
  Qed.

  Lemma coords_kept es a : forall w, Forall (fun e => ~ writes_coordinates a e) es -> h_C (s_heap est G (ALL w es)) a = h_C (s_heap est G w) a.
  Proof.
    induction es as [|e es IH]; intros w HF; [reflexivity|]. apply Forall_cons_iff in HF as [He HF].
    cbn. fold (ALL (HAP w e) es). rewrite IH by exact HF. destruct w as [h obs g fs], e as [m' c order xa ya ca wa|a' v|a' v|a' v|a' v]; cbn; try reflexivity.
    - unfold fit_shared. cbn. destruct wa as [wa|]; [|reflexivity]. destruct (o_weights est G _); reflexivity.
    - unfold update. cbn in He. destruct (Nat.eqb_spec a a'); congruence.
  Qed.

  Lemma after_fit w m c order xa ya ca wa :
    o_result est G (fit_outcome w m c order xa ya ca wa) = Ok tt -> cache_data c = true ->
    let w1 := HAP w (EFit m c order xa ya ca wa) in
    s_objects est G w1 m = Object est (o_state est G (fit_outcome w m c order xa ya ca wa)) (Some xa) (Some ya) ca (match wa with Some a => Some a | None => None end) /\
    (forall a, wa = Some a -> h_W (s_heap est G w1) a = if leave_local_out c then clear_diagonal (h_W (s_heap est G w) a) else h_W (s_heap est G w) a).
  Proof.
    destruct w as [h obs g fs]. unfold History.fit_outcome. cbn [s_gen s_files s_heap s_objects happen]. intros Hok Hc. cbn zeta.
    unfold fit_shared in *. cbn [snd] in Hok.
    destruct (fit_inv est fit_est predict_est G choice cpu wm _ _ _ _ _ _ _ _ _ Hok) as (w1 & g' & locs & preds & es & p & score & Hck & Hf & _ & _ & _ & _ & E).
    rewrite Hck, Hc. cbn [snd s_objects s_heap]. split.
    - unfold update. rewrite Nat.eqb_refl. destruct ca as [ca|], wa as [wa|]; cbn in Hf |- *; try reflexivity.
      + destruct Hf as [Hf|[_ [t [Et Hw]]]]; [discriminate|]. assert (t = h_C h ca) by congruence. subst t. rewrite Hw. reflexivity.
      + destruct Hf as [Hf|[_ [t [Et _]]]]; discriminate.
    - intros a ->. rewrite E. cbn. unfold set_W, update. cbn. rewrite Nat.eqb_refl.
      destruct Hf as [Hf|[Hf _]]; [cbn in Hf; injection Hf as <-; reflexivity|discriminate].
  Qed.

  (** C157: predict_by_weight only changes when the coordinates are written. *)
  Lemma pbw_kept w m c order xa ya ca wa es cfg fs Z v given :
    o_result est G (fit_outcome w m c order xa ya ca wa) = Ok tt -> cache_data c = true ->
    let w1 := HAP w (EFit m c order xa ya ca wa) in
    Forall (fun e => ~ fits_model m e) es -> (forall a, ca = Some a -> Forall (fun e => ~ writes_coordinates a e) es) ->
    predict_by_weight est predict_est wm cfg fs (now (ALL w1 es) m) Z v given = predict_by_weight est predict_est wm cfg fs (now w1 m) Z v given.
  Proof.
    intros Hok Hc w1 HF HC. destruct (after_fit _ _ _ _ _ _ _ _ Hok Hc) as [E _]. fold w1 in E.
    apply (pbw_reads est predict_est wm).
    - apply (results_owned es m w1 HF).
    - unfold model_now. rewrite (object_kept es m w1 HF), E. unfold view. cbn. destruct ca as [a|]; [|reflexivity]. cbn.
      rewrite (coords_kept es a w1 (HC a eq_refl)). reflexivity.
  Qed.

  (** C157: predict_by_fit trains on what the caller's arrays hold now. *)
  Lemma pbf_current w m c order xa ya ca wa es cfg order' fs Z v given s' :
    o_result est G (fit_outcome w m c order xa ya ca wa) = Ok tt -> cache_data c = true ->
    let w2 := ALL (HAP w (EFit m c order xa ya ca wa)) es in
    Forall (fun e => ~ fits_model m e) es ->
    data_X est s' = Some (h_X (s_heap est G w2) xa) -> data_y est s' = Some (h_y (s_heap est G w2) ya) ->
    data_coords est s' = option_map (h_C (s_heap est G w2)) ca ->
    predict_by_fit est fit_est predict_est cpu wm cfg order' fs (now w2 m) Z v given = predict_by_fit est fit_est predict_est cpu wm cfg order' fs s' Z v given.
  Proof.
    intros Hok Hc w2 HF H1 H2 H3. destruct (after_fit _ _ _ _ _ _ _ _ Hok Hc) as [E _].
    assert (E2 : s_objects est G w2 m = s_objects est G (HAP w (EFit m c order xa ya ca wa)) m) by (apply object_kept; exact HF).
    rewrite E in E2.
    assert (HD : data_coords est (o_state est G (fit_outcome w m c order xa ya ca wa)) = option_map (h_C (s_heap est G w)) ca).
    { unfold History.fit_outcome, fit_shared in *. cbn [snd] in *.
      destruct (fit_inv est fit_est predict_est G choice cpu wm _ _ _ _ _ _ _ _ _ Hok) as (w1 & g' & locs & preds & es0 & p & score & _ & _ & _ & _ & _ & _ & EE).
      rewrite EE, Hc. reflexivity. }
    apply (pbf_data est fit_est predict_est cpu wm); unfold model_now; rewrite E2; unfold view; cbn; [congruence|congruence|].
    destruct ca as [a|]; cbn in *; congruence.
  Qed.

  (** What a fit leaves in the weight matrix it was given. *)
  Lemma fit_weights c order g fs s X y v w :
    o_weights est G (fit est fit_est predict_est G choice cpu wm c order g fs s X y v (Some w)) = Some w \/
    (leave_local_out c = true /\ o_weights est G (fit est fit_est predict_est G choice cpu wm c order g fs s X y v (Some w)) = Some (clear_diagonal w)).
  Proof.
    unfold fit. destruct (check_X_y X y); [|left; reflexivity].
    destruct v as [v|]; (destruct (sample_locations G choice g (sample_local_rate c) (length X)) as [[g' locs]|e];
      [destruct (fit_all est fit_est predict_est cpu order X y (seq 0 (length X)) _ (Some locs) (cache_estimator c) None (init_jobs cpu c)) as [[preds es]|e];
       [destruct (bind (squeeze preds) _) as [[p score]|e]|]|]); cbn; destruct (leave_local_out c); auto.
  Qed.

  Lemma heap_fit w m c order xa ya ca wa :
    let h' := s_heap est G (HAP w (EFit m c order xa ya ca wa)) in
    h_X h' = h_X (s_heap est G w) /\ h_y h' = h_y (s_heap est G w) /\ h_C h' = h_C (s_heap est G w).
  Proof.
    destruct w as [h obs g fs]. cbn. unfold fit_shared. cbn. destruct wa as [wa|]; [|auto]. destruct (o_weights est G _); auto.
  Qed.
  Lemma heap_W w e a :
    h_W (s_heap est G (HAP w e)) a = h_W (s_heap est G w) a \/ writes_weights a e \/
    (clears_weights a e /\ h_W (s_heap est G (HAP w e)) a = clear_diagonal (h_W (s_heap est G w) a)).
  Proof.
    destruct w as [h obs g fs], e as [m' c order xa ya ca wa|a' v|a' v|a' v|a' v]; cbn; auto.
    - unfold fit_shared. cbn. destruct wa as [wa|]; [|auto].
      pose proof (fit_weights c order g fs (view est h (obs m')) (h_X h xa) (h_y h ya) (option_map (h_C h) ca) (h_W h wa)) as HW.
      cbn [option_map]. destruct HW as [HW|[Hl HW]]; rewrite HW; unfold set_W, update; cbn; destruct (Nat.eqb_spec a wa) as [->|Hne]; auto.
    - unfold update. destruct (Nat.eqb_spec a a'); auto.
  Qed.

  Lemma weights_kept es a : forall w, Forall (fun e => ~ writes_weights a e /\ ~ clears_weights a e) es -> h_W (s_heap est G (ALL w es)) a = h_W (s_heap est G w) a.
  Proof.
    induction es as [|e es IH]; intros w HF; [reflexivity|]. apply Forall_cons_iff in HF as [[He He'] HF].
    cbn. fold (ALL (HAP w e) es). rewrite IH by exact HF. destruct (heap_W w e a) as [H|[H|[H _]]]; tauto.
  Qed.
  Lemma cleared_kept es a W n : forall w w0, holds w0 W n -> h_W (s_heap est G w) a = clear_diagonal w0 ->
    Forall (fun e => ~ writes_weights a e) es -> h_W (s_heap est G (ALL w es)) a = clear_diagonal w0.
  Proof.
    induction es as [|e es IH]; intros w w0 Hh Hw HF; [exact Hw|]. apply Forall_cons_iff in HF as [He HF].
    cbn. fold (ALL (HAP w e) es). apply IH; [exact Hh| |exact HF].
    destruct (heap_W w e a) as [H|[H|[_ H]]]; [congruence|tauto|]. rewrite H, Hw. eapply clear_clear; eauto.
  Qed.

  Lemma now_weights w m c order xa ya ca a es :
    o_result est G (fit_outcome w m c order xa ya ca (Some a)) = Ok tt -> cache_data c = true ->
    Forall (fun e => ~ fits_model m e) es ->
    weight_matrix_ est (now (ALL (HAP w (EFit m c order xa ya ca (Some a))) es) m) = Some (h_W (s_heap est G (ALL (HAP w (EFit m c order xa ya ca (Some a))) es)) a).
  Proof.
    intros Hok Hc HF. destruct (after_fit _ _ _ _ _ _ _ _ Hok Hc) as [E _].
    unfold model_now. rewrite object_kept by exact HF. rewrite E. reflexivity.
  Qed.

  (** C157: the weight matrix of a model that left its observation out. *)
  Lemma left_out_weights w m c order xa ya ca a es W n :
    o_result est G (fit_outcome w m c order xa ya ca (Some a)) = Ok tt -> cache_data c = true -> leave_local_out c = true ->
    holds (h_W (s_heap est G w) a) W n ->
    let w1 := HAP w (EFit m c order xa ya ca (Some a)) in
    Forall (fun e => ~ fits_model m e) es -> Forall (fun e => ~ writes_weights a e) es ->
    same_results (now (ALL w1 es) m) (now w1 m) /\
    weight_matrix_ est (now (ALL w1 es) m) = weight_matrix_ est (now w1 m) /\
    exists w', weight_matrix_ est (now w1 m) = Some w' /\ holds w' (fill_diagonal (Fin 0) W) n.
  Proof.
    intros Hok Hc Hl Hh w1 HF HW. split; [apply results_owned; exact HF|].
    destruct (after_fit _ _ _ _ _ _ _ _ Hok Hc) as [_ E]. specialize (E a eq_refl). rewrite Hl in E.
    assert (E1 : weight_matrix_ est (now w1 m) = Some (h_W (s_heap est G w1) a)) by (apply (now_weights w m c order xa ya ca a []); auto).
    unfold w1 in *. split.
    - rewrite now_weights by assumption. rewrite E1, E. f_equal. eapply cleared_kept; eauto.
    - rewrite E1, E. eexists. split; [reflexivity|]. apply holds_clear. exact Hh.
  Qed.
  (** C157: the weight matrix of any model, when no fit leaves out on it. *)
  Lemma undisturbed_weights w m c order xa ya ca a es :
    o_result est G (fit_outcome w m c order xa ya ca (Some a)) = Ok tt -> cache_data c = true ->
    let w1 := HAP w (EFit m c order xa ya ca (Some a)) in
    Forall (fun e => ~ fits_model m e) es -> Forall (fun e => ~ writes_weights a e /\ ~ clears_weights a e) es ->
    weight_matrix_ est (now (ALL w1 es) m) = weight_matrix_ est (now w1 m).
  Proof.
    intros Hok Hc w1 HF HW. unfold w1. rewrite now_weights by assumption.
    pose proof (now_weights w m c order xa ya ca a [] Hok Hc (Forall_nil _)) as E1. cbn in E1. cbn. rewrite E1.
    f_equal. apply weights_kept; assumption.
  Qed.
End P.
