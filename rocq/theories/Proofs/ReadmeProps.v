(** Proofs for C169. *)
From Coq Require Import Lra Lia.
From Verif.Model Require Import Base Ext Csr Neighbour Distance WeightModel Inspect Ale Constructor Readme.
From Verif.Spec Require Import KernelSpec NeighbourSpec WeightModelSpec InspectSpec AleSpec ConstructorSpec.
From Verif.Proofs Require Import ListFacts AdaptiveFacts CsrFacts NeighbourFacts NeighbourProps WeightModelFacts WeightModelProps FitProps FitExamples PredictProps StackingFacts InspectProps InspectProps2 InspectProps3 InspectProps4 AleProps2 AleProps3 InspectExamples AleExamples HistoryProps.
Open Scope string_scope.
Open Scope nat_scope.
Open Scope R_scope.

(** ** The constructor calls *)
Section Calls.
  Variable obj : Type.
  Variable cpu : nat.
  Lemma readme_call call estimator dm kt nc : (call = readme_positional obj \/ call = readme_keywords obj) ->
    exists d, weight_model_init obj cpu (fst (call estimator dm kt nc)) (snd (call estimator dm kt nc)) = Ok d /\
      attribute d "local_estimator" (VObj estimator) /\ attribute d "distance_measure" (VObj dm) /\ attribute d "kernel_type" (VObj kt) /\
      attribute d "neighbour_count" (VFloat nc) /\ attribute d "cache_data" (VBool false) /\ attribute d "cache_estimator" (VBool false).
  Proof. intros [-> | ->]; eexists; (split; [reflexivity|]); repeat split; reflexivity. Qed.
End Calls.

Section S.
  Variable store : R -> R.
  Variable est : Type.
  Variable fit_est : nat -> matrix R -> list R -> list ext -> result est.
  Variable predict_est : est -> matrix R -> result (list R).
  Variable G : Type.
  Variable choice : G -> list nat -> nat -> G * list nat.
  Variable cpu : nat.
  Variable wm : filesystem -> list coords -> list coords -> filesystem * result weights.
  Notation FIT := (fit est fit_est predict_est G choice cpu wm).
  Notation lale := (local_ALE store est predict_est).
  Notation STALE := (stale store est predict_est).

  Lemma stale_no_data s f i : data_X est s = None -> raises (STALE s f i).
  Proof.
    intros H. unfold stale. rewrite H.
    destruct (local_estimators est s) as [es|]; [|eexists; reflexivity]. cbn [need bind].
    destruct (getitem es i); [|eexists; reflexivity]. cbn [bind].
    destruct (neighbour_matrix_ est s) as [nb|]; [|eexists; reflexivity]. cbn [need bind].
    destruct (weight_matrix_ est s) as [W|]; [|eexists; reflexivity]. cbn [need bind].
    destruct nb as [b|b]; [|eexists; reflexivity]. destruct W as [w|w]; [|eexists; reflexivity].
    destruct (getitem b i) as [mk|]; [|eexists; reflexivity]. cbn [bind].
    destruct (getitem w i) as [row|]; [|eexists; reflexivity]. cbn [bind].
    destruct (mask_index mk row); eexists; reflexivity.
  Qed.

  Lemma stale_after_fit c order g fs X y v given f i : cache_data c = false ->
    raises (STALE (o_state est G (FIT c order g fs (init_state est) X y v given)) f i).
  Proof.
    intros H. apply stale_no_data. apply (fit_no_data est fit_est predict_est G choice cpu wm c order g fs (init_state est) X y v given H).
    repeat split.
  Qed.

End S.

Section Snippet.
  Variable store : R -> R.
  Variable est : Type.
  Variable predict_est : est -> matrix R -> result (list R).
  Notation lale := (local_ALE store est predict_est).
  Notation STALE := (stale store est predict_est).

  (** One round of local_ALE computes what the snippet computes. *)
  Lemma round_stale s es X y W N F f i curve :
    data_X est s = Some X -> data_y est s = Some y -> length y = N -> local_estimators est s = Some es -> fitted_weights s W N -> rect X N F ->
    (v <- local_view est s i ;; let '(e, Xs, _, ws) := v in w <- finite_weights ws ;; weighted_ale store Xs f (predict_est e) (Some w) false 5) = Ok curve <->
    STALE s f i = Ok curve.
  Proof.
    intros HdX Hdy HLy Hes (W1 & W2 & nb & W3 & W4 & W5) HX. unfold local_view, stale, get_est. rewrite Hes, HdX, Hdy, W2, W3. cbn [need bind].
    destruct (getitem es i) as [oe|]; [|split; discriminate]. cbn [bind].
    destruct (Nat.lt_ge_cases i N) as [Hi|Hi].
    - rewrite (getitem_lt []) by (destruct W1, W4; lia). rewrite (getitem_lt []) by (destruct W1, W4; lia). cbn [bind].
      assert (HM : forall j, (j < N)%nat -> nth j (nth i nb []) false = positive (mget (Fin 0) W i j)) by (intros j Hj; apply W5; auto).
      assert (HLm : length (nth i nb []) = N) by (apply (rect_row nb N N); auto).
      rewrite (mask_index_filter (Fin 0) _ (nth i W []) N (fun j => positive (mget (Fin 0) W i j))); auto; [|apply (rect_row W N N); auto].
      rewrite (mask_index_filter [] _ X N (fun j => positive (mget (Fin 0) W i j))); auto; [|apply HX].
      rewrite (mask_index_filter 0 _ y N (fun j => positive (mget (Fin 0) W i j))); auto.
      destruct oe as [e|]; cbn [bind]; [tauto|split; discriminate].
    - assert (EW : getitem W i = Raise IndexError) by (unfold getitem; rewrite (proj2 (nth_error_None W i)) by (destruct W1; lia); reflexivity).
      assert (En : getitem nb i = Raise IndexError) by (unfold getitem; rewrite (proj2 (nth_error_None nb i)) by (destruct W4; lia); reflexivity).
      rewrite EW, En. destruct oe; split; discriminate.
  Qed.

  Lemma mapM_seq_ok {A} (h : nat -> result A) (d : A) n l :
    mapM h (seq 0 n) = Ok l <-> length l = n /\ forall k, (k < n)%nat -> h k = Ok (nth k l d).
  Proof.
    rewrite mapM_ok_iff. split.
    - intros H. assert (HL : length (seq 0 n) = length l) by (clear -H; induction H; simpl; auto). rewrite seq_length in HL. split; [auto|]. intros k Hk.
      pose proof (Forall2_nth _ _ _ 0%nat d k H) as Hx. rewrite seq_length, seq_nth in Hx by lia. exact (Hx Hk).
    - intros [HL H]. assert (K : forall k, (k < length l)%nat -> h (0 + k)%nat = Ok (nth k l d)) by (intros; apply H; lia).
      rewrite <- HL. clear H HL. revert K. generalize 0%nat as o. induction l as [|a l IH]; intros o K; simpl; constructor.
      + specialize (K 0%nat ltac:(simpl; lia)). rewrite Nat.add_0_r in K. exact K.
      + apply IH. intros k Hk. specialize (K (S k) ltac:(simpl; lia)). rewrite Nat.add_succ_r in K. exact K.
  Qed.

  Lemma stale_curves s es X y W N F f curves :
    data_X est s = Some X -> data_y est s = Some y -> length y = N -> local_estimators est s = Some es -> fitted_weights s W N -> rect X N F ->
    lale s f = Ok curves <-> length curves = length es /\ forall i, (i < length es)%nat -> STALE s f i = Ok (nth i curves ([], [])).
  Proof.
    intros HdX Hdy HLy Hes HW HX. unfold local_ALE. rewrite Hes. cbn [need bind]. rewrite (mapM_seq_ok _ ([], [])).
    split; intros [HL H]; (split; [exact HL|]); intros i Hi; specialize (H i Hi); apply (round_stale s es X y W N F f i _ HdX Hdy HLy Hes HW HX); exact H.
  Qed.

  (** The snippet depends on its own location only. *)
  Lemma stale_total s X y e es W N F f k :
    data_X est s = Some X -> data_y est s = Some y -> length y = N -> local_estimators est s = Some es -> fitted_weights s W N -> rect X N F ->
    (f < F)%nat -> (k < N)%nat -> nth_error es k = Some (Some e) ->
    (forall rows, exists p, predict_est e rows = Ok p /\ length p = length rows) ->
    (5 < length (positive_set W N k))%nat ->
    (forall j, In j (positive_set W N k) -> exists a, mget (Fin 0) W k j = Fin a) ->
    (exists i j, In i (positive_set W N k) /\ In j (positive_set W N k) /\ mget 0 X i f <> mget 0 X j f) ->
    exists curve, STALE s f k = Ok curve.
  Proof.
    intros HdX Hdy HLy Hes HW HX Hf Hk Ee Hpred H5 Hfin (i & j & Hi & Hj & Hij).
    pose proof HW as (W1 & W2 & nb & W3 & W4 & W5). unfold stale. rewrite Hes, HdX, W2, W3. cbn [need bind].
    unfold getitem at 1. rewrite Ee. cbn [bind].
    rewrite (getitem_lt []) by (destruct W4; lia). cbn [bind]. rewrite (getitem_lt []) by (destruct W1; lia). cbn [bind].
    assert (HM : forall j, (j < N)%nat -> nth j (nth k nb []) false = positive (mget (Fin 0) W k j)) by (intros j' Hj'; apply W5; auto; lia).
    assert (HLm : length (nth k nb []) = N) by (apply (rect_row nb N N); auto; lia).
    rewrite (mask_index_filter (Fin 0) _ (nth k W []) N (fun j => positive (mget (Fin 0) W k j))); auto; [|apply (rect_row W N N); auto; lia]. cbn [bind].
    rewrite (mask_index_filter [] _ X N (fun j => positive (mget (Fin 0) W k j))); auto; [|apply HX]. cbn [bind].
    fold (positive_set W N k). set (P := positive_set W N k) in *.
    assert (HPN : forall j, In j P -> (j < N)%nat) by (intros j' Hj'; apply filter_In in Hj' as [Hj' _]; apply in_seq in Hj'; lia).
    assert (Ew : exists w, finite_weights (map (fun j => nth j (nth k W []) (Fin 0)) P) = Ok w /\ length w = length P /\ forall i, (i < length P)%nat -> 0 < nth i w 0).
    { assert (Hpos : forall j, In j P -> exists a, mget (Fin 0) W k j = Fin a /\ 0 < a).
      { intros j' Hj'. destruct (Hfin j' Hj') as [a Ha]. exists a. split; auto. apply filter_In in Hj' as [_ Hj']. rewrite Ha in Hj'. unfold positive in Hj'. destruct (Rlt_dec 0 a); [auto|discriminate]. }
      clear -Hpos. induction P as [|j P IH]; [exists []; split; [reflexivity|split; [reflexivity|simpl; lia]]|].
      destruct (Hpos j (or_introl eq_refl)) as (a & Ha & Hlt). destruct IH as (w & E & HL & Hw); [intros; apply Hpos; right; auto|].
      exists (a :: w). split; [|split; [simpl; lia|intros [|i] Hi; simpl in *; [auto|apply Hw; lia]]].
      apply finite_weights_ok. apply finite_weights_ok in E. simpl. constructor; auto. }
    destruct Ew as (w & -> & HLw & Hw). cbn [bind].
    assert (HR : rect (map (fun j => nth j X []) P) (length P) F).
    { split; [apply map_length|]. apply Forall_forall. intros x Hx. apply in_map_iff in Hx as (j' & <- & Hj'). apply (rect_row X N F); auto. }
    destruct (wale_total store (map (fun j => nth j X []) P) (length P) F f (predict_est e) w false 5 HR Hf ltac:(lia) ltac:(lia)) as (q & a & ->); auto; [| |eauto].
    - exists (mget 0 X i f), (mget 0 X j f). split; [|split]; auto; unfold feature_values; rewrite map_map; apply in_map_iff; [exists i|exists j]; auto.
    - intros rows HLr. destruct (Hpred rows) as (p & Hp & HLp). exists p. split; auto. lia.
  Qed.
End Snippet.

(** ** Eight observations, the last with a neighbourhood of two *)
Definition bW : matrix ext := (repeat (repeat (Fin 1) 8) 7 ++ [[Fin 1; Fin 1; Fin 0; Fin 0; Fin 0; Fin 0; Fin 0; Fin 0]])%list.
Definition b_cfg : config := cfg true None None (Some 1%nat).
Definition b_out := fit R off_fit off_predict nat last_choice 2 no_wm b_cfg [0]%nat 0%nat no_fs s_init aX ay None (Some (WDense bW)).

Lemma bW_rect : rect bW 8 8. Proof. split; [reflexivity|repeat (apply Forall_cons || apply Forall_nil); reflexivity]. Qed.
Lemma bW_holds : holds (WDense bW) bW 8. Proof. split; [apply bW_rect|auto]. Qed.
Lemma b_fit : o_result R nat b_out = Ok tt.
Proof.
  apply (fit_succeeds R off_fit off_predict nat last_choice 2 no_wm _ _ _ _ _ _ _ _ _ (WDense bW) bW 8 last_choice_valid); auto.
  - left. reflexivity.
  - split; [apply bW_rect|auto].
  - apply Permutation.Permutation_refl.
  - right; left. reflexivity.
  - split; [exists 1%nat; simpl; split; [exact aX_rect|lia]|]. split; [unfold valid_jobs, b_cfg, cfg; cbn [n_jobs n_patches]; lia|]. split; [intros r Hr; discriminate Hr|].
    unfold num_locations, drawn, num_locations. cbn [b_cfg cfg sample_local_rate leave_local_out]. split; [simpl; lia|].
    intros i Hi. unfold local_model, off_fit. rewrite map_length.
    assert (Hi8 : (i < 8)%nat) by (simpl in Hi; lia).
    assert (HT : In (if (i =? 0)%nat then 1%nat else 0%nat) (training_set true bW 8 i)).
    { unfold training_set. apply filter_In. split; [apply in_seq; destruct (i =? 0)%nat; lia|]. unfold used_weight.
      destruct i as [|[|[|[|[|[|[|[|i]]]]]]]]; [cbn; rdec; reflexivity..|lia]. }
    destruct (training_set true bW 8 i) as [|j T]; [contradiction|]. cbn [length Nat.eqb]. eexists _, _. split; reflexivity.
Qed.

Lemma b_example store :
  raises (local_ALE store R off_predict (o_state R nat b_out) 0) /\
  exists curve, stale store R off_predict (o_state R nat b_out) 0 0 = Ok curve.
Proof.
  pose proof b_fit as Hok.
  destruct (fit_weight_attributes R off_fit off_predict nat last_choice 2 no_wm b_cfg [0]%nat 0%nat no_fs s_init aX ay None (Some (WDense bW)) bW 8
    (or_introl eq_refl) bW_rect Hok) as (W' & HW' & HU). change (leave_local_out b_cfg) with true in HU.
  destruct (fit_fitted R off_fit off_predict nat last_choice 2 no_wm b_cfg [0]%nat 0%nat no_fs s_init aX ay None (Some (WDense bW)) (WDense bW) bW 8
    last_choice_valid ltac:(lia) eq_refl (or_introl eq_refl) bW_holds (Permutation.Permutation_refl _) eq_refl eq_refl eq_refl Hok)
    as (es & score & F & ps & HF & _). 
  fold b_out in HF, HW'.
  destruct HF as (H1 & H2 & H3 & H4 & H5 & H6 & H7 & _).
  split.
  - apply (lale_few store R off_predict _ aX ay (map Some es) W' 8 F 0 7 H3 H4 eq_refl H5 HW' H7); [rewrite map_length; lia|].
    assert (E : positive_set W' 8 7 = filter (fun j => (j <? 2)%nat) (seq 0 8)).
    { unfold positive_set. apply filter_ext_in. intros j Hj. apply in_seq in Hj. rewrite HU by lia. unfold used_weight.
      destruct j as [|[|[|[|[|[|[|[|j]]]]]]]]; [first [exact pos0|exact pos1]..|lia]. }
    rewrite E. simpl. lia.
  - assert (E : positive_set W' 8 0 = [1; 2; 3; 4; 5; 6; 7]%nat).
    { transitivity (filter (fun j => negb (0 =? j)%nat) (seq 0 8)); [|reflexivity].
      unfold positive_set. apply filter_ext_in. intros j Hj. apply in_seq in Hj. rewrite HU by lia. unfold used_weight.
      destruct j as [|[|[|[|[|[|[|[|j]]]]]]]]; [first [exact pos0|exact pos1]..|lia]. }
    assert (HF1 : F = 1%nat) by (destruct H7 as [_ H7]; inversion H7; subst; reflexivity). subst F.
    destruct es as [|e es]; [discriminate|].
    apply (stale_total store R off_predict _ aX ay e (map Some (e :: es)) W' 8 1 0 0 H3 H4 eq_refl H5 HW' H7); try lia.
    + reflexivity.
    + intros rows. eexists. split; [reflexivity|]. apply map_length.
    + rewrite E. simpl. lia.
    + rewrite E. intros j Hj. assert (j < 8 /\ j <> 0)%nat by (simpl in Hj; lia). exists 1. rewrite HU by lia. unfold used_weight.
      destruct j as [|[|[|[|[|[|[|[|j]]]]]]]]; [lia|reflexivity..|lia].
    + rewrite E. exists 2%nat, 3%nat. split; [simpl; auto|]. split; [simpl; auto 10|]. unfold mget, aX. simpl. lra.
Qed.
