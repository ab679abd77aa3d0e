(** Fits and predictions with the learner of RangeStacking. *)
From Coq Require Import Lra Psatz Sorting.Sorted.
From Verif.Model Require Import Base Ext Sort Kernel Distance WeightMatrix Csr Neighbour WeightModel.
From Verif.Spec Require Import KernelSpec WeightSpec NeighbourSpec WeightModelSpec LinearSpec RangeSpec.
From Verif.Proofs Require Import ListFacts SumFacts KernelFacts SortFacts WeightFacts WeightProps WeightExamples DistanceFacts CsrFacts NeighbourFacts ShrinkFacts SampleFacts NeighbourProps WeightModelFacts WeightModelProps FitProps PredictProps FitExamples EndToEndExamples HistoryExamples LinearProps LinearPredict LinearExamples RangeProps RangeStacking.
Open Scope string_scope.
Open Scope nat_scope.
Open Scope R_scope.

Definition cut_fit_line (v : option (list coords)) :=
  fit (R * R) cut_fit cut_predict nat first_choice 2 no_wm lcfg [1; 0]%nat 0%nat no_fs (init_state (R * R)) fX ly v (Some (WDense lW)).
Lemma cut_local lo W n i : training_set lo W n i <> [] ->
  exists e p, local_model cut_fit fX ly lo W n i e /\ cut_predict e [nth i fX []] = Ok [p].
Proof.
  intros H. unfold local_model, cut_fit. destruct (training_set lo W n i) as [|j T]; [congruence|]. cbn [map]. eexists _, _. split; reflexivity.
Qed.
Lemma lW_has i : (i < 3)%nat -> training_set true lW 3 i <> [].
Proof. intros Hi. destruct lW_training as (T0 & T1 & T2). apply lt3 in Hi as [-> | [-> | ->]]; [rewrite T0|rewrite T1|rewrite T2]; discriminate. Qed.
Lemma cut_line_ok v : o_result (R * R) nat (cut_fit_line v) = Ok tt.
Proof.
  apply (fit_succeeds (R * R) cut_fit cut_predict nat first_choice 2 no_wm _ _ _ _ _ _ _ _ _ (WDense lW) lW 3 first_choice_valid); auto.
  - left. reflexivity.
  - apply lW_holds.
  - apply perm_swap.
  - left. reflexivity.
  - split; [apply fX_data; auto|]. split; [exact I|]. split; [intros r Hr; discriminate Hr|]. split; [cbv [num_locations sample_local_rate lcfg cfg]; lia|].
    intros i Hi. cbv [drawn sample_local_rate lcfg cfg] in Hi. simpl in Hi. apply cut_local. apply lW_has. lia.
Qed.
Lemma cut_answers : answers cut_predict [[7]].
Proof. intros e. eexists. reflexivity. Qed.
Definition cut_trained := cut_fit_line (Some h_pts).
Lemma cut_data_kept : data_coords (R * R) (o_state (R * R) nat cut_trained) = Some h_pts /\ data_X (R * R) (o_state (R * R) nat cut_trained) = Some fX /\
  data_y (R * R) (o_state (R * R) nat cut_trained) = Some ly.
Proof.
  destruct (fit_inv (R * R) cut_fit cut_predict nat first_choice 2 no_wm _ _ _ _ _ _ _ _ _ (cut_line_ok (Some h_pts))) as (w1 & g' & locs & preds & es0 & p & score & _ & _ & _ & _ & _ & _ & EE).
  unfold cut_trained, cut_fit_line. rewrite EE. repeat split.
Qed.
Definition cut_refitted := snd (predict_by_fit (R * R) cut_fit cut_predict 2 h_wm lcfg [0; 1]%nat no_fs (o_state (R * R) nat cut_trained) [[7]] (Some h_query) None).
Lemma cut_refitted_ok : exists out, cut_refitted = Ok out.
Proof.
  destruct cut_data_kept as (H1 & H2 & H3).
  pose proof (pbf_spec (R * R) cut_fit cut_predict 2 h_wm lcfg [0; 1]%nat no_fs no_fs (o_state (R * R) nat cut_trained) [[7]] h_query h_pts fX ly [[Fin 0]; [Fin 1]; [Fin 1]] 1 3
    eq_refl ltac:(lia) (Permutation_refl _) H1 H2 H3 (h_weights no_fs _ _ _ _ l_dist l_box) ltac:(split; [reflexivity|repeat constructor]) ltac:(lia) eq_refl eq_refl eq_refl) as HP.
  cbv zeta in HP.
  exists [[cut (least [3; 5], most [3; 5]) [7]]]. apply HP. split; [reflexivity|]. intros i Hi. assert (i = 0%nat) by lia. subst i.
  exists (least [3; 5], most [3; 5]). change (filter _ _) with (weighted_points [[Fin 0]; [Fin 1]; [Fin 1]] 3 0). rewrite l_points. split; reflexivity.
Qed.
