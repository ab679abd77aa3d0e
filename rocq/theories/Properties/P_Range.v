(** Property C189: learners that average predict within the range of the targets. *)
From Coq Require Import Lra Sorting.Sorted.
From Verif.Model Require Import Base Ext Sort Kernel Distance WeightMatrix Csr Neighbour WeightModel Stacking StackingPredict.
From Verif.Spec Require Import KernelSpec WeightSpec NeighbourSpec WeightModelSpec LinearSpec RidgeSpec StackingSpec RidgeMetaSpec RangeSpec.
From Verif.Proofs Require Import NeighbourProps LinearPredict WeightModelProps FitExamples EndToEndExamples HistoryExamples LinearExamples StackingExamples StackingEasyExamples RangeProps RangeStacking RangeExamples.
Open Scope string_scope.
Open Scope nat_scope.
Open Scope R_scope.

(** C189: with a learner that averages, the local prediction of every location lies in
    the range of the targets of the observations its model is trained on, and no residual
    is larger than the range of all targets. *)
Theorem C189_fit :
  forall est fit_est predict_est G choice cpu wm c order g fs s0 X y coords given w W N,
  @averages est ext positive_weight fit_est predict_est ->
  valid_choice choice -> (0 < cpu)%nat -> List.length X = N -> in_force wm fs coords given w -> holds w W N -> nonnegative_weights W N ->
  schedule (num_tasks cpu c (num_locations c N)) order -> aligned c w ->
  let o := fit est fit_est predict_est G choice cpu wm c order g fs s0 X y coords given in
  o_result est G o = Ok tt ->
  exists locs ps rs,
    local_indices_ est (o_state est G o) = Some locs /\ local_predict_ est (o_state est G o) = Some ps /\
    local_residual_ est (o_state est G o) = Some rs /\ List.length ps = List.length locs /\ List.length rs = List.length locs /\
    forall k, (k < List.length locs)%nat ->
      in_range (map (fun j => nth j y 0) (training_set (leave_local_out c) W N (nth k locs 0%nat))) (nth k ps 0) /\
      forall lo hi, (forall j, (j < N)%nat -> lo <= nth j y 0 <= hi) -> Rabs (nth k rs 0) <= hi - lo.
Proof. exact fit_range. Qed.
Print Assumptions C189_fit.

(** C189: predict_by_fit: in the range of the targets of the observations whose weight at
    the new point is not zero. *)
Theorem C189_predict_by_fit :
  forall est fit_est predict_est cpu f32 mkw no_kw sm dm sr dargs truthy a o,
  @averages est ext positive_weight fit_est predict_est ->
  match o with Some d => truthy d = false | None => True end -> a_ratio a = RNone ->
  forall c order fs s X v t tX ty Ds m n W out,
  cache_data c = true -> (0 < cpu)%nat -> schedule cpu order ->
  data_coords est s = Some t -> data_X est s = Some tX -> data_y est s = Some ty ->
  distance_matrices f32 mkw no_kw sm t (Some v) (a_measure a) None = Ok (map A2 Ds) ->
  valid_distances Ds n m -> (0 < n)%nat -> List.length tX = n -> List.length ty = n -> List.length X = m ->
  weight_matrix_from_distance (map A2 Ds) (a_kernel a) RNone (a_bandwidth a) (a_count a) = Ok W ->
  snd (predict_by_fit est fit_est predict_est cpu (points_weights f32 mkw no_kw sm dm sr dargs truthy a o) c order fs s X (Some v) None) = Ok out ->
  List.length out = m /\
  forall i, (i < m)%nat -> exists p, nth i out [] = [p] /\ in_range (map (fun j => nth j ty 0) (weighted_points W n i)) p.
Proof. exact pbf_range. Qed.
Print Assumptions C189_predict_by_fit.

(** C189: predict_by_weight: in the range of the targets that the models of the
    neighbouring locations were trained on.  Relied on: in the range of all targets for
    every new point.  False: a new point without neighbours is predicted as 0. *)
Theorem C189_predict_by_weight_refuted :
  forall est fit_est predict_est G choice cpu f32 mkw no_kw sm dm sr dargs truthy a o,
  @averages est ext positive_weight fit_est predict_est ->
  match o with Some d => truthy d = false | None => True end -> a_ratio a = RNone ->
  forall wm c order g fs fs' s0 X y t given w W N Z v Ds m V,
  valid_choice choice -> (0 < cpu)%nat -> List.length X = N -> in_force wm fs (Some t) given w -> holds w W N -> nonnegative_weights W N ->
  sample_local_rate c = None -> schedule (num_tasks cpu c N) order -> cache_data c = true -> cache_estimator c = true ->
  let trained := fit est fit_est predict_est G choice cpu wm c order g fs s0 X y (Some t) given in
  o_result est G trained = Ok tt ->
  List.length Z = m -> (0 < m)%nat -> answers predict_est Z ->
  distance_matrices f32 mkw no_kw sm v (Some t) (a_measure a) None = Ok (map A2 Ds) -> valid_distances Ds m N ->
  weight_matrix_from_distance (map A2 Ds) (a_kernel a) RNone (a_bandwidth a) (a_count a) = Ok V ->
  exists out, predict_by_weight est predict_est (points_weights f32 mkw no_kw sm dm sr dargs truthy a o) c fs' (o_state est G trained) Z (Some v) None = (fs', Ok (map Fin out)) /\
    List.length out = m /\
    forall i, (i < m)%nat ->
      ((exists j, (j < N)%nat /\ mget NaN V i j <> Fin 0) ->
       forall lo hi, (forall j k, (j < N)%nat -> mget NaN V i j <> Fin 0 -> In k (training_set (leave_local_out c) W N j) -> lo <= nth k y 0 <= hi) ->
       lo <= nth i out 0 <= hi) /\
      ((forall j, (j < N)%nat -> mget NaN V i j = Fin 0) -> nth i out 0 = 0).
Proof. exact pbw_range. Qed.
Print Assumptions C189_predict_by_weight_refuted.

(** C189: relied on: the same of the stacking model.  False: with targets 0, 5 and 10,
    base learners that average, and a ridge regression as meta estimator, new points are
    predicted above 10 and below 0. *)
Theorem C189_stacking_refuted :
  averages (Rlt 0) (@cut_fit R) cut_predict /\ ridge_regression rr_fit rr_predict /\ one_per_row rr_predict /\
  exists out p q,
    snd (spredict (R * R) cut_fit cut_predict (list R * R) rr_fit rr_predict 4 ex_wm ex_r rg_c (fun _ => None) rg_s0 rg_X [0; 5; 10] [] rg_new []) = Ok out /\
    nth 0 out [] = [Fin p] /\ nth 2 out [] = [Fin q] /\ 10 < p /\ q < 0.
Proof. split; [apply cut_averages|]. split; [exact rr_ridge|]. split; [exact rr_one|]. exact rg_out_of_range. Qed.
Print Assumptions C189_stacking_refuted.

(** Three observations, all neighbours of each other, with targets 1, 3, 5. *)
Example C189_example : averages positive_weight cut_fit cut_predict /\ holds (WDense lW) lW 3 /\ nonnegative_weights lW 3 /\
  o_result (R * R) nat (cut_fit_line None) = Ok tt /\
  exists ps, local_predict_ (R * R) (o_state (R * R) nat (cut_fit_line None)) = Some ps /\ 3 <= nth 0 ps 0 <= 5 /\ 1 <= nth 1 ps 0 <= 5 /\ 1 <= nth 2 ps 0 <= 3.
Proof.
  split; [apply cut_averages|]. split; [exact lW_holds|]. split; [apply lW_nonneg, lW_entries|]. split; [apply cut_line_ok|].
  destruct (C189_fit (R * R) cut_fit cut_predict nat first_choice 2 no_wm lcfg [1; 0]%nat 0%nat no_fs (init_state (R * R)) fX ly None (Some (WDense lW)) (WDense lW) lW 3)
    as (locs & ps & rs & A1 & A2 & _ & L1 & _ & H).
  - apply cut_averages.
  - exact first_choice_valid.
  - lia.
  - reflexivity.
  - left; reflexivity.
  - exact lW_holds.
  - apply lW_nonneg, lW_entries.
  - apply perm_swap.
  - left; reflexivity.
  - apply cut_line_ok.
  - exists ps. split; [exact A2|].
    destruct (fit_aligned (R * R) cut_fit cut_predict nat first_choice 2 no_wm lcfg [1; 0]%nat 0%nat no_fs (init_state (R * R)) fX ly None (Some (WDense lW)) (WDense lW) lW 3
      first_choice_valid ltac:(lia) eq_refl ltac:(left; reflexivity) lW_holds ltac:(apply perm_swap) ltac:(left; reflexivity) (cut_line_ok None))
      as (locs' & es & ps' & ys & rs' & HLo & _ & _ & _ & _ & HSo & HB & HN & _).
    unfold cut_fit_line in A1. rewrite A1 in HLo. injection HLo as <-.
    assert (El : locs = seq 0 3) by (apply LinearPredict.sorted_all; auto). subst locs.
    destruct lW_training as (T0 & T1 & T2).
    split; [|split].
    + apply (proj1 (H 0%nat ltac:(cbn; lia))). intros t Ht. cbn [seq nth lcfg cfg leave_local_out] in Ht. rewrite T0 in Ht. cbn in Ht. destruct Ht as [<-|[<-|[]]]; lra.
    + apply (proj1 (H 1%nat ltac:(cbn; lia))). intros t Ht. cbn [seq nth lcfg cfg leave_local_out] in Ht. rewrite T1 in Ht. cbn in Ht. destruct Ht as [<-|[<-|[]]]; lra.
    + apply (proj1 (H 2%nat ltac:(cbn; lia))). intros t Ht. cbn [seq nth lcfg cfg leave_local_out] in Ht. rewrite T2 in Ht. cbn in Ht. destruct Ht as [<-|[<-|[]]]; lra.
Qed.
(** New points of this model. *)
Example C189_example_new_points :
  answers cut_predict [[7]] /\ p_dist h_query h_pts = Ok (map A2 [ [[2; 1; 0]] ]) /\ valid_distances [ [[2; 1; 0]] ] 1 3 /\
  boxW [[2; 1; 0]] = Ok [[Fin 0; Fin (1 / 2); Fin (1 / 2)]] /\
  p_dist h_pts h_query = Ok (map A2 [ [[2]; [1]; [0]] ]) /\ valid_distances [ [[2]; [1]; [0]] ] 3 1 /\ boxW [[2]; [1]; [0]] = Ok [[Fin 0]; [Fin 1]; [Fin 1]] /\
  exists out, cut_refitted = Ok out.
Proof.
  split; [exact cut_answers|]. split; [exact h_dist_q|]. split; [apply valid13; lra|]. split; [exact box_q|].
  split; [exact l_dist|]. split; [apply valid31; lra|]. split; [exact l_box|]. exact cut_refitted_ok.
Qed.
