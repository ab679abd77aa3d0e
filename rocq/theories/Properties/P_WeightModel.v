(** Properties C36-C48, C82-C84: WeightModel. *)
From Coq Require Import Lra Psatz Sorting.Sorted.
From Verif.Model Require Import Base Ext Sort Kernel Distance WeightMatrix Csr Neighbour WeightModel.
From Verif.Spec Require Import KernelSpec WeightSpec NeighbourSpec WeightModelSpec.
From Verif.Proofs Require Import ListFacts KernelFacts CsrFacts NeighbourProps WeightModelFacts WeightModelProps FitProps PredictProps FitExamples.
Open Scope string_scope.
Open Scope nat_scope.
Open Scope R_scope.

(** C36: y[i] does not influence the prediction at location i. *)
Theorem C36_own_target_unused :
  forall est fit_est predict_est G choice cpu wm c order order' g fs s0 X y y' coords given w W N i k locs ps ps',
  valid_choice choice -> (0 < cpu)%nat -> length X = N -> leave_local_out c = true ->
  in_force wm fs coords given w -> holds w W N -> aligned c w ->
  schedule (num_tasks cpu c (num_locations c N)) order -> schedule (num_tasks cpu c (num_locations c N)) order' ->
  let o := fit est fit_est predict_est G choice cpu wm c order g fs s0 X y coords given in
  let o' := fit est fit_est predict_est G choice cpu wm c order' g fs s0 X y' coords given in
  o_result est G o = Ok tt -> o_result est G o' = Ok tt ->
  (forall j, j <> i -> nth j y 0 = nth j y' 0) ->
  local_indices_ est (o_state est G o) = Some locs -> nth_error locs k = Some i ->
  local_predict_ est (o_state est G o) = Some ps -> local_predict_ est (o_state est G o') = Some ps' ->
  local_indices_ est (o_state est G o') = Some locs /\ nth_error ps k = nth_error ps' k.
Proof. exact fit_leave_out. Qed.
Print Assumptions C36_own_target_unused.

Example C36_example :
  nth_error fy 1 <> nth_error fy' 1 /\ (forall j, j <> 1%nat -> nth j fy 0 = nth j fy' 0) /\
  o_result R nat (fit_ex (cfg true None None None) [1; 0]%nat 0%nat no_fs s_init fX fy None (Some (WDense fW))) = Ok tt /\
  o_result R nat (fit_ex (cfg true None None None) [0; 1]%nat 0%nat no_fs s_init fX fy' None (Some (WDense fW))) = Ok tt.
Proof.
  split; [simpl; intros H; injection H; lra|]. split; [intros [|[|[|j]]] Hj; try congruence; try reflexivity; destruct j; reflexivity|].
  split; apply fit_ex_ok; auto using fW_holds; [apply perm_swap|apply Permutation_refl].
Qed.

(** C37: locality. *)
Theorem C37_locality :
  forall est fit_est predict_est G choice cpu wm c order order' g g' fs fs' s0 s0' X X' y y' coords coords' given given' w w' W W' N i k k' locs locs' ps ps',
  valid_choice choice -> (0 < cpu)%nat -> length X = N -> length X' = N ->
  in_force wm fs coords given w -> holds w W N -> aligned c w ->
  in_force wm fs' coords' given' w' -> holds w' W' N -> aligned c w' ->
  schedule (num_tasks cpu c (num_locations c N)) order -> schedule (num_tasks cpu c (num_locations c N)) order' ->
  let o := fit est fit_est predict_est G choice cpu wm c order g fs s0 X y coords given in
  let o' := fit est fit_est predict_est G choice cpu wm c order' g' fs' s0' X' y' coords' given' in
  o_result est G o = Ok tt -> o_result est G o' = Ok tt ->
  (forall j, (j < N)%nat -> used_weight (leave_local_out c) W i j = used_weight (leave_local_out c) W' i j) ->
  nth i X [] = nth i X' [] ->
  (forall j, In j (training_set (leave_local_out c) W N i) -> nth j X [] = nth j X' [] /\ nth j y 0 = nth j y' 0) ->
  local_indices_ est (o_state est G o) = Some locs -> local_predict_ est (o_state est G o) = Some ps ->
  local_indices_ est (o_state est G o') = Some locs' -> local_predict_ est (o_state est G o') = Some ps' ->
  nth_error locs k = Some i -> nth_error locs' k' = Some i ->
  nth_error ps k = nth_error ps' k'.
Proof. exact fit_local. Qed.
Print Assumptions C37_locality.

(** Location 0 of the example: y[2] is outside its training set. *)
Example C37_example :
  training_set true fW 3 0 = [1%nat] /\
  o_result R nat (fit_ex (cfg true None None None) [1; 0]%nat 0%nat no_fs s_init fX [1; 2; 4] None (Some (WDense fW))) = Ok tt /\
  o_result R nat (fit_ex (cfg true None None None) [1; 0]%nat 0%nat no_fs s_init fX [7; 2; 5] None (Some (WSparse fC))) = Ok tt.
Proof.
  split; [apply fW_training|]. split; apply fit_ex_ok; auto using fW_holds, fC_holds; apply perm_swap.
Qed.

(** C38: any number of patches and any schedule, same outcome: the same object
    state, random state and caller's matrix when it succeeds, and failure of one
    is failure of the other. *)
Theorem C38_patches_and_schedule :
  forall est fit_est predict_est G choice cpu wm c order order' k k' g fs s0 X y coords given,
  (0 < k)%nat -> (0 < k')%nat -> schedule k order -> schedule k' order' ->
  let o := fit est fit_est predict_est G choice cpu wm (with_jobs c None (Some k)) order g fs s0 X y coords given in
  let o' := fit est fit_est predict_est G choice cpu wm (with_jobs c None (Some k')) order' g fs s0 X y coords given in
  (o_result est G o = Ok tt -> o = o') /\ (raises (o_result est G o) <-> raises (o_result est G o')).
Proof. exact fit_patches. Qed.
Print Assumptions C38_patches_and_schedule.

(** ... which is the sequential loop over the locations. *)
Theorem C38_sequential_loop :
  forall est fit_est predict_est cpu order X y ests w locs cache Xp k r,
  (0 < k)%nat -> schedule k order ->
  (fit_all est fit_est predict_est cpu order X y ests w (Some locs) cache Xp (Jobs None (Some k)) = Ok r <->
   exists rs, mapM (task est fit_est predict_est X y ests w (match Xp with Some x => x | None => X end) cache) locs = Ok rs /\
     r = (map fst rs, map snd rs)).
Proof. exact fit_all_sequential. Qed.
Print Assumptions C38_sequential_loop.

Example C38_example : schedule 2 [1; 0]%nat /\ schedule 3 [2; 0; 1]%nat /\
  o_result R nat (fit_ex (cfg true None None (Some 2%nat)) [1; 0]%nat 0%nat no_fs s_init fX fy None (Some (WDense fW))) = Ok tt.
Proof.
  split; [apply perm_swap|]. split; [|exact (fit_ex_ok fy true (WDense fW) [1; 0]%nat eq_refl fW_holds (perm_swap _ _ _))].
  apply Permutation_sym. change (seq 0 3) with ([0; 1; 2]%nat). apply (Permutation_cons_app [2%nat] [1%nat]). simpl. apply perm_swap.
Qed.

(** C39: n_jobs gives what n_patches gives... *)
Theorem C39_jobs_agree_without_sampling :
  forall est fit_est predict_est G choice cpu wm c z k order order' g fs s0 X y coords given w W N,
  valid_choice choice -> (0 < cpu)%nat -> length X = N ->
  z <> 0%Z -> (0 < k)%nat -> in_force wm fs coords given w -> holds w W N ->
  (sample_local_rate c = None \/ (exists m, w = WSparse m) /\ (0 < num_locations c N)%nat) ->
  schedule (num_locations c N) order -> schedule k order' ->
  let o := fit est fit_est predict_est G choice cpu wm (with_jobs c (Some z) None) order g fs s0 X y coords given in
  let o' := fit est fit_est predict_est G choice cpu wm (with_jobs c None (Some k)) order' g fs s0 X y coords given in
  (o_result est G o = Ok tt -> o = o') /\ (raises (o_result est G o) <-> raises (o_result est G o')).
Proof. exact fit_jobs. Qed.
Print Assumptions C39_jobs_agree_without_sampling.

(** ... but with sampled locations and a NumPy matrix the k-th prediction is the
    one of location k, while the target it is scored against is that of the k-th
    sampled location. *)
Theorem C39_sampled_jobs_misaligned :
  forall est fit_est predict_est G choice cpu wm c z r order g fs s0 X y coords given W N,
  valid_choice choice -> (0 < cpu)%nat -> length X = N ->
  n_jobs c = Some z -> sample_local_rate c = Some r ->
  in_force wm fs coords given (WDense W) -> rect W N N ->
  schedule (num_locations c N) order ->
  let o := fit est fit_est predict_est G choice cpu wm c order g fs s0 X y coords given in
  o_result est G o = Ok tt ->
  exists locs ps ys, local_indices_ est (o_state est G o) = Some locs /\ local_predict_ est (o_state est G o) = Some ps /\
    y_sample_ est (o_state est G o) = Some ys /\ length ps = length locs /\ length ys = length locs /\
    forall k, (k < length locs)%nat ->
      nth k ys 0 = nth (nth k locs 0%nat) y 0 /\
      exists e, local_model fit_est X y (leave_local_out c) W N k e /\ predict_est e [nth k X []] = Ok [nth k ps 0].
Proof. exact fit_jobs_sampled. Qed.
Print Assumptions C39_sampled_jobs_misaligned.

Theorem C39_jobs_agree_with_sampling_refuted :
  exists c c', n_jobs c = Some 2%Z /\ n_jobs c' = None /\ leave_local_out c = leave_local_out c' /\ sample_local_rate c = sample_local_rate c' /\
  let o := fit_last c [0; 1]%nat 0%nat no_fs s_init fX fy None (Some (WDense fW)) in
  let o' := fit_last c' [0; 1]%nat 0%nat no_fs s_init fX fy None (Some (WDense fW)) in
  o_result R nat o = Ok tt /\ o_result R nat o' = Ok tt /\
  local_indices_ R (o_state R nat o) = local_indices_ R (o_state R nat o') /\
  y_sample_ R (o_state R nat o) = y_sample_ R (o_state R nat o') /\
  local_predict_ R (o_state R nat o) <> local_predict_ R (o_state R nat o').
Proof. exact jobs_sampled_refuted. Qed.
Print Assumptions C39_jobs_agree_with_sampling_refuted.

Example C39_example : valid_choice last_choice /\
  let o := fit_last (cfg true (Some (2 / 3)) (Some 2%Z) None) [0; 1]%nat 0%nat no_fs s_init fX fy None (Some (WDense fW)) in
  o_result R nat o = Ok tt /\ local_indices_ R (o_state R nat o) = Some [1%nat; 2%nat] /\ y_sample_ R (o_state R nat o) = Some [2; 4] /\
  local_predict_ R (o_state R nat o) = Some [2; 5 / 2].
Proof. split; [exact last_choice_valid|]. exact (fit_last_ok (Some 2%Z) None [0; 1]%nat (or_introl (conj eq_refl eq_refl)) (Permutation_refl _)). Qed.

(** C40: alignment of the fitted attributes. *)
Theorem C40_attributes_aligned :
  forall est fit_est predict_est G choice cpu wm c order g fs s0 X y coords given w W N,
  valid_choice choice -> (0 < cpu)%nat -> length X = N -> in_force wm fs coords given w -> holds w W N ->
  schedule (num_tasks cpu c (num_locations c N)) order -> aligned c w ->
  o_result est G (fit est fit_est predict_est G choice cpu wm c order g fs s0 X y coords given) = Ok tt ->
  let s := o_state est G (fit est fit_est predict_est G choice cpu wm c order g fs s0 X y coords given) in
  exists locs es ps ys rs,
    local_indices_ est s = Some locs /\ local_estimators est s = Some es /\ local_predict_ est s = Some ps /\
    y_sample_ est s = Some ys /\ local_residual_ est s = Some rs /\
    StronglySorted lt locs /\ (forall i, In i locs -> (i < N)%nat) /\ length locs = num_locations c N /\
    length es = length locs /\ length ps = length locs /\ length ys = length locs /\ length rs = length locs /\
    forall k, (k < length locs)%nat ->
      let i := nth k locs 0%nat in
      nth k ys 0 = nth i y 0 /\ nth k rs 0 = nth i y 0 - nth k ps 0 /\
      exists e, local_model fit_est X y (leave_local_out c) W N i e /\
        predict_est e [nth i X []] = Ok [nth k ps 0] /\
        nth k es None = if cache_estimator c then Some e else None.
Proof. exact fit_aligned. Qed.
Print Assumptions C40_attributes_aligned.

Example C40_example :
  let o := fit_last (cfg true (Some (2 / 3)) None (Some 2%nat)) [1; 0]%nat 0%nat no_fs s_init fX fy None (Some (WDense fW)) in
  o_result R nat o = Ok tt /\ local_indices_ R (o_state R nat o) = Some [1%nat; 2%nat] /\ y_sample_ R (o_state R nat o) = Some [2; 4] /\
  local_predict_ R (o_state R nat o) = Some [5 / 2; 2].
Proof. exact (fit_last_ok None (Some 2%nat) [1; 0]%nat (or_intror (conj eq_refl eq_refl)) (perm_swap _ _ _)). Qed.

(** C41: NumPy array or CSR matrix without stored zeros, same fit. *)
Theorem C41_dense_and_sparse_agree :
  forall est fit_est predict_est G choice cpu wm c order g fs s0 X y coords W cs,
  valid_choice choice -> rect W (length X) (length X) -> csr_form (Fin 0) eis_zero W (length X) cs ->
  (n_jobs c = None \/ sample_local_rate c = None) ->
  let o := fit est fit_est predict_est G choice cpu wm c order g fs s0 X y coords (Some (WDense W)) in
  let o' := fit est fit_est predict_est G choice cpu wm c order g fs s0 X y coords (Some (WSparse cs)) in
  o_result est G o = o_result est G o' /\ o_gen est G o = o_gen est G o' /\
  local_indices_ est (o_state est G o) = local_indices_ est (o_state est G o') /\
  y_sample_ est (o_state est G o) = y_sample_ est (o_state est G o') /\
  local_estimators est (o_state est G o) = local_estimators est (o_state est G o') /\
  local_predict_ est (o_state est G o) = local_predict_ est (o_state est G o') /\
  llocv_score_ est (o_state est G o) = llocv_score_ est (o_state est G o') /\
  local_residual_ est (o_state est G o) = local_residual_ est (o_state est G o').
Proof. exact fit_dense_sparse. Qed.
Print Assumptions C41_dense_and_sparse_agree.

(** A stored zero: the training rows are fewer than the sample weights, so a fit
    with an estimator that checks the lengths raises. *)
Theorem C41_stored_zero_lengths :
  forall ncols (rows : list (list (nat * ext))) i j,
  (i < length rows)%nat -> In (j, Fin 0) (nth i rows []) ->
  let m := csr_of_rows ncols rows in
  (length (row_indices (csr_where ext_nonzero m) i) < length (row_data m i))%nat.
Proof. exact stored_zero_lengths. Qed.
Print Assumptions C41_stored_zero_lengths.

Theorem C41_stored_zero_raises :
  forall est fit_est predict_est G choice cpu wm c order g fs s0 X y coords ncols rows i j,
  (forall k Xs ys ws, length Xs <> length ws -> raises (fit_est k Xs ys ws)) ->
  (0 < cpu)%nat -> length rows = length X -> (i < length X)%nat -> In (j, Fin 0) (nth i rows []) ->
  sample_local_rate c = None -> leave_local_out c = false ->
  schedule (num_tasks cpu c (length X)) order ->
  raises (o_result est G (fit est fit_est predict_est G choice cpu wm c order g fs s0 X y coords (Some (WSparse (csr_of_rows ncols rows))))).
Proof. exact stored_zero_raises. Qed.
Print Assumptions C41_stored_zero_raises.

Example C41_example :
  csr_form (Fin 0) eis_zero fW 3 fC /\
  o_result R nat (fit_ex (cfg false None None None) [1; 0]%nat 0%nat no_fs s_init fX fy None (Some (WSparse fC))) = Ok tt /\
  forall k Xs ys ws, length Xs <> length ws -> raises (wmean_fit k Xs ys ws).
Proof.
  split; [exact fC_form|]. split; [apply fit_ex_ok; auto using fC_holds; apply perm_swap|].
  intros k Xs ys ws H. unfold wmean_fit. destruct (Nat.eqb_spec (length Xs) (length ws)); [contradiction|]. rewrite orb_true_r. eexists; reflexivity.
Qed.

(** C42: what fit does to the caller's weight matrix. *)
Theorem C42_callers_matrix :
  forall est fit_est predict_est G choice cpu wm c order g fs s0 X y coords w W n,
  check_X_y X y = Ok tt -> holds w W n ->
  exists w' W', o_weights est G (fit est fit_est predict_est G choice cpu wm c order g fs s0 X y coords (Some w)) = Some w' /\ holds w' W' n /\
    (forall i j, (i < n)%nat -> (j < n)%nat -> mget (Fin 0) W' i j = if leave_local_out c && (i =? j)%nat then Fin 0 else mget (Fin 0) W i j) /\
    (leave_local_out c = false -> w' = w).
Proof. exact fit_callers_weights. Qed.
Print Assumptions C42_callers_matrix.

(** A later fit of any model with leave_local_out=False on the same matrix still
    leaves the local point out. *)
Theorem C42_later_fit_still_leaves_out :
  forall est fit_est predict_est G choice cpu wm c order g fs s0 s1 X y coords w w',
  let o := fit est fit_est predict_est G choice cpu wm (with_leave_out c true) order g fs s0 X y coords (Some w) in
  o_result est G o = Ok tt -> o_weights est G o = Some w' ->
  let o' := fit est fit_est predict_est G choice cpu wm (with_leave_out c false) order g fs s1 X y coords (Some w') in
  o_result est G o' = Ok tt /\ local_predict_ est (o_state est G o') = local_predict_ est (o_state est G o) /\
  llocv_score_ est (o_state est G o') = llocv_score_ est (o_state est G o).
Proof. exact refit_still_leaves_out. Qed.
Print Assumptions C42_later_fit_still_leaves_out.

Example C42_example :
  o_result R nat (fit_ex (with_leave_out (cfg false None None None) true) [1; 0]%nat 0%nat no_fs s_init fX fy None (Some (WDense fW))) = Ok tt /\
  o_weights R nat (fit_ex (with_leave_out (cfg false None None None) true) [1; 0]%nat 0%nat no_fs s_init fX fy None (Some (WDense fW)))
    = Some (WDense [[Fin 0; Fin 1; Fin 0]; [Fin 1; Fin 0; Fin 1]; [Fin 0; Fin 1; Fin 0]]).
Proof.
  pose proof (fit_ex_ok fy true (WDense fW) [1; 0]%nat eq_refl fW_holds (perm_swap _ _ _)) as H. split; [exact H|].
  destruct (fit_inv R wmean_fit wmean_predict nat first_choice 2 no_wm _ _ _ _ _ _ _ _ _ H) as (w1 & g' & locs & preds & es & p & score & _ & [Hf|[Hf _]] & _ & _ & _ & _ & E); [|discriminate].
  unfold fit_ex in *. change (with_leave_out (cfg false None None None) true) with (cfg true None None None). rewrite E. injection Hf as <-. reflexivity.
Qed.

(** C43: is_fitted_ after a failure. *)
Theorem C43_fit_without_weights :
  forall est fit_est predict_est G choice cpu wm c order g fs s0 X y,
  check_X_y X y = Ok tt ->
  let o := fit est fit_est predict_est G choice cpu wm c order g fs s0 X y None None in
  o_result est G o = Raise (PyException "At least one of coordinate_vector_list or weight_matrix should be provided") /\
  is_fitted est (o_state est G o) = Some true /\ n_obs est (o_state est G o) = Some (length X) /\ n_features_in est (o_state est G o) = Some (ncols X) /\
  weight_matrix_ est (o_state est G o) = weight_matrix_ est s0 /\ local_predict_ est (o_state est G o) = local_predict_ est s0 /\
  local_estimators est (o_state est G o) = local_estimators est s0.
Proof. exact fit_without_weights. Qed.
Print Assumptions C43_fit_without_weights.

Theorem C43_invalid_data_leaves_object :
  forall est fit_est predict_est G choice cpu wm c order g fs s0 X y coords given,
  check_X_y X y <> Ok tt ->
  let o := fit est fit_est predict_est G choice cpu wm c order g fs s0 X y coords given in
  raises (o_result est G o) /\ o_state est G o = s0.
Proof. exact fit_invalid_data. Qed.
Print Assumptions C43_invalid_data_leaves_object.

Theorem C43_weights_fail :
  forall est fit_est predict_est G choice cpu wm c order g fs s0 X y v e,
  check_X_y X y = Ok tt -> snd (wm fs v v) = Raise e ->
  let o := fit est fit_est predict_est G choice cpu wm c order g fs s0 X y (Some v) None in
  o_result est G o = Raise e /\ is_fitted est (o_state est G o) = Some true /\ local_predict_ est (o_state est G o) = local_predict_ est s0.
Proof. exact fit_weights_fail. Qed.
Print Assumptions C43_weights_fail.

Example C43_example : check_X_y fX fy = Ok tt /\ check_X_y [[1]; [2]] [3] <> Ok tt /\ is_fitted R s_init = None /\
  is_fitted R (o_state R nat (fit_ex (cfg true None None None) [0; 1]%nat 0%nat no_fs s_init fX fy None None)) = Some true.
Proof. repeat split. discriminate. Qed.

(** C44: predict_by_weight with weights from coordinates. *)
Theorem C44_convex_combination :
  forall est predict_est f32 mkw no_kw sm dm sr dargs truthy a o,
  match o with Some d => truthy d = false | None => True end -> a_ratio a = RNone ->
  forall c fs s X v t es preds Ds m n W,
  cache_data c = true -> cache_estimator c = true ->
  local_estimators est s = Some (map Some es) -> data_coords est s = Some t ->
  distance_matrices f32 mkw no_kw sm v (Some t) (a_measure a) None = Ok (map A2 Ds) ->
  valid_distances Ds m n -> (0 < m)%nat -> (0 < n)%nat -> length es = n ->
  Forall2 (fun e p => predict_est e X = Ok p /\ length p = m) es preds ->
  weight_matrix_from_distance (map A2 Ds) (a_kernel a) RNone (a_bandwidth a) (a_count a) = Ok W ->
  exists out, predict_by_weight est predict_est (points_weights f32 mkw no_kw sm dm sr dargs truthy a o) c fs s X (Some v) None = (fs, Ok (map Fin out)) /\
    length out = m /\
    forall i, (i < m)%nat ->
      (exists w, (forall j, (j < n)%nat -> mget NaN W i j = Fin (w j)) /\
                 nth i out 0 = Rsum (tabulate n (fun j => w j * nth i (nth j preds []) 0))) /\
      ((exists j, (j < n)%nat /\ mget NaN W i j <> Fin 0) ->
       forall lo hi, (forall j, (j < n)%nat -> mget NaN W i j <> Fin 0 -> lo <= nth i (nth j preds []) 0 <= hi) -> lo <= nth i out 0 <= hi) /\
      ((forall j, (j < n)%nat -> mget NaN W i j = Fin 0) -> nth i out 0 = 0).
Proof. exact pbw_points. Qed.
Print Assumptions C44_convex_combination.

Example C44_example :
  local_estimators R p_state = Some (map Some [5; 7]) /\ data_coords R p_state = Some p_train /\
  p_dist p_new p_train = Ok (map A2 [ [[1; 1]; [3; 1]] ]) /\ valid_distances [ [[1; 1]; [3; 1]] ] 2 2 /\
  weight_matrix_from_distance (map A2 [ [[1; 1]; [3; 1]] ]) (a_kernel p_args) RNone (a_bandwidth p_args) (a_count p_args)
    = Ok [[Fin (1 / 2); Fin (1 / 2)]; [Fin 0; Fin 1]] /\
  Forall2 (fun e p => wmean_predict e [[7]; [8]] = Ok p /\ length p = 2%nat) [5; 7] [[5; 5]; [7; 7]].
Proof.
  repeat (split; [reflexivity|]). split; [exact p_dist_new_train|]. split; [apply valid2; lra|]. split; [exact box_new_train|].
  repeat constructor.
Qed.

(** C45: only a weight matrix. *)
Theorem C45_weight_matrix_only_refuted :
  forall est fit_est predict_est cpu wm c order fs s X w,
  match w with WDense m => (1 < length (concat m))%nat | WSparse m => (1 < c_nrows m * c_ncols m)%nat end ->
  raises (snd (predict_by_weight est predict_est wm c fs s X None (Some w))) /\
  raises (snd (predict_by_fit est fit_est predict_est cpu wm c order fs s X None (Some w))).
Proof. exact weight_only_raises. Qed.
Print Assumptions C45_weight_matrix_only_refuted.

Example C45_example : (1 < length (concat fW))%nat /\ cache_data p_cfg = true /\ cache_estimator p_cfg = true /\
  is_ok (snd (predict_by_weight R wmean_predict (p_wm p_args) p_cfg no_fs p_state [[7]; [8]] (Some p_new) None)) = true.
Proof.
  split; [simpl; lia|]. split; [reflexivity|]. split; [reflexivity|].
  destruct (C44_convex_combination R wmean_predict (fun x => x) unit tt cityblock (fun _ => None) (fun r => r) unit (fun _ => true) p_args None I eq_refl
    p_cfg no_fs p_state [[7]; [8]] p_new p_train [5; 7] [[5; 5]; [7; 7]] [ [[1; 1]; [3; 1]] ] 2 2 _ eq_refl eq_refl eq_refl eq_refl p_dist_new_train
    ltac:(apply valid2; lra) ltac:(lia) ltac:(lia) eq_refl ltac:(repeat constructor) box_new_train) as (out & E & _).
  unfold p_wm. rewrite E. reflexivity.
Qed.

(** C46: the prediction for a point depends on the batch... *)
Theorem C46_batch_independence_refuted :
  exists out out',
    snd (predict_by_fit R wmean_fit wmean_predict 2 (p_wm p_args) p_cfg [0; 1]%nat no_fs p_state [[7]] (Some [ [[1]] ]) None) = Ok out /\
    snd (predict_by_fit R wmean_fit wmean_predict 2 (p_wm p_args) p_cfg [0; 1]%nat no_fs p_state [[7]; [8]] (Some [ [[1]; [3]] ]) None) = Ok out' /\
    nth 0 out [] <> nth 0 out' [].
Proof. exact batch_refuted. Qed.
Print Assumptions C46_batch_independence_refuted.

(** ... and one point alone with an adaptive linear, bisquare or tricube kernel
    that no training point coincides with has an empty training set. *)
Theorem C46_single_point_has_no_neighbours :
  forall est fit_est predict_est cpu f32 mkw no_kw sm dm sr dargs truthy a o,
  match o with Some d => truthy d = false | None => True end -> a_ratio a = RNone ->
  forall c order fs s x v t tX ty Ds n W dim k p,
  cache_data c = true -> (0 < cpu)%nat -> schedule cpu order ->
  data_coords est s = Some t -> data_X est s = Some tX -> data_y est s = Some ty ->
  distance_matrices f32 mkw no_kw sm t (Some v) (a_measure a) None = Ok (map A2 Ds) ->
  valid_distances Ds n 1 -> (0 < n)%nat -> length tX = n -> length ty = n ->
  weight_matrix_from_distance (map A2 Ds) (a_kernel a) RNone (a_bandwidth a) (a_count a) = Ok W ->
  (dim < length Ds)%nat -> requests (a_kernel a) (a_bandwidth a) (a_count a) dim k p ->
  (forall b, p <> FixedBandwidth b) -> vanishing_kernel k ->
  (forall j, (j < n)%nat -> 0 < mget 0 (nth dim Ds []) j 0) ->
  forall out, snd (predict_by_fit est fit_est predict_est cpu (points_weights f32 mkw no_kw sm dm sr dargs truthy a o) c order fs s [x] (Some v) None) = Ok out <->
    exists e q, fit_est 0%nat [] [] [] = Ok e /\ predict_est e [x] = Ok q /\ out = [q].
Proof. exact pbf_alone. Qed.
Print Assumptions C46_single_point_has_no_neighbours.

Example C46_example :
  p_dist p_train p_one = Ok (map A2 [ [[1]; [1]] ]) /\ valid_distances [ [[1]; [1]] ] 2 1 /\
  (exists W, weight_matrix_from_distance (map A2 [ [[1]; [1]] ]) (a_kernel a_args) RNone (a_bandwidth a_args) (a_count a_args) = Ok W) /\
  requests (a_kernel a_args) (a_bandwidth a_args) (a_count a_args) 0 "bisquare" (NearestCount 1) /\
  raises (wmean_fit 0 [] [] []).
Proof.
  split; [exact p_dist_train_one|]. split; [apply valid21; lra|]. split; [exact adaptive_one|].
  split; [repeat split; simpl; auto; unfold known_kernel; tauto|]. eexists; reflexivity.
Qed.

(** C47: training set and sample weights of predict_by_fit.  With a fixed
    bandwidth [raw_weight k (FixedBandwidth b) D j i w] says that [w] is the kernel
    weight of the distance from training point j to new point i. *)
Theorem C47_training_set_and_weights :
  forall est fit_est predict_est cpu f32 mkw no_kw sm dm sr dargs truthy a o,
  match o with Some d => truthy d = false | None => True end -> a_ratio a = RNone ->
  forall c order fs s X v t tX ty Ds m n W,
  cache_data c = true -> (0 < cpu)%nat -> schedule cpu order ->
  data_coords est s = Some t -> data_X est s = Some tX -> data_y est s = Some ty ->
  distance_matrices f32 mkw no_kw sm t (Some v) (a_measure a) None = Ok (map A2 Ds) ->
  valid_distances Ds n m -> (0 < n)%nat -> length tX = n -> length ty = n -> length X = m ->
  weight_matrix_from_distance (map A2 Ds) (a_kernel a) RNone (a_bandwidth a) (a_count a) = Ok W ->
  exists raw : nat -> nat -> nat -> R,
    (forall dim j i, (dim < length Ds)%nat -> (j < n)%nat -> (i < m)%nat ->
       exists k p, requests (a_kernel a) (a_bandwidth a) (a_count a) dim k p /\ raw_weight k p (nth dim Ds []) j i (raw dim j i)) /\
    let product j i := Rprod (tabulate (length Ds) (fun dim => raw dim j i)) in
    let weight j i := product j i / Rsum (tabulate m (product j)) in
    forall out, snd (predict_by_fit est fit_est predict_est cpu (points_weights f32 mkw no_kw sm dm sr dargs truthy a o) c order fs s X (Some v) None) = Ok out <->
      length out = m /\ forall i, (i < m)%nat ->
        exists e T, StronglySorted lt T /\
          (forall j, In j T <-> (j < n)%nat /\ forall dim, (dim < length Ds)%nat -> raw dim j i <> 0) /\
          fit_est i (map (fun j => nth j tX []) T) (map (fun j => nth j ty 0) T) (map (fun j => Fin (weight j i)) T) = Ok e /\
          predict_est e [nth i X []] = Ok (nth i out []).
Proof. exact pbf_points. Qed.
Print Assumptions C47_training_set_and_weights.

Example C47_example :
  p_dist p_train p_new = Ok (map A2 [ [[1; 3]; [1; 1]] ]) /\ valid_distances [ [[1; 3]; [1; 1]] ] 2 2 /\
  weight_matrix_from_distance (map A2 [ [[1; 3]; [1; 1]] ]) (a_kernel p_args) RNone (a_bandwidth p_args) (a_count p_args)
    = Ok [[Fin 1; Fin 0]; [Fin (1 / 2); Fin (1 / 2)]] /\
  exists z, pbf_ex p_args [[7]; [8]] p_new = Ok [[1 / 3]; z].
Proof. split; [exact p_dist_train_new|]. split; [apply valid2; lra|]. split; [exact box_train_new|exact batch_pair]. Qed.

(** C48: predictions without the caches (the inspection methods: P_Inspect). *)
Theorem C48_predict_by_weight_needs_caches :
  forall est predict_est wm c fs s X v w,
  cache_data c = false \/ cache_estimator c = false -> raises (snd (predict_by_weight est predict_est wm c fs s X v w)).
Proof. exact pbw_needs_caches. Qed.
Print Assumptions C48_predict_by_weight_needs_caches.

Theorem C48_predict_by_fit_needs_cache :
  forall est fit_est predict_est cpu wm c order fs s X v w,
  cache_data c = false -> raises (snd (predict_by_fit est fit_est predict_est cpu wm c order fs s X v w)).
Proof. exact pbf_needs_cache. Qed.
Print Assumptions C48_predict_by_fit_needs_cache.

Example C48_example : cache_data (Config true None false false None None) = false /\
  o_result R nat (fit_ex (Config true None false false None None) [1; 0]%nat 0%nat no_fs s_init fX fy None (Some (WDense fW))) = Ok tt.
Proof.
  split; [reflexivity|]. apply (fit_succeeds R wmean_fit wmean_predict nat first_choice 2 no_wm _ _ _ _ _ _ _ _ _ (WDense fW) fW 3 first_choice_valid); auto using fW_holds.
  - left. reflexivity.
  - apply perm_swap.
  - left. reflexivity.
  - pose proof (fit_ex_ok fy true (WDense fW) [1; 0]%nat eq_refl fW_holds (perm_swap _ _ _)) as H.
    apply (fit_succeeds R wmean_fit wmean_predict nat first_choice 2 no_wm _ _ _ _ _ _ _ _ _ (WDense fW) fW 3 first_choice_valid) in H;
      auto using fW_holds; [left; reflexivity|apply perm_swap|left; reflexivity].
Qed.

(** C82: when fit succeeds. *)
Theorem C82_when_fit_succeeds :
  forall est fit_est predict_est G choice cpu wm c order g fs s0 X y coords given w W N,
  valid_choice choice -> (0 < cpu)%nat -> length X = N -> in_force wm fs coords given w -> holds w W N ->
  schedule (num_tasks cpu c (num_locations c N)) order -> aligned c w ->
  (o_result est G (fit est fit_est predict_est G choice cpu wm c order g fs s0 X y coords given) = Ok tt <->
   valid_data X y /\ valid_jobs c /\ drawable c N /\ (2 <= num_locations c N)%nat /\
   forall i, In i (drawn choice g c N) ->
     exists e p, local_model fit_est X y (leave_local_out c) W N i e /\ predict_est e [nth i X []] = Ok [p]).
Proof. exact fit_succeeds. Qed.
Print Assumptions C82_when_fit_succeeds.

Theorem C82_single_location_raises :
  forall est fit_est predict_est G choice cpu wm c order g fs s0 X y coords given w W N,
  valid_choice choice -> (0 < cpu)%nat -> length X = N -> in_force wm fs coords given w -> holds w W N ->
  schedule (num_tasks cpu c (num_locations c N)) order -> (num_locations c N <= 1)%nat ->
  raises (o_result est G (fit est fit_est predict_est G choice cpu wm c order g fs s0 X y coords given)).
Proof. exact fit_single_location. Qed.
Print Assumptions C82_single_location_raises.

Example C82_example : num_locations (cfg true (Some (1 / 3)) None None) 3 = 1%nat /\ valid_data fX fy /\
  o_result R nat (fit_ex (cfg true None None None) [1; 0]%nat 0%nat no_fs s_init fX fy None (Some (WDense fW))) = Ok tt.
Proof.
  split; [unfold num_locations; cbn [cfg sample_local_rate]; rewrite (trunc_eq _ 1); [reflexivity|lia|simpl; lra]|].
  split; [apply fX_data; reflexivity|]. apply fit_ex_ok; auto using fW_holds. apply perm_swap.
Qed.

(** C83: predict_by_weight after fitting only a sample of the locations. *)
Theorem C83_sampled_model_cannot_predict_by_weight :
  forall est predict_est wm c fs s X v t es W m n,
  cache_data c = true -> cache_estimator c = true ->
  local_estimators est s = Some es -> data_coords est s = Some t ->
  snd (wm fs v t) = Ok (WDense W) -> rect W m n -> (0 < m)%nat -> (1 < n)%nat ->
  (1 < length es)%nat -> length es <> n ->
  raises (snd (predict_by_weight est predict_est wm c fs s X (Some v) None)).
Proof. exact pbw_sampled_raises. Qed.
Print Assumptions C83_sampled_model_cannot_predict_by_weight.

Theorem C83_sampled_model_cannot_predict_by_sparse_weight :
  forall est predict_est wm c fs s X v t es k,
  cache_data c = true -> cache_estimator c = true ->
  local_estimators est s = Some es -> data_coords est s = Some t ->
  snd (wm fs v t) = Ok (WSparse k) -> (1 < c_ncols k)%nat ->
  (1 < length es)%nat -> length es <> c_ncols k ->
  raises (snd (predict_by_weight est predict_est wm c fs s X (Some v) None)).
Proof. exact pbw_sampled_raises_sparse. Qed.
Print Assumptions C83_sampled_model_cannot_predict_by_sparse_weight.

Example C83_example : (1 < length [Some 5; Some 7])%nat /\ length [Some 5; Some 7] <> 3%nat /\ rect fW 3 3.
Proof. split; [simpl; lia|]. split; [simpl; lia|exact fW_rect]. Qed.

(** C84: llocv_score_ is the R2 of y_sample_ and local_predict_. *)
Theorem C84_score :
  forall est fit_est predict_est G choice cpu wm c order g fs s0 X y coords given w W N,
  valid_choice choice -> (0 < cpu)%nat -> length X = N -> in_force wm fs coords given w -> holds w W N ->
  schedule (num_tasks cpu c (num_locations c N)) order ->
  let o := fit est fit_est predict_est G choice cpu wm c order g fs s0 X y coords given in
  o_result est G o = Ok tt ->
  exists ys ps score, y_sample_ est (o_state est G o) = Some ys /\ local_predict_ est (o_state est G o) = Some ps /\ length ys = length ps /\ (2 <= length ys)%nat /\
    llocv_score_ est (o_state est G o) = Some (Fin score) /\
    let sse := Rsum (map2 (fun a b => (a - b) * (a - b)) ys ps) in
    let m := Rsum ys / INR (length ys) in
    let sst := Rsum (map (fun a => (a - m) * (a - m)) ys) in
    (sst <> 0 -> score = 1 - sse / sst) /\ (sst = 0 -> sse = 0 -> score = 1) /\ (sst = 0 -> sse <> 0 -> score = 0).
Proof. exact fit_score. Qed.
Print Assumptions C84_score.

Example C84_example : o_result R nat (fit_ex (cfg true None None None) [1; 0]%nat 0%nat no_fs s_init fX fy None (Some (WDense fW))) = Ok tt.
Proof. apply fit_ex_ok; auto using fW_holds. apply perm_swap. Qed.
