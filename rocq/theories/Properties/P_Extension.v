(** Properties C163, C164: observations that no local neighbourhood reaches, and
    observations left out. *)
From Coq Require Import Lra.
From Verif.Model Require Import Base Ext Kernel Distance WeightMatrix Csr Neighbour WeightModel.
From Verif.Spec Require Import KernelSpec WeightSpec NeighbourSpec WeightModelSpec EndToEndSpec ExtensionSpec.
From Verif.Proofs Require Import NeighbourProps FitExamples EndToEnd EndToEndExamples Extension ExtensionExamples LeaveOut LeaveOutExamples.
Open Scope string_scope.
Open Scope nat_scope.
Open Scope R_scope.

(** C163: points appended to a data set, out of reach of the first [N] points and not
    changing their bandwidths, leave the weights between the first [N] as they were and
    get weight zero from them. *)
Theorem C163_weights :
  forall kernel_type bandwidth neighbour_count Ds N n W,
  valid_distances Ds n n -> (0 < N)%nat -> (N <= n)%nat -> far_away kernel_type bandwidth neighbour_count Ds N n ->
  weight_matrix_from_distance (map A2 Ds) kernel_type RNone bandwidth neighbour_count = Ok W ->
  exists W0, weight_matrix_from_distance (map A2 (map (leading N) Ds)) kernel_type RNone bandwidth neighbour_count = Ok W0 /\
    rect W n n /\ rect W0 N N /\ valid_distances (map (leading N) Ds) N N /\
    (forall i j, (i < N)%nat -> (j < N)%nat -> mget (Fin 0) W i j = mget (Fin 0) W0 i j) /\
    (forall i j, (i < N)%nat -> (N <= j < n)%nat -> mget (Fin 0) W i j = Fin 0).
Proof. exact extended_weights. Qed.
Print Assumptions C163_weights.

(** C163: the same model fitted to the first [N] observations only, with their own block of
    the weights, makes the predictions the larger model made for them. *)
Theorem C163_given_weights :
  forall est fit_est predict_est G (choice : G -> list nat -> nat -> G * list nat) cpu wm wm' c order order' g g' fs fs' s0 s0'
         X y coords coords' given given' w w' W W0 N n,
  valid_choice choice -> (0 < cpu)%nat -> (2 <= N)%nat -> (N <= n)%nat -> List.length X = n ->
  in_force wm fs coords given w -> holds w W n -> in_force wm' fs' coords' given' w' -> holds w' W0 N ->
  (forall i j, (i < N)%nat -> (j < N)%nat -> mget (Fin 0) W i j = mget (Fin 0) W0 i j) ->
  (forall i j, (i < N)%nat -> (N <= j < n)%nat -> mget (Fin 0) W i j = Fin 0) ->
  sample_local_rate c = None -> schedule (num_tasks cpu c n) order -> schedule (num_tasks cpu c N) order' ->
  let o := fit est fit_est predict_est G choice cpu wm c order g fs s0 X y coords given in
  let o' := fit est fit_est predict_est G choice cpu wm' c order' g' fs' s0' (firstn N X) (firstn N y) coords' given' in
  o_result est G o = Ok tt ->
  o_result est G o' = Ok tt /\
  exists ps, local_predict_ est (o_state est G o) = Some ps /\ local_predict_ est (o_state est G o') = Some (firstn N ps).
Proof. exact extended_fit. Qed.
Print Assumptions C163_given_weights.

(** C163: so with the weights computed from the coordinates. *)
Theorem C163_far_observations :
  forall est fit_est predict_est G (choice : G -> list nat -> nat -> G * list nat) cpu f32 mkw no_kw sm dm sr dargs truthy
         a c order order' g g' fs fs' s0 s0' X y v Ds N n,
  valid_choice choice -> (0 < cpu)%nat -> (2 <= N)%nat -> (N <= n)%nat -> List.length X = n ->
  Forall (fun p => exists d, rect p n d) v ->
  distance_matrices f32 mkw no_kw sm v (Some v) (a_measure a) None = Ok (map A2 Ds) -> valid_distances Ds n n ->
  a_ratio a = RNone -> far_away (a_kernel a) (a_bandwidth a) (a_count a) Ds N n ->
  sample_local_rate c = None -> schedule (num_tasks cpu c n) order -> schedule (num_tasks cpu c N) order' ->
  let wm := points_weights f32 mkw no_kw sm dm sr dargs truthy a None in
  let o := fit est fit_est predict_est G choice cpu wm c order g fs s0 X y (Some v) None in
  let o' := fit est fit_est predict_est G choice cpu wm c order' g' fs' s0' (firstn N X) (firstn N y) (Some (map (firstn N) v)) None in
  o_result est G o = Ok tt ->
  o_result est G o' = Ok tt /\
  exists ps, local_predict_ est (o_state est G o) = Some ps /\ local_predict_ est (o_state est G o') = Some (firstn N ps).
Proof. exact extended_fit_points. Qed.
Print Assumptions C163_far_observations.

(** Points 0, 1, 2 and the far points 10, 11; fixed bandwidth 3/2. *)
Example C163_example : forall order, schedule 2 order ->
  far_away (a_kernel q_args) (a_bandwidth q_args) (a_count q_args) [x_D] 3 5 /\
  local_predict_ R (o_state R nat (q_fit q_args order x_X x_y x_pts)) = Some [2; 5 / 2; 2; 16; 8] /\
  local_predict_ R (o_state R nat (q_fit q_args order fX fy q_pts)) = Some [2; 5 / 2; 2] /\
  q_pts = map (firstn 3) x_pts.
Proof. intros order H. split; [exact x_far|]. split; [exact (proj2 (x_ok order H))|]. split; [exact (proj2 (q_ok order H))|reflexivity]. Qed.

(** C163: with a fractional neighbour_count, far points change the predictions of points
    that give them no weight: the bandwidth of every point is a share of all the points. *)
Theorem C163_fraction_refuted :
  exists W ps, snd (points_weights (fun x => x) unit tt (fun _ => None) (fun _ => None) (fun r => r) unit (fun _ => true) f_args None no_fs f_pts f_pts) = Ok (WDense W) /\
  (forall i j, (i < 3)%nat -> (3 <= j < 5)%nat -> mget (Fin 0) W i j = Fin 0) /\
  forall order, schedule 2 order ->
  let o := q_fit f_args order x_X x_y f_pts in
  let o' := q_fit f_args order (firstn 3 x_X) (firstn 3 x_y) (map (firstn 3) f_pts) in
  o_result R nat o = Ok tt /\ local_predict_ R (o_state R nat o) = Some ps /\
  o_result R nat o' = Ok tt /\ local_predict_ R (o_state R nat o') <> Some (firstn 3 ps).
Proof.
  exists f_W, [3; 5 / 2; 3 / 2; 10; 6]. split; [exact f_points|]. split; [exact f_zero|]. intros order H. cbv zeta.
  destruct (f_ok order H) as [A B]. destruct (f_ok3 order H) as [C D]. split; [exact A|]. split; [exact B|]. split; [exact C|].
  intros E. pose proof (eq_trans (eq_sym D) E) as F. simpl in F. injection F. intros. lra.
Qed.
Print Assumptions C163_fraction_refuted.

(** C164: predict_by_fit with a weight matrix trains, for new point [i], a clone on the
    observations that row [i] gives a non-zero weight, with those weights. *)
Theorem C164_prediction_with_given_weights :
  forall est fit_est predict_est cpu wm c order fs s X v tX ty W m n,
  cache_data c = true -> (0 < cpu)%nat -> schedule cpu order ->
  data_X est s = Some tX -> data_y est s = Some ty -> rect W m n -> (0 < m)%nat -> (0 < n)%nat ->
  List.length tX = n -> List.length ty = n -> List.length X = m ->
  let T i := filter (fun j => negb (eis_zero (mget NaN W i j))) (seq 0 n) in
  forall out, snd (predict_by_fit est fit_est predict_est cpu wm c order fs s X (Some v) (Some (WDense W))) = Ok out <->
    List.length out = m /\ forall i, (i < m)%nat ->
      exists e, fit_est i (map (fun j => nth j tX []) (T i)) (map (fun j => nth j ty 0) (T i)) (map (fun j => mget NaN W i j) (T i)) = Ok e /\
        predict_est e [nth i X []] = Ok (nth i out []).
Proof. exact pbf_given. Qed.
Print Assumptions C164_prediction_with_given_weights.

(** C164: the prediction a leave-local-out fit reports for observation [i] is the one
    that a model fitted to all the other observations makes for it by predict_by_fit, with
    row [i] of the weights. *)
Theorem C164_leave_out_is_omission :
  forall est fit_est predict_est cpu G (choice : G -> list nat -> nat -> G * list nat) wm wm' c c' order order' order2 g g' fs fs' fs2 s0 s0'
         X y coords coords' given given' w W n i v,
  (forall k k', fit_est k = fit_est k') ->
  valid_choice choice -> (0 < cpu)%nat -> List.length X = n ->
  in_force wm fs coords given w -> holds w W n -> leave_local_out c = true -> sample_local_rate c = None ->
  schedule (num_tasks cpu c n) order -> schedule cpu order2 -> (i < n)%nat -> cache_data c' = true ->
  let o := fit est fit_est predict_est G choice cpu wm c order g fs s0 X y coords given in
  let o' := fit est fit_est predict_est G choice cpu wm' c' order' g' fs' s0' (without i X) (without i y) coords' given' in
  o_result est G o = Ok tt -> o_result est G o' = Ok tt ->
  exists ps, local_predict_ est (o_state est G o) = Some ps /\
    snd (predict_by_fit est fit_est predict_est cpu wm' c' order2 fs2 (o_state est G o') [nth i X []] (Some v)
           (Some (WDense [without i (nth i W [])]))) = Ok [[nth i ps 0]].
Proof. exact leave_out_is_omission. Qed.
Print Assumptions C164_leave_out_is_omission.

(** Three observations, the second left out; its neighbours have the values 1 and 4. *)
Example C164_example : forall order, schedule 2 order ->
  o_result R nat (fit_ex (cfg true None None None) order 0%nat no_fs s_init fX fy None (Some (WDense fW))) = Ok tt /\
  o_result R nat (lo_fit order) = Ok tt /\ without 1 (nth 1 fW []) = [Fin 1; Fin 1] /\
  snd (predict_by_fit R wmean_fit wmean_predict 2 no_wm (cfg true None None None) order no_fs (o_state R nat (lo_fit order)) [nth 1 fX []]
         (Some []) (Some (WDense [[Fin 1; Fin 1]]))) = Ok [[5 / 2]].
Proof. intros order H. split; [exact (fit_ex_ok fy true (WDense fW) order eq_refl fW_holds H)|]. split; [exact (lo_ok order H)|]. split; [reflexivity|exact (lo_predicts order H)]. Qed.
