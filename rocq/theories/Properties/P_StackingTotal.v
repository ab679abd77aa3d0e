(** Properties C134-C136: when fitting StackingWeightModel succeeds. *)
From Coq Require Import Lra.
From Verif.Model Require Import Base Ext Csr Neighbour Distance WeightModel NumbaImpl Stacking.
From Verif.Spec Require Import KernelSpec NeighbourSpec WeightModelSpec RidgeSpec StackingSpec StackingTotalSpec.
From Verif.Proofs Require Import NeighbourProps StackingExamples StackingTotal SolverExists StackingUsual StackingUsualNumba StackingTotalExamples StackingUnitsExamples.
Open Scope string_scope.
Open Scope nat_scope.
Open Scope R_scope.

(** C134: for all learners. *)
Theorem C134_fit_succeeds_iff :
  forall est meta fit_est predict_est fit_meta predict_meta solve G seed0 choice cpu wm r c g fs s0 X y coords given w W,
  let n := List.length X in
  valid_choice choice -> one_per_row predict_est ->
  valid_runtime r n (patches cpu c) -> valid_rates c -> real_weights wm fs coords given w -> holds_real w W n ->
  (sc_use_numba c = true -> forall i k, (i < n)%nat -> (k < n)%nat -> 0 <= mget 0 W i k) ->
  so_result est meta G (sfit est fit_est predict_est meta fit_meta predict_meta solve G seed0 choice cpu wm r c g fs s0 X y coords given) = Ok tt <->
  valid_data X y /\ keeps_all c n /\ has_batches cpu c /\
  exists L W' es ps0 qs ps ses,
    leave_outs seed0 choice c W L /\ shrunk_weights (sc_meta_shrink c) W W' /\ storable c w n W' /\
    stacked fit_est predict_est fit_meta predict_meta solve (r_garbage r) c w X y n W L W' es ps0 qs ps ses.
Proof.
  intros est meta fe pe fm pm so G sd ch cpu wm r c g fs s0 X y coords given w W n Hc Ho.
  exact (sfit_iff fe pe fm pm so sd ch cpu wm Ho Hc r c g fs s0 X y coords given w W).
Qed.
Print Assumptions C134_fit_succeeds_iff.

(** With learners that fit exactly when they are given data. *)
Theorem C134_learners_that_need_data :
  forall est meta fit_est predict_est fit_meta predict_meta solve G seed0 choice cpu wm r c g fs s0 X y coords given w W,
  let n := List.length X in
  valid_choice choice -> needs_data fit_est predict_est -> needs_design fit_meta predict_meta ->
  valid_runtime r n (patches cpu c) -> valid_rates c -> real_weights wm fs coords given w -> holds_real w W n -> sc_use_numba c = false ->
  so_result est meta G (sfit est fit_est predict_est meta fit_meta predict_meta solve G seed0 choice cpu wm r c g fs s0 X y coords given) = Ok tt <->
  valid_data X y /\ keeps_all c n /\ has_batches cpu c /\
  (forall m q, w = SDense m -> sc_estimator_rate c = Some q -> 0 < q) /\
  exists L W', leave_outs seed0 choice c W L /\ shrunk_weights (sc_meta_shrink c) W W' /\ storable c w n W' /\
    forall i, (i < n)%nat -> base_training n W L i <> [] /\ meta_points n W' i <> [].
Proof.
  intros est meta fe pe fm pm so G sd ch cpu wm r c g fs s0 X y coords given w W n Hc He Hm.
  exact (usual_iff fe pe fm pm so sd ch cpu wm Hc He Hm r c g fs s0 X y coords given w W).
Qed.
Print Assumptions C134_learners_that_need_data.

(** Learners that need data exist; four observations with half the neighbours left
    out meet the conditions, and the fit succeeds. *)
Example C134_example : needs_data u_fit u_predict /\ needs_design u_fit_meta u_predict_meta /\ valid_runtime u_r 4 (patches 4 (ex_c None false)) /\
  holds_real (SDense u_W) u_W 4 /\ leave_outs 0%nat rot_choice (ex_c None false) u_W u_L /\
  (forall i, (i < 4)%nat -> base_training 4 u_W u_L i <> [] /\ meta_points 4 u_W i <> []) /\
  so_result R R nat (u_sfit u_r (ex_c None false) 41%nat (fun _ => None) ex_s0 u_X [1; 2; 4; 8] None (Some (SDense u_W))) = Ok tt.
Proof.
  split; [apply u_data|]. split; [apply u_design|]. split; [apply u_runtime|]. split; [split; [apply u_rect|left; reflexivity]|].
  split; [apply u_leave|]. split; [apply u_points|apply u_run].
Qed.

(** With the numba ridge instead of a meta learner: an exact solver and a positive
    penalty never fail, so only the weights and the base learners decide. *)
Theorem C134_numba_ridge :
  forall est meta fit_est predict_est fit_meta predict_meta solve G seed0 choice cpu wm r c g fs s0 X y coords given w W,
  let n := List.length X in
  valid_choice choice -> needs_data fit_est predict_est -> exact_solver solve ->
  valid_runtime r n (patches cpu c) -> valid_rates c -> real_weights wm fs coords given w -> holds_real w W n ->
  sc_use_numba c = true -> 0 < sc_alpha c -> (forall i k, (i < n)%nat -> (k < n)%nat -> 0 <= mget 0 W i k) ->
  so_result est meta G (sfit est fit_est predict_est meta fit_meta predict_meta solve G seed0 choice cpu wm r c g fs s0 X y coords given) = Ok tt <->
  valid_data X y /\ keeps_all c n /\ has_batches cpu c /\ (exists m, w = SSparse m) /\
  exists L W', leave_outs seed0 choice c W L /\ shrunk_weights (sc_meta_shrink c) W W' /\
    forall i, (i < n)%nat -> base_training n W L i <> [] /\ meta_points n W' i <> [].
Proof.
  intros est meta fe pe fm pm so G sd ch cpu wm r c g fs s0 X y coords given w W n Hc He Hs.
  exact (usual_numba_iff fe pe fm pm so sd ch cpu wm Hc He Hs r c g fs s0 X y coords given w W).
Qed.
Print Assumptions C134_numba_ridge.

(** Three observations: the fit with the numba ridge succeeds for every target. *)
Example C134_numba_example : needs_data u_fit sl_predict /\ exact_solver solve_exact /\ forall y, List.length y = 3%nat ->
  so_result R R nat (sl_sfit ex_r (sl_c 10) 41%nat (fun _ => None) ex_s0 ex_X y None (Some (SSparse ex_csr))) = Ok tt.
Proof. split; [apply sl_data|]. split; [exact solve_exact_exact|]. intros y Hy. apply sl_run; [lra|exact Hy]. Qed.

(** C135: a sparse matrix is accepted exactly when the same dense one is and the
    last observation is somebody's neighbour. *)
Theorem C135_sparse_iff_dense :
  forall est meta fit_est predict_est fit_meta predict_meta solve G seed0 choice cpu wm r c g fs s0 X y coords cw W W',
  let n := List.length X in
  valid_choice choice -> one_per_row predict_est ->
  valid_runtime r n (patches cpu c) -> valid_rates c -> rect W n n -> csr_form 0 (fun x => Reqb x 0) W n cw ->
  sc_use_numba c = false -> sc_estimator_rate c = None -> shrunk_weights (sc_meta_shrink c) W W' ->
  so_result est meta G (sfit est fit_est predict_est meta fit_meta predict_meta solve G seed0 choice cpu wm r c g fs s0 X y coords (Some (SSparse cw))) = Ok tt <->
  so_result est meta G (sfit est fit_est predict_est meta fit_meta predict_meta solve G seed0 choice cpu wm r c g fs s0 X y coords (Some (SDense W))) = Ok tt /\
  exists i, (i < n)%nat /\ 0 < mget 0 W' i (n - 1).
Proof. intros est meta fe pe fm pm so G sd ch cpu wm; exact (sparse_iff_dense fe pe fm pm so sd ch cpu wm). Qed.
Print Assumptions C135_sparse_iff_dense.

Theorem C135_sparse_needs_last :
  forall est meta fit_est predict_est fit_meta predict_meta solve G seed0 choice cpu wm r c g fs s0 X y coords given cw W W',
  let n := List.length X in
  valid_choice choice -> valid_runtime r n (patches cpu c) -> valid_rates c ->
  real_weights wm fs coords given (SSparse cw) -> rect W n n -> csr_form 0 (fun x => Reqb x 0) W n cw ->
  sc_use_numba c = false -> shrunk_weights (sc_meta_shrink c) W W' -> (forall i, (i < n)%nat -> mget 0 W' i (n - 1) <= 0) ->
  raises (so_result est meta G (sfit est fit_est predict_est meta fit_meta predict_meta solve G seed0 choice cpu wm r c g fs s0 X y coords given)).
Proof. intros est meta fe pe fm pm so G sd ch cpu wm; exact (sparse_needs_last fe pe fm pm so sd ch cpu wm). Qed.
Print Assumptions C135_sparse_needs_last.

(** The expectation that storage does not matter is false: the same weights and
    data, dense and sparse. *)
Theorem C135_storage_matters_refuted :
  exists cw W, csr_form 0 (fun x => Reqb x 0) W 4 cw /\ rect W 4 4 /\ forall y0 y1 y2 y3,
    so_result R R nat (u_sfit u_r (ex_c None false) 41%nat (fun _ => None) ex_s0 u_X [y0; y1; y2; y3] None (Some (SDense W))) = Ok tt /\
    raises (so_result R R nat (u_sfit u_r (ex_c None false) 41%nat (fun _ => None) ex_s0 u_X [y0; y1; y2; y3] None (Some (SSparse cw)))).
Proof.
  exists u_csr, u_W. split; [apply u_form|]. split; [apply u_rect|]. intros y0 y1 y2 y3. split; [apply u_run|].
  apply (sparse_needs_last u_fit u_predict u_fit_meta u_predict_meta ex_solve 0%nat rot_choice 4 ex_wm u_r (ex_c None false) 41%nat (fun _ => None) ex_s0 u_X _ None (Some (SSparse u_csr)) u_csr u_W u_W);
    [apply rot_choice_valid|apply u_runtime|apply ex_rates|left; reflexivity|apply u_rect|apply u_form|reflexivity|reflexivity|].
  intros [|[|[|[|i]]]] Hi; cbn; try lra. cbn in Hi. lia.
Qed.
Print Assumptions C135_storage_matters_refuted.

(** The dense-to-sparse theorem applies to the three-point example. *)
Example C135_example : rect ex_W 3 3 /\ csr_form 0 (fun x => Reqb x 0) ex_W 3 ex_csr /\ (exists i, (i < 3)%nat /\ 0 < mget 0 ex_W i (3 - 1)) /\
  so_result R R nat (ex_sfit ex_r (ex_c None false) 41%nat (fun _ => None) ex_s0 ex_X [1; 2; 4] None (Some (SDense ex_W))) = Ok tt.
Proof. split; [apply ex_rect|]. split; [apply ex_form|]. split; [exists 0%nat; split; [lia|cbn; lra]|apply ex_run]. Qed.

(** C136: neighbour_leave_out_rate of 1 or more leaves nothing to train on. *)
Theorem C136_leaving_everything_out_fails :
  forall est meta fit_est predict_est fit_meta predict_meta solve G seed0 choice cpu wm r c g fs s0 X y coords given w W q,
  let n := List.length X in
  valid_choice choice -> needs_data fit_est predict_est -> needs_design fit_meta predict_meta ->
  valid_runtime r n (patches cpu c) -> valid_rates c -> real_weights wm fs coords given w -> holds_real w W n -> sc_use_numba c = false ->
  (forall i k, (i < n)%nat -> (k < n)%nat -> 0 <= mget 0 W i k) ->
  (forall i k, (i < n)%nat -> (k < n)%nat -> 0 < mget 0 W i k -> 0 < mget 0 W k i) ->
  sc_leave_out_rate c = Some q -> 1 <= q -> sc_leave_out_shrink c = None ->
  raises (so_result est meta G (sfit est fit_est predict_est meta fit_meta predict_meta solve G seed0 choice cpu wm r c g fs s0 X y coords given)).
Proof.
  intros est meta fe pe fm pm so G sd ch cpu wm r c g fs s0 X y coords given w W q n Hc He Hm.
  exact (rate_one_fails fe pe fm pm so sd ch cpu wm Hc He Hm r c g fs s0 X y coords given w W q).
Qed.
Print Assumptions C136_leaving_everything_out_fails.

(** Three points with unit weights and rate 1. *)
Example C136_example : let c := SConfig true None false (Some 4%Z) (Some 2%nat) 10 (Some 1) None None None false in
  needs_data u_fit u_predict /\ needs_design u_fit_meta u_predict_meta /\ valid_rates c /\ holds_real (SDense ex_W) ex_W 3 /\
  (forall i k, (i < 3)%nat -> (k < 3)%nat -> 0 < mget 0 ex_W i k).
Proof.
  split; [apply u_data|]. split; [apply u_design|]. split; [split; [|split]; intros q H; try discriminate; injection H as <-; lra|].
  split; [split; [apply ex_rect|left; reflexivity]|].
  intros [|[|[|i]]] [|[|[|k]]] Hi Hk; cbn; try lra; lia.
Qed.
