(** Properties C49-C57, C59, C85-C87: fitting StackingWeightModel.  [sfit] takes the
    oracles (base estimator, meta estimator, linear solver, generator, cpu count,
    weight matrix builder), the run-time choices [r], the constructor arguments [c],
    the generator state, the file system, the object and the arguments of fit. *)
From Coq Require Import Lra.
From Verif.Model Require Import Base Ext Csr Neighbour Distance WeightModel NumbaImpl Stacking.
From Verif.Spec Require Import KernelSpec NeighbourSpec WeightModelSpec StackingSpec.
From Verif.Proofs Require Import NeighbourProps StackingProps StackingClaims StackingClaims2 StackingClaims3 StackingExamples StackingUsual FitExamples.
Open Scope string_scope.
Open Scope nat_scope.
Open Scope R_scope.

(** C49: two fits whose targets differ at [i] only give the same stacked prediction at [i]. *)
Theorem C49_no_leak :
  forall est meta fit_est predict_est fit_meta predict_meta solve G seed0 choice cpu wm
         r r' c g g' fs s0 s0' X y y' coords given w W i,
  let n := List.length X in
  let o := sfit est fit_est predict_est meta fit_meta predict_meta solve G seed0 choice cpu wm r c g fs s0 X y coords given in
  let o' := sfit est fit_est predict_est meta fit_meta predict_meta solve G seed0 choice cpu wm r' c g' fs s0' X y' coords given in
  valid_choice choice -> one_per_row predict_est ->
  valid_runtime r n (patches cpu c) -> valid_runtime r' n (patches cpu c) -> r_garbage r = r_garbage r' ->
  valid_rates c -> real_weights wm fs coords given w -> holds_real w W n -> all_bases_used c w ->
  (sc_use_numba c = true -> forall a b, (a < n)%nat -> (b < n)%nat -> 0 <= mget 0 W a b) ->
  so_result est meta G o = Ok tt -> so_result est meta G o' = Ok tt ->
  (i < n)%nat -> (forall k, k <> i -> nth k y 0 = nth k y' 0) ->
  exists ps ps', ss_stacking_predict est meta (so_state est meta G o) = Some ps /\
    ss_stacking_predict est meta (so_state est meta G o') = Some ps' /\
    List.length ps = n /\ List.length ps' = n /\ nth i ps 0 = nth i ps' 0.
Proof. intros est meta fe pe fm pm so G sd ch cpu wm; exact (no_leak fe pe fm pm so sd ch cpu wm). Qed.
Print Assumptions C49_no_leak.

(** A dense, a sparse and a numba fit of the three-point example meet the hypotheses. *)
Example C49_example : valid_choice rot_choice /\ one_per_row ex_predict /\ valid_runtime ex_r 3 (patches 4 (ex_c None true)) /\
  valid_rates (ex_c None true) /\ holds_real (SDense ex_W) ex_W 3 /\ holds_real (SSparse ex_csr) ex_W 3 /\
  (forall y1, so_result R R nat (ex_sfit ex_r (ex_c None false) 41%nat (fun _ => None) ex_s0 ex_X [1; y1; 4] None (Some (SDense ex_W))) = Ok tt /\
    forall numba, so_result R R nat (ex_sfit ex_r (ex_c None numba) 41%nat (fun _ => None) ex_s0 ex_X [1; y1; 4] None (Some (SSparse ex_csr))) = Ok tt).
Proof.
  split; [exact rot_choice_valid|]. split; [intros e X p H; injection H as <-; apply map_length|].
  split; [apply ex_runtime|]. split; [apply ex_rates|]. split; [split; [apply ex_rect|left; reflexivity]|].
  split; [split; [apply ex_rect|right; exists ex_csr; split; [reflexivity|apply ex_form]]|].
  intros y1. split; [apply ex_run|]. intros numba. apply ex_run_csr.
Qed.

(** With estimator_sample_rate on a dense matrix the target leaks. *)
Theorem C49_estimator_rate_refuted :
  exists y y', (forall k, k <> 1%nat -> nth k y 0 = nth k y' 0) /\
  let o := ex_sfit ex_r (ex_c (Some 1) false) 41%nat (fun _ => None) ex_s0 ex_X y None (Some (SDense ex_W)) in
  let o' := ex_sfit ex_r (ex_c (Some 1) false) 41%nat (fun _ => None) ex_s0 ex_X y' None (Some (SDense ex_W)) in
  so_result R R nat o = Ok tt /\ so_result R R nat o' = Ok tt /\
  exists ps ps', ss_stacking_predict R R (so_state R R nat o) = Some ps /\
    ss_stacking_predict R R (so_state R R nat o') = Some ps' /\ nth 1 ps 0 <> nth 1 ps' 0.
Proof.
  exists [1; 2; 4], [1; 3; 4]. split; [intros [|[|[|k]]] H; first [reflexivity|congruence|destruct k; reflexivity]|]. cbv zeta.
  destruct (ex_run_rate 1 2 4) as [A1 A2]. destruct (ex_run_rate 1 3 4) as [B1 B2].
  split; [exact A1|]. split; [exact B1|]. eexists _, _. split; [exact A2|]. split; [exact B2|]. unfold Rsum; simpl; lra.
Qed.
Print Assumptions C49_estimator_rate_refuted.

(** C50: what every meta model is fitted on and applied to. *)
Theorem C50_design_entries :
  forall est meta fit_est predict_est fit_meta predict_meta solve G seed0 choice cpu wm
         f r c g fs s0 X y coords given w W,
  let n := List.length X in
  let o := sfit est fit_est predict_est meta fit_meta predict_meta solve G seed0 choice cpu wm r c g fs s0 X y coords given in
  let s := so_state est meta G o in
  valid_choice choice -> rowwise predict_est f ->
  valid_runtime r n (patches cpu c) -> valid_rates c -> real_weights wm fs coords given w -> holds_real w W n -> all_bases_used c w ->
  (sc_use_numba c = true -> forall a b, (a < n)%nat -> (b < n)%nat -> 0 <= mget 0 W a b) ->
  so_result est meta G o = Ok tt ->
  exists L W' es ps ses,
    leave_outs seed0 choice c W L /\ shrunk_weights (sc_meta_shrink c) W W' /\
    ss_base_list est meta s = Some es /\ ss_stacking_predict est meta s = Some ps /\
    ss_local_list est meta s = Some (LStacking est meta ses) /\
    List.length es = n /\ List.length ps = n /\ List.length ses = n /\
    (forall j e, nth_error es j = Some e -> base_learner fit_est X y n W L j e) /\
    forall i, (i < n)%nat -> 0 < mget 0 W' i i ->
    exists m bases,
      let T := meta_points n W' i in
      nth_error ses i = Some (StackingEstimator est meta m bases) /\
      Forall2 (fun j e => nth_error es j = Some e) (meta_bases n L i) bases /\
      meta_fitted fit_meta predict_meta solve (sc_use_numba c) (sc_alpha c) (List.length bases)
        (map (fun k => map (fun e => f e (nth k X [])) bases) T) (map (fun k => nth k y 0) T) (map (mget 0 W' i) T)
        (map (fun e => f e (nth i X [])) bases) m (nth i ps 0).
Proof. intros est meta fe pe fm pm so G sd ch cpu wm; exact (entries_correct fe pe fm pm so sd ch cpu wm). Qed.
Print Assumptions C50_design_entries.

(** The leave-out matrix: each point itself and the requested share of the points
    with positive (shrunk) weight for it. *)
Theorem C50_leave_out_matrix :
  forall G (seed0 : G) choice c W L n, valid_choice choice -> valid_rates c -> rect W n n -> (0 < n)%nat ->
  leave_outs seed0 choice c W L ->
  exists q Ws, sc_leave_out_rate c = Some q /\ shrunk_weights (sc_leave_out_shrink c) W Ws /\ rect L n n /\
  forall i, (i < n)%nat ->
    let m := num_neighbours i (nth i Ws []) in
    sample_spec (Nat.min m (Nat.max 1 (Z.to_nat (Rceil (INR m * q))))) i (nth i Ws []) (nth i L []).
Proof. intros G. exact leave_outs_meaning. Qed.
Print Assumptions C50_leave_out_matrix.

(** Without weights on the diagonal: everything fit computes. *)
Theorem C50_everything_computed :
  forall est meta fit_est predict_est fit_meta predict_meta solve G seed0 choice cpu wm,
  valid_choice choice -> one_per_row predict_est ->
  forall r c g fs s0 X y coords given w W,
  let n := List.length X in
  let o := sfit est fit_est predict_est meta fit_meta predict_meta solve G seed0 choice cpu wm r c g fs s0 X y coords given in
  let s := so_state est meta G o in
  valid_runtime r n (patches cpu c) -> valid_rates c -> real_weights wm fs coords given w -> holds_real w W n ->
  (sc_use_numba c = true -> forall i k, (i < n)%nat -> (k < n)%nat -> 0 <= mget 0 W i k) ->
  so_result est meta G o = Ok tt ->
  exists L W' es ps0 qs ps ses,
    leave_outs seed0 choice c W L /\ shrunk_weights (sc_meta_shrink c) W W' /\
    stacked fit_est predict_est fit_meta predict_meta solve (r_garbage r) c w X y n W L W' es ps0 qs ps ses /\
    ss_base_list est meta s = Some es /\ ss_local_predict est meta s = Some (map (fun x => [x]) ps0) /\
    ss_stacking_predict est meta s = Some ps /\ ss_local_list est meta s = Some (LStacking est meta ses).
Proof. intros est meta fe pe fm pm so G sd ch cpu wm; exact (sfit_stacked fe pe fm pm so sd ch cpu wm). Qed.
Print Assumptions C50_everything_computed.

(** An input nobody computed is 0 (dense and sparse paths). *)
Theorem C50_missing_is_zero :
  forall est meta fit_est predict_est fit_meta predict_meta solve G seed0 choice cpu wm
         r c g fs s0 X y coords given w W,
  let n := List.length X in
  let o := sfit est fit_est predict_est meta fit_meta predict_meta solve G seed0 choice cpu wm r c g fs s0 X y coords given in
  let s := so_state est meta G o in
  valid_choice choice -> one_per_row predict_est ->
  valid_runtime r n (patches cpu c) -> valid_rates c -> real_weights wm fs coords given w -> holds_real w W n -> all_bases_used c w ->
  sc_use_numba c = false -> so_result est meta G o = Ok tt ->
  exists L W' ps ses, leave_outs seed0 choice c W L /\ shrunk_weights (sc_meta_shrink c) W W' /\
    ss_stacking_predict est meta s = Some ps /\ ss_local_list est meta s = Some (LStacking est meta ses) /\
    forall i, (i < n)%nat -> exists bases m design targets weights input,
      nth_error ses i = Some (StackingEstimator est meta m bases) /\
      meta_fitted fit_meta predict_meta solve false (sc_alpha c) (List.length bases) design targets weights input m (nth i ps 0) /\
      Forall2 (fun j v => (forall i', (i' < n)%nat -> mget false L i' j = true -> ~ 0 < mget 0 W' i' i) -> v = 0) (meta_bases n L i) input.
Proof. intros est meta fe pe fm pm so G sd ch cpu wm; exact (missing_is_zero fe pe fm pm so sd ch cpu wm). Qed.
Print Assumptions C50_missing_is_zero.

Example C50_example : rowwise ex_predict ex_row /\ 0 < mget 0 ex_W 1 1 /\
  so_result R R nat (ex_sfit ex_r (ex_c None true) 41%nat (fun _ => None) ex_s0 ex_X [1; 2; 4] None (Some (SSparse ex_csr))) = Ok tt.
Proof. split; [intros e X p H; injection H as <-; reflexivity|]. split; [cbn; lra|apply ex_run_csr]. Qed.

(** C51. *)
Theorem C51_leave_out_rate_required :
  forall est meta fit_est predict_est fit_meta predict_meta solve G seed0 choice cpu wm r c g fs s0 X y coords given,
  sc_leave_out_rate c = None ->
  raises (so_result est meta G (sfit est fit_est predict_est meta fit_meta predict_meta solve G seed0 choice cpu wm r c g fs s0 X y coords given)).
Proof. intros est meta fe pe fm pm so G sd ch cpu wm; exact (leave_out_rate_required fe pe fm pm so sd ch cpu wm). Qed.
Print Assumptions C51_leave_out_rate_required.

(** With acceptable data and weights the exception is an AttributeError. *)
Theorem C51_attribute_error :
  forall est meta fit_est predict_est fit_meta predict_meta solve G seed0 choice cpu wm r c g fs s0 X y coords given w,
  valid_data X y -> real_weights wm fs coords given w -> sc_leave_out_rate c = None ->
  so_result est meta G (sfit est fit_est predict_est meta fit_meta predict_meta solve G seed0 choice cpu wm r c g fs s0 X y coords given) = Raise AttributeError.
Proof. intros est meta fe pe fm pm so G sd ch cpu wm; exact (no_rate_error fe pe fm pm so sd ch cpu wm). Qed.
Print Assumptions C51_attribute_error.

(** The same data with a rate succeeds. *)
Example C51_example : sc_leave_out_rate (ex_c None false) = Some (1 / 2) /\
  so_result R R nat (ex_sfit ex_r (ex_c None false) 41%nat (fun _ => None) ex_s0 ex_X [1; 2; 4] None (Some (SDense ex_W))) = Ok tt.
Proof. split; [reflexivity|apply ex_run]. Qed.

(** C52: the whole outcome is the same, failures included. *)
Theorem C52_leave_local_out_irrelevant :
  forall est meta fit_est predict_est fit_meta predict_meta solve G seed0 choice cpu wm r c b g fs s0 X y coords given w W,
  let n := List.length X in
  let run c := sfit est fit_est predict_est meta fit_meta predict_meta solve G seed0 choice cpu wm r c g fs s0 X y coords given in
  valid_choice choice -> schedule n (r_sample r) -> valid_rates c -> real_weights wm fs coords given w -> holds_real w W n ->
  run (with_leave_local_out c b) = run c.
Proof. intros est meta fe pe fm pm so G sd ch cpu wm; exact (leave_local_out_irrelevant fe pe fm pm so sd ch cpu wm). Qed.
Print Assumptions C52_leave_local_out_irrelevant.

Example C52_example : sc_leave_local_out (ex_c None false) = true /\ valid_rates (ex_c None false) /\ schedule 3 (r_sample ex_r) /\
  so_result R R nat (ex_sfit ex_r (with_leave_local_out (ex_c None false) false) 41%nat (fun _ => None) ex_s0 ex_X [1; 2; 4] None (Some (SDense ex_W))) = Ok tt.
Proof.
  split; [reflexivity|]. split; [apply ex_rates|]. split; [apply (ex_runtime None false)|].
  rewrite (C52_leave_local_out_irrelevant _ _ _ _ _ _ _ _ _ _ _ _ _ _ _ _ _ _ _ _ _ _ (SDense ex_W) ex_W);
    [apply ex_run|exact rot_choice_valid|apply (ex_runtime None false)|apply ex_rates|left; reflexivity|split; [apply ex_rect|left; reflexivity]].
Qed.

(** C53: dense and sparse weights give the same model. *)
Theorem C53_dense_sparse_identical :
  forall est meta fit_est predict_est fit_meta predict_meta solve G seed0 choice cpu wm
         r r' c g g' fs fs' s0 s0' X y coords coords' W cw,
  let n := List.length X in
  let o := sfit est fit_est predict_est meta fit_meta predict_meta solve G seed0 choice cpu wm r c g fs s0 X y coords (Some (SDense W)) in
  let o' := sfit est fit_est predict_est meta fit_meta predict_meta solve G seed0 choice cpu wm r' c g' fs' s0' X y coords' (Some (SSparse cw)) in
  let s := so_state est meta G o in
  let s' := so_state est meta G o' in
  valid_choice choice -> one_per_row predict_est ->
  valid_runtime r n (patches cpu c) -> valid_runtime r' n (patches cpu c) -> valid_rates c ->
  rect W n n -> csr_form 0 (fun x => Reqb x 0) W n cw ->
  sc_use_numba c = false -> sc_estimator_rate c = None ->
  so_result est meta G o = Ok tt -> so_result est meta G o' = Ok tt ->
  ss_base_list est meta s = ss_base_list est meta s' /\ ss_local_predict est meta s = ss_local_predict est meta s' /\
  ss_stacking_predict est meta s = ss_stacking_predict est meta s' /\ ss_local_list est meta s = ss_local_list est meta s'.
Proof. intros est meta fe pe fm pm so G sd ch cpu wm; exact (dense_sparse_identical fe pe fm pm so sd ch cpu wm). Qed.
Print Assumptions C53_dense_sparse_identical.

(** With numba every meta model solves the same problem on the same input. *)
Theorem C53_numba_same_problems :
  forall est meta fit_est predict_est fit_meta predict_meta solve G seed0 choice cpu wm
         f r r' c g g' fs fs' s0 s0' X y coords coords' w cw W,
  let n := List.length X in
  let o := sfit est fit_est predict_est meta fit_meta predict_meta solve G seed0 choice cpu wm r (with_numba c false) g fs s0 X y coords (Some w) in
  let o' := sfit est fit_est predict_est meta fit_meta predict_meta solve G seed0 choice cpu wm r' (with_numba c true) g' fs' s0' X y coords' (Some (SSparse cw)) in
  let s := so_state est meta G o in
  let s' := so_state est meta G o' in
  valid_choice choice -> rowwise predict_est f ->
  valid_runtime r n (patches cpu c) -> valid_runtime r' n (patches cpu c) -> valid_rates c ->
  holds_real w W n -> holds_real (SSparse cw) W n -> all_bases_used c w ->
  (forall a b, (a < n)%nat -> (b < n)%nat -> 0 <= mget 0 W a b) ->
  so_result est meta G o = Ok tt -> so_result est meta G o' = Ok tt ->
  exists W' ps ps' ses ses',
    shrunk_weights (sc_meta_shrink c) W W' /\
    ss_base_list est meta s = ss_base_list est meta s' /\
    ss_local_predict est meta s = ss_local_predict est meta s' /\
    ss_stacking_predict est meta s = Some ps /\ ss_stacking_predict est meta s' = Some ps' /\
    ss_local_list est meta s = Some (LStacking est meta ses) /\ ss_local_list est meta s' = Some (LStacking est meta ses') /\
    forall i, (i < n)%nat -> 0 < mget 0 W' i i ->
      exists bases design targets weights input m m',
        nth_error ses i = Some (StackingEstimator est meta m bases) /\
        nth_error ses' i = Some (StackingEstimator est meta m' bases) /\
        meta_fitted fit_meta predict_meta solve false (sc_alpha c) (List.length bases) design targets weights input m (nth i ps 0) /\
        meta_fitted fit_meta predict_meta solve true (sc_alpha c) (List.length bases) design targets weights input m' (nth i ps' 0).
Proof. intros est meta fe pe fm pm so G sd ch cpu wm; exact (numba_same_problems fe pe fm pm so sd ch cpu wm). Qed.
Print Assumptions C53_numba_same_problems.

Example C53_example : holds_real (SSparse ex_csr) ex_W 3 /\ (forall a b, (a < 3)%nat -> (b < 3)%nat -> 0 <= mget 0 ex_W a b) /\
  so_result R R nat (ex_sfit ex_r (with_numba (ex_c None false) false) 41%nat (fun _ => None) ex_s0 ex_X [1; 2; 4] None (Some (SDense ex_W))) = Ok tt /\
  so_result R R nat (ex_sfit ex_r (with_numba (ex_c None false) true) 41%nat (fun _ => None) ex_s0 ex_X [1; 2; 4] None (Some (SSparse ex_csr))) = Ok tt.
Proof.
  split; [split; [apply ex_rect|right; exists ex_csr; split; [reflexivity|apply ex_form]]|].
  split; [intros [|[|[|a]]] [|[|[|b]]]; cbn; intros; try lra; lia|]. split; [apply ex_run|apply (ex_run_csr 1 2 4 true)].
Qed.

(** C54. *)
Theorem C54_replay :
  forall est meta fit_est predict_est fit_meta predict_meta solve G seed0 choice cpu wm f r c g fs s0 X y coords given w W,
  let n := List.length X in
  let o := sfit est fit_est predict_est meta fit_meta predict_meta solve G seed0 choice cpu wm r c g fs s0 X y coords given in
  let s := so_state est meta G o in
  valid_choice choice -> (forall e X, predict_est e X = Ok (map (f e) X)) ->
  valid_runtime r n (patches cpu c) -> valid_rates c -> real_weights wm fs coords given w -> holds_real w W n -> all_bases_used c w ->
  (sc_use_numba c = true -> forall a b, (a < n)%nat -> (b < n)%nat -> 0 <= mget 0 W a b) ->
  so_result est meta G o = Ok tt ->
  exists W' ps ses, shrunk_weights (sc_meta_shrink c) W W' /\
    ss_stacking_predict est meta s = Some ps /\ ss_local_list est meta s = Some (LStacking est meta ses) /\ List.length ses = n /\
    forall i, (i < n)%nat -> 0 < mget 0 W' i i ->
    exists se, nth_error ses i = Some se /\
      predict_stacking est predict_est meta predict_meta se [nth i X []] = Ok [Fin (nth i ps 0)].
Proof. intros est meta fe pe fm pm so G sd ch cpu wm; exact (replay fe pe fm pm so sd ch cpu wm). Qed.
Print Assumptions C54_replay.

Example C54_example : (forall e X, ex_predict e X = Ok (map (ex_row e) X)) /\ 0 < mget 0 ex_W 2 2 /\
  so_result R R nat (ex_sfit ex_r (ex_c None true) 41%nat (fun _ => None) ex_s0 ex_X [1; 2; 4] None (Some (SSparse ex_csr))) = Ok tt.
Proof. split; [reflexivity|]. split; [cbn; lra|apply ex_run_csr]. Qed.

(** C55. *)
Theorem C55_sample_rate_must_keep_all :
  forall est meta fit_est predict_est fit_meta predict_meta solve G seed0 choice cpu wm r c g fs s0 X y coords given w W q,
  let n := List.length X in
  valid_choice choice -> valid_runtime r n (patches cpu c) -> valid_rates c -> real_weights wm fs coords given w -> holds_real w W n ->
  sc_sample_local_rate c = Some q -> trunc (q * INR n) <> Z.of_nat n ->
  raises (so_result est meta G (sfit est fit_est predict_est meta fit_meta predict_meta solve G seed0 choice cpu wm r c g fs s0 X y coords given)).
Proof. intros est meta fe pe fm pm so G sd ch cpu wm; exact (sample_rate_must_keep_all fe pe fm pm so sd ch cpu wm). Qed.
Print Assumptions C55_sample_rate_must_keep_all.

Theorem C55_n_jobs_needs_n_patches :
  forall est meta fit_est predict_est fit_meta predict_meta solve G seed0 choice cpu wm r c g fs s0 X y coords given j,
  sc_n_jobs c = Some j -> sc_n_patches c = None ->
  raises (so_result est meta G (sfit est fit_est predict_est meta fit_meta predict_meta solve G seed0 choice cpu wm r c g fs s0 X y coords given)).
Proof. intros est meta fe pe fm pm so G sd ch cpu wm; exact (n_jobs_needs_patches fe pe fm pm so sd ch cpu wm). Qed.
Print Assumptions C55_n_jobs_needs_n_patches.

(** Half of three points is one point. *)
Example C55_example : trunc (1 / 2 * INR 3) <> Z.of_nat 3 /\ holds_real (SDense ex_W) ex_W 3.
Proof.
  split; [|split; [apply ex_rect|left; reflexivity]]. rewrite (trunc_eq _ 1); [discriminate|lia|simpl; lra].
Qed.

(** C56. *)
Theorem C56_residual_is_a_matrix :
  forall est meta fit_est predict_est fit_meta predict_meta solve G seed0 choice cpu wm r c g fs s0 X y coords given w W,
  let n := List.length X in
  let o := sfit est fit_est predict_est meta fit_meta predict_meta solve G seed0 choice cpu wm r c g fs s0 X y coords given in
  let s := so_state est meta G o in
  valid_choice choice -> one_per_row predict_est ->
  valid_runtime r n (patches cpu c) -> valid_rates c -> real_weights wm fs coords given w -> holds_real w W n ->
  (sc_use_numba c = true -> forall a b, (a < n)%nat -> (b < n)%nat -> 0 <= mget 0 W a b) ->
  so_result est meta G o = Ok tt ->
  exists ys ps res, ss_y_sample est meta s = Some ys /\ ss_local_predict est meta s = Some (map (fun x => [x]) ps) /\
    ss_local_residual est meta s = Some res /\ List.length ps = n /\ List.length ys = n /\ rect res n n /\
    forall a b, (a < n)%nat -> (b < n)%nat -> mget 0 res a b = nth b ys 0 - nth a ps 0.
Proof. intros est meta fe pe fm pm so G sd ch cpu wm; exact (residual_outer fe pe fm pm so sd ch cpu wm). Qed.
Print Assumptions C56_residual_is_a_matrix.

Example C56_example :
  let o := ex_sfit ex_r (ex_c None false) 41%nat (fun _ => None) ex_s0 ex_X [1; 2; 4] None (Some (SDense ex_W)) in
  so_result R R nat o = Ok tt /\ valid_runtime ex_r 3 (patches 4 (ex_c None false)).
Proof. split; [apply ex_run|apply ex_runtime]. Qed.

(** C57. *)
Theorem C57_success_restores :
  forall est meta fit_est predict_est fit_meta predict_meta solve G seed0 choice cpu wm r c g fs s0 X y coords given,
  let o := sfit est fit_est predict_est meta fit_meta predict_meta solve G seed0 choice cpu wm r c g fs s0 X y coords given in
  so_result est meta G o = Ok tt -> ss_cache_estimator est meta (so_state est meta G o) = ss_cache_estimator est meta s0.
Proof. intros est meta fe pe fm pm so G sd ch cpu wm; exact (cache_flag_restored fe pe fm pm so sd ch cpu wm). Qed.
Print Assumptions C57_success_restores.

(** On a model without base_estimator_list: the flag is back exactly when that
    list was set, otherwise it is left at True. *)
Theorem C57_flag_after_any_fit :
  forall est meta fit_est predict_est fit_meta predict_meta solve G seed0 choice cpu wm r c g fs s0 X y coords given,
  check_X_y X y = Ok tt -> (coords <> None \/ given <> None) -> ss_base_list est meta s0 = None ->
  let s := so_state est meta G (sfit est fit_est predict_est meta fit_meta predict_meta solve G seed0 choice cpu wm r c g fs s0 X y coords given) in
  ss_cache_estimator est meta s =
  match ss_base_list est meta s with Some _ => ss_cache_estimator est meta s0 | None => true end.
Proof. intros est meta fe pe fm pm so G sd ch cpu wm; exact (cache_flag fe pe fm pm so sd ch cpu wm). Qed.
Print Assumptions C57_flag_after_any_fit.

(** A fit without neighbour_leave_out_rate fails and leaves the flag at True. *)
Example C57_example :
  let o := ex_sfit ex_r (SConfig true None false None None 10 None None None None false) 41%nat (fun _ => None) ex_s0 ex_X [1; 2; 4] None (Some (SDense ex_W)) in
  ss_cache_estimator R R ex_s0 = false /\ raises (so_result R R nat o) /\ ss_cache_estimator R R (so_state R R nat o) = true.
Proof.
  cbv zeta. split; [reflexivity|]. split; [apply C51_leave_out_rate_required; reflexivity|].
  rewrite C57_flag_after_any_fit; [reflexivity|reflexivity|right; discriminate|reflexivity].
Qed.

(** C59. *)
Theorem C59_only_base_zero :
  forall est meta fit_est predict_est fit_meta predict_meta solve G seed0 choice cpu wm r c g fs s0 X y coords given W q,
  let n := List.length X in
  let o := sfit est fit_est predict_est meta fit_meta predict_meta solve G seed0 choice cpu wm r c g fs s0 X y coords given in
  let s := so_state est meta G o in
  valid_choice choice -> one_per_row predict_est ->
  valid_runtime r n (patches cpu c) -> valid_rates c -> real_weights wm fs coords given (SDense W) -> rect W n n ->
  sc_use_numba c = false -> sc_estimator_rate c = Some q -> 0 < q <= 1 ->
  so_result est meta G o = Ok tt ->
  exists e0 rest ses, ss_base_list est meta s = Some (e0 :: rest) /\ ss_local_list est meta s = Some (LStacking est meta ses) /\
    List.length ses = n /\ forall se, In se ses -> se_bases est meta se = [e0].
Proof. intros est meta fe pe fm pm so G sd ch cpu wm; exact (estimator_rate_base_zero fe pe fm pm so sd ch cpu wm). Qed.
Print Assumptions C59_only_base_zero.

Theorem C59_ignored_for_sparse :
  forall est meta fit_est predict_est fit_meta predict_meta solve G seed0 choice cpu wm r c q g fs s0 X y coords given cw,
  let run c := sfit est fit_est predict_est meta fit_meta predict_meta solve G seed0 choice cpu wm r c g fs s0 X y coords given in
  real_weights wm fs coords given (SSparse cw) -> run (with_estimator_rate c q) = run c.
Proof. intros est meta fe pe fm pm so G sd ch cpu wm; exact (estimator_rate_ignored_sparse fe pe fm pm so sd ch cpu wm). Qed.
Print Assumptions C59_ignored_for_sparse.

Example C59_example : sc_estimator_rate (ex_c (Some 1) false) = Some 1 /\
  so_result R R nat (ex_sfit ex_r (ex_c (Some 1) false) 41%nat (fun _ => None) ex_s0 ex_X [1; 2; 4] None (Some (SDense ex_W))) = Ok tt.
Proof. split; [reflexivity|apply ex_run_rate]. Qed.

(** C85: the matrix passed by the caller afterwards. *)
Theorem C85_callers_weights_shrunk :
  forall est meta fit_est predict_est fit_meta predict_meta solve G seed0 choice cpu wm r c g fs s0 X y coords w W,
  let n := List.length X in
  let o := sfit est fit_est predict_est meta fit_meta predict_meta solve G seed0 choice cpu wm r c g fs s0 X y coords (Some w) in
  valid_choice choice -> valid_runtime r n (patches cpu c) -> valid_rates c -> holds_real w W n ->
  so_result est meta G o = Ok tt ->
  exists W' w', shrunk_weights (sc_meta_shrink c) W W' /\ holds_real w' W' n /\ so_weights est meta G o = Some w'.
Proof. intros est meta fe pe fm pm so G sd ch cpu wm; exact (shrink_overwrites fe pe fm pm so sd ch cpu wm). Qed.
Print Assumptions C85_callers_weights_shrunk.

(** Shrinking a row keeps its largest entries only, so the matrix really changes. *)
Example C85_example : shrunk_weights (Some 1) exW [[0; 3; 0; 0]; [0; 0; 0; 5]] /\ exW <> [[0; 3; 0; 0]; [0; 0; 0; 5]].
Proof.
  split; [apply exW_cut|]. unfold exW. intros H. injection H. intros. lra.
Qed.

(** C86: the two matrices of the model built from coordinates. *)
Theorem C86_matrices_of_the_model :
  forall est meta fit_est predict_est fit_meta predict_meta solve G seed0 choice cpu wm r c g fs s0 X y v w W,
  let n := List.length X in
  let o := sfit est fit_est predict_est meta fit_meta predict_meta solve G seed0 choice cpu wm r c g fs s0 X y (Some v) None in
  valid_choice choice -> valid_runtime r n (patches cpu c) -> valid_rates c ->
  snd (wm fs v v) = Ok w -> holds_real w W n -> so_result est meta G o = Ok tt ->
  exists W' w', shrunk_weights (sc_meta_shrink c) W W' /\ holds_real w' W' n /\
    ss_weight_matrix est meta (so_state est meta G o) = Some w' /\
    ss_neighbour_matrix est meta (so_state est meta G o) = Some (positive_w w).
Proof. intros est meta fe pe fm pm so G sd ch cpu wm; exact (attributes_disagree fe pe fm pm so sd ch cpu wm). Qed.
Print Assumptions C86_matrices_of_the_model.

Example C86_example : snd (ex_wm (fun _ => None) [] []) = Ok (SDense ex_W) /\
  so_result R R nat (ex_sfit ex_r (ex_c None false) 41%nat (fun _ => None) ex_s0 ex_X [1; 2; 4] (Some []) None) = Ok tt.
Proof. split; [reflexivity|]. exact (ex_run_coords 1 2 4). Qed.

(** C87. *)
Theorem C87_any_schedule_and_batches :
  forall est meta fit_est predict_est fit_meta predict_meta solve G seed0 choice cpu wm r r' c k g fs s0 X y coords given w W,
  let n := List.length X in
  let run r c := sfit est fit_est predict_est meta fit_meta predict_meta solve G seed0 choice cpu wm r c g fs s0 X y coords given in
  valid_choice choice ->
  valid_runtime r n (patches cpu c) -> (0 < k)%nat -> valid_runtime r' n (Some k) ->
  (sc_use_numba c = true -> r_garbage r = r_garbage r') -> valid_rates c ->
  real_weights wm fs coords given w -> holds_real w W n ->
  so_result est meta G (run r c) = Ok tt ->
  run r' (with_n_patches c k) = run r c.
Proof. intros est meta fe pe fm pm so G sd ch cpu wm; exact (any_schedule fe pe fm pm so sd ch cpu wm). Qed.
Print Assumptions C87_any_schedule_and_batches.

Example C87_example : valid_runtime ex_r 3 (patches 4 (ex_c None false)) /\ valid_runtime (Runtime [2; 1; 0] [0; 1; 2] [0; 1; 2] (repeat [true] 3) [0] 9)%nat 3 (Some 1%nat).
Proof.
  split; [apply ex_runtime|]. unfold valid_runtime, schedule; cbn. repeat split; try apply Permutation_refl.
  - exact (Permutation_rev [2; 1; 0]%nat).
  - intros k H. injection H as <-. apply Permutation_refl.
Qed.
