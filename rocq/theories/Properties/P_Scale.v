(** Property C190: the unit of the weights. *)
From Coq Require Import Lra Lia Permutation.
From Verif.Model Require Import Base Ext Csr Neighbour Distance WeightModel NumbaImpl Stacking.
From Verif.Spec Require Import KernelSpec NeighbourSpec WeightModelSpec RidgeSpec StackingSpec UnitsSpec ScaleSpec.
From Verif.Proofs Require Import NeighbourProps SolverExists FitExamples StackingExamples StackingTotalExamples StackingUnits StackingUnitsExamples
  ScaleStacking ScaleProps ScaleExamples.
Open Scope string_scope.
Open Scope nat_scope.
Open Scope R_scope.

(** C190: for learners to which only the ratios of the sample weights matter, a fit
    whose weights are multiplied row by row by positive factors succeeds too, with
    the same predictions, residuals and score. *)
Theorem C190_fit :
  forall est fit_est predict_est, @only_ratios est fit_est predict_est ->
  forall G choice, @valid_choice G choice -> forall cpu, (0 < cpu)%nat ->
  forall wm wm' c order order' g g' fs fs' s0 s0' X y coords coords' given given' w w' W ks n,
  let o := fit est fit_est predict_est G choice cpu wm c order g fs s0 X y coords given in
  let o' := fit est fit_est predict_est G choice cpu wm' c order' g' fs' s0' X y coords' given' in
  List.length X = n -> in_force wm fs coords given w -> holds w (mmap Fin W) n ->
  List.length ks = n -> Forall (Rlt 0) ks -> in_force wm' fs' coords' given' w' -> holds w' (mmap Fin (rows_scaled ks W)) n ->
  sample_local_rate c = None -> schedule (num_tasks cpu c n) order -> schedule (num_tasks cpu c n) order' ->
  o_result est G o = Ok tt ->
  o_result est G o' = Ok tt /\
  local_predict_ est (o_state est G o') = local_predict_ est (o_state est G o) /\
  local_residual_ est (o_state est G o') = local_residual_ est (o_state est G o) /\
  llocv_score_ est (o_state est G o') = llocv_score_ est (o_state est G o).
Proof. intros est fe pe H G ch Hch cpu Hcpu; exact (fit_rows_scaled fe pe H ch Hch cpu Hcpu). Qed.
Print Assumptions C190_fit.

(** C190: relied on: the same of predict_by_weight.  False: the prediction of a new
    point is multiplied by the factor of its weights. *)
Theorem C190_predict_by_weight_refuted :
  forall est predict_est wm wm' c fs fs2 fs' fs2' s X v t es preds W ks m n,
  cache_data c = true -> cache_estimator c = true ->
  local_estimators est s = Some (map Some es) -> data_coords est s = Some t ->
  rect W m n -> (0 < m)%nat -> (0 < n)%nat -> List.length es = n -> List.length ks = m ->
  Forall2 (fun e p => predict_est e X = Ok p /\ List.length p = m) es preds ->
  wm fs v t = (fs2, Ok (WDense (mmap Fin W))) -> wm' fs' v t = (fs2', Ok (WDense (mmap Fin (rows_scaled ks W)))) ->
  exists out, List.length out = m /\
    predict_by_weight est predict_est wm c fs s X (Some v) None = (fs2, Ok (map Fin out)) /\
    predict_by_weight est predict_est wm' c fs' s X (Some v) None = (fs2', Ok (map Fin (map2 Rmult ks out))).
Proof. intros est pe; exact (pbw_rows_scaled pe 1 Nat.lt_0_1). Qed.
Print Assumptions C190_predict_by_weight_refuted.

(** C190: stacking: two fits, the second with all weights and the penalty [alpha]
    multiplied by the same positive factor, predict the same. *)
Theorem C190_stacking :
  forall est meta fit_est predict_est fit_meta predict_meta solve (f : est -> list R -> R),
  rowwise predict_est f -> (forall e x, exists p, predict_est e [x] = Ok p) -> only_ratios_real fit_est predict_est ->
  forall k, 0 < k -> forall G seed0 choice cpu wm r r' c g g' fs fs' s0 s0' X y coords coords' given given' w w' W W' i,
  let n := List.length X in
  let c' := with_alpha c (k * sc_alpha c) in
  let FIT := sfit est fit_est predict_est meta fit_meta predict_meta solve G seed0 choice cpu wm in
  let o := FIT r c g fs s0 X y coords given in
  let o' := FIT r' c' g' fs' s0' X y coords' given' in
  valid_choice choice -> valid_runtime r n (patches cpu c) -> valid_runtime r' n (patches cpu c) ->
  valid_rates c -> real_weights wm fs coords given w -> holds_real w W n -> all_bases_used c w ->
  real_weights wm fs' coords' given' w' -> holds_real w' (all_scaled k W) n -> all_bases_used c w' ->
  shrunk_weights (sc_meta_shrink c) W W' ->
  (if sc_use_numba c
   then exact_solver solve /\ 0 < sc_alpha c /\ (exists t, (t < n)%nat /\ t <> i /\ 0 < mget 0 W' i t) /\
        forall u v, (u < n)%nat -> (v < n)%nat -> 0 <= mget 0 W u v
   else penalty_in_weights fit_meta predict_meta k) ->
  so_result est meta G o = Ok tt -> so_result est meta G o' = Ok tt ->
  (i < n)%nat -> 0 < mget 0 W' i i ->
  exists ps ps', ss_stacking_predict est meta (so_state est meta G o) = Some ps /\
    ss_stacking_predict est meta (so_state est meta G o') = Some ps' /\ List.length ps = n /\ List.length ps' = n /\
    nth i ps' 0 = nth i ps 0.
Proof.
  intros est meta fe pe fm pm so f Hf Hp Hor k Hk G sd ch cpu wm; exact (stacking_scale fe pe fm pm so f Hf Hp Hor k Hk sd ch cpu wm).
Qed.
Print Assumptions C190_stacking.

(** C190: relied on: the same with the penalty left alone.  False: ten times the
    weights, the same penalty 10, another stacked prediction. *)
Theorem C190_same_penalty_refuted :
  only_ratios_real u_fit sl_predict /\
  let run k := sl_sfit ex_r (sl_c 10) 41%nat (fun _ => None) ex_s0 ex_X [0; 0; 1] None (Some (SSparse (sc_csr k))) in
  holds_real (SSparse (sc_csr 1)) (all_scaled 1 ex_W) 3 /\ holds_real (SSparse (sc_csr 10)) (all_scaled 10 ex_W) 3 /\
  so_result R R nat (run 1) = Ok tt /\ so_result R R nat (run 10) = Ok tt /\
  exists ps ps', ss_stacking_predict R R (so_state R R nat (run 1)) = Some ps /\
    ss_stacking_predict R R (so_state R R nat (run 10)) = Some ps' /\ nth 0 ps 0 = 3 / 7 /\ nth 0 ps' 0 = 0.
Proof.
  split; [exact sl_ratios|]. cbv zeta. split; [apply sc_holds; lra|]. split; [apply sc_holds; lra|].
  split; [apply sc_run; [lra|lra|reflexivity]|]. split; [apply sc_run; [lra|lra|reflexivity]|].
  destruct (sc_prediction 1 10) as (ps & P1 & P2); [lra|lra|]. destruct (sc_prediction 10 1) as (ps' & Q1 & Q2); [lra|lra|].
  replace (1 * 10) with 10 in P1 by ring. replace (10 * 1) with 10 in Q1 by ring.
  exists ps, ps'. split; [exact P1|]. split; [exact Q1|]. split; [rewrite P2|rewrite Q2]; field.
Qed.
Print Assumptions C190_same_penalty_refuted.

(** The weighted mean on three points, the rows multiplied by 2, 1/3 and 5. *)
Example C190_example : only_ratios wmean_fit wmean_predict /\ Forall (Rlt 0) sc_ks /\
  holds (WDense (mmap Fin sc_W)) (mmap Fin sc_W) 3 /\ holds (WDense (mmap Fin (rows_scaled sc_ks sc_W))) (mmap Fin (rows_scaled sc_ks sc_W)) 3 /\
  o_result R nat (sc_fit (WDense (mmap Fin sc_W))) = Ok tt /\ o_result R nat (sc_fit (WDense (mmap Fin (rows_scaled sc_ks sc_W)))) = Ok tt.
Proof.
  split; [exact wmean_ratios|]. split; [repeat constructor; lra|]. split; [split; [apply fW_rect|auto]|]. split; [split; [apply sc_scaled_rect|auto]|].
  assert (H : o_result R nat (sc_fit (WDense (mmap Fin sc_W))) = Ok tt) by (apply fit_ex_ok; [reflexivity|apply fW_holds|apply Permutation_refl]).
  split; [exact H|].
  refine (proj1 (C190_fit R wmean_fit wmean_predict wmean_ratios nat first_choice first_choice_valid 2 _ no_wm no_wm (cfg true None None None) [0; 1]%nat [0; 1]%nat 0%nat 0%nat no_fs no_fs s_init s_init fX fy None None
    _ _ (WDense (mmap Fin sc_W)) (WDense (mmap Fin (rows_scaled sc_ks sc_W))) sc_W sc_ks 3 eq_refl (or_introl eq_refl) _ eq_refl _ (or_introl eq_refl) _ eq_refl (Permutation_refl _) (Permutation_refl _) H)).
  - lia.
  - split; [apply fW_rect|auto].
  - repeat constructor; lra.
  - split; [apply sc_scaled_rect|auto].
Qed.

(** The stacking hypotheses are met by weights 10 and penalty 10 against weights 1
    and penalty 1. *)
Example C190_example_stacking : rowwise sl_predict sl_row /\ (forall e x, exists p, sl_predict e [x] = Ok p) /\ only_ratios_real u_fit sl_predict /\
  exact_solver solve_exact /\ all_bases_used (sl_c 1) (SSparse (sc_csr 10)) /\ valid_rates (sl_c 1) /\ valid_runtime ex_r 3 (patches 4 (sl_c 1)) /\
  so_result R R nat (sl_sfit ex_r (sl_c 1) 41%nat (fun _ => None) ex_s0 ex_X [0; 0; 1] None (Some (SSparse (sc_csr 1)))) = Ok tt /\
  so_result R R nat (sl_sfit ex_r (with_alpha (sl_c 1) (10 * sc_alpha (sl_c 1))) 41%nat (fun _ => None) ex_s0 ex_X [0; 0; 1] None (Some (SSparse (sc_csr 10)))) = Ok tt.
Proof.
  split; [exact sl_rowwise|]. split; [exact sl_one|]. split; [exact sl_ratios|]. split; [exact solve_exact_exact|]. split; [left; reflexivity|].
  split; [apply (ex_rates None true)|]. split; [apply (ex_runtime None true)|]. split; [apply sc_run; [lra|lra|reflexivity]|].
  apply (sc_run 10 (10 * 1)); [lra|lra|reflexivity].
Qed.
