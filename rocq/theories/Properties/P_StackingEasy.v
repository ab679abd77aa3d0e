(** Property C162: the value of a stacked prediction when the neighbourhood is simple. *)
From Coq Require Import Lra.
From Verif.Model Require Import Base Ext Csr Neighbour Distance WeightModel NumbaImpl Stacking StackingPredict.
From Verif.Spec Require Import KernelSpec NeighbourSpec RidgeSpec StackingSpec StackingTotalSpec RidgeMetaSpec.
From Verif.Proofs Require Import NeighbourProps SolverExists StackingClaims StackingExamples StackingTotalExamples StackingUnitsExamples StackingEasy StackingEasyExamples.
Open Scope string_scope.
Open Scope nat_scope.
Open Scope R_scope.

(** C162: if all the neighbours of an observation have the target [k], its stacked
    prediction is [k], whatever the base learners predict. *)
Theorem C162_constant_neighbourhood :
  forall est meta fit_est predict_est fit_meta predict_meta solve G seed0 choice cpu wm r c g fs s0 X y coords given w W W' i k,
  let n := List.length X in
  let o := sfit est fit_est predict_est meta fit_meta predict_meta solve G seed0 choice cpu wm r c g fs s0 X y coords given in
  valid_choice choice -> one_per_row predict_est -> valid_runtime r n (patches cpu c) ->
  valid_rates c -> real_weights wm fs coords given w -> holds_real w W n ->
  (if sc_use_numba c then exact_solver solve else ridge_regression fit_meta predict_meta) -> 0 < sc_alpha c ->
  (sc_use_numba c = true -> forall u v, (u < n)%nat -> (v < n)%nat -> 0 <= mget 0 W u v) ->
  shrunk_weights (sc_meta_shrink c) W W' ->
  so_result est meta G o = Ok tt -> (i < n)%nat ->
  (exists t, (t < n)%nat /\ t <> i /\ 0 < mget 0 W' i t) ->
  (forall t, (t < n)%nat -> t <> i -> 0 < mget 0 W' i t -> nth t y 0 = k) ->
  exists ps, ss_stacking_predict est meta (so_state est meta G o) = Some ps /\ List.length ps = n /\ nth i ps 0 = k.
Proof. intros est meta fe pe fm pm so G sd ch cpu wm; exact (stacking_constant fe pe fm pm so sd ch cpu wm). Qed.
Print Assumptions C162_constant_neighbourhood.

(** C162: if all base learners agree at every observation ([h t] is their common
    prediction), the stacked prediction is the ridge regression of the neighbours' targets
    on that many copies of it. *)
Theorem C162_unanimous_learners :
  forall est meta fit_est predict_est fit_meta predict_meta solve G seed0 choice cpu wm (f : est -> list R -> R)
         r c g fs s0 X y coords given w W W' i,
  let n := List.length X in
  let o := sfit est fit_est predict_est meta fit_meta predict_meta solve G seed0 choice cpu wm r c g fs s0 X y coords given in
  valid_choice choice -> rowwise predict_est f -> valid_runtime r n (patches cpu c) ->
  valid_rates c -> real_weights wm fs coords given w -> holds_real w W n -> all_bases_used c w ->
  (if sc_use_numba c then exact_solver solve else ridge_regression fit_meta predict_meta) -> 0 < sc_alpha c ->
  (sc_use_numba c = true -> forall u v, (u < n)%nat -> (v < n)%nat -> 0 <= mget 0 W u v) ->
  shrunk_weights (sc_meta_shrink c) W W' ->
  so_result est meta G o = Ok tt -> (i < n)%nat -> 0 < mget 0 W' i i ->
  (exists t, (t < n)%nat /\ t <> i /\ 0 < mget 0 W' i t) ->
  exists L es ps, leave_outs seed0 choice c W L /\ ss_base_list est meta (so_state est meta G o) = Some es /\
    ss_stacking_predict est meta (so_state est meta G o) = Some ps /\ List.length es = n /\ List.length ps = n /\
    forall h, (forall e t, In e es -> (t < n)%nat -> f e (nth t X []) = h t) ->
    nth i ps 0 = ridge_of_copies (sc_alpha c) (List.length (meta_bases n L i)) (meta_points n W' i) (mget 0 W' i) h (fun t => nth t y 0) (h i).
Proof. intros est meta fe pe fm pm so G sd ch cpu wm f; exact (stacking_copies fe pe fm pm so sd ch cpu wm f). Qed.
Print Assumptions C162_unanimous_learners.

(** C162: relied on: base learners that are right at every observation give the right
    stacked prediction.  False: the penalty draws it to the weighted mean [mu] of the
    neighbours' targets, and it is right only where the target equals that mean. *)
Theorem C162_exact_learners_refuted :
  forall est meta fit_est predict_est fit_meta predict_meta solve G seed0 choice cpu wm (f : est -> list R -> R)
         r c g fs s0 X y coords given w W W' i es,
  let n := List.length X in
  let o := sfit est fit_est predict_est meta fit_meta predict_meta solve G seed0 choice cpu wm r c g fs s0 X y coords given in
  let mu := mean_over (meta_points n W' i) (mget 0 W' i) (fun t => nth t y 0) in
  valid_choice choice -> rowwise predict_est f -> valid_runtime r n (patches cpu c) ->
  valid_rates c -> real_weights wm fs coords given w -> holds_real w W n -> all_bases_used c w ->
  (if sc_use_numba c then exact_solver solve else ridge_regression fit_meta predict_meta) -> 0 < sc_alpha c ->
  (sc_use_numba c = true -> forall u v, (u < n)%nat -> (v < n)%nat -> 0 <= mget 0 W u v) ->
  shrunk_weights (sc_meta_shrink c) W W' ->
  so_result est meta G o = Ok tt -> (i < n)%nat -> 0 < mget 0 W' i i ->
  (exists t, (t < n)%nat /\ t <> i /\ 0 < mget 0 W' i t) ->
  ss_base_list est meta (so_state est meta G o) = Some es ->
  (forall e t, In e es -> (t < n)%nat -> f e (nth t X []) = nth t y 0) ->
  exists ps s, ss_stacking_predict est meta (so_state est meta G o) = Some ps /\ 0 <= s < 1 /\
    nth i ps 0 = mu + s * (nth i y 0 - mu) /\ (nth i ps 0 = nth i y 0 <-> nth i y 0 = mu).
Proof.
  intros est meta fe pe fm pm so G sd ch cpu wm f r c g fs s0 X y coords given w W W' i es n o mu H1 H2 H3 H4 H5 H6 H7 H8 H9 H10 H11 H12 H13 H14 H15 HE Hex.
  destruct (stacking_copies fe pe fm pm so sd ch cpu wm f r c g fs s0 X y coords given w W W' i H1 H2 H3 H4 H5 H6 H7 H8 H9 H10 H11 H12 H13 H14 H15) as (L & es' & ps & _ & B2 & B3 & _ & _ & B6).
  unfold o in HE. rewrite B2 in HE. injection HE as ->.
  destruct H15 as (t0 & T1 & T2 & T3).
  assert (HT : forall t, In t (meta_points n W' i) -> 0 < mget 0 W' i t) by (intros t Ht; apply StackingMeta.meta_points_in in Ht; apply Ht).
  destruct (copies_of_target (sc_alpha c) (length (meta_bases n L i)) (meta_points n W' i) (mget 0 W' i) (fun t => nth t y 0) (nth i y 0) H9 HT (meta_points_ne n W' i t0 T1 T2 T3)) as (s & S1 & S2 & S3).
  exists ps, s. split; [exact B3|]. split; [exact S1|]. specialize (B6 _ Hex). cbv beta in B6. fold n in B6.
  split; [etransitivity; [exact B6|exact S2]|].
  split; intros H; [apply S3; etransitivity; [symmetry; exact B6|exact H]|etransitivity; [exact B6|apply S3, H]].
Qed.
Print Assumptions C162_exact_learners_refuted.

(** C162: the same for new points: constant targets where the new point has positive
    weights, and unanimous base learners. *)
Theorem C162_new_points :
  forall est meta fit_est predict_est fit_meta predict_meta cpu wm (f : est -> list R -> R),
  rowwise predict_est f -> one_per_row predict_meta -> ridge_regression fit_meta predict_meta ->
  forall r c fs s0 X y v Xp vp W U fs1 fs2 s out i,
  let n := List.length X in
  let k := List.length Xp in
  wm fs v v = (fs1, Ok (SDense W)) -> wm fs1 v vp = (fs2, Ok (SDense U)) -> rect W n n -> rect U n k ->
  schedule n (r_second r) -> List.length (r_buffer r) = n -> (forall k', patches cpu c = Some k' -> schedule k' (r_base r)) ->
  0 < sc_alpha c ->
  spredict est fit_est predict_est meta fit_meta predict_meta cpu wm r c fs s0 X y v Xp vp = (s, fs2, Ok out) -> (i < k)%nat ->
  (exists t, (t < n)%nat /\ 0 < mget 0 U t i) ->
  (forall a, (forall t, (t < n)%nat -> 0 < mget 0 U t i -> nth t y 0 = a) -> nth i out [] = [Fin a]) /\
  exists es, ss_base_list est meta s = Some es /\ List.length es = n /\
    forall h x, (forall e t, In e es -> (t < n)%nat -> f e (nth t X []) = h t) -> (forall e, In e es -> f e (nth i Xp []) = x) ->
    let T := support n U i in
    nth i out [] = [Fin (ridge_of_copies (sc_alpha c) (List.length T) T (fun t => mget 0 U t i) h (fun t => nth t y 0) x)].
Proof. intros est meta fe pe fm pm cpu wm f H1 H2 H3; exact (new_easy fe pe fm pm cpu wm f H1 H2 H3). Qed.
Print Assumptions C162_new_points.

(** The target is the feature plus 5 and the learners know it; the stacked prediction
    of the first observation, whose target is 5, is 70/11. *)
Example C162_example : exists es ps,
  let o := off_sfit ex_r (sl_c 10) 41%nat (fun _ => None) ex_s0 ex_X [5; 6; 7] None (Some (SSparse ex_csr)) in
  so_result R R nat o = Ok tt /\ ss_base_list R R (so_state R R nat o) = Some es /\ ss_stacking_predict R R (so_state R R nat o) = Some ps /\
  (forall e t, In e es -> (t < 3)%nat -> ex_row e (nth t ex_X []) = nth t [5; 6; 7] 0) /\ nth 0 ps 0 = 70 / 11.
Proof.
  destruct off_prediction as (es & ps & A & B & C & D). exists es, ps. cbv zeta. split; [apply off_run; reflexivity|].
  split; [exact A|]. split; [exact B|]. split; [exact C|exact D].
Qed.
Example C162_example_hypotheses :
  valid_choice rot_choice /\ rowwise off_predict ex_row /\ valid_runtime ex_r 3 (patches 4 (sl_c 10)) /\ valid_rates (sl_c 10) /\
  holds_real (SSparse ex_csr) ex_W 3 /\ all_bases_used (sl_c 10) (SSparse ex_csr) /\ exact_solver solve_exact /\
  (forall u v, (u < 3)%nat -> (v < 3)%nat -> 0 <= mget 0 ex_W u v) /\ shrunk_weights (sc_meta_shrink (sl_c 10)) ex_W ex_W.
Proof.
  split; [exact rot_choice_valid|]. split; [exact off_rowwise|]. split; [apply (ex_runtime None true)|]. split; [apply (ex_rates None true)|].
  split; [split; [apply ex_rect|right; exists ex_csr; split; [reflexivity|apply ex_form]]|]. split; [left; reflexivity|].
  split; [exact solve_exact_exact|]. split; [exact ex_nonneg|reflexivity].
Qed.
(** A ridge regression exists, and predicts three new points with it. *)
Example C162_example_new_points :
  rowwise off_predict ex_row /\ one_per_row rr_predict /\ ridge_regression rr_fit rr_predict /\
  exists out, snd (rr_spredict ex_r (ex_c None false) (fun _ => None) rr_s0 ex_X [4; 4; 4] [] [[5]; [6]; [7]] []) = Ok out.
Proof. split; [exact off_rowwise|]. split; [exact rr_one|]. split; [exact rr_ridge|]. apply rr_run; reflexivity. Qed.
