(** Properties C58 and C88: StackingWeightModel.predict_by_fit. *)
From Coq Require Import Lra.
From Verif.Model Require Import Base Ext Csr Neighbour Distance WeightModel NumbaImpl Stacking StackingPredict.
From Verif.Spec Require Import KernelSpec NeighbourSpec StackingSpec.
From Verif.Proofs Require Import ListFacts NeighbourProps StackingPredictProps StackingExamples.
Open Scope string_scope.
Open Scope nat_scope.
Open Scope R_scope.

(** C58: the base learners, and what each new point's meta model is fitted on and applied to. *)
Theorem C58_new_predictions :
  forall est meta fit_est predict_est fit_meta predict_meta cpu wm (f : est -> list R -> R),
  rowwise predict_est f ->
  forall r c fs s0 X y v Xp vp W U fs1 fs2 s out,
  let n := List.length X in
  let k := List.length Xp in
  wm fs v v = (fs1, Ok (SDense W)) -> wm fs1 v vp = (fs2, Ok (SDense U)) -> rect W n n -> rect U n k -> (0 < k)%nat ->
  schedule n (r_second r) -> List.length (r_buffer r) = n -> (forall k', patches cpu c = Some k' -> schedule k' (r_base r)) ->
  spredict est fit_est predict_est meta fit_meta predict_meta cpu wm r c fs s0 X y v Xp vp = (s, fs2, Ok out) ->
  exists es, ss_base_list est meta s = Some es /\ List.length es = n /\ List.length out = k /\
    (forall j e, nth_error es j = Some e -> plain_base fit_est (sc_leave_local_out c) X y n W j e) /\
    forall i, (i < k)%nat -> exists bases p,
      let T := support n U i in
      Forall2 (fun j e => nth_error es j = Some e) T bases /\ nth i out [] = map Fin p /\
      new_prediction fit_meta predict_meta f (sc_alpha c) X y T (map (fun t => mget 0 U t i) T) bases (nth i Xp []) p.
Proof. intros est meta fe pe fm pm cpu wm; exact (new_predictions fe pe fm pm cpu wm). Qed.
Print Assumptions C58_new_predictions.

(** Same features and same weights: same prediction, whatever else is in the batch. *)
Theorem C58_batch_independent :
  forall est meta fit_est predict_est fit_meta predict_meta cpu wm (f : est -> list R -> R),
  rowwise predict_est f ->
  forall r r' c fs fs' s0 s0' X y v Xp Xp' vp vp' W U U' fs1 fs1' fs2 fs2' s s' out out' i i',
  let n := List.length X in
  let run := spredict est fit_est predict_est meta fit_meta predict_meta cpu wm in
  wm fs v v = (fs1, Ok (SDense W)) -> wm fs1 v vp = (fs2, Ok (SDense U)) ->
  wm fs' v v = (fs1', Ok (SDense W)) -> wm fs1' v vp' = (fs2', Ok (SDense U')) ->
  rect W n n -> rect U n (List.length Xp) -> rect U' n (List.length Xp') ->
  schedule n (r_second r) -> List.length (r_buffer r) = n -> (forall k', patches cpu c = Some k' -> schedule k' (r_base r)) ->
  schedule n (r_second r') -> List.length (r_buffer r') = n -> (forall k', patches cpu c = Some k' -> schedule k' (r_base r')) ->
  run r c fs s0 X y v Xp vp = (s, fs2, Ok out) -> run r' c fs' s0' X y v Xp' vp' = (s', fs2', Ok out') ->
  (i < List.length Xp)%nat -> (i' < List.length Xp')%nat -> nth i Xp [] = nth i' Xp' [] ->
  (forall t, (t < n)%nat -> mget 0 U t i = mget 0 U' t i') ->
  nth i out [] = nth i' out' [].
Proof. intros est meta fe pe fm pm cpu wm; exact (new_batch_independent fe pe fm pm cpu wm). Qed.
Print Assumptions C58_batch_independent.

(** The numba setting and sparse weights always raise. *)
Theorem C58_numba_and_sparse_raise :
  forall est meta fit_est predict_est fit_meta predict_meta cpu wm r c fs s0 X y v Xp vp,
  sc_use_numba c = true \/ (exists fs1 w cu, wm fs v v = (fs1, w) /\ snd (wm fs1 v vp) = Ok (SSparse cu)) \/
  (exists fs1 cw, wm fs v v = (fs1, Ok (SSparse cw))) ->
  raises (snd (spredict est fit_est predict_est meta fit_meta predict_meta cpu wm r c fs s0 X y v Xp vp)).
Proof. intros est meta fe pe fm pm cpu wm; exact (predict_raises fe pe fm pm cpu wm). Qed.
Print Assumptions C58_numba_and_sparse_raise.

Theorem C58_any_schedule :
  forall est meta fit_est predict_est fit_meta predict_meta cpu wm r r' c fs s0 X y v Xp vp W U fs1 fs2,
  let n := List.length X in
  let run r := spredict est fit_est predict_est meta fit_meta predict_meta cpu wm r c fs s0 X y v Xp vp in
  wm fs v v = (fs1, Ok (SDense W)) -> wm fs1 v vp = (fs2, Ok (SDense U)) ->
  schedule n (r_second r) -> List.length (r_buffer r) = n -> schedule n (r_second r') -> List.length (r_buffer r') = n ->
  (forall k', patches cpu c = Some k' -> schedule k' (r_base r)) -> (forall k', patches cpu c = Some k' -> schedule k' (r_base r')) ->
  forall s out, run r = (s, fs2, Ok out) -> run r' = (s, fs2, Ok out).
Proof. intros est meta fe pe fm pm cpu wm; exact (predict_any_schedule fe pe fm pm cpu wm). Qed.
Print Assumptions C58_any_schedule.

(** Three training points, three new points, all weights 1, leave_local_out. *)
Example C58_example :
  let o := spredict R ex_fit ex_predict R ex_fit_meta ex_predict_meta 4 ex_wm ex_r (ex_c None false) (fun _ => None) ex_s0
             ex_X [1; 2; 4] [] [[5]; [6]; [7]] [] in
  rowwise ex_predict ex_row /\ ex_wm (fun _ => None) [] [] = (fun _ => None, Ok (SDense ex_W)) /\ rect ex_W 3 3 /\
  exists out, snd o = Ok out /\ List.length out = 3%nat.
Proof.
  cbv zeta. split; [intros e X p H; injection H as <-; reflexivity|]. split; [reflexivity|]. split; [apply ex_rect|].
  eexists. split; [|shelve].
  unfold spredict. change (check_X_y ex_X [1; 2; 4]) with (@Ok unit tt). cbv beta iota. unfold ex_wm. cbv beta iota.
  unfold predict_second, mmap, second_order_neighbour, second_order_dense. change (repeat (repeat 1 3) 3) with [[1;1;1];[1;1;1];[1;1;1]].
  cbn [map]. unfold positive at 1 2 3 4 5 6 7 8 9. 
  cbn -[Rplus Rmult Rminus Rdiv Rinv Rsum r2_score]. ex_finish. unfold r2_score. reflexivity.
  Unshelve. reflexivity.
Qed.

(** C88: what predict_by_fit does to the object. *)
Theorem C88_predict_replaces_the_model :
  forall est meta fit_est predict_est fit_meta predict_meta cpu wm r c fs s0 X y v Xp vp s fs2 out,
  spredict est fit_est predict_est meta fit_meta predict_meta cpu wm r c fs s0 X y v Xp vp = (s, fs2, Ok out) ->
  exists es ses, ss_base_list est meta s = Some es /\
    ss_local_list est meta s = Some (LStacking est meta ses) /\ List.length ses = List.length Xp /\ List.length out = List.length Xp /\
    ss_stacking_predict est meta s = ss_stacking_predict est meta s0 /\
    ss_llocv_stacking est meta s = ss_llocv_stacking est meta s0 /\
    ss_local_indices est meta s = ss_local_indices est meta s0 /\
    ss_cache_estimator est meta s = ss_cache_estimator est meta s0.
Proof. intros est meta fe pe fm pm cpu wm; exact (predict_replaces fe pe fm pm cpu wm). Qed.
Print Assumptions C88_predict_replaces_the_model.

Example C88_example : exists s fs2 out,
  spredict R ex_fit ex_predict R ex_fit_meta ex_predict_meta 4 ex_wm ex_r (ex_c None false) (fun _ => None) ex_s0
    ex_X [1; 2; 4] [] [[5]; [6]; [7]] [] = (s, fs2, Ok out).
Proof.
  pose proof C58_example as (_ & _ & _ & out & H & _).
  destruct (spredict _ _ _ _ _ _ _ _ _ _ _ _ _ _ _ _ _) as [[s fs2] o]. cbn in H. subst o. exists s, fs2, out. reflexivity.
Qed.
