(** Property C150: the unit and the origin of the target. *)
From Coq Require Import Lra.
From Verif.Model Require Import Base Ext Csr Neighbour Distance WeightModel.
From Verif.Spec Require Import KernelSpec NeighbourSpec WeightModelSpec UnitsSpec.
From Verif.Proofs Require Import NeighbourProps FitExamples Units UnitsExamples.
Open Scope string_scope.
Open Scope nat_scope.
Open Scope R_scope.

(** C150: a fit to the target in another unit succeeds too, predicts the same in
    that unit, and scores the same. *)
Theorem C150_fit :
  forall est fit_est predict_est a k, follows_units fit_est predict_est a k -> a <> 0 ->
  forall G choice, valid_choice choice -> forall cpu wm c order g fs s0 s0' X y coords given,
  let FIT := fit est fit_est predict_est G choice cpu wm in
  let o := FIT c order g fs s0 X y coords given in
  let o' := FIT c order g fs s0' X (map (in_units a k) y) coords given in
  o_result est G o = Ok tt ->
  o_result est G o' = Ok tt /\
  exists ps rs,
    local_predict_ est (o_state est G o) = Some ps /\ local_predict_ est (o_state est G o') = Some (map (in_units a k) ps) /\
    local_residual_ est (o_state est G o) = Some rs /\ local_residual_ est (o_state est G o') = Some (map (Rmult a) rs) /\
    llocv_score_ est (o_state est G o') = llocv_score_ est (o_state est G o).
Proof. intros est fe pe a k Hfu Ha G ch Hch cpu wm; exact (units_fit fe pe a k Hfu Ha ch Hch cpu wm). Qed.
Print Assumptions C150_fit.

(** New points predicted by local refits. *)
Theorem C150_predict_by_fit :
  forall est fit_est predict_est a k, follows_units fit_est predict_est a k -> a <> 0 ->
  forall G choice, valid_choice choice -> forall cpu wm c order g fs s0 s0' X y coords given order2 fs2 Z v W out,
  let FIT := fit est fit_est predict_est G choice cpu wm in
  let o := FIT c order g fs s0 X y coords given in
  let o' := FIT c order g fs s0' X (map (in_units a k) y) coords given in
  o_result est G o = Ok tt ->
  snd (predict_by_fit est fit_est predict_est cpu wm c order2 fs2 (o_state est G o) Z v W) = Ok out ->
  snd (predict_by_fit est fit_est predict_est cpu wm c order2 fs2 (o_state est G o') Z v W) = Ok (map (map (in_units a k)) out).
Proof. intros est fe pe a k Hfu Ha G ch Hch cpu wm; exact (units_pbf fe pe a k Hfu Ha ch Hch cpu wm). Qed.
Print Assumptions C150_predict_by_fit.

(** predict_by_weight moves the origin by the sum of the weights of the new point,
    not by one. *)
Theorem C150_predict_by_weight :
  forall est fit_est predict_est a k, follows_units fit_est predict_est a k -> a <> 0 ->
  forall G choice, valid_choice choice -> forall cpu wm c order g fs s0 s0' X y t given fs2 fs3 Z v es preds W m n,
  let FIT := fit est fit_est predict_est G choice cpu wm in
  let o := FIT c order g fs s0 X y (Some t) given in
  let o' := FIT c order g fs s0' X (map (in_units a k) y) (Some t) given in
  o_result est G o = Ok tt -> cache_data c = true -> cache_estimator c = true ->
  local_estimators est (o_state est G o) = Some (map Some es) -> List.length es = n -> (0 < n)%nat -> (0 < m)%nat ->
  Forall2 (fun e p => predict_est e Z = Ok p /\ List.length p = m) es preds ->
  wm fs2 v t = (fs3, Ok (WDense (mmap Fin W))) -> rect W m n ->
  exists q, List.length q = m /\
    predict_by_weight est predict_est wm c fs2 (o_state est G o) Z (Some v) None = (fs3, Ok (map Fin q)) /\
    predict_by_weight est predict_est wm c fs2 (o_state est G o') Z (Some v) None =
      (fs3, Ok (map Fin (tabulate m (fun i => a * nth i q 0 + k * Rsum (nth i W []))))).
Proof. intros est fe pe a k Hfu Ha G ch Hch cpu wm; exact (units_pbw fe pe a k Hfu Ha ch Hch cpu wm). Qed.
Print Assumptions C150_predict_by_weight.

(** The mean follows every unit; degrees Celsius to Fahrenheit on three points. *)
Example C150_example : (forall a k, follows_units mean_fit mean_predict a k) /\ (9 / 5 <> 0) /\ valid_choice first_choice /\
  o_result R nat (mfit (cfg true None None None) [1; 0]%nat 0%nat no_fs s_init fX [10; 20; 30] None (Some (WDense fW))) = Ok tt /\
  map (in_units (9 / 5) 32) [10; 20; 30] = [50; 68; 86].
Proof.
  split; [apply mean_follows|]. split; [lra|]. split; [apply first_choice_valid|]. split; [apply mfit_ok; [reflexivity|apply perm_swap]|].
  unfold in_units. cbn. repeat (f_equal; try lra).
Qed.
