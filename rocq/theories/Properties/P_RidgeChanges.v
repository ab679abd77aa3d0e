(** Properties C141 and C142: how ridge_cholesky responds to changes of its arguments. *)
From Coq Require Import Lra Lia Permutation.
From Verif.Model Require Import Base Ext NumbaImpl.
From Verif.Spec Require Import RidgeSpec.
From Verif.Proofs Require Import RidgeProps SolverExists RidgeChanges.
Open Scope nat_scope.
Open Scope R_scope.

(** C141 *)
Theorem C141_order_is_irrelevant :
  forall solve p, exact_solver solve -> forall alpha obs obs', weighted_sample p obs -> 0 < alpha -> Permutation obs obs' ->
  ridge_cholesky solve p (X_of obs') (y_of obs') alpha (w_of obs') = ridge_cholesky solve p (X_of obs) (y_of obs) alpha (w_of obs).
Proof. exact fit_reorder. Qed.
Print Assumptions C141_order_is_irrelevant.

Theorem C141_zero_weight_is_ignored :
  forall solve p, exact_solver solve -> forall alpha obs o, weighted_sample p obs -> 0 < alpha -> length (features o) = p -> weight o = 0 ->
  ridge_cholesky solve p (X_of (o :: obs)) (y_of (o :: obs)) alpha (w_of (o :: obs)) = ridge_cholesky solve p (X_of obs) (y_of obs) alpha (w_of obs).
Proof. exact fit_zero_weight. Qed.
Print Assumptions C141_zero_weight_is_ignored.

(** An observation of weight v + v' counts as two of weights v and v'. *)
Theorem C141_weights_count_repetitions :
  forall solve p, exact_solver solve -> forall alpha obs x t v v', let twice := Obs x t v :: Obs x t v' :: obs in let once := Obs x t (v + v') :: obs in
  weighted_sample p twice -> 0 < alpha ->
  ridge_cholesky solve p (X_of twice) (y_of twice) alpha (w_of twice) = ridge_cholesky solve p (X_of once) (y_of once) alpha (w_of once).
Proof. exact fit_merge. Qed.
Print Assumptions C141_weights_count_repetitions.

(** Only weights relative to alpha matter. *)
Theorem C141_scaled_weights_and_alpha :
  forall solve p, exact_solver solve -> forall alpha obs k, weighted_sample p obs -> 0 < alpha -> 0 < k ->
  ridge_cholesky solve p (X_of obs) (y_of obs) (k * alpha) (map (Rmult k) (w_of obs)) = ridge_cholesky solve p (X_of obs) (y_of obs) alpha (w_of obs).
Proof.
  intros solve p HS alpha obs k HO Ha Hk. change (ridge_cholesky solve p (X_of obs) (y_of obs) alpha (w_of obs)) with (fitO solve p alpha obs). rewrite <- (fit_scale_weights solve p HS alpha obs k HO Ha Hk).
  unfold fitO, X_of, y_of, w_of. rewrite !map_map. reflexivity.
Qed.
Print Assumptions C141_scaled_weights_and_alpha.

Theorem C141_affine_targets :
  forall solve p, exact_solver solve -> forall alpha obs a k c b, weighted_sample p obs -> 0 < alpha ->
  ridge_cholesky solve p (X_of obs) (y_of obs) alpha (w_of obs) = Ok (c, Fin b) ->
  ridge_cholesky solve p (X_of obs) (map (fun t => a * t + k) (y_of obs)) alpha (w_of obs) = Ok (map (Rmult a) c, Fin (a * b + k)).
Proof.
  intros solve p HS alpha obs a k c b HO Ha E.
  assert (E1 := fit_scale_target solve p HS alpha obs a c b HO Ha E).
  assert (HO1 : weighted_sample p (map (fun o => Obs (features o) (a * target o) (weight o)) obs)).
  { apply sample_map; [exact HO|]. intros o Ho. cbn. split; [apply HO; auto|exists 1; split; [lra|ring]]. }
  rewrite <- (fit_shift_target solve p HS alpha _ k _ _ HO1 Ha E1).
  unfold fitO, X_of, y_of, w_of. rewrite !map_map. reflexivity.
Qed.
Print Assumptions C141_affine_targets.

(** Moving every observation by [s] leaves the coefficients and the predictions at
    the moved points. *)
Theorem C141_moved_features :
  forall solve p, exact_solver solve -> forall alpha obs s c b, weighted_sample p obs -> 0 < alpha -> length s = p ->
  ridge_cholesky solve p (X_of obs) (y_of obs) alpha (w_of obs) = Ok (c, Fin b) ->
  exists b', ridge_cholesky solve p (map (fun x => map2 Rplus x s) (X_of obs)) (y_of obs) alpha (w_of obs) = Ok (c, Fin b') /\
    forall x, length x = p -> linear p c b' (map2 Rplus x s) = linear p c b x.
Proof.
  intros solve p HS alpha obs s c b HO Ha Hs E.
  assert (E1 := fit_move solve p HS alpha obs s c b HO Ha Hs E).
  exists (b - Rsum (map2 Rmult s c)). split.
  - rewrite <- E1. unfold fitO, X_of, y_of, w_of. rewrite !map_map. reflexivity.
  - intros x Hx. rewrite linear_move by auto.
    assert (L : length c = p) by (apply (fit_iff solve p HS alpha obs c b HO Ha) in E; apply E).
    rewrite (map2_sum Rmult s c p 0 0 Hs L). f_equal. unfold Sg. ring.
Qed.
Print Assumptions C141_moved_features.

(** Measuring a feature in another unit does change the predictions: here the second
    sample is the first with its feature doubled. *)
Theorem C141_other_units_refuted :
  forall solve, exact_solver solve -> exists c b c' b',
  X_of rs2 = map (map (Rmult 2)) (X_of rs1) /\ y_of rs2 = y_of rs1 /\ w_of rs2 = w_of rs1 /\
  ridge_cholesky solve 1 (X_of rs1) (y_of rs1) 2 (w_of rs1) = Ok (c, Fin b) /\
  ridge_cholesky solve 1 (X_of rs2) (y_of rs2) 2 (w_of rs2) = Ok (c', Fin b') /\
  linear 1 c' b' [2 * 0] <> linear 1 c b [0].
Proof.
  intros solve HS. exists [1 / 2], (1 / 2), [2 / 5], (1 / 5).
  split; [unfold X_of, rs1, rs2; cbn; repeat f_equal; lra|]. split; [reflexivity|]. split; [reflexivity|].
  split; [exact (rs1_fit solve HS)|]. split; [exact (rs2_fit solve HS)|]. unfold linear, tabulate, Rsum. cbn. lra.
Qed.
Print Assumptions C141_other_units_refuted.

(** Solvers and samples that meet the hypotheses exist. *)
Example C141_example : exact_solver solve_exact /\ weighted_sample 1 rs1 /\ weighted_sample 1 (Obs [7] 3 2 :: Obs [7] 3 0 :: rs2) /\
  ridge_cholesky solve_exact 1 (X_of rs1) (y_of rs1) 2 (w_of rs1) = Ok ([1 / 2], Fin (1 / 2)).
Proof.
  split; [exact solve_exact_exact|]. split; [exact rs1_sample|]. split; [|exact (rs1_fit _ solve_exact_exact)].
  split; [intros o [<-|[<-|[<-|[<-|[]]]]]; cbn; split; reflexivity || lra|]. exists (Obs [7] 3 2). cbn. split; [auto|lra].
Qed.

(** C142 *)
Theorem C142_stronger_penalty_shrinks :
  forall solve p, exact_solver solve -> forall alpha alpha' obs c b c' b', weighted_sample p obs -> 0 < alpha -> alpha < alpha' ->
  ridge_cholesky solve p (X_of obs) (y_of obs) alpha (w_of obs) = Ok (c, Fin b) ->
  ridge_cholesky solve p (X_of obs) (y_of obs) alpha' (w_of obs) = Ok (c', Fin b') ->
  size_of c' <= size_of c /\ weighted_error p obs c b <= weighted_error p obs c' b'.
Proof. exact fit_shrink. Qed.
Print Assumptions C142_stronger_penalty_shrinks.

Theorem C142_weighted_errors_cancel :
  forall solve p, exact_solver solve -> forall alpha obs c b, weighted_sample p obs -> 0 < alpha ->
  ridge_cholesky solve p (X_of obs) (y_of obs) alpha (w_of obs) = Ok (c, Fin b) ->
  Rsum (map (fun o => weight o * (target o - linear p c b (features o))) obs) = 0.
Proof. exact fit_mean. Qed.
Print Assumptions C142_weighted_errors_cancel.

Example C142_example : weighted_sample 1 rs1 /\ exists c b c' b',
  ridge_cholesky solve_exact 1 (X_of rs1) (y_of rs1) 2 (w_of rs1) = Ok (c, Fin b) /\
  ridge_cholesky solve_exact 1 (X_of rs1) (y_of rs1) 3 (w_of rs1) = Ok (c', Fin b').
Proof.
  split; [exact rs1_sample|]. exists [1 / 2], (1 / 2).
  destruct (fit_ok solve_exact 1 solve_exact_exact 3 rs1 rs1_sample ltac:(lra)) as (c' & b' & E). exists c', b'.
  split; [exact (rs1_fit _ solve_exact_exact)|exact E].
Qed.
