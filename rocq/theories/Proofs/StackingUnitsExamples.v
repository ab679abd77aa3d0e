(** Concrete fits with the numba ridge: three observations, base learners that
    predict a multiple of the first feature. *)
From Coq Require Import Lra.
From Verif.Model Require Import Base Ext Csr Neighbour Distance WeightModel NumbaImpl Stacking.
From Verif.Spec Require Import KernelSpec NeighbourSpec WeightModelSpec RidgeSpec StackingSpec StackingTotalSpec UnitsSpec.
From Verif.Proofs Require Import ListFacts SumFacts KernelFacts CsrFacts ShrinkFacts NeighbourFacts SampleFacts WeightModelFacts
  NeighbourProps WeightModelProps StackingCsr StackingFacts StackingMeta StackingProps StackingClaims StackingExamples StackingTotal
  RidgeProps SolverExists RidgeChanges StackingUsual StackingUsualNumba StackingTotalExamples Units StackingUnits.
Open Scope nat_scope.
Open Scope R_scope.

Definition sl_row (e : R) (row : list R) : R := e * nth 0 row 0.
Definition sl_predict (e : R) (X : matrix R) : result (list R) := match X with [] => Raise ValueError | _ => Ok (map (sl_row e) X) end.
Definition sl_c (alpha : R) : sconfig := with_alpha (ex_c None true) alpha.
Notation sl_sfit := (sfit R u_fit sl_predict R u_fit_meta u_predict_meta solve_exact nat 0%nat rot_choice 4 ex_wm).

Lemma sl_data : needs_data u_fit sl_predict.
Proof.
  split; [discriminate|]. split; [intros i [|x X] y w H _ _; [congruence|eexists; reflexivity]|].
  split; [intros e [|x X]; split; [intros [p H]; discriminate|congruence|discriminate|intros _; eexists; reflexivity]|].
  intros e [|x X] p H; [discriminate|]. injection H as <-. cbn. rewrite map_length. reflexivity.
Qed.
Lemma sl_rowwise : rowwise sl_predict sl_row.
Proof. intros e [|x X] p H; [discriminate|injection H as <-; reflexivity]. Qed.
Lemma sl_one e x : exists p, sl_predict e [x] = Ok p. Proof. eexists. reflexivity. Qed.
Lemma sl_follows a : follows_units u_fit sl_predict a 0.
Proof.
  intros i [|x X] y w e H; [discriminate|]. injection H as <-. exists (a * Rsum y). split.
  - cbn. f_equal. replace (map (in_units a 0) y) with (map (fun t => a * t) y) by (apply map_ext; intros; unfold in_units; ring).
    rewrite Rsum_map_scal, map_id. reflexivity.
  - intros [|z Z] p Hp; [discriminate|]. injection Hp as <-. cbn. f_equal. rewrite map_map. f_equal; [unfold sl_row, in_units; ring|].
    apply map_ext. intros. unfold sl_row, in_units. ring.
Qed.
Lemma sl_leave alpha : leave_outs 0%nat rot_choice (sl_c alpha) ex_W ex_L.
Proof. exists (1 / 2), [0; 1; 2]%nat, 0%nat, 3%nat. split; [reflexivity|]. split; [apply Permutation_refl|apply ex_sampled]. Qed.
Lemma sl_points i : (i < 3)%nat -> base_training 3 ex_W ex_L i <> [] /\ meta_points 3 ex_W i <> [].
Proof.
  intros Hi. destruct i as [|[|[|i]]]; [| | |lia]; (split; [unfold base_training, ex_W, ex_L; cbn; rdec; cbn; discriminate|unfold meta_points, ex_W; cbn; rdec; cbn; discriminate]).
Qed.
Lemma ex_nonneg i k : (i < 3)%nat -> (k < 3)%nat -> 0 <= mget 0 ex_W i k.
Proof. intros Hi Hk. destruct i as [|[|[|i]]]; [| | |lia]; (destruct k as [|[|[|k]]]; [cbn; lra..|lia]). Qed.
Lemma sl_run alpha y : 0 < alpha -> length y = 3%nat ->
  so_result R R nat (sl_sfit ex_r (sl_c alpha) 41%nat (fun _ => None) ex_s0 ex_X y None (Some (SSparse ex_csr))) = Ok tt.
Proof.
  intros Ha Hy.
  apply (usual_numba_iff u_fit sl_predict u_fit_meta u_predict_meta solve_exact 0%nat rot_choice 4 ex_wm rot_choice_valid sl_data solve_exact_exact ex_r (sl_c alpha) 41%nat (fun _ => None) ex_s0 ex_X
    y None (Some (SSparse ex_csr)) (SSparse ex_csr) ex_W).
  - apply (ex_runtime None true).
  - apply (ex_rates None true).
  - left. reflexivity.
  - split; [apply ex_rect|right; exists ex_csr; split; [reflexivity|apply ex_form]].
  - reflexivity.
  - exact Ha.
  - apply ex_nonneg.
  - split; [exists 1%nat; rewrite Hy; split; [split; [reflexivity|repeat constructor]|cbn; lia]|]. split; [intros q H; discriminate|]. split; [cbn; lia|]. split; [eexists; reflexivity|].
    exists ex_L, ex_W. split; [apply sl_leave|]. split; [reflexivity|]. apply sl_points.
Qed.

(** The target [0; 0; t] with penalty [alpha]. *)
Lemma sl_ridge alpha t : 0 < alpha -> let q := t * t / (t * t + 2 * alpha) in
  fitO solve_exact 2 alpha [Obs [0; t] 0 1; Obs [0; 2 * t] t 1] = Ok ([0; q], Fin (t / 2 - 3 * t / 2 * q)).
Proof.
  intros Ha q. assert (Hd : t * t + 2 * alpha <> 0) by nra. apply fit_iff; [exact solve_exact_exact| |exact Ha|].
  - split; [intros o [<-|[<-|[]]]; cbn; (split; [reflexivity|lra])|exists (Obs [0; t] 0 1); cbn; split; [auto|lra]].
  - split; [reflexivity|]. intros c b. unfold objO, weighted_error, linear, tabulate, Rsum. cbn. set (u := nth 0 c 0). set (v := nth 1 c 0).
    set (b0 := t / 2 - 3 * t / 2 * q).
    assert (0 <= (t * (v - q) + (b - b0)) ^ 2) by apply pow2_ge_0. assert (0 <= (2 * t * (v - q) + (b - b0)) ^ 2) by apply pow2_ge_0.
    assert (0 <= alpha * (v - q) ^ 2) by (apply Rmult_le_pos; [lra|apply pow2_ge_0]). assert (0 <= alpha * u ^ 2) by (apply Rmult_le_pos; [lra|apply pow2_ge_0]).
    apply Rminus_le. match goal with |- ?e <= 0 => replace e with (- ((t * (v - q) + (b - b0)) ^ 2 + (2 * t * (v - q) + (b - b0)) ^ 2 + alpha * (v - q) ^ 2 + alpha * u ^ 2)) end; [lra|].
    unfold b0, q. field. exact Hd.
Qed.

Lemma sl_prediction alpha t : 0 < alpha ->
  exists ps, ss_stacking_predict R R (so_state R R nat (sl_sfit ex_r (sl_c alpha) 41%nat (fun _ => None) ex_s0 ex_X [0; 0; t] None (Some (SSparse ex_csr)))) = Some ps /\
    nth 0 ps 0 = t / 2 - 3 * t / 2 * (t * t / (t * t + 2 * alpha)).
Proof.
  intros Ha. assert (Hone : one_per_row sl_predict) by (destruct sl_data as (_ & _ & _ & H); exact H).
  destruct (sfit_stacked u_fit sl_predict u_fit_meta u_predict_meta solve_exact 0%nat rot_choice 4 ex_wm rot_choice_valid Hone ex_r (sl_c alpha) 41%nat (fun _ => None) ex_s0 ex_X [0; 0; t]
    None (Some (SSparse ex_csr)) (SSparse ex_csr) ex_W (ex_runtime None true) (ex_rates None true)) as (L & W1 & es & ps0 & qs & ps & ses & A1 & A2 & A3 & _ & _ & A4 & _).
  - left. reflexivity.
  - split; [apply ex_rect|right; exists ex_csr; split; [reflexivity|apply ex_form]].
  - intros _. apply ex_nonneg.
  - apply sl_run; auto.
  - exists ps. split; [exact A4|]. rewrite (leave_outs_unique 0%nat rot_choice (sl_c alpha) ex_W L ex_L A1 (sl_leave alpha)) in *.
    assert (E2 : W1 = ex_W) by (apply (shrunk_unique None ex_W W1 ex_W); [exact A2|reflexivity]). subst W1.
    destruct (stacked_entries u_fit sl_predict u_fit_meta u_predict_meta solve_exact sl_row _ _ _ _ _ _ _ _ _ _ _ _ _ _ 0%nat sl_rowwise A3 (or_introl eq_refl) ltac:(cbn; lia) eq_refl ltac:(cbn; lra))
      as (m & bases & _ & F & M).
    destruct A3 as [_ Hb _].
    change (meta_bases (length ex_X) ex_L 0) with [0%nat; 1%nat] in F.
    inversion F as [|? e0 ? bs H0 F']; subst. inversion F' as [|? e1 ? bs' H1 F'']; subst. inversion F''; subst.
    destruct (Hb _ _ H0) as (B0 & _). destruct (Hb _ _ H1) as (B1 & _).
    assert (T0 : base_training (length ex_X) ex_W ex_L 0 = [1%nat]) by (unfold base_training, ex_W, ex_L; cbn; rdec; reflexivity).
    assert (T1 : base_training (length ex_X) ex_W ex_L 1 = [2%nat]) by (unfold base_training, ex_W, ex_L; cbn; rdec; reflexivity).
    unfold base_learner in B0, B1. cbv zeta in B0, B1. rewrite T0 in B0. rewrite T1 in B1. cbn [map u_fit] in B0, B1. injection B0 as B0. injection B1 as B1. subst.
    assert (TM : meta_points (length ex_X) ex_W 0 = [1%nat; 2%nat]) by (unfold meta_points, ex_W; cbn; rdec; reflexivity).
    cbv zeta in M. rewrite TM in M. cbn [sl_c with_alpha sc_use_numba sc_alpha ex_c meta_fitted] in M. destruct M as (co & b & R1 & _ & ->).
    assert (R2 := sl_ridge alpha t Ha). cbv zeta in R2.
    match type of R1 with ridge_cholesky _ ?p ?A ?B _ ?D = _ =>
      change p with 2%nat in R1; change B with [0; t] in R1; change D with [1; 1] in R1;
      replace A with [[0; t]; [0; 2 * t]] in R1 by (unfold sl_row, Rsum; cbn; repeat (f_equal; try ring)) end.
    unfold fitO in R2. change (ridge_cholesky solve_exact 2 [[0; t]; [0; 2 * t]] [0; t] alpha [1; 1] =
      Ok ([0; t * t / (t * t + 2 * alpha)], Fin (t / 2 - 3 * t / 2 * (t * t / (t * t + 2 * alpha))))) in R2.
    rewrite R2 in R1. injection R1 as <- <-. unfold dot, sl_row, Rsum. cbn. ring.
Qed.
