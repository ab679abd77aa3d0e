(** Fits with weights in another unit. *)
From Coq Require Import Lra Lia Permutation.
From Verif.Model Require Import Base Ext Csr Neighbour Distance WeightModel NumbaImpl Stacking.
From Verif.Spec Require Import KernelSpec NeighbourSpec WeightModelSpec RidgeSpec StackingSpec StackingTotalSpec UnitsSpec ScaleSpec.
From Verif.Proofs Require Import ListFacts SumFacts KernelFacts CsrFacts ShrinkFacts NeighbourFacts SampleFacts WeightModelFacts
  NeighbourProps WeightModelProps FitProps FitExamples StackingCsr StackingFacts StackingMeta StackingProps StackingClaims StackingExamples StackingTotal
  RidgeProps SolverExists RidgeChanges StackingUsual StackingUsualNumba StackingTotalExamples Units StackingUnits StackingUnitsExamples ScaleStacking ScaleProps.
Open Scope nat_scope.
Open Scope R_scope.

(** The weighted mean. *)
Lemma wmean_ratios : only_ratios wmean_fit wmean_predict.
Proof.
  intros i X y w e k Hk. unfold wmean_fit. rewrite !map_length. destruct (_ || _ || _)%bool; [discriminate|]. intros H. injection H as <-.
  eexists. split; [reflexivity|]. intros Z. unfold wmean_predict. f_equal. apply map_ext. intros _.
  assert (E1 : Rsum (map2 (fun a b => fin a * b) (map Fin (map (Rmult k) w)) y) = k * Rsum (map2 (fun a b => fin a * b) (map Fin w) y)).
  { revert y. induction w as [|a w IH]; intros [|b y]; try (unfold Rsum; cbn; lra). cbn [map map2]. rewrite !Rsum_cons, IH. cbn [fin]. ring. }
  assert (E2 : Rsum (map fin (map Fin (map (Rmult k) w))) = k * Rsum (map fin (map Fin w))).
  { clear. induction w as [|a w IH]; [unfold Rsum; cbn; lra|]. cbn [map]. rewrite !Rsum_cons, IH. cbn [fin]. ring. }
  rewrite E1, E2. unfold Rdiv. rewrite Rinv_mult. set (u := / Rsum _). set (v := Rsum _). field. lra.
Qed.

Definition sc_W : matrix R := [[1; 1; 0]; [1; 1; 1]; [0; 1; 1]].
Definition sc_ks : list R := [2; 1 / 3; 5].
Lemma sc_W_fW : mmap Fin sc_W = fW. Proof. reflexivity. Qed.
Lemma sc_scaled_rect : rect (mmap Fin (rows_scaled sc_ks sc_W)) 3 3. Proof. split; [reflexivity|repeat constructor]. Qed.
Definition sc_fit (w : weights) := fit_ex (cfg true None None None) [0; 1]%nat 0%nat no_fs s_init fX fy None (Some w).

(** ** Stacking *)
Lemma sl_ratios : only_ratios_real u_fit sl_predict.
Proof. intros i [|x X] y w e k Hk H; [discriminate|]. injection H as <-. exists (Rsum y). split; [reflexivity|]. auto. Qed.

Lemma sc_rect k : rect (all_scaled k ex_W) 3 3. Proof. split; [reflexivity|repeat constructor]. Qed.
Definition sc_csr (k : R) : csr R := csr_of_rows 3 (repeat [(0%nat, k); (1%nat, k); (2%nat, k)] 3).
Lemma sc_form k : 0 < k -> csr_form 0 (fun x => Reqb x 0) (all_scaled k ex_W) 3 (sc_csr k).
Proof.
  intros Hk. unfold csr_form, all_scaled, ex_W, mmap. cbn [map]. rewrite Rmult_1_r. cbn.
  assert (E : Reqb k 0 = false) by (unfold Reqb; destruct (Req_EM_T k 0); [lra|reflexivity]). rewrite !E. reflexivity.
Qed.
Lemma sc_holds k : 0 < k -> holds_real (SSparse (sc_csr k)) (all_scaled k ex_W) 3.
Proof. intros Hk. split; [apply sc_rect|]. right. exists (sc_csr k). split; [reflexivity|apply sc_form; exact Hk]. Qed.
Lemma sc_leave k alpha : 0 < k -> leave_outs 0%nat rot_choice (sl_c alpha) (all_scaled k ex_W) ex_L.
Proof.
  intros Hk. destruct (sl_leave alpha) as (q & o & g & g' & A & B & C). exists q, o, g, g'. split; [exact A|].
  split; [rewrite length_scale; exact B|]. rewrite sample_scale; [exact C|exact Hk| |exact B]. intros r Hr. discriminate Hr.
Qed.
Lemma sc_run k alpha y : 0 < k -> 0 < alpha -> length y = 3%nat ->
  so_result R R nat (sl_sfit ex_r (sl_c alpha) 41%nat (fun _ => None) ex_s0 ex_X y None (Some (SSparse (sc_csr k)))) = Ok tt.
Proof.
  intros Hk Ha Hy.
  apply (usual_numba_iff u_fit sl_predict u_fit_meta u_predict_meta solve_exact 0%nat rot_choice 4 ex_wm rot_choice_valid sl_data solve_exact_exact ex_r (sl_c alpha) 41%nat (fun _ => None) ex_s0 ex_X
    y None (Some (SSparse (sc_csr k))) (SSparse (sc_csr k)) (all_scaled k ex_W)).
  - apply (ex_runtime None true).
  - apply (ex_rates None true).
  - left. reflexivity.
  - apply sc_holds. exact Hk.
  - reflexivity.
  - exact Ha.
  - intros i j Hi Hj. rewrite mget_scale. apply Rmult_le_pos; [lra|apply ex_nonneg; auto].
  - split; [exists 1%nat; rewrite Hy; split; [split; [reflexivity|repeat constructor]|cbn; lia]|]. split; [intros q H; discriminate|]. split; [cbn; lia|]. split; [eexists; reflexivity|].
    exists ex_L, (all_scaled k ex_W). split; [apply sc_leave; exact Hk|]. split; [reflexivity|]. intros i Hi.
    rewrite base_training_scale, meta_points_scale by auto. apply sl_points. exact Hi.
Qed.

(** The target [0; 0; 1], weights [k] and penalty [k * alpha]. *)
Lemma sc_prediction k alpha : 0 < k -> 0 < alpha ->
  exists ps, ss_stacking_predict R R (so_state R R nat (sl_sfit ex_r (sl_c (k * alpha)) 41%nat (fun _ => None) ex_s0 ex_X [0; 0; 1] None (Some (SSparse (sc_csr k))))) = Some ps /\
    nth 0 ps 0 = 1 / 2 - 3 / 2 * (1 / (1 + 2 * alpha)).
Proof.
  intros Hk Ha. destruct (sl_prediction alpha 1 Ha) as (ps & P1 & P2).
  destruct (stacking_scale u_fit sl_predict u_fit_meta u_predict_meta solve_exact sl_row sl_rowwise sl_one sl_ratios k Hk 0%nat rot_choice 4 ex_wm ex_r ex_r (sl_c alpha) 41%nat 41%nat (fun _ => None) (fun _ => None) ex_s0 ex_s0 ex_X
    [0; 0; 1] None None (Some (SSparse ex_csr)) (Some (SSparse (sc_csr k))) (SSparse ex_csr) (SSparse (sc_csr k)) ex_W ex_W 0%nat) as (qs & qs' & Q1 & Q2 & _ & _ & Q3).
  - exact rot_choice_valid.
  - apply (ex_runtime None true).
  - apply (ex_runtime None true).
  - apply (ex_rates None true).
  - left. reflexivity.
  - split; [apply ex_rect|right; exists ex_csr; split; [reflexivity|apply ex_form]].
  - left. reflexivity.
  - left. reflexivity.
  - apply sc_holds. exact Hk.
  - left. reflexivity.
  - reflexivity.
  - cbn [sl_c with_alpha sc_use_numba ex_c sc_alpha]. split; [exact solve_exact_exact|]. split; [exact Ha|]. split; [exists 1%nat; split; [cbn; lia|split; [lia|cbn; lra]]|apply ex_nonneg].
  - apply sl_run; [exact Ha|reflexivity].
  - change (with_alpha (sl_c alpha) (k * sc_alpha (sl_c alpha))) with (sl_c (k * alpha)). apply sc_run; [exact Hk|nra|reflexivity].
  - cbn. lia.
  - cbn. lra.
  - change (with_alpha (sl_c alpha) (k * sc_alpha (sl_c alpha))) with (sl_c (k * alpha)) in Q2. exists qs'. split; [exact Q2|].
    rewrite P1 in Q1. injection Q1 as <-. rewrite Q3, P2. field. lra.
Qed.
