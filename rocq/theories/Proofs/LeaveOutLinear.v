(** Least squares with and without the location itself; one model for all. *)
From Coq Require Import Lra Lia Psatz Sorting.Sorted.
From Verif.Model Require Import Base Ext Csr Neighbour Distance WeightModel.
From Verif.Spec Require Import KernelSpec NeighbourSpec WeightModelSpec LinearSpec FeatureUnitsSpec LeaveOutSpec.
From Verif.Proofs Require Import ListFacts SumFacts KernelFacts CsrFacts NeighbourProps WeightModelFacts WeightModelProps FitProps FitExamples LinearProps LinearPredict LinearExamples FeatureUnits LeaveOutProps.
Open Scope string_scope.
Open Scope nat_scope.
Open Scope R_scope.

Lemma penalised_linear b0 b X y w : penalised_error 0 (linear b0 b) X y w = weighted_sse X y w b0 b.
Proof. unfold penalised_error, weighted_sse. lra. Qed.

Lemma least_squares_minimises {est} p fit_est predict_est (intercept : est -> R) coef : least_squares p fit_est predict_est intercept coef ->
  error_minimiser p (fun h => length (snd h) = p) (fun h => linear (fst h) (snd h)) (fun _ => 0) (fun e => (intercept e, coef e)) fit_est predict_est.
Proof.
  intros [H1 H2]. split; [|exact H2]. intros i X y w e HX Hy Hw HP HF.
  assert (HP0 : Forall (Rle 0) w) by (eapply Forall_impl; [|exact HP]; intros a Ha; lra).
  destruct (H1 i X y w e HX Hy Hw HP0 HF) as [HL HM]. split; [exact HL|]. intros [c0 c] Hc. cbn [fst snd] in *. rewrite !penalised_linear. auto.
Qed.

(** ** One model for all observations *)
Theorem in_sample_score {est hyp} p admissible (value : hyp -> list R -> R) (chosen : est -> hyp) fit_est predict_est :
  error_minimiser p admissible value (fun _ => 0) chosen fit_est predict_est ->
  forall G choice cpu wm c order g fs s0 X y coords given w W N omega k e predictions score score',
  valid_choice choice -> (0 < cpu)%nat -> rect X N p ->
  (forall i, (i < N)%nat -> 0 < omega i) -> (forall i j, (i < N)%nat -> (j < N)%nat -> mget (Fin 0) W i j = Fin (omega i)) ->
  in_force wm fs coords given w -> holds w W N -> schedule (num_tasks cpu c (num_locations c N)) order ->
  leave_local_out c = true -> sample_local_rate c = None ->
  let o := fit est fit_est predict_est G choice cpu wm c order g fs s0 X y coords given in
  o_result est G o = Ok tt -> llocv_score_ est (o_state est G o) = Some (Fin score) ->
  fit_est k X y (repeat (Fin 1) N) = Ok e -> predict_est e X = Ok predictions -> r2_score y predictions = Ok (Fin score') ->
  score <= score'.
Proof.
  intros HE G choice cpu wm c order g fs s0 X y coords given w W N omega m e qs score score' Hch Hcpu HX Hom HWe Hf Hh HS HLO HSR o Ho Hsc He Hq Hr.
  assert (HL : length X = N) by apply HX.
  assert (HW : nonnegative_weights W N) by (intros i j Hi Hj; exists (omega i); split; [apply HWe; auto|left; apply Hom; auto]).
  assert (Hal : aligned c w) by (right; left; exact HSR).
  destruct (fit_results est fit_est predict_est G choice cpu wm c order g fs s0 X y coords given w W N Hch Hcpu HL Hf Hh HS Ho)
    as (l & es & ps & sc & Hy & H1 & H2 & H3 & H4 & H5 & H6 & H7 & H8 & H9 & H10 & _ & _ & H13 & _ & _ & _).
  destruct (fit_aligned est fit_est predict_est G choice cpu wm c order g fs s0 X y coords given w W N Hch Hcpu HL Hf Hh HS Hal Ho)
    as (l' & es' & ps' & ys & rs & A1 & _ & A3 & _ & _ & _ & _ & _ & _ & _ & _ & _ & AK).
  rewrite H1 in A1. injection A1 as <-. rewrite H3 in A3. injection A3 as <-.
  unfold o in Hsc. rewrite H6 in Hsc. injection Hsc as ->.
  assert (El : l = seq 0 N) by (apply sorted_all; auto; rewrite H10; unfold num_locations; rewrite HSR; reflexivity). subst l.
  assert (Ey : take 0 y (seq 0 N) = y).
  { apply (list_eq_nth 0); unfold take; [rewrite map_length, seq_length; auto|]. intros k Hk. rewrite map_length, seq_length in Hk.
    rewrite (nth_map_in _ _ _ 0%nat) by (rewrite seq_length; auto). rewrite seq_nth by auto. reflexivity. }
  rewrite Ey in H7. rewrite (proj2 HE) in Hq. injection Hq as <-.
  assert (HP1 : Forall (Rlt 0) (repeat 1 N)) by (apply Forall_forall; intros a Ha; apply repeat_spec in Ha; lra).
  assert (EF : repeat (Fin 1) N = map Fin (repeat 1 N)) by (clear; induction N; simpl; congruence).
  rewrite EF in He. apply (proj1 HE) in He; [|apply HX|lia|rewrite repeat_length; auto|exact HP1]. destruct He as [HA0 HM0].
  assert (EL : forall f, penalised_error 0 f X y (repeat 1 N) = Rsum (map (fun j => (nth j y 0 - f (nth j X [])) ^ 2) (seq 0 N))).
  { intros f. unfold penalised_error, tabulate. rewrite HL, Rplus_0_l. apply Rsum_map_ext. intros j Hj. apply in_seq in Hj.
    rewrite (nth_indep _ 0 1) by (rewrite repeat_length; lia). rewrite nth_repeat. lra. }
  apply (r2_monotone y ps (map (value (chosen e)) X)); auto; [rewrite map_length, H13, seq_length; lia|]. intros i Hi. rewrite Hy in Hi.
  rewrite seq_length in AK. destruct (AK i Hi) as (_ & _ & ei & HMi & HPi & _). rewrite seq_nth in HMi, HPi by auto. cbn [plus] in HMi, HPi.
  rewrite (nth_map_in _ _ _ []) by lia. rewrite (proj2 HE) in HPi. cbn [map] in HPi. injection HPi as <-.
  rewrite HLO in HMi. destruct (local_minimum p admissible value (fun _ => 0) chosen fit_est predict_est HE true X y W N i ei HX HW Hi HMi) as [HAi Hmin].
  specialize (Hmin _ HA0). specialize (HM0 _ HAi). cbv beta zeta in Hmin, HM0. rewrite !EL in HM0.
  assert (ET : forall g0 : nat -> R, Rsum (map (fun j => wt W i j * g0 j) (training_set true W N i)) = omega i * (Rsum (map g0 (seq 0 N)) - g0 i)).
  { intros g0. unfold training_set. rewrite Rsum_filter. rewrite <- (Rsum_only i g0 (seq 0 N)) by (try apply seq_NoDup; apply in_seq; lia).
    rewrite <- Rsum_map_minus, <- Rsum_map_scal. apply Rsum_map_ext. intros j Hj. apply in_seq in Hj. unfold used_weight, wt. cbn [andb].
    rewrite HWe by lia. destruct (Nat.eqb_spec i j) as [<-|].
    - unfold eis_zero. rdec; cbn [negb]; lra.
    - pose proof (Hom i Hi). unfold eis_zero. rdec; cbn [negb]; lra. }
  rewrite !ET in Hmin. pose proof (Hom i Hi) as Hoi.
  assert (HD : Rsum (map (fun j => (nth j y 0 - value (chosen ei) (nth j X [])) ^ 2) (seq 0 N)) - (nth i y 0 - value (chosen ei) (nth i X [])) ^ 2
    <= Rsum (map (fun j => (nth j y 0 - value (chosen e) (nth j X [])) ^ 2) (seq 0 N)) - (nth i y 0 - value (chosen e) (nth i X [])) ^ 2)
    by (apply (Rmult_le_reg_l (omega i)); lra).
  lra.
Qed.

(** ** Saturated local models *)
Theorem saturated_score {est} p fit_est predict_est (intercept : est -> R) coef : least_squares p fit_est predict_est intercept coef ->
  forall G choice cpu wm c order g fs s0 X y coords given w W N,
  valid_choice choice -> (0 < cpu)%nat -> rect X N p -> nonnegative_weights W N ->
  in_force wm fs coords given w -> holds w W N -> schedule (num_tasks cpu c (num_locations c N)) order -> aligned c w ->
  leave_local_out c = false ->
  (forall i, (i < N)%nat -> In i (training_set false W N i) /\ interpolable p (map (fun j => nth j X []) (training_set false W N i))) ->
  let o := fit est fit_est predict_est G choice cpu wm c order g fs s0 X y coords given in
  o_result est G o = Ok tt ->
  local_predict_ est (o_state est G o) = y_sample_ est (o_state est G o) /\ llocv_score_ est (o_state est G o) = Some (Fin 1).
Proof.
  intros HLS G choice cpu wm c order g fs s0 X y coords given w W N Hch Hcpu HX HW Hf Hh HS Hal HLO HI o Ho.
  assert (HL : length X = N) by apply HX.
  destruct (fit_results est fit_est predict_est G choice cpu wm c order g fs s0 X y coords given w W N Hch Hcpu HL Hf Hh HS Ho)
    as (l & es & ps & sc & Hy & H1 & H2 & H3 & H4 & H5 & H6 & H7 & H8 & H9 & H10 & _ & _ & H13 & H14 & _ & _).
  destruct (fit_aligned est fit_est predict_est G choice cpu wm c order g fs s0 X y coords given w W N Hch Hcpu HL Hf Hh HS Hal Ho)
    as (l' & es' & ps' & ys & rs & A1 & _ & A3 & A4 & _ & _ & AN & _ & _ & _ & Ly & _ & AK).
  rewrite H1 in A1. injection A1 as <-. rewrite H3 in A3. injection A3 as <-.
  assert (E : ps = ys).
  { apply (list_eq_nth 0); [lia|]. intros k Hk. rewrite H13 in Hk. destruct (AK k Hk) as (Ek & _ & e & HM & HP & _). rewrite Ek.
    set (i := nth k l 0%nat) in *. assert (Hi : (i < N)%nat) by (apply AN; apply nth_In; auto). destruct (HI i Hi) as [Hin Hint].
    rewrite (proj2 HLS) in HP. cbn [map] in HP. injection HP as <-. rewrite HLO in HM.
    apply least_squares_minimises in HLS. destruct (local_minimum _ _ _ _ _ _ _ HLS false X y W N i e HX HW Hi HM) as [HA Hmin].
    set (T := training_set false W N i) in *.
    destruct (Hint (map (fun j => nth j y 0) T)) as (b0 & b & Hb & HB); [rewrite !map_length; reflexivity|].
    specialize (Hmin (b0, b) Hb). cbn [fst snd] in Hmin. cbv beta zeta in Hmin.
    assert (HT : forall j, In j T -> linear b0 b (nth j X []) = nth j y 0).
    { intros j Hj. apply (In_nth _ _ 0%nat) in Hj as (q & Hq & <-). specialize (HB q). rewrite map_length in HB. specialize (HB Hq).
      rewrite !(nth_map_in _ _ _ 0%nat) in HB by auto. exact HB. }
    assert (HZ : Rsum (map (fun j => wt W i j * (nth j y 0 - linear b0 b (nth j X [])) ^ 2) T) = 0).
    { apply Rsum_zero. intros z Hz. apply in_map_iff in Hz as (j & <- & Hj). rewrite HT by auto. ring. }
    assert (HN : forall z, In z (map (fun j => wt W i j * (nth j y 0 - linear (intercept e) (coef e) (nth j X [])) ^ 2) T) -> 0 <= z).
    { intros z Hz. apply in_map_iff in Hz as (j & <- & Hj). apply Rmult_le_pos; [left; apply (used_positive false W N HW i j Hi Hj)|apply pow2_ge_0]. }
    pose proof (Rsum_nonneg _ HN) as HN0.
    assert (H0 : wt W i i * (nth i y 0 - linear (intercept e) (coef e) (nth i X [])) ^ 2 = 0).
    { refine (Rsum_zero_elem _ _ HN _ _); [lra|]. apply in_map_iff. exists i. auto. }
    destruct (used_positive false W N HW i i Hi Hin) as [_ Hw0]. apply Rmult_integral in H0 as [H0|H0]; [lra|]. nra. }
  unfold o. split; [rewrite H3, A4, E; reflexivity|]. rewrite H6. rewrite H4 in A4. injection A4 as A4. rewrite A4, E in H7. unfold r2_score in H7. rewrite Nat.eqb_refl in H7. cbn [negb] in H7.
  destruct ys as [|u [|u' ys]]; [discriminate H7|subst ps; exfalso; apply H14; reflexivity|]. cbv zeta in H7. rewrite (sse_same (u :: u' :: ys) (u :: u' :: ys) eq_refl) in H7. injection H7 as <-.
  f_equal. f_equal. unfold Reqb. destruct (Req_EM_T 0 0) as [_|]; [|congruence].
  match goal with |- context [Req_EM_T ?d 0] => destruct (Req_EM_T d 0) as [|Hd] end; [reflexivity|]. field. exact Hd.
Qed.

(** ** Examples *)
Lemma lW_training_keep i : (i < 3)%nat -> training_set false lW 3 i = [0; 1; 2]%nat.
Proof. intros Hi. apply lt3 in Hi as [-> | [-> | ->]]; unfold training_set, used_weight, mget, lW, eis_zero; cbn [seq filter Nat.eqb andb nth]; rdec; reflexivity. Qed.

Lemma three_ones_ok {est} (fe : nat -> matrix R -> list R -> list ext -> result est) pe lo y : length y = 3%nat ->
  (forall i, (i < 3)%nat -> exists e q, local_model fe fX y lo lW 3 i e /\ pe e [nth i fX []] = Ok [q]) ->
  o_result est nat (fit est fe pe nat first_choice 2 no_wm (with_leave_out lcfg lo) [1; 0]%nat 0%nat no_fs (init_state est) fX y None (Some (WDense lW))) = Ok tt.
Proof.
  intros Hy HM. apply (fit_succeeds est fe pe nat first_choice 2 no_wm _ _ _ _ _ _ _ _ _ (WDense lW) lW 3 first_choice_valid); auto.
  - left. reflexivity.
  - apply lW_holds.
  - apply perm_swap.
  - left. reflexivity.
  - split; [apply fX_data; auto|]. split; [exact I|]. split; [intros r Hr; discriminate Hr|]. split; [cbv [num_locations sample_local_rate lcfg cfg with_leave_out]; lia|].
    intros i Hi. cbv [drawn sample_local_rate lcfg cfg with_leave_out] in Hi. cbn [leave_local_out with_leave_out]. apply HM. simpl in Hi. lia.
Qed.

(** The sum of the weighted targets, not divided by the sum of the weights. *)
Definition wsum_fit (c : nat) (X : matrix R) (y : list R) (w : list ext) : result R := Ok (Rsum (map2 (fun a b => fin a * b) w y)).
Definition sum_y : list R := [1; 1; 2].
Definition sum_fit (lo : bool) := fit R wsum_fit wmean_predict nat first_choice 2 no_wm (with_leave_out lcfg lo) [1; 0]%nat 0%nat no_fs (init_state R) fX sum_y None (Some (WDense lW)).

Lemma sum_score lo : o_result R nat (sum_fit lo) = Ok tt /\ llocv_score_ R (o_state R nat (sum_fit lo)) = Some (Fin (if lo then - 11 else - 32)).
Proof.
  assert (HO : o_result R nat (sum_fit lo) = Ok tt).
  { apply three_ones_ok; [reflexivity|]. intros i _. eexists _, _. split; reflexivity. }
  split; [exact HO|].
  assert (HI : in_force no_wm no_fs None (Some (WDense lW)) (WDense lW)) by (left; reflexivity).
  assert (HS : schedule (num_tasks 2 (with_leave_out lcfg lo) (num_locations (with_leave_out lcfg lo) 3)) [1; 0]%nat) by apply perm_swap.
  assert (HA : aligned (with_leave_out lcfg lo) (WDense lW)) by (left; reflexivity).
  destruct (fit_aligned R wsum_fit wmean_predict nat first_choice 2 no_wm (with_leave_out lcfg lo) [1; 0]%nat 0%nat no_fs (init_state R) fX sum_y None (Some (WDense lW)) (WDense lW) lW 3
     first_choice_valid ltac:(lia) eq_refl HI lW_holds HS HA HO)
    as (locs & es & ps & ys & rs & HLo & HE & HP & HY & HR & HSo & HB & HN & Le & Lp & Ly & Lr & HK).
  destruct (fit_score R wsum_fit wmean_predict nat first_choice 2 no_wm (with_leave_out lcfg lo) [1; 0]%nat 0%nat no_fs (init_state R) fX sum_y None (Some (WDense lW)) (WDense lW) lW 3
     first_choice_valid ltac:(lia) eq_refl HI lW_holds HS HO)
    as (ys' & ps' & score & HY' & HP' & HLen & HL2 & HSc & HS1 & _).
  rewrite HY in HY'. rewrite HP in HP'. injection HY' as <-. injection HP' as <-.
  assert (El : locs = seq 0 3) by (apply sorted_all; auto). subst locs. cbn [seq length] in *.
  assert (Eys : ys = sum_y).
  { apply (list_eq_nth 0); [exact Ly|]. intros k Hk. rewrite Ly in Hk. destruct (HK k Hk) as (-> & _). apply lt3 in Hk as [-> | [-> | ->]]; reflexivity. }
  destruct lW_training as (T0 & T1 & T2).
  assert (Eps : ps = if lo then [3; 3; 2] else [4; 4; 4]).
  { apply (list_eq_nth 0); [rewrite Lp; destruct lo; reflexivity|]. intros k Hk. rewrite Lp in Hk. destruct (HK k Hk) as (_ & _ & e & HM & HO' & _).
    unfold local_model in HM. apply lt3 in Hk as [-> | [-> | ->]]; cbn [nth] in *; cbn [lcfg cfg leave_local_out with_leave_out] in HM; destruct lo;
    rewrite ?T0, ?T1, ?T2, ?lW_training_keep in HM by lia; unfold wsum_fit, used_weight, mget, lW, sum_y, Rsum in HM; cbn in HM;
    injection HM as <-; unfold wmean_predict in HO'; cbn in HO'; injection HO' as HO'; rewrite <- HO'; cbn; lra. }
  unfold sum_fit. rewrite HSc. f_equal. f_equal. rewrite Eys, Eps in HS1. unfold sum_y, Rsum in HS1. destruct lo; cbn in HS1; rewrite HS1 by lra; field.
Qed.

(** Regression lines through two neighbours each, the location among them. *)
Definition sW : matrix ext := [[Fin 1; Fin 1; Fin 0]; [Fin 1; Fin 1; Fin 0]; [Fin 0; Fin 1; Fin 1]].
Lemma sW_training : training_set false sW 3 0 = [0; 1]%nat /\ training_set false sW 3 1 = [0; 1]%nat /\ training_set false sW 3 2 = [1; 2]%nat.
Proof. unfold training_set, used_weight, mget, sW, eis_zero. cbn [seq filter Nat.eqb andb nth]. rdec. cbn [negb]. auto. Qed.
Lemma two_interpolable a b : a <> b -> interpolable 1 [[a]; [b]].
Proof.
  intros H [|s [|t [|? ?]]] HT; try discriminate HT. exists (s - (t - s) / (b - a) * a), [(t - s) / (b - a)]. split; [reflexivity|].
  intros [|[|k]] Hk; [| |simpl in Hk; lia]; unfold linear, Rsum; cbn; field; lra.
Qed.
Lemma sW_saturated i : (i < 3)%nat -> In i (training_set false sW 3 i) /\ interpolable 1 (map (fun j => nth j fX []) (training_set false sW 3 i)).
Proof.
  destruct sW_training as (T0 & T1 & T2). intros Hi. apply lt3 in Hi as [-> | [-> | ->]]; [rewrite T0|rewrite T1|rewrite T2]; (split; [simpl; tauto|]); cbn [map nth fX]; apply two_interpolable; lra.
Qed.
Definition sat_fit := fit (R * R) ols_fit ols_predict nat first_choice 2 no_wm (with_leave_out lcfg false) [1; 0]%nat 0%nat no_fs (init_state (R * R)) fX fy None (Some (WDense sW)).
Lemma sat_ok : o_result (R * R) nat sat_fit = Ok tt.
Proof.
  apply (fit_succeeds (R * R) ols_fit ols_predict nat first_choice 2 no_wm _ _ _ _ _ _ _ _ _ (WDense sW) sW 3 first_choice_valid); auto.
  - left. reflexivity.
  - split; [split; [reflexivity|repeat constructor]|auto].
  - apply perm_swap.
  - left. reflexivity.
  - split; [apply fX_data; auto|]. split; [exact I|]. split; [intros r Hr; discriminate Hr|]. split; [cbv [num_locations sample_local_rate lcfg cfg with_leave_out]; lia|].
    intros i Hi. cbv [drawn sample_local_rate lcfg cfg with_leave_out] in Hi. simpl in Hi. apply ols_local. cbn [leave_local_out with_leave_out].
    destruct sW_training as (T0 & T1 & T2). assert (Hi3 : (i < 3)%nat) by lia. apply lt3 in Hi3 as [-> | [-> | ->]]; [rewrite T0|rewrite T1|rewrite T2]; discriminate.
Qed.
Lemma lines_ok lo : o_result (R * R) nat (fit (R * R) ols_fit ols_predict nat first_choice 2 no_wm (with_leave_out lcfg lo) [1; 0]%nat 0%nat no_fs (init_state (R * R)) fX fy None (Some (WDense lW))) = Ok tt.
Proof.
  apply three_ones_ok; [reflexivity|]. intros i Hi. apply ols_local. destruct lW_training as (T0 & T1 & T2). destruct lo; [|rewrite lW_training_keep by auto; discriminate].
  apply lt3 in Hi as [-> | [-> | ->]]; [rewrite T0|rewrite T1|rewrite T2]; discriminate.
Qed.
