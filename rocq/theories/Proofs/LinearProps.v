From Coq Require Import Lra Psatz Sorting.Sorted.
From Verif.Model Require Import Base Ext Sort Kernel Distance WeightMatrix Csr Neighbour WeightModel.
From Verif.Spec Require Import KernelSpec WeightSpec NeighbourSpec WeightModelSpec LinearSpec.
From Verif.Proofs Require Import ListFacts SumFacts KernelFacts SortFacts WeightFacts WeightProps DistanceFacts CsrFacts NeighbourFacts ShrinkFacts SampleFacts NeighbourProps WeightModelFacts WeightModelProps FitProps PredictProps.
Open Scope string_scope.
Open Scope nat_scope.
Open Scope R_scope.

Lemma dot_nth b x p : length b = p -> length x = p -> Rsum (map2 Rmult b x) = Rsum (tabulate p (fun k => nth k b 0 * nth k x 0)).
Proof.
  intros Hb Hx. f_equal. apply (list_eq_nth 0); [rewrite map2_length, tabulate_length; lia|].
  intros i Hi. rewrite map2_length in Hi. rewrite tabulate_nth by lia. apply map2_nth; lia.
Qed.

(** A relation at an affine combination. *)
Lemma linear_affine c0 c p pts x t :
  length c = p -> length x = p -> Forall (fun r => length r = p) pts -> length t = length pts -> Rsum t = 1 ->
  (forall k, nth k x 0 = Rsum (map2 (fun a r => a * nth k r 0) t pts)) ->
  linear c0 c x = Rsum (map2 (fun a r => a * linear c0 c r) t pts).
Proof.
  intros Hc Hx HP Ht H1 HK. unfold linear. rewrite (dot_nth c x p) by auto.
  transitivity (c0 * Rsum t + Rsum (tabulate p (fun k => nth k c 0 * Rsum (map2 (fun a r => a * nth k r 0) t pts)))).
  { rewrite H1. rewrite Rmult_1_r. f_equal. f_equal. apply tabulate_ext. intros k _. rewrite HK. reflexivity. }
  clear HK H1 Hx x. revert pts HP Ht. induction t as [|a t IH]; intros [|r pts] HP Ht; try discriminate Ht.
  - cbn [map2]. rewrite !Rsum_nil. rewrite Rsum_zero; [lra|]. intros z Hz. apply in_tabulate in Hz as (k & _ & <-). lra.
  - inversion HP as [|? ? Hr HP']; subst. cbn [map2]. rewrite !Rsum_cons. rewrite <- IH by (auto; simpl in Ht; lia).
    rewrite (dot_nth c r (length c)) by auto.
    rewrite (tabulate_ext _ _ (fun k => a * (nth k c 0 * nth k r 0) + nth k c 0 * Rsum (map2 (fun b s => b * nth k s 0) t pts)))
      by (intros k _; rewrite Rsum_cons; ring).
    unfold tabulate. rewrite Rsum_map_plus, Rsum_map_scal. ring.
Qed.

Lemma affine_agree b0 b c0 c p pts x :
  length b = p -> length c = p -> length x = p -> Forall (fun r => length r = p) pts -> affine_combination pts x ->
  (forall r, In r pts -> linear b0 b r = linear c0 c r) -> linear b0 b x = linear c0 c x.
Proof.
  intros Hb Hc Hx HP (t & Ht & H1 & HK) HE.
  rewrite (linear_affine b0 b p pts x t) by auto. rewrite (linear_affine c0 c p pts x t) by auto.
  f_equal. apply map2_ext_in. intros a r _ Hr. rewrite HE by auto. reflexivity.
Qed.

Lemma affine_self pts x p : In x pts -> Forall (fun r => length r = p) pts -> affine_combination pts x.
Proof.
  intros Hi _. apply (In_nth _ _ []) in Hi as (j & Hj & <-).
  exists (tabulate (length pts) (fun k => if (k =? j)%nat then 1 else 0)). split; [apply tabulate_length|]. split.
  - clear p. revert j Hj. induction pts as [|r pts IH]; intros j Hj; [simpl in Hj; lia|].
    cbn [length]. rewrite tabulate_S, Rsum_cons. destruct j.
    + rewrite Rsum_zero; [simpl; lra|]. intros z Hz. apply in_tabulate in Hz as (k & _ & <-). reflexivity.
    + cbn [Nat.eqb]. rewrite IH by (simpl in Hj; lia). lra.
  - intros k. clear p. revert j Hj. induction pts as [|r pts IH]; intros j Hj; [simpl in Hj; lia|].
    cbn [length]. rewrite tabulate_S. cbn [map2]. rewrite Rsum_cons. destruct j.
    + cbn [Nat.eqb nth]. rewrite Rsum_zero; [lra|]. intros z Hz.
      rewrite map2_combine in Hz. apply in_map_iff in Hz as ([a s] & <- & Hz). apply in_combine_l in Hz. apply in_tabulate in Hz as (q & _ & <-). simpl. lra.
    + cbn [Nat.eqb nth]. rewrite <- IH by (simpl in Hj; lia). lra.
Qed.

(** Exact data are fitted exactly. *)
Lemma exact_fit X y w b0 b c0 c :
  length y = length X -> length w = length X -> Forall (Rlt 0) w ->
  (forall j, (j < length X)%nat -> nth j y 0 = linear b0 b (nth j X [])) ->
  weighted_sse X y w c0 c <= weighted_sse X y w b0 b ->
  forall j, (j < length X)%nat -> linear c0 c (nth j X []) = linear b0 b (nth j X []).
Proof.
  intros Hy Hw HP HE HL j Hj.
  assert (H0 : weighted_sse X y w b0 b = 0).
  { unfold weighted_sse. apply Rsum_zero. intros z Hz. apply in_tabulate in Hz as (k & Hk & <-). rewrite HE by auto. ring. }
  assert (HN : forall z, In z (tabulate (length X) (fun j => nth j w 0 * (nth j y 0 - linear c0 c (nth j X [])) ^ 2)) -> 0 <= z).
  { intros z Hz. apply in_tabulate in Hz as (k & Hk & <-). apply Rmult_le_pos; [|apply pow2_ge_0].
    left. apply (proj1 (Forall_forall _ _) HP). apply nth_In. lia. }
  assert (Hs : weighted_sse X y w c0 c = 0).
  { apply Rle_antisym; [lra|]. apply Rsum_nonneg. exact HN. }
  assert (Hz : nth j w 0 * (nth j y 0 - linear c0 c (nth j X [])) ^ 2 = 0).
  { apply (Rsum_zero_elem _ _ HN Hs). apply in_tabulate. exists j. auto. }
  assert (0 < nth j w 0) by (apply (proj1 (Forall_forall _ _) HP); apply nth_In; lia).
  rewrite HE in Hz by auto. apply Rmult_integral in Hz as [Hz|Hz]; [lra|].
  assert (Hd : linear b0 b (nth j X []) - linear c0 c (nth j X []) = 0) by nra. lra.
Qed.

Section Learner.
  Context {est : Type}.
  Variable p : nat.
  Variable fit_est : nat -> matrix R -> list R -> list ext -> result est.
  Variable predict_est : est -> matrix R -> result (list R).
  Variable intercept : est -> R.
  Variable coef : est -> list R.
  Hypothesis HLS : least_squares p fit_est predict_est intercept coef.

  Lemma learner_rows i X y T (w : nat -> R) e b0 b :
    (forall j, In j T -> length (nth j X []) = p) -> (forall j, In j T -> 0 < w j) -> length b = p ->
    fit_est i (map (fun j => nth j X []) T) (map (fun j => nth j y 0) T) (map (fun j => Fin (w j)) T) = Ok e ->
    (forall j, In j T -> nth j y 0 = linear b0 b (nth j X [])) ->
    length (coef e) = p /\ forall j, In j T -> linear (intercept e) (coef e) (nth j X []) = linear b0 b (nth j X []).
  Proof.
    intros HX HP Hb HF HE.
    assert (HX' : Forall (fun row => length row = p) (map (fun j => nth j X []) T)).
    { apply Forall_forall. intros r Hr. apply in_map_iff in Hr as (j & <- & Hj). auto. }
    rewrite <- (map_map w Fin) in HF.
    assert (HW : Forall (Rlt 0) (map w T)).
    { apply Forall_forall. intros r Hr. apply in_map_iff in Hr as (j & <- & Hj). auto. }
    destruct (proj1 HLS i _ (map (fun j => nth j y 0) T) (map w T) e HX') as [HC HM]; [rewrite !map_length; auto|rewrite !map_length; auto| |exact HF|].
    { eapply Forall_impl; [|exact HW]. intros a Ha. lra. }
    split; [exact HC|]. intros j Hj. apply (In_nth _ _ 0%nat) in Hj as (k & Hk & <-).
    assert (Hk' : (k < length (map (fun j => nth j X []) T))%nat) by (rewrite map_length; exact Hk).
    pose proof (exact_fit (map (fun j => nth j X []) T) (map (fun j => nth j y 0) T) (map w T) b0 b (intercept e) (coef e)
      ltac:(rewrite !map_length; auto) ltac:(rewrite !map_length; auto) HW) as HX2.
    assert (HN : forall k, (k < length T)%nat -> nth k (map (fun j => nth j X []) T) [] = nth (nth k T 0%nat) X []).
    { intros q Hq. rewrite (nth_map_in _ _ _ 0%nat) by auto. reflexivity. }
    rewrite <- HN by auto. apply HX2; auto.
    intros q Hq. rewrite map_length in Hq. rewrite HN by auto. rewrite (nth_map_in _ _ _ 0%nat) by auto. apply HE. apply nth_In. auto.
  Qed.

  Lemma learner_point i X y T (w : nat -> R) e b0 b x out :
    (forall j, In j T -> length (nth j X []) = p) -> (forall j, In j T -> 0 < w j) -> length b = p -> length x = p ->
    fit_est i (map (fun j => nth j X []) T) (map (fun j => nth j y 0) T) (map (fun j => Fin (w j)) T) = Ok e ->
    (forall j, In j T -> nth j y 0 = linear b0 b (nth j X [])) ->
    affine_combination (map (fun j => nth j X []) T) x ->
    predict_est e [x] = Ok out -> out = [linear b0 b x].
  Proof.
    intros HX HP Hb Hx HF HE HA HO. destruct (learner_rows i X y T w e b0 b) as [HC HR]; auto.
    rewrite (proj2 HLS) in HO. cbn [map] in HO. injection HO as <-. apply (f_equal (fun v => [v])).
    apply (affine_agree _ _ _ _ p (map (fun j => nth j X []) T)); auto.
    - apply Forall_forall. intros r Hr. apply in_map_iff in Hr as (j & <- & Hj). auto.
    - intros r Hr. apply in_map_iff in Hr as (j & <- & Hj). auto.
  Qed.

  Lemma linear_minus b0 b c0 c x : length b = length c -> linear b0 b x - linear c0 c x = linear (b0 - c0) (map2 Rminus b c) x.
  Proof.
    unfold linear. intros H. enough (Rsum (map2 Rmult b x) - Rsum (map2 Rmult c x) = Rsum (map2 Rmult (map2 Rminus b c) x)) by lra.
    revert c x H. induction b as [|u b IH]; intros [|v c] x H; try discriminate H; [destruct x; simpl; lra|].
    destruct x as [|z x]; [simpl; lra|]. cbn [map2]. rewrite !Rsum_cons. rewrite <- IH by (simpl in H; lia). ring.
  Qed.

  Lemma determined pts b0 b c0 c : determining p pts -> length b = p -> length c = p ->
    (forall r, In r pts -> linear b0 b r = linear c0 c r) -> b0 = c0 /\ b = c.
  Proof.
    intros HD Hb Hc HE. destruct (HD (b0 - c0) (map2 Rminus b c)) as [H0 HZ].
    - rewrite map2_length. lia.
    - intros r Hr. rewrite <- linear_minus by lia. rewrite HE by auto. lra.
    - split; [lra|]. apply (list_eq_nth 0); [lia|]. intros k Hk.
      assert (H : nth k (map2 Rminus b c) 0 = 0) by (rewrite HZ; rewrite nth_repeat; reflexivity).
      rewrite (map2_nth _ _ _ _ 0 0) in H by lia. lra.
  Qed.

  (** ** fit *)
  Section Fit.
    Variables (lo : bool) (X : matrix R) (y : list R) (W : matrix ext) (N : nat).
    Hypothesis HX : rect X N p.
    Hypothesis HW : nonnegative_weights W N.

    Definition wt i j := match mget (Fin 0) W i j with Fin r => r | _ => 0 end.

    Lemma used_positive i j : (i < N)%nat -> In j (training_set lo W N i) -> used_weight lo W i j = Fin (wt i j) /\ 0 < wt i j.
    Proof.
      intros Hi Hj. unfold training_set in Hj. apply filter_In in Hj as [Hj HZ]. apply in_seq in Hj. unfold used_weight in *.
      destruct (lo && (i =? j)%nat)%bool eqn:E; [unfold eis_zero in HZ; revert HZ; rdec; discriminate|].
      unfold wt. destruct (HW i j) as (r & Hr & Hp); [auto|lia|]. rewrite Hr in HZ |- *. split; auto.
      destruct Hp as [Hp|Hp]; auto. exfalso. rewrite <- Hp in HZ. revert HZ. unfold eis_zero. rdec. discriminate.
    Qed.

    Lemma model_fit i e : (i < N)%nat -> local_model fit_est X y lo W N i e ->
      fit_est i (map (fun j => nth j X []) (training_set lo W N i)) (map (fun j => nth j y 0) (training_set lo W N i))
        (map (fun j => Fin (wt i j)) (training_set lo W N i)) = Ok e.
    Proof.
      unfold local_model. intros Hi <-. f_equal. apply map_ext_in. intros j Hj. symmetry. apply used_positive; auto.
    Qed.

    Lemma training_rows i j : In j (training_set lo W N i) -> length (nth j X []) = p.
    Proof. unfold training_set. intros Hj. apply filter_In in Hj as [Hj _]. apply in_seq in Hj. apply (rect_row X N p j HX). lia. Qed.

    Lemma model_predicts i e out b0 b : (i < N)%nat -> local_model fit_est X y lo W N i e -> length b = p ->
      (forall j, In j (training_set lo W N i) -> nth j y 0 = linear b0 b (nth j X [])) ->
      affine_combination (map (fun j => nth j X []) (training_set lo W N i)) (nth i X []) ->
      predict_est e [nth i X []] = Ok out -> out = [linear b0 b (nth i X [])].
    Proof.
      intros Hi HM Hb HE HA HO. apply (learner_point i X y (training_set lo W N i) (wt i) e); auto using model_fit.
      - intros j. apply training_rows.
      - intros j Hj. apply used_positive; auto.
      - apply (rect_row X N p i HX Hi).
    Qed.

    Lemma model_params i e b0 b : (i < N)%nat -> local_model fit_est X y lo W N i e -> length b = p ->
      (forall j, In j (training_set lo W N i) -> nth j y 0 = linear b0 b (nth j X [])) ->
      determining p (map (fun j => nth j X []) (training_set lo W N i)) -> intercept e = b0 /\ coef e = b.
    Proof.
      intros Hi HM Hb HE HD. destruct (learner_rows i X y (training_set lo W N i) (wt i) e b0 b) as [HC HR]; auto using model_fit.
      - intros j. apply training_rows.
      - intros j Hj. apply used_positive; auto.
      - apply (determined (map (fun j => nth j X []) (training_set lo W N i))); auto.
        intros r Hr. apply in_map_iff in Hr as (j & <- & Hj). auto.
    Qed.
  End Fit.
End Learner.

Lemma fit_linear :
  forall est fit_est predict_est (intercept : est -> R) coef p G choice cpu wm c order g fs s0 X y coords given w W N,
  least_squares p fit_est predict_est intercept coef ->
  valid_choice choice -> (0 < cpu)%nat -> rect X N p -> in_force wm fs coords given w -> holds w W N -> nonnegative_weights W N ->
  schedule (num_tasks cpu c (num_locations c N)) order -> aligned c w ->
  let o := fit est fit_est predict_est G choice cpu wm c order g fs s0 X y coords given in
  o_result est G o = Ok tt ->
  exists locs ps es,
    local_indices_ est (o_state est G o) = Some locs /\ local_predict_ est (o_state est G o) = Some ps /\
    local_estimators est (o_state est G o) = Some es /\ length ps = length locs /\ length es = length locs /\
    forall k b0 b, (k < length locs)%nat -> length b = p ->
      let i := nth k locs 0%nat in
      let T := training_set (leave_local_out c) W N i in
      (forall j, In j T -> nth j y 0 = linear b0 b (nth j X [])) ->
      (affine_combination (map (fun j => nth j X []) T) (nth i X []) -> nth k ps 0 = linear b0 b (nth i X [])) /\
      (determining p (map (fun j => nth j X []) T) -> cache_estimator c = true ->
       exists e, nth k es None = Some e /\ intercept e = b0 /\ coef e = b).
Proof.
  intros est fit_est predict_est intercept coef p G choice cpu wm c order g fs s0 X y coords given w W N HLS HV Hc HX HI HH HW HS HA o HO.
  destruct (fit_aligned est fit_est predict_est G choice cpu wm c order g fs s0 X y coords given w W N HV Hc (proj1 HX) HI HH HS HA HO)
    as (locs & es & ps & ys & rs & HL & HE & HP & HY & HR & HSo & HB & HN & Le & Lp & Ly & Lr & HK).
  exists locs, ps, es. repeat (split; [assumption|]). intros k b0 b Hk Hb i T HT.
  destruct (HK k Hk) as (_ & _ & e & HM & HO' & HC). fold i in HM, HO', HC.
  assert (Hi : (i < N)%nat) by (apply HB; apply nth_In; auto).
  split.
  - intros HAf. pose proof (model_predicts p fit_est predict_est intercept coef HLS (leave_local_out c) X y W N HX HW i e [nth k ps 0] b0 b Hi HM Hb HT HAf HO') as E.
    injection E as E. exact E.
  - intros HD HCa. rewrite HCa in HC. exists e. split; auto.
    exact (model_params p fit_est predict_est intercept coef HLS (leave_local_out c) X y W N HX HW i e b0 b Hi HM Hb HT HD).
Qed.

Lemma sse_same l l' : l = l' -> Rsum (map2 (fun a b => (a - b) * (a - b)) l l') = 0.
Proof. intros <-. induction l; [reflexivity|]. cbn [map2]. rewrite Rsum_cons, IHl. ring. Qed.

Lemma fit_global :
  forall est fit_est predict_est (intercept : est -> R) coef p G choice cpu wm c order g fs s0 X y coords given w W N b0 b,
  least_squares p fit_est predict_est intercept coef ->
  valid_choice choice -> (0 < cpu)%nat -> rect X N p -> in_force wm fs coords given w -> holds w W N -> nonnegative_weights W N ->
  schedule (num_tasks cpu c (num_locations c N)) order -> aligned c w ->
  length b = p -> (forall j, (j < N)%nat -> nth j y 0 = linear b0 b (nth j X [])) ->
  (forall i, (i < N)%nat -> affine_combination (map (fun j => nth j X []) (training_set (leave_local_out c) W N i)) (nth i X [])) ->
  let o := fit est fit_est predict_est G choice cpu wm c order g fs s0 X y coords given in
  o_result est G o = Ok tt ->
  exists ys, y_sample_ est (o_state est G o) = Some ys /\ local_predict_ est (o_state est G o) = Some ys /\
    local_residual_ est (o_state est G o) = Some (map (fun _ => 0) ys) /\
    llocv_score_ est (o_state est G o) = Some (Fin 1).
Proof.
  intros est fit_est predict_est intercept coef p G choice cpu wm c order g fs s0 X y coords given w W N b0 b HLS HV Hc HX HI HH HW HS HA Hb HL HAf o HO.
  destruct (fit_aligned est fit_est predict_est G choice cpu wm c order g fs s0 X y coords given w W N HV Hc (proj1 HX) HI HH HS HA HO)
    as (locs & es & ps & ys & rs & HLo & HE & HP & HY & HR & HSo & HB & HN & Le & Lp & Ly & Lr & HK).
  destruct (fit_score est fit_est predict_est G choice cpu wm c order g fs s0 X y coords given w W N HV Hc (proj1 HX) HI HH HS HO)
    as (ys' & ps' & score & HY' & HP' & HLen & HL2 & HSc & HS1 & HS2 & HS3).
  unfold o in HY, HP. rewrite HY in HY'. rewrite HP in HP'. injection HY' as <-. injection HP' as <-.
  assert (Hps : ps = ys).
  { apply (list_eq_nth 0); [lia|]. intros k Hk. rewrite Lp in Hk. destruct (HK k Hk) as (Hy & _ & e & HM & HO' & _).
    assert (Hi : (nth k locs 0%nat < N)%nat) by (apply HB; apply nth_In; auto).
    assert (HT : forall j, In j (training_set (leave_local_out c) W N (nth k locs 0%nat)) -> nth j y 0 = linear b0 b (nth j X [])).
    { intros j Hj. apply HL. unfold training_set in Hj. apply filter_In in Hj as [Hj _]. apply in_seq in Hj. lia. }
    pose proof (model_predicts p fit_est predict_est intercept coef HLS (leave_local_out c) X y W N HX HW _ e [nth k ps 0] b0 b Hi HM Hb HT (HAf _ Hi) HO') as E.
    injection E as E. rewrite E, Hy, HL by auto. reflexivity. }
  exists ys. split; [exact HY|]. split; [rewrite <- Hps; exact HP|]. split.
  - unfold o; rewrite HR. f_equal. apply (list_eq_nth 0); [rewrite map_length; lia|]. intros k Hk. rewrite Lr in Hk.
    destruct (HK k Hk) as (Hy & Hr & _). rewrite Hr, Hps, <- Hy. rewrite (nth_map_in _ _ _ 0) by lia. lra.
  - unfold o. rewrite HSc. f_equal. f_equal. cbv zeta in HS1, HS2, HS3. rewrite (sse_same ys ps) in HS1, HS2, HS3 by auto.
    destruct (Req_dec (Rsum (map (fun a => (a - Rsum ys / INR (length ys)) * (a - Rsum ys / INR (length ys))) ys)) 0) as [E|E];
      [apply HS2; auto|]. rewrite HS1 by auto. field. exact E.
Qed.
