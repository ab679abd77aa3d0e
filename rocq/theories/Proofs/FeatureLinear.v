(** Linear local models and the units of the features. *)
From Coq Require Import Lra Lia Psatz Sorting.Sorted.
From Verif.Model Require Import Base Ext Csr Neighbour Distance WeightModel.
From Verif.Spec Require Import KernelSpec NeighbourSpec WeightModelSpec LinearSpec UnitsSpec FeatureUnitsSpec.
From Verif.Proofs Require Import ListFacts SumFacts KernelFacts CsrFacts NeighbourProps WeightModelFacts WeightModelProps FitProps LinearProps FeatureUnits.
Open Scope string_scope.
Open Scope nat_scope.
Open Scope R_scope.

Definition mid (b c : list R) : list R := map2 (fun u v => (u + v) / 2) b c.
Lemma linear_mid b0 b c0 c x : length b = length c -> linear ((b0 + c0) / 2) (mid b c) x = (linear b0 b x + linear c0 c x) / 2.
Proof.
  unfold linear. intros H. enough (Rsum (map2 Rmult (mid b c) x) = (Rsum (map2 Rmult b x) + Rsum (map2 Rmult c x)) / 2) by lra.
  revert c x H. unfold mid. induction b as [|u b IH]; intros [|v c] x H; try discriminate H; [destruct x; simpl; lra|].
  destruct x as [|z x]; [simpl; lra|]. cbn [map2]. rewrite !Rsum_cons. rewrite IH by (simpl in H; lia). field.
Qed.

(** Two minimisers agree at the observations with a positive weight. *)
Lemma minimisers_agree p X y w b0 b c0 c : Forall (Rlt 0) w -> length w = length X -> length b = p -> length c = p ->
  (forall d0 d, length d = p -> weighted_sse X y w b0 b <= weighted_sse X y w d0 d) ->
  (forall d0 d, length d = p -> weighted_sse X y w c0 c <= weighted_sse X y w d0 d) ->
  forall j, (j < length X)%nat -> linear b0 b (nth j X []) = linear c0 c (nth j X []).
Proof.
  intros HP Hw Hb Hc HB HC j Hj.
  set (d := fun j => nth j w 0 * (linear b0 b (nth j X []) - linear c0 c (nth j X [])) ^ 2).
  assert (HN : forall k, (k < length X)%nat -> 0 < nth k w 0) by (intros k Hk; rewrite Forall_forall in HP; apply HP, nth_In; lia).
  assert (E : weighted_sse X y w ((b0 + c0) / 2) (mid b c) =
    1 / 2 * weighted_sse X y w b0 b + (1 / 2 * weighted_sse X y w c0 c + - (1 / 4) * Rsum (tabulate (length X) d))).
  { unfold weighted_sse, tabulate. rewrite <- !Rsum_map_scal, <- !Rsum_map_plus. apply Rsum_map_ext. intros k _. rewrite linear_mid by lia. unfold d. field. }
  assert (Hm : length (mid b c) = p) by (unfold mid; rewrite map2_length; lia).
  assert (H0 : 0 <= Rsum (tabulate (length X) d)).
  { apply Rsum_nonneg. intros z Hz. apply in_tabulate in Hz as (k & Hk & <-). unfold d. apply Rmult_le_pos; [left; auto|apply pow2_ge_0]. }
  pose proof (HB ((b0 + c0) / 2) (mid b c) Hm). pose proof (HC b0 b Hb). pose proof (HB c0 c Hc).
  assert (Hz : d j = 0).
  { apply (Rsum_zero_elem (tabulate (length X) d)); [|lra|apply in_tabulate; exists j; auto].
    intros z Hz. apply in_tabulate in Hz as (k & Hk & <-). unfold d. apply Rmult_le_pos; [left; auto|apply pow2_ge_0]. }
  unfold d in Hz. specialize (HN j Hj). apply Rmult_integral in Hz as [Hz|Hz]; [lra|]. nra.
Qed.

(** A relation between features in other units is one between the features. *)
Lemma linear_units u c0 c : exists d0, forall row, length row = length u -> length c = length u ->
  linear c0 c (in_feature_units u row) = linear d0 (map2 (fun ak v => fst ak * v) u c) row.
Proof.
  exists (c0 + Rsum (map2 (fun ak v => snd ak * v) u c)). intros row Hr Hc. unfold linear, in_feature_units, in_units.
  enough (Rsum (map2 Rmult c (map2 (fun (ak : R * R) t => fst ak * t + snd ak) u row)) =
    Rsum (map2 (fun ak v => snd ak * v) u c) + Rsum (map2 Rmult (map2 (fun ak v => fst ak * v) u c) row)) by lra.
  revert c row Hr Hc. induction u as [|a u IH]; intros [|v c] [|r row] Hr Hc; try discriminate Hr; try discriminate Hc; [unfold Rsum; simpl; lra|].
  cbn [map2]. rewrite !Rsum_cons. rewrite IH by (simpl in *; lia). ring.
Qed.
Lemma linear_units_back u b0 b : proper_units u -> length b = length u ->
  exists c0 c, length c = length u /\ forall row, length row = length u -> linear c0 c (in_feature_units u row) = linear b0 b row.
Proof.
  intros HU Hb. set (c := map2 (fun ak v => v / fst ak) u b).
  assert (Hc : length c = length u) by (unfold c; rewrite map2_length; lia).
  destruct (linear_units u 0 c) as [d0 Hd]. exists (b0 - d0), c. split; [exact Hc|]. intros row Hr.
  assert (E : map2 (fun ak v => fst ak * v) u c = b).
  { unfold c. clear Hd Hc Hr. clear c. revert b Hb. induction u as [|a u IH]; intros [|v b] Hb; try discriminate Hb; [reflexivity|].
    inversion HU as [|? ? Ha HU']; subst. cbn [map2]. f_equal; [field; exact Ha|apply IH; auto]. }
  specialize (Hd row Hr Hc). rewrite E in Hd. unfold linear in *. lra.
Qed.

Lemma sse_rows X X' y w b0 b c0 c : length X' = length X -> (forall j, (j < length X)%nat -> linear b0 b (nth j X []) = linear c0 c (nth j X' [])) ->
  weighted_sse X y w b0 b = weighted_sse X' y w c0 c.
Proof. intros HL HE. unfold weighted_sse. rewrite HL. apply f_equal. apply tabulate_ext. intros k Hk. rewrite HE by auto. reflexivity. Qed.

Section Learner.
  Context {est : Type}.
  Variable p : nat.
  Variable fit_est : nat -> matrix R -> list R -> list ext -> result est.
  Variable predict_est : est -> matrix R -> result (list R).
  Variable intercept : est -> R.
  Variable coef : est -> list R.
  Hypothesis HLS : least_squares p fit_est predict_est intercept coef.
  Variable u : list (R * R).
  Hypothesis Hu : length u = p.
  Hypothesis HU : proper_units u.

  Lemma learner_units i i' X y w e e' x : rows_of p X -> length y = length X -> length w = length X -> Forall (Rlt 0) w ->
    fit_est i X y (map Fin w) = Ok e -> fit_est i' (map (in_feature_units u) X) y (map Fin w) = Ok e' ->
    length x = p -> affine_combination X x ->
    linear (intercept e') (coef e') (in_feature_units u x) = linear (intercept e) (coef e) x.
  Proof.
    intros HX Hy Hw HP He He' Hx HA.
    assert (HP0 : Forall (Rle 0) w) by (eapply Forall_impl; [|exact HP]; intros a Ha; lra).
    assert (HX' : Forall (fun row => length row = p) (map (in_feature_units u) X)).
    { apply Forall_forall. intros r Hr. apply in_map_iff in Hr as (q & <- & Hq). unfold in_feature_units. rewrite map2_length.
      unfold rows_of in HX. rewrite Forall_forall in HX. rewrite (HX q Hq). lia. }
    destruct (proj1 HLS i X y w e HX Hy Hw HP0 He) as [Lc Hmin].
    destruct (proj1 HLS i' (map (in_feature_units u) X) y w e' HX') as [Lc' Hmin']; auto; try (rewrite map_length; auto).
    destruct (linear_units u (intercept e') (coef e')) as [d0 Hd]. set (d := map2 (fun ak v => fst ak * v) u (coef e')) in *.
    assert (Ld : length d = p) by (unfold d; rewrite map2_length; lia).
    assert (Hrow : forall j, (j < length X)%nat -> length (nth j X []) = length u).
    { intros j Hj. rewrite Hu. unfold rows_of in HX. rewrite Forall_forall in HX. apply HX, nth_In. auto. }
    assert (HM : forall b0 b, length b = p -> weighted_sse X y w d0 d <= weighted_sse X y w b0 b).
    { intros b0 b Hb. destruct (linear_units_back u b0 b HU ltac:(lia)) as (c0 & c & Hc & HE).
      rewrite (sse_rows X (map (in_feature_units u) X) y w d0 d (intercept e') (coef e')).
      - rewrite (sse_rows X (map (in_feature_units u) X) y w b0 b c0 c); [apply Hmin'; lia|apply map_length|].
        intros j Hj. rewrite (nth_map_in _ _ _ []) by auto. symmetry. apply HE. auto.
      - apply map_length.
      - intros j Hj. rewrite (nth_map_in _ _ _ []) by auto. symmetry. apply Hd; [auto|lia]. }
    rewrite Hd by lia. apply (affine_agree _ _ _ _ p X); auto.
    intros r Hr. apply (In_nth _ _ []) in Hr as (j & Hj & <-). apply (minimisers_agree p X y w); auto.
  Qed.

  Theorem linear_fit_units G choice cpu wm wm' c order order' g g' fs fs' s0 s0' X y coords coords' given given' w w' W N :
    valid_choice choice -> (0 < cpu)%nat -> rect X N p -> nonnegative_weights W N ->
    in_force wm fs coords given w -> holds w W N -> in_force wm' fs' coords' given' w' -> holds w' W N ->
    schedule (num_tasks cpu c (num_locations c N)) order -> schedule (num_tasks cpu c (num_locations c N)) order' -> aligned c w -> aligned c w' ->
    let o := fit est fit_est predict_est G choice cpu wm c order g fs s0 X y coords given in
    let o' := fit est fit_est predict_est G choice cpu wm' c order' g' fs' s0' (map (in_feature_units u) X) y coords' given' in
    o_result est G o = Ok tt -> o_result est G o' = Ok tt ->
    exists locs ps locs' ps', local_indices_ est (o_state est G o) = Some locs /\ local_predict_ est (o_state est G o) = Some ps /\
      local_indices_ est (o_state est G o') = Some locs' /\ local_predict_ est (o_state est G o') = Some ps' /\
      forall k k' i, nth_error locs k = Some i -> nth_error locs' k' = Some i ->
        affine_combination (map (fun j => nth j X []) (training_set (leave_local_out c) W N i)) (nth i X []) -> nth k' ps' 0 = nth k ps 0.
  Proof.
    intros Hch Hcpu HX HW Hf Hh Hf' Hh' HS HS' Hal Hal' o o' Ho Ho'.
    assert (HL : length X = N) by apply HX. assert (HL' : length (map (in_feature_units u) X) = N) by (rewrite map_length; exact HL).
    destruct (fit_aligned est fit_est predict_est G choice cpu wm c order g fs s0 X y coords given w W N Hch Hcpu HL Hf Hh HS Hal Ho)
      as (locs & es & ps & ys & rs & A1 & _ & A3 & _ & _ & _ & AN & _ & _ & _ & _ & _ & AK).
    destruct (fit_aligned est fit_est predict_est G choice cpu wm' c order' g' fs' s0' (map (in_feature_units u) X) y coords' given' w' W N Hch Hcpu HL' Hf' Hh' HS' Hal' Ho')
      as (locs' & es' & ps' & ys' & rs' & B1 & _ & B3 & _ & _ & _ & _ & _ & _ & _ & _ & _ & BK).
    exists locs, ps, locs', ps'. split; [exact A1|]. split; [exact A3|]. split; [exact B1|]. split; [exact B3|].
    intros k k' i Hk Hk' HA.
    assert (Lk : (k < length locs)%nat) by (apply nth_error_Some; congruence).
    assert (Lk' : (k' < length locs')%nat) by (apply nth_error_Some; congruence).
    destruct (AK k Lk) as (_ & _ & e & HM & HP & _). destruct (BK k' Lk') as (_ & _ & e' & HM' & HP' & _).
    rewrite (nth_error_nth _ _ _ Hk) in HM, HP. rewrite (nth_error_nth _ _ _ Hk') in HM', HP'.
    assert (Hi : (i < N)%nat) by (apply AN; apply (nth_error_In _ _ Hk)).
    apply (model_fit fit_est (leave_local_out c) X y W N HW i e Hi) in HM.
    apply (model_fit fit_est (leave_local_out c) _ y W N HW i e' Hi) in HM'.
    set (T := training_set (leave_local_out c) W N i) in *.
    assert (HT : forall j, In j T -> (j < N)%nat) by (intros j Hj; unfold T, training_set in Hj; apply filter_In in Hj as [Hj _]; apply in_seq in Hj; lia).
    rewrite <- (map_map (wt W i) Fin) in HM, HM'.
    assert (ER : map (fun j => nth j (map (in_feature_units u) X) []) T = map (in_feature_units u) (map (fun j => nth j X []) T)).
    { rewrite map_map. apply map_ext_in. intros j Hj. apply nth_map_in. rewrite HL. auto. }
    rewrite ER in HM'. rewrite (nth_map_in _ _ _ []) in HP' by lia.
    rewrite (proj2 HLS) in HP, HP'. cbn [map] in HP, HP'. injection HP as HP. injection HP' as HP'. rewrite <- HP, <- HP'.
    apply (learner_units i i (map (fun j => nth j X []) T) (map (fun j => nth j y 0) T) (map (wt W i) T)); auto.
    - apply Forall_forall. intros r Hr. apply in_map_iff in Hr as (j & <- & Hj). apply (rect_row X N p j HX). auto.
    - rewrite !map_length. reflexivity.
    - rewrite !map_length. reflexivity.
    - apply Forall_forall. intros r Hr. apply in_map_iff in Hr as (j & <- & Hj). apply (used_positive (leave_local_out c) W N HW i j Hi Hj).
    - apply (rect_row X N p i HX Hi).
  Qed.
End Learner.
