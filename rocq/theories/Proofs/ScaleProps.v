(** WeightModel and the unit of the weights. *)
From Coq Require Import Lra Lia.
From Verif.Model Require Import Base Ext Csr Distance WeightModel.
From Verif.Spec Require Import KernelSpec NeighbourSpec WeightModelSpec ScaleSpec.
From Verif.Proofs Require Import ListFacts SumFacts KernelFacts CsrFacts NeighbourProps WeightModelFacts WeightModelProps FitProps PredictProps EndToEnd ScaleStacking.
Open Scope string_scope.
Open Scope nat_scope.
Open Scope R_scope.

Section Scale.
  Context {est : Type}.
  Variable fit_est : nat -> matrix R -> list R -> list ext -> result est.
  Variable predict_est : est -> matrix R -> result (list R).
  Hypothesis Hor : only_ratios fit_est predict_est.

  Definition real_used (lo : bool) (W : matrix R) (i j : nat) : R := if lo && (i =? j)%nat then 0 else mget 0 W i j.

  Lemma used_real lo W i j : used_weight lo (mmap Fin W) i j = Fin (real_used lo W i j).
  Proof.
    unfold used_weight, real_used. destruct (lo && (i =? j)%nat); auto. unfold mget, mmap.
    change (@nil ext) with (map Fin []). rewrite map_nth. change (Fin 0) with (Fin (0 : R)). rewrite (map_nth Fin). reflexivity.
  Qed.

  Lemma rows_scaled_mget ks W i j : length ks = length W -> (i < length W)%nat -> mget 0 (rows_scaled ks W) i j = nth i ks 0 * mget 0 W i j.
  Proof.
    intros H. unfold rows_scaled, mget. revert W i H. induction ks as [|k ks IH]; intros [|row W] i H Hi; cbn in H, Hi; try lia.
    destruct i as [|i]; cbn.
    - rewrite <- (map_nth (Rmult k)). rewrite Rmult_0_r. reflexivity.
    - apply IH; lia.
  Qed.

  Lemma real_used_scaled lo ks W i j : length ks = length W -> (i < length W)%nat -> real_used lo (rows_scaled ks W) i j = nth i ks 0 * real_used lo W i j.
  Proof. intros H Hi. unfold real_used. destruct (lo && (i =? j)%nat); [ring|]. apply rows_scaled_mget; auto. Qed.

  Lemma local_scaled X y lo ks W n i e : length ks = length W -> Forall (Rlt 0) ks -> (i < length W)%nat ->
    local_model fit_est X y lo (mmap Fin W) n i e ->
    exists e', local_model fit_est X y lo (mmap Fin (rows_scaled ks W)) n i e' /\ forall Z, predict_est e' Z = predict_est e Z.
  Proof.
    intros Hl Hk Hi. assert (Hki : 0 < nth i ks 0) by (rewrite Forall_forall in Hk; apply Hk, nth_In; lia).
    unfold local_model. cbv zeta. intros H.
    assert (ET : training_set lo (mmap Fin (rows_scaled ks W)) n i = training_set lo (mmap Fin W) n i).
    { unfold training_set. apply filter_ext. intros j. rewrite !used_real, real_used_scaled by auto. cbn [eis_zero]. rewrite Reqb_scale0; auto. }
    rewrite ET. set (T := training_set lo (mmap Fin W) n i) in *.
    rewrite (map_ext _ (fun j => Fin (real_used lo W i j))) in H by (intros; apply used_real).
    rewrite (map_ext (used_weight lo (mmap Fin (rows_scaled ks W)) i) (fun j => Fin (nth i ks 0 * real_used lo W i j))) by (intros; rewrite used_real, real_used_scaled; auto).
    rewrite <- (map_map (real_used lo W i) Fin) in H.
    destruct (Hor _ _ _ _ _ (nth i ks 0) Hki H) as (e' & P1 & P2). exists e'. split; [|exact P2]. rewrite !map_map in P1. exact P1.
  Qed.

  Context {G : Type}.
  Variable choice : G -> list nat -> nat -> G * list nat.
  Hypothesis Hch : valid_choice choice.
  Variable cpu : nat.
  Hypothesis Hcpu : (0 < cpu)%nat.

  Theorem fit_rows_scaled wm wm' c order order' g g' fs fs' s0 s0' X y coords coords' given given' w w' W ks n :
    let o := fit est fit_est predict_est G choice cpu wm c order g fs s0 X y coords given in
    let o' := fit est fit_est predict_est G choice cpu wm' c order' g' fs' s0' X y coords' given' in
    length X = n -> in_force wm fs coords given w -> holds w (mmap Fin W) n ->
    length ks = n -> Forall (Rlt 0) ks -> in_force wm' fs' coords' given' w' -> holds w' (mmap Fin (rows_scaled ks W)) n ->
    sample_local_rate c = None -> schedule (num_tasks cpu c n) order -> schedule (num_tasks cpu c n) order' ->
    o_result est G o = Ok tt ->
    o_result est G o' = Ok tt /\
    local_predict_ est (o_state est G o') = local_predict_ est (o_state est G o) /\
    local_residual_ est (o_state est G o') = local_residual_ est (o_state est G o) /\
    llocv_score_ est (o_state est G o') = llocv_score_ est (o_state est G o).
  Proof.
    intros o o' HX Hf Hw Hl Hk Hf' Hw' Hs HS HS' Hok.
    assert (HWl : length W = n) by (destruct Hw as [[H _] _]; unfold mmap in H; rewrite map_length in H; exact H).
    pose proof (fit_all_locations est fit_est predict_est G choice cpu wm c order g fs s0 X y coords given w (mmap Fin W) n Hch Hcpu HX Hf Hw Hs HS) as F1.
    pose proof (fit_all_locations est fit_est predict_est G choice cpu wm' c order' g' fs' s0' X y coords' given' w' (mmap Fin (rows_scaled ks W)) n Hch Hcpu HX Hf' Hw' Hs HS') as F2.
    cbv zeta in F1, F2. fold o in F1. fold o' in F2.
    destruct (fit_inv est fit_est predict_est G choice cpu wm c order g fs s0 X y coords given Hok) as (w1 & g1 & locs & preds & es & p & score & _ & _ & L1 & _ & _ & S1 & E1).
    assert (Ep : local_predict_ est (o_state est G o) = Some p) by (unfold o; rewrite E1; reflexivity).
    destruct (proj1 (F1 p) (conj Hok Ep)) as (V & J & N2 & Lp & Hi).
    assert (H2 : o_result est G o' = Ok tt /\ local_predict_ est (o_state est G o') = Some p).
    { apply F2. split; [exact V|]. split; [exact J|]. split; [exact N2|]. split; [exact Lp|]. intros i Hn. destruct (Hi i Hn) as (e & He & Hp).
      destruct (local_scaled X y (leave_local_out c) ks W n i e) as (e' & He' & Hp'); auto; try lia. exists e'. split; [exact He'|]. rewrite Hp'. exact Hp. }
    destruct H2 as [Hok' Ep']. split; [exact Hok'|]. split; [congruence|].
    destruct (fit_inv est fit_est predict_est G choice cpu wm' c order' g' fs' s0' X y coords' given' Hok') as (w2 & g2 & locs2 & preds2 & es2 & p2 & score2 & _ & _ & L2 & _ & _ & S2 & E2).
    unfold sample_locations in L1, L2. rewrite Hs in L1, L2. injection L1 as _ <-. injection L2 as _ <-.
    assert (p2 = p) by (unfold o' in Ep'; rewrite E2 in Ep'; cbn in Ep'; congruence). subst p2.
    unfold o, o'. rewrite E1, E2. cbn. split; [reflexivity|congruence].
  Qed.

  Theorem pbw_rows_scaled wm wm' c fs fs2 fs' fs2' s X v t es preds W ks m n :
    cache_data c = true -> cache_estimator c = true ->
    local_estimators est s = Some (map Some es) -> data_coords est s = Some t ->
    rect W m n -> (0 < m)%nat -> (0 < n)%nat -> length es = n -> length ks = m ->
    Forall2 (fun e p => predict_est e X = Ok p /\ length p = m) es preds ->
    wm fs v t = (fs2, Ok (WDense (mmap Fin W))) -> wm' fs' v t = (fs2', Ok (WDense (mmap Fin (rows_scaled ks W)))) ->
    exists out, length out = m /\
      predict_by_weight est predict_est wm c fs s X (Some v) None = (fs2, Ok (map Fin out)) /\
      predict_by_weight est predict_est wm' c fs' s X (Some v) None = (fs2', Ok (map Fin (map2 Rmult ks out))).
  Proof.
    intros H1 H2 He Ht HR Hm Hn Hl Hk Hp Hw Hw'.
    assert (HW : length W = m) by apply HR.
    assert (HR' : rect (rows_scaled ks W) m n).
    { destruct HR as [A B]. subst m. split.
      - unfold rows_scaled. clear -Hk. revert W Hk. induction ks as [|k ks' IH]; intros [|row W] H; cbn in *; auto; lia.
      - unfold rows_scaled. clear -Hk B. revert W Hk B. induction ks as [|k ks' IH]; intros [|row W] H B; cbn in *; auto.
        inversion B; subst. constructor; [rewrite map_length; auto|apply IH; auto]. }
    eexists. split; [|split; [exact (pbw_sum est predict_est wm c fs fs2 s X v t es preds W m n H1 H2 He Ht Hw HR Hm Hn Hl Hp)|]]; [apply tabulate_length|].
    rewrite (pbw_sum est predict_est wm' c fs' fs2' s X v t es preds (rows_scaled ks W) m n H1 H2 He Ht Hw' HR' Hm Hn Hl Hp).
    apply f_equal, f_equal, f_equal. apply (list_eq_nth 0).
    - rewrite map2_length, !tabulate_length. lia.
    - intros i Hi. rewrite tabulate_length in Hi. rewrite tabulate_nth by auto.
      rewrite (map2_nth Rmult ks _ i 0 0 0) by (rewrite ?tabulate_length; lia). rewrite tabulate_nth by auto.
      unfold tabulate. rewrite <- Rsum_map_scal. apply Rsum_map_ext. intros j Hj. rewrite rows_scaled_mget by lia. ring.
  Qed.
End Scale.
