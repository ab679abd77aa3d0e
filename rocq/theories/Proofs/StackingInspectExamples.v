(** A stacking model with two features, of which only the first is used. *)
From Coq Require Import Lra.
From Verif.Model Require Import Base Ext Csr Neighbour Distance WeightModel NumbaImpl Stacking Inspect Ale StackingInspect.
From Verif.Spec Require Import KernelSpec NeighbourSpec WeightModelSpec InspectSpec StackingSpec.
From Verif.Proofs Require Import ListFacts KernelFacts CsrFacts NeighbourFacts WeightModelFacts NeighbourProps WeightModelProps
  StackingFacts StackingMeta StackingProps InspectProps InspectProps4 StackingExamples StackingInspectProps.
Open Scope nat_scope.
Open Scope R_scope.

Definition sx_X : matrix R := [[0; 5]; [1; 9]; [2; 7]].
Definition sx_y : list R := [1; 2; 4].
Definition sx_c : sconfig := SConfig true None true (Some 4%Z) (Some 2%nat) 10 (Some (1 / 2)) None None None false.
Definition sx_o := ex_sfit ex_r sx_c 41%nat (fun _ => None) ex_s0 sx_X sx_y None (Some (SDense ex_W)).
Definition sx_s := so_state R R nat sx_o.

Lemma sx_run : so_result R R nat sx_o = Ok tt /\
  ss_local_predict R R sx_s = Some [[Rsum [2] + 0]; [Rsum [4] + 1]; [Rsum [1] + 2]] /\
  ss_base_list R R sx_s = Some [Rsum [2]; Rsum [4]; Rsum [1]] /\
  ss_stacking_predict R R sx_s =
    Some [Rsum [2; 4] + Rsum [Rsum [2] + 0; Rsum [4] + 0]; Rsum [1; 4] + Rsum [Rsum [4] + 1; Rsum [1] + 1]; Rsum [1; 2] + Rsum [Rsum [2] + 2; Rsum [1] + 2]].
Proof.
  unfold sx_s, sx_o, sx_y, sx_X. unfold sfit; match goal with |- context[check_X_y ?a ?b] => change (check_X_y a b) with (@Ok unit tt) end; cbv beta iota.
  unfold leave_out_sample; cbn [sx_c sc_leave_out_rate sc_leave_out_shrink]; rewrite ex_sampled; cbn [bind fst snd];
  unfold sample_locations; cbn [sc_sample_local_rate shrink_w sc_meta_shrink].
  cbn -[Rplus Rmult Rminus Rdiv Rinv Rsum r2_score]. ex_finish. unfold r2_score. repeat split; reflexivity.
Qed.

Lemma sx_hyps : valid_choice rot_choice /\ (forall e X, ex_predict e X = Ok (map (ex_row e) X)) /\
  (forall m X p, ex_predict_meta m X = Ok p -> p = map (fun row => m + Rsum row) X) /\
  valid_runtime ex_r 3 (patches 4 sx_c) /\ valid_rates sx_c /\ holds_real (SDense ex_W) ex_W 3 /\
  real_weights ex_wm (fun _ => None) None (Some (SDense ex_W)) (SDense ex_W) /\ all_bases_used sx_c (SDense ex_W) /\
  (forall W' i, shrunk_weights (sc_meta_shrink sx_c) ex_W W' -> (i < 3)%nat -> 0 < mget 0 W' i i).
Proof.
  split; [exact rot_choice_valid|]. split; [reflexivity|]. split; [intros m X p H; injection H as <-; reflexivity|].
  split; [apply (ex_runtime None false)|]. split; [apply (ex_rates None false)|]. split; [split; [apply ex_rect|left; reflexivity]|].
  split; [left; reflexivity|]. split; [left; reflexivity|].
  intros W' i H Hi. apply shrunk_effective in H. cbn in H. subst W'. destruct i as [|[|[|i]]]; try lia; cbn; lra.
Qed.

Lemma sx_importance g r : (0 < r)%nat -> exists out,
  snd (importance_score_global (member R R) (predict_member R ex_predict R ex_predict_meta) nat rot_permute i_cfg (inspected R R sx_s None None) g r) = Ok out.
Proof.
  intros Hr. destruct sx_hyps as (H1 & H2 & H3 & H4 & H5 & H6 & H7 & H8 & H9).
  assert (Hone : one_per_row ex_predict) by (intros e X p H; injection H as <-; apply map_length).
  destruct (stack_fitted ex_fit ex_predict ex_fit_meta ex_predict_meta ex_solve 0%nat rot_choice 4 ex_wm ex_r sx_c 41%nat (fun _ => None) ex_s0 sx_X sx_y None (Some (SDense ex_W)) (SDense ex_W) ex_W None None
     H1 Hone H4 H5 H7 H6 (fun E => False_ind _ (Bool.diff_false_true E)) eq_refl eq_refl ltac:(cbn; lia) (proj1 sx_run)) as (ps0 & ps & ses & base & stack & A1 & A2 & A3 & A4 & A5 & A6 & A7 & HM).
  apply (importance_succeeds _ _ _ _ rot_permute_valid _ _ _ _ _ _ _ _ _ _ HM); auto; [|discriminate].
  intros e rows He HL _.
  assert (EL : ss_local_list R R sx_s = Some (LStacking R R [StackingEstimator R R (MFitted R (Rsum [2; 4])) [Rsum [2]; Rsum [4]];
     StackingEstimator R R (MFitted R (Rsum [1; 4])) [Rsum [4]; Rsum [1]]; StackingEstimator R R (MFitted R (Rsum [1; 2])) [Rsum [2]; Rsum [1]]])).
  { unfold sx_s, sx_o, sx_y, sx_X. unfold sfit; match goal with |- context[check_X_y ?a ?b] => change (check_X_y a b) with (@Ok unit tt) end; cbv beta iota.
    unfold leave_out_sample; cbn [sx_c sc_leave_out_rate sc_leave_out_shrink]; rewrite ex_sampled; cbn [bind fst snd];
    unfold sample_locations; cbn [sc_sample_local_rate shrink_w sc_meta_shrink].
    cbn -[Rplus Rmult Rminus Rdiv Rinv Rsum r2_score]. ex_finish. unfold r2_score. reflexivity. }
  change (so_state R R nat _) with sx_s in A3. rewrite EL in A3. injection A3 as <-.
  assert (HG : forall m a b, exists p, predict_member R ex_predict R ex_predict_meta (Stacked R R (StackingEstimator R R (MFitted R m) [a; b])) rows = Ok p /\ length p = length rows).
  { intros m a b. unfold predict_member, predict_stacking, ex_predict. cbn [se_bases se_meta mapM bind]. cbn [length ncols hd forallb]. rewrite !map_length, !Nat.eqb_refl. cbn [Nat.eqb orb andb negb predict_model bind ex_predict_meta].
    unfold ex_predict_meta. cbn [bind]. rewrite !mapM_map. eexists. split; [apply (mapM_all_ok _ (fun row => m + Rsum row)); intros; reflexivity|].
    rewrite map_length. unfold transpose, tabulate. rewrite map_length, seq_length. reflexivity. }
  cbn [map In] in He. destruct He as [<-|[<-|[<-|[]]]]; apply HG.
Qed.

Lemma sx_ignores e : ignores 2 1 (ex_row e).
Proof. intros x x' _ _ H. unfold ex_row. rewrite (H 0%nat) by lia. reflexivity. Qed.

Theorem unused_important :
  so_result R R nat (ex_sfit ex_r sx_c 41%nat (fun _ => None) ex_s0 sx_X sx_y None (Some (SDense ex_W))) = Ok tt /\
  (forall e, ignores 2 1 (ex_row e)) /\
  forall r, (0 < r)%nat -> exists out,
    snd (importance_score_global (member R R) (predict_member R ex_predict R ex_predict_meta) nat rot_permute i_cfg
      (inspected R R (so_state R R nat (ex_sfit ex_r sx_c 41%nat (fun _ => None) ex_s0 sx_X sx_y None (Some (SDense ex_W)))) None None) 0%nat r) = Ok out /\
    nth_error out 1 = Some (Fin (369 / 7)).
Proof.
  split; [apply sx_run|]. split; [exact sx_ignores|]. intros r Hr. destruct (sx_importance 0%nat r Hr) as [out Ho]. exists out. split; [exact Ho|].
  destruct (importance_score_global _ _ _ _ _ _ _ _) as [[s' g'] x] eqn:EI. cbn [snd] in Ho. subst x.
  destruct sx_hyps as (H1 & H2 & H3 & H4 & H5 & H6 & H7 & H8 & H9).
  assert (Hone : one_per_row ex_predict) by (intros e X p H; injection H as <-; apply map_length).
  destruct (stack_unused ex_fit ex_predict ex_fit_meta ex_predict_meta ex_solve 0%nat rot_choice 4 ex_wm rot_permute rot_permute_valid ex_row _ ex_r sx_c 41%nat (fun _ => None) ex_s0 sx_X sx_y None (Some (SDense ex_W)) (SDense ex_W) ex_W None None
     i_cfg 0%nat r s' g' out 1%nat _ H1 H2 H3 H4 H5 H7 H6 H8 (fun E => False_ind _ (Bool.diff_false_true E)) H9 eq_refl eq_refl ltac:(cbn; lia) (proj1 sx_run) EI (proj1 (proj2 (proj2 sx_run))) ltac:(cbn; lia) (fun e _ => sx_ignores e))
    as (base & stack & t & m & A1 & A2 & A3 & A4 & A5 & A6).
  destruct (stack_fitted ex_fit ex_predict ex_fit_meta ex_predict_meta ex_solve 0%nat rot_choice 4 ex_wm ex_r sx_c 41%nat (fun _ => None) ex_s0 sx_X sx_y None (Some (SDense ex_W)) (SDense ex_W) ex_W None None
     H1 Hone H4 H5 H7 H6 (fun E => False_ind _ (Bool.diff_false_true E)) eq_refl eq_refl ltac:(cbn; lia) (proj1 sx_run)) as (ps0 & ps & ses & base' & stack' & B1 & B2 & B3 & B4 & B5 & B6 & B7 & HM).
  rewrite A1 in B4. injection B4 as <-. rewrite A2 in B5. injection B5 as <-.
  destruct sx_run as (_ & R1 & _ & R2). fold sx_o in B1, B2. fold sx_s in B1, B2. rewrite R1 in B1. rewrite R2 in B2. injection B2 as <-.
  assert (E0 : ps0 = [Rsum [2] + 0; Rsum [4] + 1; Rsum [1] + 2]).
  { destruct ps0 as [|a [|b [|c [|d l]]]]; cbn [map] in B1; try discriminate. congruence. }
  subst ps0. clear B1.
  assert (V : base - stack = 369 / 7).
  { destruct B6 as [B6 _]. destruct B7 as [B7 _]. cbn in B6, B7. rewrite B6, B7 by lra. field. }
  cbn [beside] in A3. subst m.
  assert (HL : (1 < length t)%nat).
  { destruct (Nat.lt_ge_cases 1 (length t)); auto. rewrite nth_overflow in A6 by auto. destruct r; [lia|discriminate]. }
  destruct (nth_error out 1) as [v|] eqn:Ev.
  - assert (Hv : is_mean (nth 1 t []) v).
    { clear -A5 HL Ev. destruct A5 as [|a b l l' _ A5]; [cbn in HL; lia|]. destruct A5 as [|a' b' l l' A _]; [cbn in HL; lia|]. cbn in Ev. injection Ev as <-. exact A. }
    destruct Hv as [_ Hv]. rewrite A6 in Hv. rewrite Hv by (destruct r; [lia|discriminate]). f_equal. f_equal. rewrite repeat_length.
    assert (HS : Rsum (repeat (base - stack) r) = INR r * (base - stack)).
    { clear. induction r as [|r IH]; [cbn; ring|]. rewrite S_INR. cbn [repeat]. unfold Rsum in *. cbn [fold_right]. rewrite IH. ring. }
    rewrite HS, V. field. apply not_0_INR. lia.
  - apply nth_error_None in Ev. apply Forall2_len in A5. lia.
Qed.
