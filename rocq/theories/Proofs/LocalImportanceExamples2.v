(** Local permutation importance of the stacking model of StackingInspectExamples
    (C172). *)
From Coq Require Import Lra Lia.
From Verif.Model Require Import Base Ext Csr Neighbour Distance WeightModel NumbaImpl Stacking Inspect StackingInspect LocalImportance.
From Verif.Spec Require Import KernelSpec NeighbourSpec WeightModelSpec InspectSpec StackingSpec LocalImportanceSpec.
From Verif.Proofs Require Import ListFacts CsrFacts NeighbourFacts NeighbourProps WeightModelFacts WeightModelProps StackingFacts StackingMeta StackingProps
  InspectProps InspectProps3 InspectProps4 FitExamples InspectExamples StackingExamples StackingInspectProps StackingInspectExamples LocalImportanceProps LocalImportanceApi.
Open Scope nat_scope.
Open Scope R_scope.

(** The same model, fitted from coordinates. *)
Definition sy_o := ex_sfit ex_r sx_c 41%nat (fun _ => None) ex_s0 sx_X sx_y (Some []) None.
Definition sy_s := so_state R R nat sy_o.

Lemma sy_attributes : so_result R R nat sy_o = Ok tt /\ ss_base_list R R sy_s = Some [Rsum [2]; Rsum [4]; Rsum [1]] /\
  ss_local_list R R sy_s = Some (LStacking R R [StackingEstimator R R (MFitted R (Rsum [2; 4])) [Rsum [2]; Rsum [4]];
     StackingEstimator R R (MFitted R (Rsum [1; 4])) [Rsum [4]; Rsum [1]]; StackingEstimator R R (MFitted R (Rsum [1; 2])) [Rsum [2]; Rsum [1]]]) /\
  ss_weight_matrix R R sy_s = Some (SDense ex_W) /\
  ss_neighbour_matrix R R sy_s = Some (MDense [[true; true; true]; [true; true; true]; [true; true; true]]).
Proof.
  unfold sy_s, sy_o, sx_y, sx_X. unfold sfit; match goal with |- context[check_X_y ?a ?b] => change (check_X_y a b) with (@Ok unit tt) end; cbv beta iota.
  unfold ex_wm. cbv beta iota. cbn [fst snd]. change (repeat (repeat 1 3) 3) with ex_W.
  unfold leave_out_sample; cbn [sx_c sc_leave_out_rate sc_leave_out_shrink]; rewrite ex_sampled; cbn [bind fst snd];
  unfold sample_locations; cbn [sc_sample_local_rate shrink_w sc_meta_shrink].
  cbn -[Rplus Rmult Rminus Rdiv Rinv Rsum r2_score]. ex_finish. unfold r2_score. cbn [length Nat.eqb negb bind so_state ss_weight_matrix ss_neighbour_matrix ss_local_list]. repeat split; try reflexivity.
Qed.

Lemma sy_local seed k : (0 < k)%nat -> exists m,
  importance_score_local (member R R) (fun i => permutation_importance_sk (member R R) (predict_member R ex_predict R ex_predict_meta) nat rot_permute (seed i)) i_cfg [2; 0; 1]%nat
    (inspected R R sy_s None None) k = Ok m.
Proof.
  intros Hk. destruct sx_hyps as (H1 & H2 & H3 & H4 & H5 & H6 & H7 & H8 & H9).
  assert (Hone : one_per_row ex_predict) by (intros e X p H; injection H as <-; apply map_length).
  destruct (stack_fitted ex_fit ex_predict ex_fit_meta ex_predict_meta ex_solve 0%nat rot_choice 4 ex_wm ex_r sx_c 41%nat (fun _ => None) ex_s0 sx_X sx_y (Some []) None (SDense ex_W) ex_W None None
     H1 Hone H4 H5 (or_intror (conj eq_refl (ex_intro _ [] (conj eq_refl eq_refl)))) H6 (fun E => False_ind _ (Bool.diff_false_true E)) eq_refl eq_refl ltac:(cbn; lia) (proj1 sy_attributes)) as (ps0 & ps & ses & base & stack & A1 & A2 & A3 & A4 & A5 & A6 & A7 & HM).
  destruct sy_attributes as (_ & _ & B1 & B2 & B3).
  change (so_state R R nat _) with sy_s in A3, HM. rewrite B1 in A3. injection A3 as <-.
  assert (HWt : fitted_weights (inspected R R sy_s None None) (mmap Fin ex_W) 3).
  { split; [split; [reflexivity|repeat constructor]|]. unfold inspected. cbn [weight_matrix_ neighbour_matrix_]. rewrite B2, B3. cbn [option_map inspected_weights].
    split; [reflexivity|]. eexists. split; [reflexivity|]. split; [split; [reflexivity|repeat constructor]|].
    intros i j Hi Hj. apply lt3 in Hi as [-> | [-> | ->]], Hj as [-> | [-> | ->]]; (cbn; destruct (Rlt_dec _ _); [reflexivity|lra]). }
  apply (local_succeeds (predict_member R ex_predict R ex_predict_meta) rot_permute seed rot_permute_valid i_cfg [2; 0; 1]%nat _ _ _ _ _ _ _ _ k HM HWt eq_refl eq_refl sched3); auto.
  - assert (HG : forall m a b, predicts (predict_member R ex_predict R ex_predict_meta) 2 (Stacked R R (StackingEstimator R R (MFitted R m) [a; b]))).
    { intros m a b rows _. unfold predict_member, predict_stacking, ex_predict. cbn [se_bases se_meta mapM bind]. cbn [length ncols hd forallb]. rewrite !map_length, !Nat.eqb_refl. cbn [Nat.eqb orb andb negb predict_model bind ex_predict_meta].
      unfold ex_predict_meta. cbn [bind]. rewrite !mapM_map. eexists. split; [apply (mapM_all_ok _ (fun row => m + Rsum row)); intros; reflexivity|].
      rewrite map_length. unfold transpose, tabulate. rewrite map_length, seq_length. reflexivity. }
    intros e He. cbn [map In] in He. destruct He as [<-|[<-|[<-|[]]]]; apply HG.
  - intros i Hi. apply lt3 in Hi as [-> | [-> | ->]]; (split; [cbn; repeat (destruct (Rlt_dec _ _); [|lra]); cbn; lia|]);
      intros j Hj; apply lt3 in Hj as [-> | [-> | ->]]; eexists; reflexivity.
Qed.
