From Coq Require Import Lra Psatz Sorting.Sorted.
From Verif.Model Require Import Base Ext Sort Csr Neighbour Distance WeightModel Inspect.
From Verif.Spec Require Import KernelSpec NeighbourSpec WeightModelSpec InspectSpec.
From Verif.Proofs Require Import ListFacts SumFacts KernelFacts CsrFacts NeighbourFacts NeighbourProps WeightModelFacts WeightModelProps FitProps PredictProps StackingFacts InspectProps InspectProps2 InspectProps3 InspectProps4 FitExamples.
Open Scope nat_scope.
Open Scope R_scope.

(** The example matrix without its diagonal. *)
Definition fW_left_out : matrix ext := [[Fin 0; Fin 1; Fin 0]; [Fin 1; Fin 0; Fin 1]; [Fin 0; Fin 1; Fin 0]].

Lemma i_weights : fitted_weights i_state fW_left_out 3.
Proof.
  destruct (fit_weight_attributes R off_fit off_predict nat first_choice 2 no_wm (cfg true None None None) [1; 0]%nat 0%nat no_fs s_init iX fy None (Some (WDense fW)) fW 3
    (or_introl eq_refl) fW_rect (fit_off_ok true _ (perm_swap _ _ _))) as (W' & HW & HU). fold i_state in HW.
  assert (W' = fW_left_out); [|subst; auto].
  apply (matrix_eq (Fin 0) _ _ 3 3); [apply HW|split; [reflexivity|repeat constructor]|].
  intros i j Hi Hj. rewrite HU by auto. apply lt3 in Hi as [-> | [-> | ->]], Hj as [-> | [-> | ->]]; reflexivity.
Qed.

Lemma nth_error_Some_lt {A} (l : list A) i x : nth_error l i = Some x -> (i < length l)%nat.
Proof. intros H. apply nth_error_Some. congruence. Qed.

Lemma pos0 : positive (Fin 0) = false. Proof. unfold positive. destruct Rlt_dec; auto; lra. Qed.
Lemma pos1 : positive (Fin 1) = true. Proof. unfold positive. destruct Rlt_dec; auto; lra. Qed.
Lemma i_sets : positive_set fW_left_out 3 0 = [1%nat] /\ positive_set fW_left_out 3 1 = [0; 2]%nat /\ positive_set fW_left_out 3 2 = [1%nat].
Proof. unfold positive_set, mget, fW_left_out. cbn [seq filter nth]. rewrite !pos0, !pos1. auto. Qed.

Lemma sched3 : schedule 3 [2; 0; 1]%nat.
Proof. unfold schedule. simpl. apply (Permutation_cons_append [0; 1]%nat 2%nat). Qed.

Lemma three (es : list R) : length es = 3%nat -> exists a b c, es = [a; b; c].
Proof. destruct es as [|a [|b [|c [|? ?]]]]; simpl; intros; try lia. eauto. Qed.

Lemma local_importance_example : (exists es score, fitted_model i_state iX fy es 3 2 score) /\ fitted_weights i_state fW_left_out 3 /\ schedule 3 [2; 0; 1]%nat /\
  importance_score_local R (fun i _ Xs _ _ _ => Ok [Fin (INR (i + length Xs))]) i_cfg [2; 0; 1]%nat i_state 4 = Ok [[Fin 1]; [Fin 3]; [Fin 3]].
Proof.
  destruct i_state_fitted as (es & score & HM & _). split; [eauto|]. split; [apply i_weights|]. split; [apply sched3|].
  apply (importance_local_ok R _ i_cfg _ _ _ _ _ _ _ _ _ _ _ HM i_weights eq_refl eq_refl sched3).
  split; [reflexivity|]. intros i e He. cbv zeta. destruct i_sets as (E0 & E1 & E2).
  assert (Hi : (i < 3)%nat) by (apply nth_error_Some_lt in He; destruct HM as (_ & _ & _ & _ & _ & <- & _); auto).
  apply lt3 in Hi as [-> | [-> | ->]]; rewrite ?E0, ?E1, ?E2; simpl; repeat f_equal; lra.
Qed.

Definition ex_partial (e : R) (X : matrix R) (f : nat) : result (list R * matrix R) :=
  let grid := map (fun x => nth f x 0) X in
  Ok (grid, map (fun x => map (fun v => e * v + nth 0 x 0) grid) X).

Lemma pd_example : local_partial_dependence R ex_partial 1 [[2]; [4]] [1; 3] 1 = Ok [([2; 4], [11 / 2; 15 / 2])] /\
  local_pd R ex_partial 1 [[2]; [9]; [4]] [1; 0; 3] = Ok [([2; 4], [11 / 2; 15 / 2])].
Proof.
  assert (H : local_partial_dependence R ex_partial 1 [[2]; [4]] [1; 3] 1 = Ok [([2; 4], [11 / 2; 15 / 2])]).
  { apply lpd_ok. split; [reflexivity|]. intros [|f] Hf; [|lia]. eexists. split; [reflexivity|]. split; [reflexivity|]. split; [reflexivity|]. split; [unfold Rsum; simpl; lra|].
    intros [|[|j]] Hj; simpl in Hj; try lia; split; unfold Rsum; simpl; lra. }
  split; [exact H|]. unfold local_pd, mask_index. cbn [map length Nat.eqb bind ncols].
  replace (Reqb 1 0) with false by (symmetry; apply Reqb_false; lra). replace (Reqb 0 0) with true by (symmetry; apply Reqb_true; lra).
  replace (Reqb 3 0) with false by (symmetry; apply Reqb_false; lra). cbn [negb select bind]. exact H.
Qed.

Lemma inspection_example : fitted_weights i_state fW_left_out 3 /\
  (exists out, local_ICE R off_predict (fun Xs f => Ok (map (fun x => nth f x 0) Xs)) (fun v => v) i_state = Ok out) /\
  raises (local_ICE R off_predict (fun Xs f => Ok [0; 1]) (fun v => v) i_state) /\
  (exists out, partial_dependence R ex_partial [2; 0; 1]%nat i_state = Ok out).
Proof.
  destruct i_state_fitted as (es & score & HM & _). split; [apply i_weights|].
  assert (HLe : length es = 3%nat) by apply HM. destruct (three es HLe) as (a & b & c & ->). destruct i_sets as (E0 & E1 & E2).
  split; [|split].
  - eexists. apply (local_ICE_ok R _ _ _ _ _ _ _ _ _ _ _ _ HM i_weights).
    exists [[([1], [a + 1]); ([6], [a + 0])]; [([0; 2], [b + 0; b + 2]); ([5; 4], [b + 1; b + 1])]; [([1], [c + 1]); ([6], [c + 2])]].
    split; [|split; [|reflexivity]].
    + split; [reflexivity|]. intros i e He. assert (Hi : (i < 3)%nat) by (apply nth_error_Some_lt in He; auto).
      apply lt3 in Hi as [-> | [-> | ->]]; injection He as <-; (split; [reflexivity|]); rewrite ?E0, ?E1, ?E2; intros [|[|f]] Hf; try lia; cbv zeta; cbn [nth fst snd]; (split; [reflexivity|]).
      * exists [[1; 5]]. split; [|reflexivity]. constructor; [|constructor]. split; [reflexivity|]. intros [|[|j]] Hj; simpl in *; try lia; reflexivity.
      * exists [[0; 6]]. split; [|reflexivity]. constructor; [|constructor]. split; [reflexivity|]. intros [|[|j]] Hj; simpl in *; try lia; reflexivity.
      * exists [[0; 6]; [2; 6]]. split; [|reflexivity]. repeat constructor; intros [|[|j]] Hj; simpl in *; try lia; reflexivity.
      * exists [[1; 5]; [1; 4]]. split; [|reflexivity]. repeat constructor; intros [|[|j]] Hj; simpl in *; try lia; reflexivity.
      * exists [[1; 4]]. split; [|reflexivity]. repeat constructor; intros [|[|j]] Hj; simpl in *; try lia; reflexivity.
      * exists [[2; 6]]. split; [|reflexivity]. repeat constructor; intros [|[|j]] Hj; simpl in *; try lia; reflexivity.
    + intros [n Hn]. assert (A : 1%nat = n) by (apply (Hn _ ([1], [a + 1]) (or_introl eq_refl)); left; reflexivity).
      assert (B : 2%nat = n) by (apply (Hn _ ([0; 2], [b + 0; b + 2]) (or_intror (or_introl eq_refl))); left; reflexivity). lia.
  - destruct (local_ICE R off_predict (fun Xs f => Ok [0; 1]) (fun v => v) i_state) as [out|] eqn:E; [|eexists; reflexivity].
    apply (local_ICE_ok R _ _ _ _ _ _ _ _ _ _ _ _ HM i_weights) in E as (curves & (HL & HC) & HN & _). exfalso. apply HN. exists 2%nat.
    intros row cv Hr Hc. destruct (In_nth _ _ [] Hr) as (i & Hi & <-). rewrite HL in Hi.
    destruct (nth_error [a; b; c] i) as [e|] eqn:Ee; [|apply nth_error_None in Ee; simpl in Ee; lia].
    destruct (HC i e Ee) as [HF HC']. destruct (In_nth _ _ ([], []) Hc) as (f & Hf & <-). rewrite HF in Hf.
    destruct (HC' f Hf) as [Hg _]. injection Hg as <-. reflexivity.
  - eexists. apply (partial_dependence_ok R _ _ _ _ _ _ _ _ _ _ _ HM i_weights sched3).
    exists [[([1], [a * 1 + 1]); ([6], [a * 6 + 1])]; [([0; 2], [b * 0 + 1; b * 2 + 1]); ([5; 4], [b * 5 + 1; b * 4 + 1])]; [([1], [c * 1 + 1]); ([6], [c * 6 + 1])]].
    split; [|split; [|reflexivity]].
    + split; [reflexivity|]. intros i e He. assert (Hi : (i < 3)%nat) by (apply nth_error_Some_lt in He; auto).
      apply lt3 in Hi as [-> | [-> | ->]]; injection He as <-; rewrite ?E0, ?E1, ?E2.
      * exists [1]. split; [repeat constructor|]. split; [reflexivity|]. intros [|[|f]] Hf; try lia; eexists; (split; [reflexivity|]); (split; [reflexivity|]); (split; [reflexivity|]); (split; [unfold Rsum; simpl; lra|]); intros [|j] Hj; try (simpl in Hj; lia); split; unfold Rsum; simpl; lra.
      * exists [1; 1]. split; [repeat constructor|]. split; [reflexivity|]. intros [|[|f]] Hf; try lia; eexists; (split; [reflexivity|]); (split; [reflexivity|]); (split; [reflexivity|]); (split; [unfold Rsum; simpl; lra|]); intros [|[|j]] Hj; try (simpl in Hj; lia); split; unfold Rsum; simpl; lra.
      * exists [1]. split; [repeat constructor|]. split; [reflexivity|]. intros [|[|f]] Hf; try lia; eexists; (split; [reflexivity|]); (split; [reflexivity|]); (split; [reflexivity|]); (split; [unfold Rsum; simpl; lra|]); intros [|j] Hj; try (simpl in Hj; lia); split; unfold Rsum; simpl; lra.
    + intros [n Hn]. assert (A : 1%nat = n) by (apply (Hn _ ([1], [a * 1 + 1]) (or_introl eq_refl)); left; reflexivity).
      assert (B : 2%nat = n) by (apply (Hn _ ([0; 2], [b * 0 + 1; b * 2 + 1]) (or_intror (or_introl eq_refl))); left; reflexivity). lia.
Qed.

Lemma sampled_example : exists s es, o_result R nat (fit_last (cfg true (Some (2 / 3)) None (Some 2%nat)) [1; 0]%nat 0%nat no_fs s_init fX fy None (Some (WDense fW))) = Ok tt /\
  s = o_state R nat (fit_last (cfg true (Some (2 / 3)) None (Some 2%nat)) [1; 0]%nat 0%nat no_fs s_init fX fy None (Some (WDense fW))) /\
  n_obs R s = Some 3%nat /\ local_estimators R s = Some (map Some es) /\ length es = 2%nat.
Proof.
  destruct (fit_last_ok None (Some 2%nat) [1; 0]%nat (or_intror (conj eq_refl eq_refl)) (perm_swap _ _ _)) as (A & B & _). cbv zeta in A, B.
  destruct (fit_results R wmean_fit wmean_predict nat last_choice 2 no_wm (cfg true (Some (2 / 3)) None (Some 2%nat)) [1; 0]%nat 0%nat no_fs s_init fX fy None (Some (WDense fW)) (WDense fW) fW 3 last_choice_valid ltac:(lia) eq_refl (or_introl eq_refl) fW_holds (perm_swap _ _ _) A)
    as (locs & es1 & ps1 & sc1 & R1 & R2 & R3 & _ & _ & _ & _ & _ & _ & R9 & R10 & R11 & R12 & _ & _ & _ & R13).
  unfold fit_last in B; rewrite B in R2. injection R2 as <-. simpl in R12.
  destruct es1 as [|[e|] [|[e'|] [|? ?]]]; simpl in R12; try lia.
  - eexists _, [e; e']. split; [exact A|]. split; [reflexivity|]. split; [|split; [exact R3|reflexivity]].
    destruct (fit_inv _ _ _ _ _ _ _ _ _ _ _ _ _ _ _ _ A) as (w1 & g1 & l1 & preds & es2 & p1 & sc2 & _ & _ & _ & _ & _ & _ & Eq).
    unfold fit_last in *. rewrite Eq. reflexivity.
  - exfalso. destruct (R13 1%nat ltac:(simpl; lia)) as (? & ? & ? & H). discriminate.
  - exfalso. destruct (R13 0%nat ltac:(simpl; lia)) as (? & ? & ? & H). discriminate.
  - exfalso. destruct (R13 0%nat ltac:(simpl; lia)) as (? & ? & ? & H). discriminate.
Qed.

Lemma history_example : exists s out g', history off_fit off_predict first_choice 2 no_wm rot_permute s_init s [2%nat] /\
  permutation_score_decrease_ R s_init = None /\
  importance_score_global R off_predict nat rot_permute i_cfg s 0%nat 3 = out /\ fst out = (fst (fst out), g') /\ exists l, snd out = Ok l.
Proof.
  destruct (i_importance 2 ltac:(lia)) as [out Hout]. destruct (importance_score_global R off_predict nat rot_permute i_cfg i_state 0%nat 2) as [[s1 g1] x] eqn:E1. cbn [snd] in Hout. subst x.
  set (o2 := fit_off (cfg true None None None) [0; 1]%nat 0%nat no_fs s1 iX fy None (Some (WDense fW))).
  destruct (importance_score_global R off_predict nat rot_permute i_cfg (o_state R nat o2) 0%nat 3) as [[s3 g3] x3] eqn:E3.
  exists (o_state R nat o2), (s3, g3, x3), g3. split; [|split; [reflexivity|split; [exact E3|split; [reflexivity|]]]].
  - unfold o2. apply H_fit. apply (H_importance off_fit off_predict first_choice 2 no_wm rot_permute s_init i_state [] i_cfg 0%nat 2 s1 g1 out); [|exact E1].
    unfold i_state. apply H_fit. apply H_start.
  - destruct i_state_fitted as (es0 & sc0 & HM0 & _ & Hn0 & _).
    destruct (fit_fitted R off_fit off_predict nat first_choice 2 no_wm (cfg true None None None) [0; 1]%nat 0%nat no_fs s1 iX fy None (Some (WDense fW)) (WDense fW) fW 3 first_choice_valid ltac:(lia) eq_refl (or_introl eq_refl) fW_holds (Permutation_refl _) eq_refl eq_refl eq_refl (fit_off_any true s1 [0; 1]%nat (Permutation_refl _)))
      as (es & score & F & ps & HM & _). fold fit_off in HM. fold o2 in HM.
    destruct (importance_succeeds R off_predict nat rot_permute rot_permute_valid i_cfg _ _ _ _ _ _ _ 0%nat 3 HM eq_refl eq_refl ltac:(lia)) as [l Hl].
    + intros e rows _ _ H. apply (off_predicts F e rows H).
    + intros m Hm. unfold o2, fit_off in Hm. rewrite (proj1 (fit_keeps R off_fit off_predict nat first_choice 2 no_wm (cfg true None None None) [0; 1]%nat 0%nat no_fs s1 iX fy None (Some (WDense fW)))) in Hm.
      destruct (importance_permutes R off_predict nat rot_permute rot_permute_valid _ _ _ _ _ _ _ _ _ _ _ _ _ HM0 E1) as (t & m' & Ht & Hb & Hm' & _).
      rewrite Hm in Hm'. injection Hm' as <-. rewrite Hn0 in Hb. simpl in Hb. subst m. destruct Ht as (? & ? & _ & _ & [HL _] & _).
      destruct HM as (_ & _ & _ & _ & _ & _ & [_ HF] & _). inversion HF; subst. simpl in *. auto.
    + rewrite E3 in Hl. exists l. exact Hl.
Qed.
