(** Examples of local permutation importance (C172). *)
From Coq Require Import Lra Lia.
From Verif.Model Require Import Base Ext Sort Csr Neighbour Distance WeightModel Inspect LocalImportance.
From Verif.Spec Require Import KernelSpec NeighbourSpec WeightModelSpec InspectSpec LocalImportanceSpec.
From Verif.Proofs Require Import ListFacts SumFacts CsrFacts NeighbourProps WeightModelFacts WeightModelProps FitProps InspectProps InspectProps2 InspectProps3 InspectProps4 FitExamples
  InspectExamples LocalImportanceProps LocalImportanceFacts LocalImportanceApi.
Open Scope nat_scope.
Open Scope R_scope.

(** The model fitted to the responses [a], [b], [c] at three places on a line; each
    estimator predicts its number plus feature 0. *)
Definition l_X (p r : R) : matrix R := [[p; 5]; [1; 6]; [r; 4]].
Definition l_fit (p r a b c : R) := fit_off (cfg true None None None) [1; 0]%nat 0%nat no_fs s_init (l_X p r) [a; b; c] None (Some (WDense fW)).
Definition l_state (p r a b c : R) : state R := o_state R nat (l_fit p r a b c).
Definition l_imp (i : nat) := permutation_importance_sk R off_predict nat rot_permute 0%nat.

Lemma l_ok p r a b c : o_result R nat (l_fit p r a b c) = Ok tt.
Proof.
  apply (fit_succeeds R off_fit off_predict nat first_choice 2 no_wm _ _ _ _ _ _ _ _ _ (WDense fW) fW 3 first_choice_valid); auto using fW_holds.
  - left. reflexivity.
  - apply perm_swap.
  - left. reflexivity.
  - split; [exists 2%nat; simpl; split; [split; [reflexivity|repeat constructor]|lia]|]. split; [exact I|]. split; [intros q Hq; discriminate Hq|]. split; [cbv [num_locations sample_local_rate cfg]; lia|].
    intros i Hi. unfold local_model, off_fit. rewrite map_length.
    cbv [drawn sample_local_rate cfg] in Hi. simpl in Hi.
    unfold training_set, used_weight, mget, fW, eis_zero.
    destruct Hi as [<-|[<-|[<-|[]]]]; cbn [seq filter Nat.eqb andb nth cfg leave_local_out]; rdec; cbn [negb length Nat.eqb]; eexists _, _; split; reflexivity.
Qed.

Lemma l_fitted p r a b c : exists es score, fitted_model (l_state p r a b c) (l_X p r) [a; b; c] es 3 2 score.
Proof.
  destruct (fit_fitted R off_fit off_predict nat first_choice 2 no_wm (cfg true None None None) [1; 0]%nat 0%nat no_fs s_init (l_X p r) [a; b; c] None (Some (WDense fW)) (WDense fW) fW 3 first_choice_valid ltac:(lia) eq_refl (or_introl eq_refl) fW_holds (perm_swap _ _ _) eq_refl eq_refl eq_refl (l_ok p r a b c))
    as (es & score & F & ps & HM & _). exists es, score.
  assert (F = 2%nat).
  { destruct HM as (_ & _ & _ & _ & _ & _ & HM & _). destruct HM as [_ HM]. inversion HM as [|? ? HF]; subst. reflexivity. }
  subst F. exact HM.
Qed.

Lemma l_weights p r a b c : fitted_weights (l_state p r a b c) fW_left_out 3.
Proof.
  destruct (fit_weight_attributes R off_fit off_predict nat first_choice 2 no_wm (cfg true None None None) [1; 0]%nat 0%nat no_fs s_init (l_X p r) [a; b; c] None (Some (WDense fW)) fW 3
    (or_introl eq_refl) fW_rect (l_ok p r a b c)) as (W' & HW & HU).
  assert (W' = fW_left_out); [|subst; exact HW].
  apply (matrix_eq (Fin 0) _ _ 3 3); [apply HW|split; [reflexivity|repeat constructor]|].
  intros i j Hi Hj. rewrite HU by auto. apply lt3 in Hi as [-> | [-> | ->]], Hj as [-> | [-> | ->]]; reflexivity.
Qed.

Lemma l_location p r a c e : a <> c ->
  permutation_importance_sk R off_predict nat rot_permute 0%nat e [[p; 5]; [r; 4]] [a; c] [Fin 1; Fin 1] 1 = Ok [Fin (4 * (r - p) / (c - a)); Fin 0].
Proof.
  intros Hac. assert (HS : (c - a) * (c - a) <> 0) by (intros H; apply Rmult_integral in H as [H|H]; lra).
  set (sst := 1 * ((a - (a * 1 + (c * 1 + 0)) / (1 + (1 + 0))) * (a - (a * 1 + (c * 1 + 0)) / (1 + (1 + 0)))) + (1 * ((c - (a * 1 + (c * 1 + 0)) / (1 + (1 + 0))) * (c - (a * 1 + (c * 1 + 0)) / (1 + (1 + 0)))) + 0)).
  assert (Esst : sst = (c - a) * (c - a) / 2) by (unfold sst; field).
  assert (E2 : forall u v, r2_weighted [a; c] [u; v] [1; 1] = Ok (Fin (1 - ((a - u) * (a - u) + (c - v) * (c - v)) / ((c - a) * (c - a) / 2)))).
  { intros u v. unfold r2_weighted. cbn [length Nat.eqb negb orb map2 map]. unfold Rsum. cbn [fold_right].
    destruct (Reqb_spec (1 + (1 + 0)) 0) as [H|_]; [lra|]. cbv zeta. fold sst. rewrite Esst.
    destruct (Reqb_spec ((c - a) * (c - a) / 2) 0) as [H|_]; [lra|]. do 2 f_equal. field. lra. }
  assert (P : forall rows, off_predict e rows = Ok (map (fun x => e + nth 0 x 0) rows)) by reflexivity.
  assert (S0 : permutation_scores R off_predict nat rot_permute e [a; c] [1; 1] 0 0%nat [0; 1]%nat [[p; 5]; [r; 4]] 1 =
    Ok [Fin (1 - ((a - (e + r)) * (a - (e + r)) + (c - (e + p)) * (c - (e + p))) / ((c - a) * (c - a) / 2))]).
  { cbn [permutation_scores rot_permute app]. change (shuffle_column [[p; 5]; [r; 4]] [1; 0]%nat 0) with (Ok [[r; 5]; [p; 4]]). cbn [bind].
    unfold score_est. rewrite P. cbn [map nth bind]. rewrite E2. reflexivity. }
  assert (S1 : permutation_scores R off_predict nat rot_permute e [a; c] [1; 1] 1 0%nat [0; 1]%nat [[p; 5]; [r; 4]] 1 =
    Ok [Fin (1 - ((a - (e + p)) * (a - (e + p)) + (c - (e + r)) * (c - (e + r))) / ((c - a) * (c - a) / 2))]).
  { cbn [permutation_scores rot_permute app]. change (shuffle_column [[p; 5]; [r; 4]] [1; 0]%nat 1) with (Ok [[p; 4]; [r; 5]]). cbn [bind].
    unfold score_est. rewrite P. cbn [map nth bind]. rewrite E2. reflexivity. }
  unfold permutation_importance_sk. change (finite_weights [Fin 1; Fin 1]) with (Ok [1; 1]). cbn [bind].
  unfold score_est at 1. rewrite P. cbn [map nth bind]. rewrite E2. cbn [bind]. change (seq 0 (ncols [[p; 5]; [r; 4]])) with [0; 1]%nat. change (seq 0 (length [[p; 5]; [r; 4]])) with [0; 1]%nat. cbn [mapM].
  rewrite S0. cbn [bind]. rewrite S1. cbn [bind map]. unfold esub, eopp. cbn [mean_ext length esum fold_right eadd].
  unfold ediv. destruct (Req_EM_T (INR 1) 0) as [H|_]; [simpl in H; lra|]. simpl INR. apply (f_equal (@Ok _)). f_equal; [f_equal; field; lra|]. f_equal. f_equal. field. lra.
Qed.

Lemma l_importance p r a b c : a <> c ->
  importance_score_local R l_imp i_cfg [2; 0; 1]%nat (l_state p r a b c) 1 = Ok [[NaN; NaN]; [Fin (4 * (r - p) / (c - a)); Fin 0]; [NaN; NaN]].
Proof.
  intros Hac. destruct (l_fitted p r a b c) as (es & score & HM).
  apply (importance_local_ok R l_imp i_cfg _ _ _ _ _ _ _ _ _ _ _ HM (l_weights p r a b c) eq_refl eq_refl sched3).
  split; [reflexivity|]. intros i e He. cbv zeta. destruct i_sets as (E0 & E1 & E2).
  assert (Hi : (i < 3)%nat) by (apply nth_error_Some_lt in He; destruct HM as (_ & _ & _ & _ & _ & <- & _); auto).
  apply lt3 in Hi as [-> | [-> | ->]]; rewrite ?E0, ?E1, ?E2; cbn [map nth]; unfold l_imp, mget, fW_left_out; cbn [nth l_X].
  - apply (sk_one R off_predict nat rot_permute rot_permute_valid 0%nat e [1; 6] b 1 1 2); auto using off_predicts.
  - apply l_location, Hac.
  - apply (sk_one R off_predict nat rot_permute rot_permute_valid 0%nat e [1; 6] b 1 1 2); auto using off_predicts.
Qed.

Lemma negative_example : importance_score_local R l_imp i_cfg [2; 0; 1]%nat (l_state 0 2 4 2 1) 1 = Ok [[NaN; NaN]; [Fin (- (8 / 3)); Fin 0]; [NaN; NaN]].
Proof. rewrite l_importance by lra. replace (4 * (2 - 0) / (1 - 4)) with (- (8 / 3)) by field. reflexivity. Qed.

Lemma constant_example : importance_score_local R l_imp i_cfg [2; 0; 1]%nat (l_state 3 3 1 2 4) 1 = Ok [[NaN; NaN]; [Fin 0; Fin 0]; [NaN; NaN]].
Proof. rewrite l_importance by lra. replace (4 * (3 - 3) / (4 - 1)) with 0 by field. reflexivity. Qed.
