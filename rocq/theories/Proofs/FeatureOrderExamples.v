(** Examples for C184: a learner of offsets from the sum of the features. *)
From Coq Require Import Lra Lia Permutation Sorting.Sorted.
From Verif.Model Require Import Base Ext Sort Csr Neighbour Distance Ale WeightModel Inspect LocalImportance PartialDependence.
From Verif.Spec Require Import KernelSpec NeighbourSpec WeightModelSpec InspectSpec LocalImportanceSpec UnitsSpec FeatureUnitsSpec FeatureOrderSpec.
From Verif.Proofs Require Import ListFacts SumFacts KernelFacts KernelExamples CsrFacts NeighbourProps WeightModelFacts WeightModelProps FitProps InspectProps InspectProps2 InspectProps3 InspectProps4 FitExamples InspectExamples
  PartialGrid PartialProps PartialExamples LinearExamples LocalImportanceApi AleProps AleProps2 AleProps3 AleExamples Units FeatureUnits FeatureOrder.
Open Scope string_scope.
Open Scope nat_scope.
Open Scope R_scope.

Definition total_fit (c : nat) (X : matrix R) (y : list R) (w : list ext) : result R :=
  if (length y =? 0)%nat then Raise ValueError else Ok (mean (map2 (fun x v => v - Rsum x) X y)).
Definition total_predict (e : R) (X : matrix R) : result (list R) := Ok (map (fun x => e + Rsum x) X).

Lemma Rsum_perm l l' : Permutation l l' -> Rsum l = Rsum l'.
Proof.
  induction 1 as [|x l l' H IH|x z l|l l1 l2 H1 I1 H2 I2]; [reflexivity| | |congruence].
  - change (x + Rsum l = x + Rsum l'). rewrite IH. reflexivity.
  - change (z + (x + Rsum l) = x + (z + Rsum l)). ring.
Qed.
Lemma total_order F perm row : ordering F perm -> length row = F -> Rsum (reordered 0 perm row) = Rsum row.
Proof.
  intros Hp HL. unfold reordered. rewrite (Rsum_perm _ _ (Permutation_map (fun f => nth f row 0) Hp)). f_equal.
  apply (list_eq_nth 0); [rewrite map_length, seq_length; auto|]. intros i Hi. rewrite map_length, seq_length in Hi.
  rewrite (nth_map_in _ _ _ 0%nat) by (rewrite seq_length; auto). rewrite seq_nth by auto. reflexivity.
Qed.
Lemma total_overlooks F perm : ordering F perm -> overlooks F (reordered 0 perm) total_fit total_predict.
Proof.
  intros Hp i X y w e HX. unfold total_fit. destruct (length y =? 0)%nat; [discriminate|]. intros H. injection H as <-. eexists. split.
  - apply (f_equal (@Ok _)), f_equal. instantiate (1 := map2 (fun x v => v - Rsum x) X y). revert y. induction HX as [|x X Hx HX IH]; intros [|v y]; cbn; [reflexivity..|].
    rewrite (total_order F perm x Hp Hx), IH. reflexivity.
  - intros A p HA Hpr. unfold total_predict in *. injection Hpr as <-. apply (f_equal (@Ok _)). rewrite map_map. apply map_ext_in. intros x Hx.
    unfold rows_of in HA. rewrite Forall_forall in HA. rewrite (total_order F perm x Hp) by auto. reflexivity.
Qed.

Definition q_X : matrix R := [[0; 0]; [1; 2]; [2; 4]].
Definition q_swapped : matrix R := [[0; 0]; [2; 1]; [4; 2]].
Definition q_y : list R := [0; 3; 6].
Definition q_fit (X : matrix R) := fit R total_fit total_predict nat first_choice 2 no_wm (cfg true None None None) [1; 0]%nat 0%nat no_fs s_init X q_y None (Some (WDense fW)).
Definition q_state X := o_state R nat (q_fit X).
Lemma q_swap : map (reordered 0 [1; 0]%nat) q_X = q_swapped.
Proof. reflexivity. Qed.
Lemma q_ordering : ordering 2 [1; 0]%nat.
Proof. apply perm_swap. Qed.

Section Fitted.
  Variable X : matrix R.
  Hypothesis HX : rect X 3 2.
  Hypothesis Hs : map Rsum X = q_y.
  Lemma q_sums : Rsum (nth 0 X []) = 0 /\ Rsum (nth 1 X []) = 3 /\ Rsum (nth 2 X []) = 6.
  Proof. destruct HX as [HL _]. destruct X as [|a [|b [|c [|? ?]]]]; try discriminate HL. injection Hs as E1 E2 E3. repeat split; [exact E1|exact E2|exact E3]. Qed.
  Lemma q_local i : (i < 3)%nat -> local_model total_fit X q_y true fW 3 i 0.
  Proof.
    intros Hi. destruct q_sums as (S0 & S1 & S2). destruct fW_training as (T0 & T1 & T2 & _). unfold local_model, total_fit. rewrite !map_length.
    apply lt3 in Hi as [-> | [-> | ->]]; [rewrite T0|rewrite T1|rewrite T2]; cbn [length Nat.eqb map map2 nth q_y]; rewrite ?S0, ?S1, ?S2; apply (f_equal (@Ok _)); unfold mean, Rsum; cbn; field.
  Qed.
  Lemma q_ok : o_result R nat (q_fit X) = Ok tt.
  Proof.
    apply (fit_succeeds _ total_fit total_predict nat first_choice 2 no_wm _ _ _ _ _ _ _ _ _ (WDense fW) fW 3 first_choice_valid); auto using fW_holds.
    - apply HX.
    - left. reflexivity.
    - apply perm_swap.
    - left. reflexivity.
    - split; [exists 2%nat; split; [exact HX|cbn; lia]|]. split; [exact I|]. split; [intros r Hr; discriminate Hr|]. split; [cbv [num_locations sample_local_rate cfg]; lia|].
      intros i Hi. cbv [drawn sample_local_rate cfg] in Hi. apply in_seq in Hi. exists 0. eexists. split; [apply q_local; lia|reflexivity].
  Qed.
  Lemma q_fitted : fitted_model (q_state X) X q_y [0; 0; 0] 3 2 1.
  Proof.
    destruct (fit_fitted R total_fit total_predict nat first_choice 2 no_wm (cfg true None None None) [1; 0]%nat 0%nat no_fs s_init X q_y None (Some (WDense fW)) (WDense fW) fW 3 first_choice_valid ltac:(lia) (proj1 HX) (or_introl eq_refl) fW_holds (perm_swap _ _ _) eq_refl eq_refl eq_refl q_ok)
      as (es & score & F & ps & HM & Hp & Hr & HK).
    assert (F = 2%nat). { pose proof HM as (_ & _ & _ & _ & _ & _ & HM2 & _). destruct HX as [LX HX2]. destruct HM2 as [_ HM2]. destruct X; [discriminate LX|]. inversion HX2; inversion HM2; congruence. }
    subst F. assert (HLe : length es = 3%nat) by apply HM.
    assert (E : es = [0; 0; 0]).
    { apply (list_eq_nth 0); [exact HLe|]. intros i Hi. rewrite HLe in Hi. destruct (nth_error es i) as [e|] eqn:Ee; [|apply nth_error_None in Ee; lia].
      destruct (HK i e Ee) as [HM1 _]. pose proof (q_local i Hi) as HM2. unfold local_model in HM1, HM2. cbn [cfg leave_local_out] in HM1.
      rewrite HM2 in HM1. injection HM1 as E1. rewrite (nth_error_nth _ _ _ Ee), <- E1. apply lt3 in Hi as [-> | [-> | ->]]; reflexivity. }
    subst es. assert (score = 1); [|subst score; exact HM].
    assert (EP : ps = q_y).
    { destruct (fit_results R total_fit total_predict nat first_choice 2 no_wm (cfg true None None None) [1; 0]%nat 0%nat no_fs s_init X q_y None (Some (WDense fW)) (WDense fW) fW 3 first_choice_valid ltac:(lia) (proj1 HX) (or_introl eq_refl) fW_holds (perm_swap _ _ _) q_ok)
        as (locs & es1 & ps1 & sc1 & _ & F1 & _ & F3 & _ & _ & _ & _ & _ & _ & F10 & _ & _ & F13 & _). fold (q_fit X) in F3. fold (q_fit X) in Hp. rewrite Hp in F3. injection F3 as <-.
      assert (HLp : length ps = 3%nat) by (rewrite F13, F10; reflexivity). destruct q_sums as (S0 & S1 & S2).
      destruct (HK 0%nat 0 eq_refl) as [_ Q0]. destruct (HK 1%nat 0 eq_refl) as [_ Q1]. destruct (HK 2%nat 0 eq_refl) as [_ Q2]. unfold total_predict in Q0, Q1, Q2. cbn [map] in Q0, Q1, Q2.
      injection Q0 as Q0. injection Q1 as Q1. injection Q2 as Q2. rewrite S0 in Q0. rewrite S1 in Q1. rewrite S2 in Q2.
      destruct ps as [|p0 [|p1 [|p2 [|? ?]]]]; try discriminate HLp. cbn in Q0, Q1, Q2. unfold q_y. f_equal; [lra|]. f_equal; [lra|]. f_equal. lra. }
    subst ps. destruct Hr as [Hr _]. rewrite Hr; unfold q_y, Rsum; cbn; lra.
  Qed.
  Lemma q_weights : fitted_weights (q_state X) fW_left_out 3.
  Proof.
    destruct (fit_weight_attributes R total_fit total_predict nat first_choice 2 no_wm (cfg true None None None) [1; 0]%nat 0%nat no_fs s_init X q_y None (Some (WDense fW)) fW 3
      (or_introl eq_refl) fW_rect q_ok) as (W' & HW & HU).
    assert (W' = fW_left_out); [|subst; exact HW].
    apply (matrix_eq (Fin 0) _ _ 3 3); [apply HW|split; [reflexivity|repeat constructor]|].
    intros i j Hi Hj. rewrite HU by auto. apply lt3 in Hi as [-> | [-> | ->]], Hj as [-> | [-> | ->]]; reflexivity.
  Qed.
  Lemma q_fresh : permutation_score_decrease_ R (q_state X) = None.
  Proof. exact (proj1 (fit_keeps R total_fit total_predict nat first_choice 2 no_wm (cfg true None None None) [1; 0]%nat 0%nat no_fs s_init X q_y None (Some (WDense fW)))). Qed.
End Fitted.

Lemma q_rect : rect q_X 3 2. Proof. split; [reflexivity|repeat constructor]. Qed.
Lemma q_total : map Rsum q_X = q_y. Proof. unfold q_X, q_y, Rsum. cbn. repeat (f_equal; try lra). Qed.
Lemma s_rect : rect q_swapped 3 2. Proof. split; [reflexivity|repeat constructor]. Qed.
Lemma s_total : map Rsum q_swapped = q_y. Proof. unfold q_swapped, q_y, Rsum. cbn. repeat (f_equal; try lra). Qed.

(** A generator whose second permutation reverses. *)
Definition turn_permute (g : nat) (l : list nat) : nat * list nat := (S g, if Nat.even g then l else rev l).
Lemma turn_valid : valid_permute turn_permute.
Proof. intros g l. unfold turn_permute. cbn. destruct (Nat.even g); [reflexivity|]. apply Permutation_sym, Permutation_rev. Qed.

Lemma q_decrease a b c d : d = ((0 - a) * (0 - a) + (3 - b) * (3 - b) + (6 - c) * (6 - c)) / 18 -> decrease 1 q_y [a; b; c] = Ok d.
Proof.
  intros ->. unfold decrease. rewrite r2_two by (cbn; lia). cbv zeta.
  assert (E : Rsum (map (fun v => (v - mean q_y) * (v - mean q_y)) q_y) = 18) by (unfold mean, q_y, Rsum; cbn; field).
  rewrite E. destruct (Reqb 18 0) eqn:Z; [apply Reqb_true in Z; exfalso; lra|]. cbn [bind]. apply (f_equal (@Ok _)). unfold q_y, Rsum. cbn. field.
Qed.

Lemma q_global X d : rect X 3 2 -> map Rsum X = q_y ->
  d = ((0 - (nth 0 (nth 0 X []) 0 + nth 1 (nth 2 X []) 0)) * (0 - (nth 0 (nth 0 X []) 0 + nth 1 (nth 2 X []) 0)) + 0 * 0 +
       (6 - (nth 0 (nth 2 X []) 0 + nth 1 (nth 0 X []) 0)) * (6 - (nth 0 (nth 2 X []) 0 + nth 1 (nth 0 X []) 0))) / 18 ->
  snd (importance_score_global R total_predict nat turn_permute i_cfg (q_state X) 0%nat 1) = Ok [Fin 0; Fin d].
Proof.
  intros HX Hs Hd. pose proof (q_fitted X HX Hs) as (M1 & M2 & M3 & M4 & M5 & _ & _ & _ & _ & _ & M6). pose proof (q_fresh X) as M7.
  destruct HX as [HL HR]. destruct X as [|ra [|rb [|rc [|? ?]]]]; try discriminate HL. inversion HR as [|? ? La HR1]. inversion HR1 as [|? ? Lb HR2]. inversion HR2 as [|? ? Lc _].
  destruct ra as [|a0 [|a1 [|? ?]]]; try discriminate La. destruct rb as [|b0 [|b1 [|? ?]]]; try discriminate Lb. destruct rc as [|c0 [|c1 [|? ?]]]; try discriminate Lc.
  set (Y := [[a0; a1]; [b0; b1]; [c0; c1]]) in *.
  assert (HS : a0 + a1 = 0 /\ b0 + b1 = 3 /\ c0 + c1 = 6).
  { unfold Y, q_y, Rsum in Hs. cbn in Hs. injection Hs as Z1 Z2 Z3. lra. }
  destruct HS as (Z1 & Z2 & Z3).
  unfold importance_score_global, importance_trials. cbn [i_cfg cache_data cache_estimator negb orb]. rewrite M1, M2, M3, M4, M5, M7. unfold need_score. rewrite M6. cbn [need bind].
  cbn [i_cfg cfg cache_data cache_estimator negb orb Nat.eqb].
  assert (E : draw_perms nat turn_permute 0%nat 3 (2 * 1) = (2%nat, [[0; 1; 2]; [2; 1; 0]]%nat)) by reflexivity. rewrite E. clear E.
  assert (E : permuted_predictions R total_predict Y (map Some [0; 0; 0]) 3 2 1 [[0; 1; 2]; [2; 1; 0]]%nat = Ok [[0 + Rsum [a0; a1]; 0 + Rsum [a0; c1]]; [0 + Rsum [b0; b1]; 0 + Rsum [b0; b1]]; [0 + Rsum [c0; c1]; 0 + Rsum [c0; a1]]]) by reflexivity.
  rewrite E. clear E. cbn [bind seq mapM map nth plus mult Nat.mul Nat.add].
  rewrite (q_decrease _ _ _ 0). 2:{ unfold Rsum. cbn. replace (0 + (a0 + (a1 + 0))) with 0 by lra. replace (0 + (b0 + (b1 + 0))) with 3 by lra. replace (0 + (c0 + (c1 + 0))) with 6 by lra. field. }
  cbn [bind]. rewrite (q_decrease _ _ _ d). 2:{ rewrite Hd. unfold Y, Rsum. cbn. replace (0 + (b0 + (b1 + 0))) with 3 by lra. field. }
  cbn [bind snd row_means map emean]. apply (f_equal (@Ok _)). unfold mean, Rsum. cbn. f_equal; [f_equal; field|]. f_equal. f_equal. field.
Qed.

Lemma q_global_values :
  snd (importance_score_global R total_predict nat turn_permute i_cfg (q_state q_X) 0%nat 1) = Ok [Fin 0; Fin (16 / 9)] /\
  snd (importance_score_global R total_predict nat turn_permute i_cfg (q_state (map (reordered 0 [1; 0]%nat) q_X)) 0%nat 1) = Ok [Fin 0; Fin (4 / 9)].
Proof.
  rewrite q_swap. split; [apply (q_global _ _ q_rect q_total)|apply (q_global _ _ s_rect s_total)]; cbn; field.
Qed.

(** Partial dependence of the example: location 0 and 2 see location 1, location 1
    both others. *)
Definition q_pd := partial_dependence R (partial_dependence_sk R total_predict (fun v => v) default_resolution).
Definition q_curves : matrix (list R * list R) := [[([1], [3]); ([2], [3])]; [([0; 2], [2; 4]); ([0; 4], [1; 5])]; [([1], [3]); ([2], [3])]].

Definition q_ice := local_ICE R total_predict (grid_from_X_sk default_resolution) (fun v => v).
Definition q_ices : matrix (list R * list R) := [[([1], [1]); ([2], [2])]; [([0; 2], [2; 4]); ([0; 4], [1; 5])]; [([1], [5]); ([2], [4])]].

Lemma q_grids : grid_from_X_sk default_resolution [[1; 2]] 0 = Ok [1] /\ grid_from_X_sk default_resolution [[1; 2]] 1 = Ok [2] /\
  grid_from_X_sk default_resolution [[0; 0]; [2; 4]] 0 = Ok [0; 2] /\ grid_from_X_sk default_resolution [[0; 0]; [2; 4]] 1 = Ok [0; 4].
Proof.
  split; [|split; [|split]].
  - eapply (small_grid _ 1 2); [split; [reflexivity|repeat constructor]|lia|unfold default_resolution; lia|repeat (constructor; try lra)|intros x; cbn; tauto].
  - eapply (small_grid _ 1 2); [split; [reflexivity|repeat constructor]|lia|unfold default_resolution; lia|repeat (constructor; try lra)|intros x; cbn; tauto].
  - eapply (small_grid _ 2 2); [split; [reflexivity|repeat constructor]|lia|unfold default_resolution; lia|repeat (constructor; try lra)|intros x; cbn; tauto].
  - eapply (small_grid _ 2 2); [split; [reflexivity|repeat constructor]|lia|unfold default_resolution; lia|repeat (constructor; try lra)|intros x; cbn; tauto].
Qed.

Lemma q_pd_ok : exists by_feature, q_pd [2; 0; 1]%nat (q_state q_X) = Ok (q_curves, by_feature).
Proof.
  pose proof (q_fitted _ q_rect q_total) as HM. destruct i_sets as (E0 & E1 & E2).
  destruct q_grids as (G10 & G11 & G20 & G21).
  eexists. apply (partial_dependence_ok R _ _ _ _ _ _ _ _ _ _ _ HM (q_weights _ q_rect q_total) sched3). exists q_curves. split; [|split; [|reflexivity]].
  - split; [reflexivity|]. intros i e He. assert (Hi : (i < 3)%nat) by (apply nth_error_Some_lt in He; auto).
    apply lt3 in Hi as [-> | [-> | ->]]; injection He as <-; rewrite ?E0, ?E1, ?E2; cbn [map nth q_X].
    + exists [1]. split; [repeat constructor|]. split; [reflexivity|]. intros [|[|f]] Hf; [| |lia]; unfold weighted_curve, partial_dependence_sk; rewrite ?G10, ?G11; eexists; (split; [reflexivity|]); (split; [reflexivity|]); (split; [reflexivity|]); (split; [unfold Rsum; simpl; lra|]); intros [|j] Hj; try (simpl in Hj; lia); split; unfold Rsum; simpl; lra.
    + exists [1; 1]. split; [repeat constructor|]. split; [reflexivity|]. intros [|[|f]] Hf; [| |lia]; unfold weighted_curve, partial_dependence_sk; rewrite ?G20, ?G21; eexists; (split; [reflexivity|]); (split; [reflexivity|]); (split; [reflexivity|]); (split; [unfold Rsum; simpl; lra|]); intros [|[|j]] Hj; try (simpl in Hj; lia); split; unfold Rsum; simpl; first [lra | field].
    + exists [1]. split; [repeat constructor|]. split; [reflexivity|]. intros [|[|f]] Hf; [| |lia]; unfold weighted_curve, partial_dependence_sk; rewrite ?G10, ?G11; eexists; (split; [reflexivity|]); (split; [reflexivity|]); (split; [reflexivity|]); (split; [unfold Rsum; simpl; lra|]); intros [|j] Hj; try (simpl in Hj; lia); split; unfold Rsum; simpl; lra.
  - intros [n Hn]. assert (A : 1%nat = n) by (apply (Hn _ ([1], [3]) (or_introl eq_refl)); left; reflexivity).
    assert (B : 2%nat = n) by (apply (Hn _ ([0; 2], [2; 4]) (or_intror (or_introl eq_refl))); left; reflexivity). lia.
Qed.

Lemma q_ice_ok : exists by_feature, q_ice (q_state q_X) = Ok (q_ices, by_feature).
Proof.
  pose proof (q_fitted _ q_rect q_total) as HM. destruct i_sets as (E0 & E1 & E2). destruct q_grids as (G10 & G11 & G20 & G21).
  eexists. apply (local_ICE_ok R _ _ _ _ _ _ _ _ _ _ _ _ HM (q_weights _ q_rect q_total)). exists q_ices. split; [|split; [|reflexivity]].
  - split; [reflexivity|]. intros i e He. assert (Hi : (i < 3)%nat) by (apply nth_error_Some_lt in He; auto).
    assert (P1 : forall e rows p, p = map (fun x => e + Rsum x) rows -> total_predict e rows = Ok p) by (intros ? ? ? ->; reflexivity).
    apply lt3 in Hi as [-> | [-> | ->]]; injection He as <-; (split; [reflexivity|]); rewrite ?E0, ?E1, ?E2; intros [|[|f]] Hf; try lia; cbv zeta; cbn [nth fst snd map q_X q_ices]; (split; [assumption|]).
    + exists [[1; 0]]. split; [|apply P1; unfold Rsum; cbn; repeat f_equal; ring]. repeat constructor; intros [|[|j]] Hj; simpl in *; try lia; reflexivity.
    + exists [[0; 2]]. split; [|apply P1; unfold Rsum; cbn; repeat f_equal; ring]. repeat constructor; intros [|[|j]] Hj; simpl in *; try lia; reflexivity.
    + exists [[0; 2]; [2; 2]]. split; [|apply P1; unfold Rsum; cbn; repeat f_equal; ring]. repeat constructor; intros [|[|j]] Hj; simpl in *; try lia; reflexivity.
    + exists [[1; 0]; [1; 4]]. split; [|apply P1; unfold Rsum; cbn; repeat f_equal; ring]. repeat constructor; intros [|[|j]] Hj; simpl in *; try lia; reflexivity.
    + exists [[1; 4]]. split; [|apply P1; unfold Rsum; cbn; repeat f_equal; ring]. repeat constructor; intros [|[|j]] Hj; simpl in *; try lia; reflexivity.
    + exists [[2; 2]]. split; [|apply P1; unfold Rsum; cbn; repeat f_equal; ring]. repeat constructor; intros [|[|j]] Hj; simpl in *; try lia; reflexivity.
  - intros [n Hn]. assert (B : 1%nat = n) by (apply (Hn _ ([1], [1]) (or_introl eq_refl)); left; reflexivity).
    assert (C : 2%nat = n) by (apply (Hn _ ([0; 2], [2; 4]) (or_intror (or_introl eq_refl))); left; reflexivity). lia.
Qed.

Lemma total_predicts F e : predicts total_predict F e.
Proof. intros rows H. eexists. split; [reflexivity|]. apply map_length. Qed.
Lemma q_local_importance : exists m,
  importance_score_local R (fun i => permutation_importance_sk R total_predict nat turn_permute 1%nat) i_cfg [2; 0; 1]%nat (q_state q_X) 1 = Ok m.
Proof.
  apply (local_succeeds total_predict turn_permute (fun _ => 1%nat) turn_valid i_cfg [2; 0; 1]%nat _ _ _ _ _ _ _ _ 1 (q_fitted _ q_rect q_total) (q_weights _ q_rect q_total) eq_refl eq_refl sched3); [intros; apply total_predicts|lia|].
  intros i Hi. destruct i_sets as (E0 & E1 & E2). split.
  - apply lt3 in Hi as [-> | [-> | ->]]; rewrite ?E0, ?E1, ?E2; cbn; lia.
  - intros j Hj. apply lt3 in Hi as [-> | [-> | ->]], Hj as [-> | [-> | ->]]; eexists; reflexivity.
Qed.
Lemma q_global_ale : exists q a, global_ALE (fun v => v) R total_predict (q_state q_X) 1 = Ok (q, a).
Proof.
  pose proof (q_fitted _ q_rect q_total) as (H1 & H2 & H3 & H4 & H5 & H6 & H7 & _).
  apply (gale_total (fun v => v) R total_predict _ q_X 3 2 [0; 0; 0] 1 H3 H5 H7); auto; try lia.
  - exists 0, 2. split; [left; reflexivity|]. split; [right; left; reflexivity|lra].
  - intros e _ a b. eexists. split; [reflexivity|]. simpl. lia.
Qed.

(** Eight observations that all see each other. *)
Definition e_X : matrix R := [[0; 7]; [1; 5]; [2; 3]; [3; 0]; [4; 2]; [5; 4]; [6; 6]; [7; 1]].
Definition e_fit := fit R total_fit total_predict nat first_choice 2 no_wm (cfg true None None None) [1; 0]%nat 0%nat no_fs s_init e_X ay None (Some (WDense aW)).
Lemma e_rect : rect e_X 8 2. Proof. split; [reflexivity|repeat constructor]. Qed.
Lemma e_ok : o_result R nat e_fit = Ok tt.
Proof.
  apply (fit_succeeds R total_fit total_predict nat first_choice 2 no_wm _ _ _ _ _ _ _ _ _ (WDense aW) aW 8 first_choice_valid); auto using aW_holds; [left; reflexivity|exact (perm_swap _ _ _)|left; reflexivity|].
  split; [exists 2%nat; split; [exact e_rect|cbn; lia]|]. split; [exact I|]. split; [intros r Hr; discriminate Hr|]. split; [cbv [num_locations sample_local_rate cfg]; lia|].
  intros i Hi. cbv [drawn sample_local_rate cfg] in Hi. apply in_seq in Hi. unfold local_model, total_fit. rewrite map_length. cbn [leave_local_out cfg].
  assert (HT : In (if (i =? 0)%nat then 1%nat else 0%nat) (training_set true aW 8 i)).
  { unfold training_set. apply filter_In. split; [apply in_seq; destruct (i =? 0)%nat; lia|]. unfold used_weight. rewrite aW_get by (try lia; destruct (i =? 0)%nat; lia).
    destruct (Nat.eqb_spec i 0) as [->|Hn]; cbn; [|rewrite (proj2 (Nat.eqb_neq i 0) Hn); cbn]; rdec; reflexivity. }
  destruct (training_set true aW 8 i) as [|j T]; [contradiction|]. cbn [leave_local_out cfg length Nat.eqb]. eexists _, _. split; reflexivity.
Qed.
Lemma e_ale : exists curves, local_ALE (fun v => v) R total_predict (o_state R nat e_fit) 1 = Ok curves.
Proof.
  destruct (fit_fitted R total_fit total_predict nat first_choice 2 no_wm (cfg true None None None) [1; 0]%nat 0%nat no_fs s_init e_X ay None (Some (WDense aW)) (WDense aW) aW 8 first_choice_valid ltac:(lia) eq_refl (or_introl eq_refl) aW_holds (perm_swap _ _ _) eq_refl eq_refl eq_refl e_ok)
    as (es & score & F & ps & (M1 & M2 & M3 & M4 & M5 & M6 & M7 & M8 & _) & _). fold e_fit in M3, M4, M5.
  destruct (fit_weight_attributes R total_fit total_predict nat first_choice 2 no_wm (cfg true None None None) [1; 0]%nat 0%nat no_fs s_init e_X ay None (Some (WDense aW)) aW 8
    (or_introl eq_refl) aW_rect e_ok) as (W' & HW' & HU). fold e_fit in HW'. change (leave_local_out (cfg true None None None)) with true in HU.
  apply (lale_total (fun v => v) R total_predict _ e_X ay es W' 8 2 1 M3 M4 eq_refl M5 HW' e_rect); [lia|lia| |].
  - intros e0 rows _. eexists. split; [reflexivity|]. apply map_length.
  - intros k Hk. rewrite M6 in Hk. rewrite (a_neighbours W' k HU) by lia.
    assert (Hk' : k = 0%nat \/ k = 1%nat \/ k = 2%nat \/ k = 3%nat \/ k = 4%nat \/ k = 5%nat \/ k = 6%nat \/ k = 7%nat) by lia.
    split; [decompose [or] Hk'; subst k; simpl; lia|]. split.
    + intros j Hj. apply filter_In in Hj as [Hj Hkj]. apply in_seq in Hj. rewrite HU by lia. unfold used_weight. rewrite aW_get by lia. destruct (k =? j)%nat; eexists; reflexivity.
    + destruct (Nat.lt_ge_cases k 4) as [L|L]; [exists 5%nat, 6%nat|exists 0%nat, 1%nat]; (split; [apply filter_In; split; [apply in_seq; lia|apply negb_true_iff, Nat.eqb_neq; lia]|]);
        (split; [apply filter_In; split; [apply in_seq; lia|apply negb_true_iff, Nat.eqb_neq; lia]|]); unfold mget, e_X; simpl; lra.
Qed.
