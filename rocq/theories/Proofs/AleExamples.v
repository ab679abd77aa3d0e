From Coq Require Import Lra Psatz Sorting.Sorted.
From Verif.Model Require Import Base Ext Sort Csr Neighbour Distance WeightModel Inspect Ale.
From Verif.Spec Require Import KernelSpec NeighbourSpec WeightModelSpec InspectSpec AleSpec.
From Verif.Proofs Require Import ListFacts SumFacts KernelFacts SortFacts KernelExamples CsrFacts NeighbourFacts NeighbourProps WeightModelFacts WeightModelProps FitProps InspectProps InspectProps2 InspectProps3 InspectProps4 FitExamples InspectExamples AleFacts AleGrid AleProps AleProps2 AleProps3.
Open Scope nat_scope.
Open Scope R_scope.

(** bisect_fun on a non-monotone function: a contract-satisfying answer. *)
Lemma bisect_square : forall fuel, (10 <= fuel)%nat -> bisect_fun fuel (fun n => Ok (IZR (n * n))) 10 0 10 = Some (Ok 4%Z).
Proof.
  intros fuel Hf. destruct (bisect_loop_spec fuel (fun n => Ok (IZR (n * n))) 10 0 10 ltac:(lia) ltac:(lia)) as (v & E & Hv & A & B); [intros; eauto|].
  unfold bisect_fun. rewrite E. repeat f_equal. destruct A as [-> | (a & Ha & La)].
  - destruct B as [B | (b & Hb & Lb)]; [lia|]. injection Hb as <-. simpl in Lb. lra.
  - injection Ha as <-. apply (lt_IZR _ 10) in La. destruct B as [-> | (b & Hb & Lb)]; [lia|]. injection Hb as <-. apply (le_IZR 10) in Lb. nia.
Qed.

Definition ev : list R := [0; 1; 2; 4].
Definition eq3 : list R := [0; 3 / 2; 4].

Lemma ev_sorted : sortR ev = ev.
Proof. apply sortR_of; [|apply Permutation_refl]. repeat (constructor; [|repeat (constructor; [lra|]); constructor]). constructor. Qed.

Lemma avi_mid : at_virtual_index ev (3 / 2) = 3 / 2.
Proof.
  destruct (avi_cases ev (3 / 2)) as [[H E]|[[_ [H E]]|[i [Hi [H E]]]]]; [discriminate|lra|simpl in H; lra|].
  assert (i = 1%nat).
  { destruct i as [|[|i]]; auto; [simpl in H; lra|]. rewrite !S_INR in H. pose proof (pos_INR i). lra. }
  subst i. rewrite E. simpl. lra.
Qed.

Lemma grid3 : quantile_grid ev 3 eq3.
Proof.
  destruct (get_quantiles_ok ev 3 ltac:(discriminate)) as (qs & _ & Hg & Hin).
  assert (Hs : StronglySorted Rlt eq3) by (repeat (constructor; [|repeat (constructor; [lra|]); constructor]); constructor).
  assert (E : unique qs = eq3); [|rewrite <- E; exact Hg].
  apply SSlt_ext; [apply unique_sorted|exact Hs|]. intros x. rewrite unique_in, Hin. rewrite ev_sorted. unfold virtual_linear. change (length ev - 1)%nat with 3%nat.
  assert (E0 : at_virtual_index ev (INR 3 * (INR 0 / INR (3 - 1))) = 0) by (replace (INR 3 * (INR 0 / INR (3 - 1))) with (INR 0) by (simpl; lra); rewrite avi_INR by (simpl; lia); reflexivity).
  assert (E1 : at_virtual_index ev (INR 3 * (INR 1 / INR (3 - 1))) = 3 / 2) by (replace (INR 3 * (INR 1 / INR (3 - 1))) with (3 / 2) by (simpl; lra); apply avi_mid).
  assert (E2 : at_virtual_index ev (INR 3 * (INR 2 / INR (3 - 1))) = 4) by (replace (INR 3 * (INR 2 / INR (3 - 1))) with (INR 3) by (simpl; lra); rewrite avi_INR by (simpl; lia); reflexivity).
  split.
  - intros (k & Hk & ->). destruct k as [|[|[|k]]]; [rewrite E0|rewrite E1|rewrite E2|lia]; simpl; auto.
  - intros [<- | [<- | [<- | []]]]; [exists 0%nat|exists 1%nat|exists 2%nat]; (split; [lia|]); symmetry; assumption.
Qed.

Lemma filled3 : filled 1 eq3 ev.
Proof. intros k Hk. simpl in Hk. assert (E : k = 1%nat \/ k = 2%nat) by lia. destruct E as [-> | ->]; unfold bin_count, in_bin, ev, eq3; cbn [filter nth Nat.sub Nat.eqb andb orb]; rdec; cbn; lia. Qed.

Lemma ev_grid : adaptive_grid ev 1 = Ok (eq3, 3%Z).
Proof.
  destruct (adaptive_grid ev 1) as [[q nq]|e] eqn:E.
  - destruct (adaptive_ok ev 1 q nq ltac:(simpl; lia) E) as (n & -> & Hn & Hq & _ & _ & _ & Hnext). simpl in Hn.
    assert (Hn' : n = 2%nat \/ n = 3%nat) by lia. destruct Hn' as [-> | ->].
    + exfalso. destruct (Hnext ltac:(simpl; lia)) as (q' & Hq' & Hnf). apply Hnf. rewrite (quantile_grid_fun _ _ _ _ Hq' grid3). apply filled3.
    + rewrite (quantile_grid_fun _ _ _ _ Hq grid3). reflexivity.
  - exfalso. assert (Hr : raises (adaptive_grid ev 1)) by (exists e; auto). apply adaptive_raises in Hr; simpl in *; lia.
Qed.

Definition eX : matrix R := [[0; 7]; [1; 5]; [2; 9]; [4; 3]].
Definition ew : list R := [1; 2; 1; 3].
(** A predictor z0^2 + z1. *)
Definition e_pred (rows : matrix R) : result (list R) := Ok (map (fun z => nth 0 z 0 * nth 0 z 0 + nth 1 z 0) rows).
Lemma eX_rect : rect eX 4 2. Proof. split; [reflexivity|repeat constructor]. Qed.

Lemma ew_pos i : (i < 4)%nat -> 0 < nth i ew 0.
Proof. intros H. destruct i as [|[|[|[|i]]]]; simpl; try lra. lia. Qed.

Lemma ale_example store norm : exists a, weighted_ale store eX 0 e_pred (Some ew) norm 1 = Ok (eq3, a).
Proof.
  destruct (wale_total store eX 4 2 0 e_pred ew norm 1 eX_rect ltac:(lia) ltac:(lia) ltac:(lia)) as (q & a & H).
  - exists 0, 1. split; [left; reflexivity|]. split; [right; left; reflexivity|lra].
  - intros rows Hr. eexists. split; [reflexivity|]. rewrite map_length. exact Hr.
  - reflexivity.
  - apply ew_pos.
  - exists a. rewrite H. pose proof H as H'. unfold weighted_ale in H'. apply bind_ok in H' as (values & Hc & H').
    destruct (column_ok _ _ _ _ _ eX_rect ltac:(lia) Hc) as [_ ->]. change (feature_values eX 0) with ev in H'. rewrite ev_grid in H'. cbn [bind fst] in H'.
    repeat (apply bind_ok in H' as (? & _ & H')). destruct norm; [apply bind_ok in H' as (? & _ & H')|]; apply ok_pair in H' as [<- _]; reflexivity.
Qed.

Lemma e_indep : independent_of 0 (fun z => nth 1 z 0). Proof. intros x x' _ H. apply H. lia. Qed.

(** ** A model of eight observations of which two locations, 6 and 7, are fitted *)
Definition aX : matrix R := [[0]; [1]; [2]; [3]; [4]; [5]; [6]; [7]].
Definition ay : list R := [1; 0; 2; 0; 3; 0; 1; 5].
Definition aW : matrix ext := repeat (repeat (Fin 1) 8) 8.
Definition a_cfg : config := cfg true (Some (1 / 4)) None (Some 2%nat).
Definition fit_off_last := fit R off_fit off_predict nat last_choice 2 no_wm.
Definition a_out := fit_off_last a_cfg [1; 0]%nat 0%nat no_fs s_init aX ay None (Some (WDense aW)).

Lemma aX_rect : rect aX 8 1. Proof. split; [reflexivity|repeat constructor]. Qed.
Lemma aW_rect : rect aW 8 8. Proof. split; [reflexivity|repeat constructor]. Qed.
Lemma aW_holds : holds (WDense aW) aW 8. Proof. split; [apply aW_rect|auto]. Qed.
Lemma a_trunc : trunc (1 / 4 * INR 8) = 2%Z. Proof. apply trunc_eq; [lia|]. simpl. lra. Qed.

Lemma aW_get i j : (i < 8)%nat -> (j < 8)%nat -> mget (Fin 0) aW i j = Fin 1.
Proof. intros Hi Hj. unfold mget, aW. rewrite (nth_indep _ [] (repeat (Fin 1) 8)) by (rewrite repeat_length; auto). rewrite nth_repeat. rewrite (nth_indep _ _ (Fin 1)) by (rewrite repeat_length; auto). apply nth_repeat. Qed.

Lemma a_fit : o_result R nat a_out = Ok tt.
Proof.
  apply (fit_succeeds R off_fit off_predict nat last_choice 2 no_wm _ _ _ _ _ _ _ _ _ (WDense aW) aW 8 last_choice_valid); auto.
  - left. reflexivity.
  - split; [apply aW_rect|auto].
  - exact (perm_swap _ _ _).
  - left. reflexivity.
  - split; [exists 1%nat; simpl; split; [exact aX_rect|lia]|]. split; [unfold valid_jobs, a_cfg, cfg; cbn [n_jobs n_patches]; lia|]. split; [intros r Hr; injection Hr as <-; rewrite a_trunc; lia|].
    unfold num_locations, drawn, num_locations. cbn [a_cfg cfg sample_local_rate leave_local_out]. rewrite a_trunc. split; [simpl; lia|].
    intros i Hi. simpl in Hi. unfold local_model, off_fit. rewrite map_length.
    assert (HT : In 0%nat (training_set true aW 8 i)).
    { unfold training_set. apply filter_In. split; [apply in_seq; lia|]. unfold used_weight. rewrite aW_get by lia. destruct Hi as [<- | [<- | []]]; cbn; rdec; reflexivity. }
    destruct (training_set true aW 8 i) as [|j T]; [contradiction|]. cbn [length Nat.eqb]. eexists _, _. split; reflexivity.
Qed.

Lemma a_neighbours W' k : (forall i j, (i < 8)%nat -> (j < 8)%nat -> mget (Fin 0) W' i j = used_weight true aW i j) -> (k < 8)%nat ->
  positive_set W' 8 k = filter (fun j => negb (k =? j)%nat) (seq 0 8).
Proof.
  intros HU Hk. unfold positive_set. apply filter_ext_in. intros j Hj. apply in_seq in Hj. rewrite HU by lia. unfold used_weight. rewrite aW_get by lia.
  cbn [andb]. destruct (k =? j)%nat; cbn [negb]; [apply pos0|apply pos1].
Qed.

Lemma a_ale store : local_indices_ R (o_state R nat a_out) = Some [6; 7]%nat /\
  exists curves, local_ALE store R off_predict (o_state R nat a_out) 0 = Ok curves.
Proof.
  pose proof a_fit as Hok.
  destruct (fit_weight_attributes R off_fit off_predict nat last_choice 2 no_wm a_cfg [1; 0]%nat 0%nat no_fs s_init aX ay None (Some (WDense aW)) aW 8
    (or_introl eq_refl) aW_rect Hok) as (W' & HW' & HU). change (leave_local_out a_cfg) with true in HU.
  destruct (fit_inv _ _ _ _ _ _ _ _ _ _ _ _ _ _ _ _ Hok) as (w1 & g1 & l1 & preds & es1 & p1 & sc1 & Hck & _ & Hl & _ & _ & _ & Eq).
  assert (El : l1 = [6; 7]%nat).
  { unfold sample_locations in Hl. cbn [a_cfg cfg sample_local_rate] in Hl. change (length aX) with 8%nat in Hl. rewrite a_trunc in Hl. vm_compute in Hl. inversion Hl. reflexivity. }
  destruct (fit_aligned R off_fit off_predict nat last_choice 2 no_wm a_cfg [1; 0]%nat 0%nat no_fs s_init aX ay None (Some (WDense aW)) (WDense aW) aW 8
    last_choice_valid ltac:(lia) eq_refl (or_introl eq_refl) aW_holds (perm_swap _ _ _) (or_introl eq_refl) Hok)
    as (locs & es & ps & ys & rs & A1 & A2 & _ & _ & _ & _ & _ & _ & A9 & _ & _ & _ & A13).
  fold fit_off_last in A1, A2, HW', Eq. fold a_out in A1, A2, HW', Eq.
  assert (El2 : locs = [6; 7]%nat) by (rewrite Eq in A1; cbn [o_state local_indices_] in A1; congruence). rewrite El2 in *. clear locs El2.
  split; [exact A1|].
  assert (Ees : exists e e', es = map Some [e; e']).
  { simpl in A9. destruct es as [|x [|x' [|? ?]]]; simpl in A9; try lia.
    destruct (A13 0%nat ltac:(simpl; lia)) as (_ & _ & e & _ & _ & H0). destruct (A13 1%nat ltac:(simpl; lia)) as (_ & _ & e' & _ & _ & H1).
    cbn in H0, H1. exists e, e'. rewrite H0, H1. reflexivity. }
  destruct Ees as (e & e' & ->).
  assert (HD : data_X R (o_state R nat a_out) = Some aX /\ data_y R (o_state R nat a_out) = Some ay) by (rewrite Eq; split; reflexivity).
  destruct HD as [D1 D2].
  apply (lale_total store R off_predict _ aX ay [e; e'] W' 8 1 0 D1 D2 eq_refl A2 HW' aX_rect); [lia|simpl; lia| |].
  - intros e0 rows _. eexists. split; [reflexivity|]. apply map_length.
  - intros k Hk. simpl in Hk. rewrite (a_neighbours W' k HU) by lia.
    assert (Hk' : k = 0%nat \/ k = 1%nat) by lia.
    split; [destruct Hk' as [-> | ->]; simpl; lia|]. split.
    + intros j Hj. apply filter_In in Hj as [Hj Hkj]. apply in_seq in Hj. rewrite HU by lia. unfold used_weight. rewrite aW_get by lia. destruct (k =? j)%nat; eexists; reflexivity.
    + exists 2%nat, 3%nat. split; [destruct Hk' as [-> | ->]; simpl; auto 10|]. split; [destruct Hk' as [-> | ->]; simpl; auto 10|]. unfold mget, aX. simpl. lra.
Qed.

Lemma g_ale store : exists q a, global_ALE store R off_predict i_state 0 = Ok (q, a).
Proof.
  destruct i_state_fitted as (es & score & (H1 & H2 & H3 & H4 & H5 & H6 & H7 & _) & _).
  apply (gale_total store R off_predict i_state iX 3 2 es 0 H3 H5 H7); auto; try lia.
  - exists 0, 1. split; [left; reflexivity|]. split; [right; left; reflexivity|lra].
  - intros e _ a b. eexists. split; [reflexivity|]. simpl. lia.
Qed.

Lemma int_refuted : exists a, weighted_ale (fun v => IZR (trunc v)) eX 0 e_pred (Some ew) false 1 = Ok ([0; 3 / 2; 4], a) /\
  nth 1 a 0 - nth 0 a 0 = 1 /\ 1 <> (3 / 2) * (3 / 2) - 0 * 0.
Proof.
  destruct (ale_example (fun v => IZR (trunc v)) false) as (a & H). exists a. split; [exact H|].
  destruct (wale_additive_int eX 4 2 0 (fun v => v * v) (fun z => nth 1 z 0) e_pred ew false 1 eq3 a eX_rect ltac:(lia) ltac:(lia) (fun rows => eq_refl) e_indep H) as (c & Hc).
  rewrite (Hc 1%nat), (Hc 0%nat) by (simpl; lia). simpl.
  rewrite (trunc_eq (3 / 2) 1), (trunc_eq 0 0) by (try lia; lra). split; lra.
Qed.
