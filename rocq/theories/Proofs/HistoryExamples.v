(** Examples for C155-C157. *)
From Coq Require Import Lra Psatz Sorting.Sorted.
From Verif.Model Require Import Base Ext Sort Kernel Distance WeightMatrix Csr Neighbour WeightModel Inspect History.
From Verif.Spec Require Import KernelSpec WeightSpec DistanceSpec NeighbourSpec WeightModelSpec HistorySpec.
From Verif.Proofs Require Import ListFacts SumFacts KernelFacts SortFacts WeightFacts WeightProps WeightExamples DistanceFacts CsrFacts NeighbourFacts ShrinkFacts SampleFacts NeighbourProps WeightModelFacts WeightModelProps FitProps PredictProps FitExamples EndToEndExamples HistoryProps HistoryShared.
From Verif.Proofs Require EndToEnd.
Open Scope string_scope.
Open Scope nat_scope.
Open Scope R_scope.

Definition h_wm := p_wm p_args.
Definition h_cfg : config := cfg true None None None.
(** Three points on a line, and three of which the last is far away. *)
Definition h_pts : list coords := [ [[0]; [1]; [2]] ].
Definition h_far : list coords := [ [[0]; [1]; [9]] ].
Definition h_query : list coords := [ [[2]] ].
Definition far_D : matrix R := [[0; 1; 9]; [1; 0; 8]; [9; 8; 0]].
Definition far_W : matrix ext := [[Fin (1 / 2); Fin (1 / 2); Fin 0]; [Fin (1 / 2); Fin (1 / 2); Fin 0]; [Fin 0; Fin 0; Fin 1]].
Definition h_fit g (s : state R) (v : list coords) := fit R wmean_fit wmean_predict nat first_choice 2 h_wm h_cfg [0; 1]%nat g no_fs s fX fy (Some v) None.
Definition h_first := o_state R nat (h_fit 0%nat s_init h_pts).
Definition h_second := o_state R nat (h_fit 0%nat h_first h_far).
Definition h_predict s := snd (predict_by_weight R wmean_predict h_wm h_cfg no_fs s [[7]] (Some h_query) None).

Lemma h_dist_pts : p_dist h_pts h_pts = Ok (map A2 [q_D]).
Proof. unfold p_dist, distance_matrices. cbn. rabs. unfold q_D. repeat f_equal; lra. Qed.
Lemma h_dist_far : p_dist h_far h_far = Ok (map A2 [far_D]).
Proof. unfold p_dist, distance_matrices. cbn. rabs. unfold far_D. repeat f_equal; lra. Qed.
Lemma h_dist_q : p_dist h_query h_pts = Ok (map A2 [ [[2; 1; 0]] ]).
Proof. unfold p_dist, distance_matrices. cbn. rabs. repeat f_equal; lra. Qed.
Lemma h_dist_q_far : p_dist h_query h_far = Ok (map A2 [ [[2; 1; 7]] ]).
Proof. unfold p_dist, distance_matrices. cbn. rabs. repeat f_equal; lra. Qed.

Lemma far_valid : valid_distances [far_D] 3 3.
Proof. split; [discriminate|]. constructor; [|constructor]. split; [split; [reflexivity|repeat constructor]|]. unfold entries, far_D. repeat (apply Forall_cons || apply Forall_nil); lra. Qed.
Lemma valid13 a b c : 0 <= a -> 0 <= b -> 0 <= c -> valid_distances [ [[a; b; c]] ] 1 3.
Proof. intros. split; [discriminate|]. constructor; [|constructor]. split; [split; [reflexivity|repeat constructor]|]. unfold entries. repeat (apply Forall_cons || apply Forall_nil); auto. Qed.
Ltac box := unfold mmap, mtab, tabulate, mget, Rsum; simpl; repeat (match goal with |- context[kernel_value "boxcar" (3 / 2) ?d] => first [rewrite (kv_box_in d) by lra | rewrite (kv_box_out d) by lra] end);
  unfold safe_div; repeat (destruct Req_EM_T; try lra);
  repeat (match goal with |- _ :: _ = _ :: _ => apply f_equal2 | |- Fin _ = Fin _ => apply (f_equal Fin) | |- [] = [] => reflexivity end); try field; try lra.
Lemma box_far : boxW far_D = Ok far_W.
Proof. apply (boxW_ok _ 3 3); [apply far_valid|lia|]. unfold far_W, far_D. box. Qed.
Lemma box_q : boxW [[2; 1; 0]] = Ok [[Fin 0; Fin (1 / 2); Fin (1 / 2)]].
Proof. apply (boxW_ok _ 1 3); [apply valid13; lra|lia|]. box. Qed.
Lemma box_q_far : boxW [[2; 1; 7]] = Ok [[Fin 0; Fin 1; Fin 0]].
Proof. apply (boxW_ok _ 1 3); [apply valid13; lra|lia|]. box. Qed.

Lemma h_weights fs v t D W : p_dist v t = Ok (map A2 [D]) -> boxW D = Ok W -> h_wm fs v t = (fs, Ok (WDense W)).
Proof.
  intros HD HW. unfold h_wm, p_wm. rewrite (pw_eq (fun x => x) unit tt cityblock _ _ _ _ p_args None I eq_refl fs v t [D] HD).
  cbn [p_args a_kernel a_bandwidth a_count]. change (weight_matrix_from_distance _ _ _ _ _) with (boxW D). rewrite HW. reflexivity.
Qed.

Lemma h_in_force fs : in_force h_wm fs (Some h_pts) None (WDense q_W).
Proof. right. split; auto. exists h_pts. split; auto. rewrite (h_weights fs _ _ q_D q_W h_dist_pts q_weights). reflexivity. Qed.
Lemma far_in_force fs : in_force h_wm fs (Some h_far) None (WDense far_W).
Proof. right. split; auto. exists h_far. split; auto. rewrite (h_weights fs _ _ far_D far_W h_dist_far box_far). reflexivity. Qed.

Lemma h_first_ok : o_result R nat (h_fit 0%nat s_init h_pts) = Ok tt /\ local_predict_ R h_first = Some [2; 5 / 2; 2].
Proof.
  apply (EndToEnd.fit_all_locations R wmean_fit wmean_predict nat first_choice 2 h_wm h_cfg [0; 1]%nat 0%nat no_fs s_init fX fy (Some h_pts) None (WDense q_W) q_W 3); auto.
  - apply first_choice_valid.
  - apply h_in_force.
  - split; [split; [reflexivity|repeat constructor]|auto].
  - apply Permutation_refl.
  - split; [apply fX_data; reflexivity|]. split; [exact I|]. split; [lia|]. split; [reflexivity|].
    intros i Hi. destruct q_training as (T0 & T1 & T2). exists (nth i [2; 5 / 2; 2] 0). unfold local_model. cbn [h_cfg cfg leave_local_out].
    apply lt3 in Hi as [-> | [-> | ->]]; [rewrite T0|rewrite T1|rewrite T2]; (split; [|reflexivity]); unfold wmean_fit, used_weight, mget, q_W; cbn; apply (f_equal Ok); field.
Qed.

Lemma h_first_estimators : local_estimators R h_first = Some (map Some [2; 5 / 2; 2]) /\ data_coords R h_first = Some h_pts.
Proof.
  destruct h_first_ok as [Hok Hps]. split.
  2:{ destruct (fit_inv _ _ _ _ _ _ _ _ _ _ _ _ _ _ _ _ Hok) as (w & g' & locs & preds & es & p & score & _ & _ & _ & _ & _ & _ & E).
      unfold h_first. unfold h_fit in *. rewrite E. reflexivity. }
  destruct (fit_results R wmean_fit wmean_predict nat first_choice 2 h_wm h_cfg [0; 1]%nat 0%nat no_fs s_init fX fy (Some h_pts) None (WDense q_W) q_W 3) as (locs & es & ps & score & H); auto.
  - apply first_choice_valid.
  - apply h_in_force.
  - split; [split; [reflexivity|repeat constructor]|auto].
  - apply Permutation_refl.
  - cbv zeta in H. destruct H as (_ & H1 & H2 & H3 & _ & _ & _ & _ & _ & _ & Hlen & _ & Hes & Hls & _ & _ & HR).
    change (o_state R nat (fit R wmean_fit wmean_predict nat first_choice 2 h_wm h_cfg [0; 1]%nat 0%nat no_fs s_init fX fy (Some h_pts) None)) with h_first in *.
    assert (ps = [2; 5 / 2; 2]) by congruence. subst ps. rewrite H2. f_equal.
    change (num_locations h_cfg 3) with 3%nat in Hlen.
    apply (nth_ext _ _ None None); [rewrite map_length; rewrite Hes; exact Hlen|]. intros k Hk. rewrite Hes in Hk.
    destruct (HR k Hk) as (e & _ & Hp & He). rewrite He. cbn [h_cfg cfg cache_estimator].
    unfold wmean_predict in Hp. cbn [map] in Hp. injection Hp as ->. rewrite Hlen in Hk. apply lt3 in Hk as [-> | [-> | ->]]; reflexivity.
Qed.

Lemma h_untrainable fs : untrainable wmean_fit 2 h_wm h_cfg [0; 1]%nat fs fX fy (Some h_far) None.
Proof.
  right. exists (WDense far_W), far_W, 2%nat. split; [reflexivity|]. split; [apply far_in_force|].
  split; [split; [split; [reflexivity|repeat constructor]|auto]|]. split; [apply Permutation_refl|]. split; [cbn; lia|].
  intros e H. unfold local_model in H.
  assert (ET : training_set (leave_local_out h_cfg) far_W (length fX) 2 = []).
  { unfold training_set, used_weight, mget, far_W, eis_zero, fX, h_cfg, cfg. cbn [leave_local_out length seq filter Nat.eqb andb nth]. rdec. reflexivity. }
  rewrite ET in H. discriminate.
Qed.

Lemma h_second_fails : raises (o_result R nat (h_fit 0%nat h_first h_far)) /\
  local_estimators R h_second = Some (map Some [2; 5 / 2; 2]) /\ data_coords R h_second = Some h_far.
Proof.
  pose proof (failed_refit R wmean_fit wmean_predict nat first_choice 2 h_wm h_cfg [0; 1]%nat 0%nat no_fs h_first fX fy (Some h_far) None) as H.
  cbv zeta in H. destruct H as (H1 & _ & _ & H2 & H3 & _); [lia|reflexivity|apply fX_data; reflexivity|left; discriminate|apply h_untrainable|].
  split; [exact H1|]. destruct h_first_estimators as [E _]. split; [|exact H2]. unfold h_second, h_fit. rewrite H3. exact E.
Qed.

Lemma h_predict_at s t Wr : local_estimators R s = Some (map Some [2; 5 / 2; 2]) -> data_coords R s = Some t ->
  h_wm no_fs h_query t = (no_fs, Ok (WDense (mmap Fin Wr))) -> rect Wr 1 3 ->
  h_predict s = Ok [Fin (mget 0 Wr 0 0 * 2 + (mget 0 Wr 0 1 * (5 / 2) + (mget 0 Wr 0 2 * 2 + 0)))].
Proof.
  intros He Ht Hw HR. unfold h_predict.
  rewrite (pbw_sum R wmean_predict h_wm h_cfg no_fs no_fs s [[7]] h_query t [2; 5 / 2; 2] [[2]; [5 / 2]; [2]] Wr 1 3); auto.
Qed.

Lemma failed_refit_example :
  h_predict h_first = Ok [Fin (9 / 4)] /\ raises (o_result R nat (h_fit 0%nat h_first h_far)) /\ h_predict h_second = Ok [Fin (5 / 2)].
Proof.
  destruct h_first_estimators as [E1 E2], h_second_fails as (H1 & H2 & H3).
  split; [|split; [exact H1|]].
  - rewrite (h_predict_at _ _ [[0; 1 / 2; 1 / 2]] E1 E2 (h_weights _ _ _ _ _ h_dist_q box_q)); [|split; [reflexivity|repeat constructor]].
    unfold mget. cbn [nth]. do 3 f_equal. lra.
  - rewrite (h_predict_at _ _ [[0; 1; 0]] H2 H3 (h_weights _ _ _ _ _ h_dist_q_far box_q_far)); [|split; [reflexivity|repeat constructor]].
    unfold mget. cbn [nth]. do 3 f_equal. lra.
Qed.

(** ** Shared arrays *)
(** The caller's arrays: data, the coordinates of the three points, all weights 1. *)
Definition sh_W : matrix ext := [[Fin 1; Fin 1; Fin 1]; [Fin 1; Fin 1; Fin 1]; [Fin 1; Fin 1; Fin 1]].
Definition sh_heap : heap := Heap (fun _ => fX) (fun _ => fy) (fun _ => h_pts) (fun _ => WDense sh_W).
Definition sh_world : shared_world R nat := Shared R nat sh_heap (fun _ => Object R s_init None None None None) 0%nat no_fs.
Definition sh_fit (m : nat) (lo : bool) : event := EFit m (cfg lo None None None) [0; 1]%nat 0 0 (Some 0%nat) (Some 0%nat).
Definition sh_outcome w (m : nat) (lo : bool) := fit_outcome R wmean_fit wmean_predict nat first_choice 2 h_wm w m (cfg lo None None None) [0; 1]%nat 0 0 (Some 0%nat) (Some 0%nat).
Definition sh_happen := happen_all R wmean_fit wmean_predict nat first_choice 2 h_wm.
Definition sh_now := model_now R nat.
Definition sh_predict (s : state R) := snd (predict_by_fit R wmean_fit wmean_predict 2 h_wm h_cfg [0; 1]%nat no_fs s [[7]] (Some h_query) None).

Lemma sh_holds : holds (WDense sh_W) sh_W 3.
Proof. split; [split; [reflexivity|repeat constructor]|auto]. Qed.
Lemma sh_training lo i : (i < 3)%nat -> training_set lo sh_W 3 i <> [].
Proof.
  intros Hi. unfold training_set, used_weight, mget, sh_W, eis_zero.
  apply lt3 in Hi as [-> | [-> | ->]]; destruct lo; cbn [seq filter Nat.eqb andb nth]; rdec; cbn [negb]; discriminate.
Qed.
Lemma sh_ok lo g fs s y : length y = 3%nat -> o_result R nat (fit R wmean_fit wmean_predict nat first_choice 2 h_wm (cfg lo None None None) [0; 1]%nat g fs s fX y (Some h_pts) (Some (WDense sh_W))) = Ok tt.
Proof.
  intros Hy. apply (fit_succeeds R wmean_fit wmean_predict nat first_choice 2 h_wm _ _ _ _ _ _ _ _ _ (WDense sh_W) sh_W 3 first_choice_valid); auto.
  - left. reflexivity.
  - apply sh_holds.
  - apply Permutation_refl.
  - right. left. reflexivity.
  - split; [apply fX_data; auto|]. split; [exact I|]. split; [intros r Hr; discriminate Hr|]. split; [cbv [num_locations sample_local_rate cfg]; lia|]. intros i Hi. cbv [drawn sample_local_rate cfg] in Hi.
    apply wmean_local; auto. apply sh_training. cbn in Hi. lia.
Qed.
Lemma sh_fit_ok lo m : o_result R nat (sh_outcome sh_world m lo) = Ok tt.
Proof. unfold sh_outcome, fit_outcome, fit_shared. cbn [snd]. apply sh_ok. reflexivity. Qed.

Lemma sh_weights_changed :
  weight_matrix_ R (sh_now (sh_happen sh_world [sh_fit 0 false]) 0%nat) = Some (WDense sh_W) /\
  weight_matrix_ R (sh_now (sh_happen sh_world [sh_fit 0 false; sh_fit 1 true]) 0%nat) = Some (WDense (fill_diagonal (Fin 0) sh_W)) /\
  neighbour_matrix_ R (sh_now (sh_happen sh_world [sh_fit 0 false; sh_fit 1 true]) 0%nat) = Some (positive_mask (WDense sh_W)).
Proof.
  pose proof (sh_fit_ok false 0%nat) as Hok.
  destruct (after_fit R wmean_fit wmean_predict nat first_choice 2 h_wm _ _ _ _ _ _ _ _ Hok eq_refl) as [E1 E2]. specialize (E2 0%nat eq_refl). cbn [cfg leave_local_out] in E2.
  set (w1 := happen _ _ _ _ _ _ _ sh_world _) in E1, E2.
  change (sh_happen sh_world [sh_fit 0 false]) with w1.
  assert (F1 : Forall (fun e => ~ fits_model 0 e) [sh_fit 1 true]) by (constructor; [cbn; lia|constructor]).
  split; [|split].
  - unfold sh_now, model_now. rewrite E1. unfold view. cbn [weight_matrix_ b_W attr]. rewrite E2. reflexivity.
  - change (sh_happen sh_world [sh_fit 0 false; sh_fit 1 true]) with (happen_all R wmean_fit wmean_predict nat first_choice 2 h_wm w1 [sh_fit 1 true]).
    unfold sh_now, w1. rewrite now_weights; [|exact Hok|reflexivity|exact F1]. fold w1. cbn [happen_all fold_left].
    f_equal.
    assert (Hok2 : o_result R nat (sh_outcome w1 1 true) = Ok tt).
    { unfold sh_outcome, fit_outcome, fit_shared. cbn [snd option_map]. rewrite E2. cbn [sh_world s_heap sh_heap h_W].
      destruct (heap_fit R wmean_fit wmean_predict nat first_choice 2 h_wm sh_world 0 (cfg false None None None) [0; 1]%nat 0 0 (Some 0%nat) (Some 0%nat)) as (K1 & K2 & K3).
      fold w1 in K1, K2, K3. rewrite K1, K2, K3. cbn [sh_world s_heap sh_heap h_X h_y h_C]. apply sh_ok. reflexivity. }
    destruct (after_fit R wmean_fit wmean_predict nat first_choice 2 h_wm _ _ _ _ _ _ _ _ Hok2 eq_refl) as [_ E3]. specialize (E3 0%nat eq_refl).
    cbn [cfg leave_local_out] in E3. rewrite E2 in E3. exact E3.
  - change (sh_happen sh_world [sh_fit 0 false; sh_fit 1 true]) with (happen_all R wmean_fit wmean_predict nat first_choice 2 h_wm w1 [sh_fit 1 true]).
    destruct (results_owned R wmean_fit wmean_predict nat first_choice 2 h_wm [sh_fit 1 true] 0 w1 F1) as (_ & _ & _ & EN & _).
    unfold sh_now. rewrite EN. unfold model_now. rewrite E1. unfold view. cbn [neighbour_matrix_ b_state].
    destruct (fit_inv _ _ _ _ _ _ _ _ _ _ _ _ _ _ _ _ Hok) as (w & g' & locs & preds & es & p & score & _ & Hf & _ & _ & _ & _ & E).
    destruct Hf as [Hf|[Hf _]]; [|discriminate]. cbn in Hf. injection Hf as <-.
    unfold fit_outcome, fit_shared in *. cbn [snd] in *. rewrite E. reflexivity.
Qed.

Lemma box_pts_q : boxW [[2]; [1]; [0]] = Ok [[Fin 0]; [Fin 1]; [Fin 1]].
Proof.
  apply (boxW_ok _ 3 1); [|lia|box].
  split; [discriminate|]. constructor; [|constructor]. split; [split; [reflexivity|repeat constructor]|]. unfold entries. repeat (apply Forall_cons || apply Forall_nil); lra.
Qed.
Lemma h_dist_pts_q : p_dist h_pts h_query = Ok (map A2 [ [[2]; [1]; [0]] ]).
Proof. unfold p_dist, distance_matrices. cbn. rabs. repeat f_equal; lra. Qed.
Lemma sh_predict_at s y : length y = 3%nat -> data_X R s = Some fX -> data_y R s = Some y -> data_coords R s = Some h_pts ->
  sh_predict s = Ok [[(nth 1 y 0 + nth 2 y 0) / 2]].
Proof.
  intros Hy H1 H2 H3. unfold sh_predict.
  apply (pbf_spec R wmean_fit wmean_predict 2 h_wm h_cfg [0; 1]%nat no_fs no_fs s [[7]] h_query h_pts fX y [[Fin 0]; [Fin 1]; [Fin 1]] 1 3); auto; try lia.
  - apply Permutation_refl.
  - rewrite (h_weights no_fs _ _ _ _ h_dist_pts_q box_pts_q). reflexivity.
  - split; [reflexivity|repeat constructor].
  - split; [reflexivity|]. intros i Hi. assert (i = 0%nat) as -> by lia.
    assert (ET : filter (fun j => negb (eis_zero (mget NaN [[Fin 0]; [Fin 1]; [Fin 1]] j 0))) (seq 0 3) = [1; 2]%nat).
    { unfold mget, eis_zero. cbn [seq filter nth]. rdec. reflexivity. }
    rewrite ET. eexists. split; [|reflexivity]. unfold wmean_fit, mget. cbn. apply (f_equal Ok). field.
Qed.

Lemma sh_predictions_changed :
  sh_predict (sh_now (sh_happen sh_world [sh_fit 0 true]) 0%nat) = Ok [[3]] /\
  sh_predict (sh_now (sh_happen sh_world [sh_fit 0 true; EWriteY 0 [0; 0; 0]]) 0%nat) = Ok [[0]].
Proof.
  pose proof (sh_fit_ok true 0%nat) as Hok.
  destruct (heap_fit R wmean_fit wmean_predict nat first_choice 2 h_wm sh_world 0 (cfg true None None None) [0; 1]%nat 0 0 (Some 0%nat) (Some 0%nat)) as (K1 & K2 & K3).
  assert (HS : forall y, exists s, data_X R s = Some fX /\ data_y R s = Some y /\ data_coords R s = Some h_pts).
  { intros y. exists (State R None None None (Some fX) (Some y) (Some h_pts) None None None None None None None None None None). auto. }
  split.
  - destruct (HS fy) as (s & D1 & D2 & D3).
    unfold sh_predict, sh_now, sh_happen, sh_fit.
    change (happen_all R wmean_fit wmean_predict nat first_choice 2 h_wm sh_world [EFit 0 (cfg true None None None) [0; 1]%nat 0 0 (Some 0%nat) (Some 0%nat)])
      with (happen_all R wmean_fit wmean_predict nat first_choice 2 h_wm (happen R wmean_fit wmean_predict nat first_choice 2 h_wm sh_world (EFit 0 (cfg true None None None) [0; 1]%nat 0 0 (Some 0%nat) (Some 0%nat))) []).
    rewrite (pbf_current R wmean_fit wmean_predict nat first_choice 2 h_wm sh_world 0 (cfg true None None None) [0; 1]%nat 0 0 (Some 0%nat) (Some 0%nat) [] h_cfg [0; 1]%nat no_fs [[7]] (Some h_query) None s Hok eq_refl); [|constructor| | |].
    + fold (sh_predict s). rewrite (sh_predict_at s fy) by auto. cbn [nth fy]. repeat f_equal. lra.
    + cbn [happen_all fold_left]. rewrite K1. exact D1.
    + cbn [happen_all fold_left]. rewrite K2. exact D2.
    + cbn [happen_all fold_left]. rewrite K3. exact D3.
  - destruct (HS [0; 0; 0]) as (s & D1 & D2 & D3).
    unfold sh_predict, sh_now, sh_happen, sh_fit.
    change (happen_all R wmean_fit wmean_predict nat first_choice 2 h_wm sh_world [EFit 0 (cfg true None None None) [0; 1]%nat 0 0 (Some 0%nat) (Some 0%nat); EWriteY 0 [0; 0; 0]])
      with (happen_all R wmean_fit wmean_predict nat first_choice 2 h_wm (happen R wmean_fit wmean_predict nat first_choice 2 h_wm sh_world (EFit 0 (cfg true None None None) [0; 1]%nat 0 0 (Some 0%nat) (Some 0%nat))) [EWriteY 0 [0; 0; 0]]).
    rewrite (pbf_current R wmean_fit wmean_predict nat first_choice 2 h_wm sh_world 0 (cfg true None None None) [0; 1]%nat 0 0 (Some 0%nat) (Some 0%nat) [EWriteY 0 [0; 0; 0]] h_cfg [0; 1]%nat no_fs [[7]] (Some h_query) None s Hok eq_refl); [|constructor; [cbn; tauto|constructor]| | |].
    + fold (sh_predict s). rewrite (sh_predict_at s [0; 0; 0]) by auto. cbn [nth]. repeat f_equal. lra.
    + cbn [happen_all fold_left]. destruct (happen _ _ _ _ _ _ _ sh_world _). cbn in K1 |- *. rewrite K1. exact D1.
    + cbn [happen_all fold_left]. destruct (happen _ _ _ _ _ _ _ sh_world _). cbn. exact D2.
    + cbn [happen_all fold_left]. destruct (happen _ _ _ _ _ _ _ sh_world _). cbn in K3 |- *. rewrite K3. exact D3.
Qed.
