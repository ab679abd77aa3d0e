From Coq Require Import Lra Psatz Sorting.Sorted.
From Verif.Model Require Import Base Ext Sort Kernel Distance WeightMatrix Csr Neighbour WeightModel.
From Verif.Spec Require Import KernelSpec WeightSpec NeighbourSpec WeightModelSpec.
From Verif.Proofs Require Import ListFacts SumFacts KernelFacts SortFacts WeightFacts WeightProps WeightExamples DistanceFacts CsrFacts NeighbourFacts ShrinkFacts SampleFacts NeighbourProps WeightModelFacts WeightModelProps FitProps PredictProps.
Open Scope string_scope.
Open Scope nat_scope.
Open Scope R_scope.

(** A weighted mean as local estimator; it rejects empty training sets and
    sample weights of the wrong length. *)
Definition fin (x : ext) : R := match x with Fin r => r | _ => 0 end.
Definition wmean_fit (c : nat) (X : matrix R) (y : list R) (w : list ext) : result R :=
  if (length y =? 0)%nat || negb (length y =? length w)%nat || negb (length X =? length w)%nat then Raise ValueError
  else Ok (Rsum (map2 (fun a b => fin a * b) w y) / Rsum (map fin w)).
Definition wmean_predict (e : R) (X : matrix R) : result (list R) := Ok (map (fun _ => e) X).

Definition no_wm (fs : filesystem) (a b : list coords) : filesystem * result weights := (fs, Raise TypeError).
Definition no_fs : filesystem := fun _ => None.

Definition fX : matrix R := [[0]; [1]; [2]].
Definition fy : list R := [1; 2; 4].
Definition fy' : list R := [1; 9; 4].
Definition fW : matrix ext := [[Fin 1; Fin 1; Fin 0]; [Fin 1; Fin 1; Fin 1]; [Fin 0; Fin 1; Fin 1]].
Definition fC : csr ext := csr_of_rows 3 (map (crow (Fin 0) eis_zero 3) fW).

Lemma fW_rect : rect fW 3 3. Proof. split; [reflexivity|repeat constructor]. Qed.
Lemma fW_holds : holds (WDense fW) fW 3. Proof. split; [apply fW_rect|auto]. Qed.
Lemma fC_form : csr_form (Fin 0) eis_zero fW 3 fC. Proof. apply csr_form_eq. reflexivity. Qed.
Lemma fC_holds : holds (WSparse fC) fW 3. Proof. split; [apply fW_rect|]. right. exists fC. split; auto. apply fC_form. Qed.

Lemma lt3 i : (i < 3)%nat -> i = 0%nat \/ i = 1%nat \/ i = 2%nat.
Proof. lia. Qed.

Lemma fW_training : training_set true fW 3 0 = [1%nat] /\ training_set true fW 3 1 = [0%nat; 2%nat] /\ training_set true fW 3 2 = [1%nat] /\
  training_set false fW 3 0 = [0%nat; 1%nat].
Proof. unfold training_set, used_weight, mget, fW, eis_zero. cbn [seq filter Nat.eqb andb nth]. rdec. cbn [negb]. auto. Qed.

Lemma wmean_local X y lo W n i : (forall j, In j (training_set lo W n i) -> True) -> training_set lo W n i <> [] ->
  exists e p, local_model wmean_fit X y lo W n i e /\ wmean_predict e [nth i X []] = Ok [p].
Proof.
  intros _ H. unfold local_model, wmean_fit, wmean_predict. destruct (training_set lo W n i) as [|j T]; [congruence|].
  rewrite !map_length. rewrite Nat.eqb_refl. cbn [length Nat.eqb negb orb]. eexists _, _. split; reflexivity.
Qed.

Definition fit_ex := fit R wmean_fit wmean_predict nat first_choice 2 no_wm.
Definition cfg (lo : bool) (rate : option R) (nj : option Z) (np : option nat) : config := Config lo rate true true nj np.
Definition s_init : state R := init_state R.

Lemma sched n l : Permutation l (seq 0 n) -> schedule n l.
Proof. intros H. exact H. Qed.

Lemma fX_data y : length y = 3%nat -> valid_data fX y.
Proof. intros H. exists 1%nat. rewrite H. split; [split; [reflexivity|repeat constructor]|lia]. Qed.

Lemma fit_ex_ok y lo w order :
  length y = 3%nat -> holds w fW 3 -> schedule 2 order ->
  o_result R nat (fit_ex (cfg lo None None None) order 0%nat no_fs s_init fX y None (Some w)) = Ok tt.
Proof.
  intros Hy Hw HS. apply (fit_succeeds R wmean_fit wmean_predict nat first_choice 2 no_wm _ _ _ _ _ _ _ _ _ w fW 3 first_choice_valid); auto.
  - left. reflexivity.
  - left. reflexivity.
  - split; [apply fX_data; auto|]. split; [exact I|]. split; [intros r Hr; discriminate Hr|]. split; [cbv [num_locations sample_local_rate cfg]; lia|].
    intros i Hi. cbv [drawn sample_local_rate cfg] in Hi. simpl in Hi. apply wmean_local; auto.
    unfold training_set, used_weight, mget, fW, eis_zero.
    destruct Hi as [<-|[<-|[<-|[]]]]; destruct lo; cbn [seq filter Nat.eqb andb nth cfg leave_local_out]; rdec; cbn [negb]; discriminate.
Qed.

(** ** sampled locations with n_jobs on a NumPy matrix *)
(** A generator that returns the last elements. *)
Definition last_choice (g : nat) (population : list nat) (size : nat) : nat * list nat := (S g, skipn (length population - size) population).
Lemma last_choice_valid : valid_choice last_choice.
Proof.
  intros g p s Hs. simpl. split; [rewrite skipn_length; lia|]. exists (firstn (length p - s) p).
  rewrite Permutation_app_comm, firstn_skipn. apply Permutation_refl.
Qed.
Definition fit_last := fit R wmean_fit wmean_predict nat last_choice 2 no_wm.

Lemma trunc_eq x k : (0 <= k)%Z -> IZR k <= x < IZR k + 1 -> trunc x = k.
Proof.
  intros Hk [H1 H2]. assert (0 <= IZR k) by (apply IZR_le; auto). unfold trunc. destruct (Rltb x 0) eqn:E; [apply Rltb_true in E; lra|].
  unfold Rfloor. destruct (base_Int_part x) as [Ha Hb]. apply Z.le_antisymm.
  - apply Zlt_succ_le. apply lt_IZR. rewrite succ_IZR. lra.
  - apply Zlt_succ_le. apply lt_IZR. rewrite succ_IZR. lra.
Qed.

Lemma sampled_locs : sample_locations nat last_choice 0%nat (Some (2 / 3)) 3 = Ok (1%nat, [1%nat; 2%nat]).
Proof. unfold sample_locations. rewrite (trunc_eq _ 2); [reflexivity|lia|]. simpl. lra. Qed.

Lemma used_1 : map (fun i => map (used_weight true fW i) (training_set true fW 3 i)) [0; 1; 2]%nat = [[Fin 1]; [Fin 1; Fin 1]; [Fin 1]].
Proof. cbn [map]. destruct fW_training as (-> & -> & -> & _). reflexivity. Qed.

Lemma fit_last_ok nj np order : (nj = Some 2%Z /\ np = None \/ nj = None /\ np = Some 2%nat) -> schedule 2 order ->
  let o := fit_last (cfg true (Some (2 / 3)) nj np) order 0%nat no_fs s_init fX fy None (Some (WDense fW)) in
  o_result R nat o = Ok tt /\ local_indices_ R (o_state R nat o) = Some [1%nat; 2%nat] /\ y_sample_ R (o_state R nat o) = Some [2; 4] /\
  local_predict_ R (o_state R nat o) = Some (match nj with Some _ => [2; 5 / 2] | None => [5 / 2; 2] end).
Proof.
  intros Hj HS. cbv zeta. unfold fit_last, fit.
  assert (Hck : check_X_y fX fy = Ok tt) by reflexivity. rewrite Hck.
  cbn [cfg cache_data cache_estimator leave_local_out sample_local_rate].
  change (length fX) with 3%nat. rewrite sampled_locs.
  assert (Hw' : holds (clear_diagonal (WDense fW)) (effective_weights true fW) 3) by (apply (holds_effective true _ _ _ fW_holds)).
  assert (HT : forall i, (i < 3)%nat -> task R wmean_fit wmean_predict fX fy (seq 0 3) (clear_diagonal (WDense fW)) fX true i =
            Ok ([nth i [2; 5 / 2; 2] 0], Some (nth i [2; 5 / 2; 2] 0))).
  { intros i Hi. destruct Hw' as [HRW Hw'].
    rewrite (task_simple R wmean_fit wmean_predict fX fy 3 (effective_weights true fW) _ 3 (seq 0 3) fX true i i (nth i fX []) 3); auto;
      try (rewrite (getitem_lt 0%nat) by (rewrite seq_length; auto); rewrite seq_nth by auto; reflexivity);
      try (rewrite (getitem_lt (@nil R)) by auto; reflexivity).
    apply simple_task_ok; auto; [apply fW_rect|]. exists (nth i [2; 5 / 2; 2] 0). split; [|split; reflexivity].
    unfold local_model. destruct fW_training as (T0 & T1 & T2 & _).
    apply lt3 in Hi as [-> | [-> | ->]]; [rewrite T0|rewrite T1|rewrite T2]; unfold wmean_fit, used_weight, mget, fW; cbn; apply (f_equal Ok); field. }
  assert (Hfa : fit_all R wmean_fit wmean_predict 2 order fX fy (seq 0 3) (clear_diagonal (WDense fW)) (Some [1%nat; 2%nat]) true None
       (init_jobs 2 (cfg true (Some (2 / 3)) nj np)) =
       Ok (match nj with Some _ => [[2]; [5 / 2]] | None => [[5 / 2]; [2]] end, match nj with Some _ => [Some 2; Some (5 / 2)] | None => [Some (5 / 2); Some 2] end)).
  { apply (fit_all_iff R wmean_fit wmean_predict 2 order fX fy (clear_diagonal (WDense fW)) [1%nat; 2%nat] true (cfg true (Some (2 / 3)) nj np) _ _ 3); [reflexivity|reflexivity|cbn [length]; lia|lia| |].
    - destruct Hj as [[-> ->]|[-> ->]]; exact HS.
    - destruct Hj as [[-> ->]|[-> ->]]; (split; [cbv [jobs_ok cfg n_jobs n_patches]; first [lia | split; [lia|discriminate]]|]).
      + change (paired _ _ _) with [0%nat; 1%nat]. cbn [mapM]. rewrite (HT 0%nat), (HT 1%nat) by lia. cbn [bind]. eexists. split; [reflexivity|]. split; reflexivity.
      + change (paired _ _ _) with [1%nat; 2%nat]. cbn [mapM]. rewrite (HT 1%nat), (HT 2%nat) by lia. cbn [bind]. eexists. split; [reflexivity|]. split; reflexivity. }
  rewrite Hfa. destruct nj; repeat split.
Qed.

Lemma jobs_sampled_refuted :
  exists c c', n_jobs c = Some 2%Z /\ n_jobs c' = None /\ leave_local_out c = leave_local_out c' /\ sample_local_rate c = sample_local_rate c' /\
  let o := fit_last c [0; 1]%nat 0%nat no_fs s_init fX fy None (Some (WDense fW)) in
  let o' := fit_last c' [0; 1]%nat 0%nat no_fs s_init fX fy None (Some (WDense fW)) in
  o_result R nat o = Ok tt /\ o_result R nat o' = Ok tt /\
  local_indices_ R (o_state R nat o) = local_indices_ R (o_state R nat o') /\
  y_sample_ R (o_state R nat o) = y_sample_ R (o_state R nat o') /\
  local_predict_ R (o_state R nat o) <> local_predict_ R (o_state R nat o').
Proof.
  exists (cfg true (Some (2 / 3)) (Some 2%Z) None), (cfg true (Some (2 / 3)) None (Some 2%nat)).
  repeat (split; [reflexivity|]). cbv zeta.
  destruct (fit_last_ok (Some 2%Z) None [0; 1]%nat (or_introl (conj eq_refl eq_refl)) (Permutation_refl _)) as (A1 & A2 & A3 & A4).
  destruct (fit_last_ok None (Some 2%nat) [0; 1]%nat (or_intror (conj eq_refl eq_refl)) (Permutation_refl _)) as (B1 & B2 & B3 & B4).
  rewrite A1, B1, A2, B2, A3, B3, A4, B4. repeat (split; [reflexivity|]). intros H. injection H as H _. lra.
Qed.

(** ** points *)
Definition cityblock (m : string) : option (unit -> list R -> list R -> R) :=
  if String.eqb m "cityblock" then Some (fun _ p q => Rabs (nth 0 p 0 - nth 0 q 0)) else None.
Definition p_train : list coords := [ [[0]; [2]] ].
Definition p_new : list coords := [ [[1]; [3]] ].
Definition p_one : list coords := [ [[1]] ].
Definition p_args : wm_args := WmArgs (Scalar "cityblock") (DScal "boxcar") RNone (DScal (3 / 2)) DNone.
Definition a_args : wm_args := WmArgs (Scalar "cityblock") (DScal "bisquare") RNone DNone (DScal (CInt 1)).
Definition p_wm (a : wm_args) := points_weights (fun x => x) unit tt cityblock (fun _ => None) (fun r => r) unit (fun _ => true) a None.
Definition p_dist src tgt := distance_matrices (fun x => x) unit tt cityblock src (Some tgt) (Scalar "cityblock") None.

Ltac rabs := repeat match goal with |- context[Rabs ?e] => first [rewrite (Rabs_pos_eq e) by lra | rewrite (Rabs_left e) by lra] end.
Lemma p_dist_new_train : p_dist p_new p_train = Ok (map A2 [ [[1; 1]; [3; 1]] ]).
Proof. unfold p_dist, distance_matrices. cbn. rabs. repeat f_equal; lra. Qed.
Lemma p_dist_train_new : p_dist p_train p_new = Ok (map A2 [ [[1; 3]; [1; 1]] ]).
Proof. unfold p_dist, distance_matrices. cbn. rabs. repeat f_equal; lra. Qed.
Lemma p_dist_train_one : p_dist p_train p_one = Ok (map A2 [ [[1]; [1]] ]).
Proof. unfold p_dist, distance_matrices. cbn. rabs. repeat f_equal; lra. Qed.

Lemma valid2 a b c d : 0 <= a -> 0 <= b -> 0 <= c -> 0 <= d -> valid_distances [ [[a; b]; [c; d]] ] 2 2.
Proof. intros. split; [discriminate|]. constructor; [|constructor]. split; [split; [reflexivity|repeat constructor]|]. unfold entries. repeat (apply Forall_cons || apply Forall_nil); auto. Qed.
Lemma valid21 a c : 0 <= a -> 0 <= c -> valid_distances [ [[a]; [c]] ] 2 1.
Proof. intros. split; [discriminate|]. constructor; [|constructor]. split; [split; [reflexivity|repeat constructor]|]. unfold entries. repeat (apply Forall_cons || apply Forall_nil); auto. Qed.

Lemma kv_box_in d : 0 <= d <= 3 / 2 -> kernel_value "boxcar" (3 / 2) d = 1.
Proof. intros H. rewrite kv_box by lra. destruct Rle_dec; lra. Qed.
Lemma kv_box_out d : 3 / 2 < d -> kernel_value "boxcar" (3 / 2) d = 0.
Proof. intros H. rewrite kv_box by lra. destruct Rle_dec; lra. Qed.

Definition boxW (D : matrix R) := weight_matrix_from_distance (map A2 [D]) (DScal "boxcar") RNone (DScal (3 / 2)) DNone.
Lemma boxW_ok D r c W : valid_distances [D] r c -> (0 < r)%nat ->
  W = mmap Fin (mtab r c (fun i j => safe_div (kernel_value "boxcar" (3 / 2) (mget 0 D i j) * 1)
     (Rsum (tabulate c (fun j => kernel_value "boxcar" (3 / 2) (mget 0 D i j) * 1))))) ->
  boxW D = Ok W.
Proof.
  intros HV Hr HW. apply (wm_complete [D] _ _ _ r c (fun _ i j => kernel_value "boxcar" (3 / 2) (mget 0 D i j)) W HV Hr); [reflexivity| |].
  - intros dim Hd. simpl in Hd. assert (dim = 0%nat) as -> by lia. exists "boxcar", (FixedBandwidth (3 / 2)), (repeat (3 / 2) r).
    assert (Hn : forall i, (i < r)%nat -> nth i (repeat (3 / 2) r) 0 = 3 / 2) by (intros i Hi; rewrite (nth_indep _ 0 (3 / 2)) by (rewrite repeat_length; auto); apply nth_repeat).
    split; [repeat split; simpl; auto; unfold known_kernel; tauto|]. split; [apply repeat_length|]. split.
    + intros i Hi. simpl. apply Hn. auto.
    + intros i j Hi Hj. rewrite Hn by auto. reflexivity.
  - exact HW.
Qed.

Lemma box_new_train : boxW [[1; 1]; [3; 1]] = Ok [[Fin (1 / 2); Fin (1 / 2)]; [Fin 0; Fin 1]].
Proof.
  apply (boxW_ok _ 2 2); [apply valid2; lra|lia|]. unfold mmap, mtab, tabulate, mget, Rsum; simpl.
  rewrite !kv_box_in by lra. rewrite !kv_box_out by lra. unfold safe_div. repeat (destruct Req_EM_T; try lra). apply fin4; field.
Qed.
Lemma box_train_new : boxW [[1; 3]; [1; 1]] = Ok [[Fin 1; Fin 0]; [Fin (1 / 2); Fin (1 / 2)]].
Proof.
  apply (boxW_ok _ 2 2); [apply valid2; lra|lia|]. unfold mmap, mtab, tabulate, mget, Rsum; simpl.
  rewrite !kv_box_in by lra. rewrite !kv_box_out by lra. unfold safe_div. repeat (destruct Req_EM_T; try lra). apply fin4; field.
Qed.
Lemma box_train_one : boxW [[1]; [1]] = Ok [[Fin 1]; [Fin 1]].
Proof.
  apply (boxW_ok _ 2 1); [apply valid21; lra|lia|]. unfold mmap, mtab, tabulate, mget, Rsum; simpl.
  rewrite !kv_box_in by lra. unfold safe_div. repeat (destruct Req_EM_T; try lra). do 2 f_equal; [|do 2 f_equal]; repeat f_equal; field.
Qed.

(** A fitted model on the two training points. *)
Definition p_state : state R :=
  State R (Some true) (Some 1%nat) (Some 2%nat) (Some [[0]; [2]]) (Some [0; 1]) (Some p_train) None None (Some [0; 1]%nat) (Some [0; 1])
    (Some [Some 5; Some 7]) (Some [5; 7]) (Some (Fin 0)) (Some [0; 1]) None None.
Definition p_cfg : config := cfg true None None None.

Definition pbf_ex (a : wm_args) X v := snd (predict_by_fit R wmean_fit wmean_predict 2 (p_wm a) p_cfg [0; 1]%nat no_fs p_state X (Some v) None).

Lemma batch_alone : pbf_ex p_args [[7]] p_one = Ok [[1 / 2]].
Proof.
  unfold pbf_ex. apply (pbf_spec R wmean_fit wmean_predict 2 (p_wm p_args) p_cfg [0; 1]%nat no_fs no_fs p_state [[7]] p_one p_train [[0]; [2]] [0; 1] [[Fin 1]; [Fin 1]] 1 2); auto; try lia.
  - apply Permutation_refl.
  - unfold p_wm. rewrite (pw_eq (fun x => x) unit tt cityblock _ _ _ _ p_args None I eq_refl no_fs p_train p_one _ p_dist_train_one).
    fold (boxW [[1]; [1]]). cbn [p_args a_kernel a_bandwidth a_count]. change (weight_matrix_from_distance _ _ _ _ _) with (boxW [[1]; [1]]). rewrite box_train_one. reflexivity.
  - split; [reflexivity|repeat constructor].
  - split; [reflexivity|]. intros i Hi. assert (i = 0%nat) as -> by lia.
    assert (ET : filter (fun j => negb (eis_zero (mget NaN [[Fin 1]; [Fin 1]] j 0))) (seq 0 2) = [0; 1]%nat).
    { unfold mget, eis_zero. cbn [seq filter nth]. rdec. reflexivity. }
    rewrite ET. exists (1 / 2). split; [|reflexivity]. unfold wmean_fit, mget. cbn. apply (f_equal Ok). field.
Qed.

Lemma batch_pair : exists z, pbf_ex p_args [[7]; [8]] p_new = Ok [[1 / 3]; z].
Proof.
  exists [1]. unfold pbf_ex. apply (pbf_spec R wmean_fit wmean_predict 2 (p_wm p_args) p_cfg [0; 1]%nat no_fs no_fs p_state [[7]; [8]] p_new p_train [[0]; [2]] [0; 1] [[Fin 1; Fin 0]; [Fin (1 / 2); Fin (1 / 2)]] 2 2); auto; try lia.
  - apply Permutation_refl.
  - unfold p_wm. rewrite (pw_eq (fun x => x) unit tt cityblock _ _ _ _ p_args None I eq_refl no_fs p_train p_new _ p_dist_train_new).
    cbn [p_args a_kernel a_bandwidth a_count]. change (weight_matrix_from_distance _ _ _ _ _) with (boxW [[1; 3]; [1; 1]]). rewrite box_train_new. reflexivity.
  - split; [reflexivity|repeat constructor].
  - split; [reflexivity|]. intros i Hi.
    assert (ET : filter (fun j => negb (eis_zero (mget NaN [[Fin 1; Fin 0]; [Fin (1 / 2); Fin (1 / 2)]] j 0))) (seq 0 2) = [0; 1]%nat /\
                 filter (fun j => negb (eis_zero (mget NaN [[Fin 1; Fin 0]; [Fin (1 / 2); Fin (1 / 2)]] j 1))) (seq 0 2) = [1]%nat).
    { unfold mget, eis_zero. cbn [seq filter nth]. rdec. split; reflexivity. }
    destruct ET as [E0 E1]. apply lt2 in Hi as [-> | ->]; [rewrite E0|rewrite E1].
    + exists (1 / 3). split; [|reflexivity]. unfold wmean_fit, mget. cbn. apply (f_equal Ok). field.
    + exists 1. split; [|reflexivity]. unfold wmean_fit, mget. cbn. apply (f_equal Ok). field.
Qed.

Lemma batch_refuted :
  exists out out', pbf_ex p_args [[7]] p_one = Ok out /\ pbf_ex p_args [[7]; [8]] p_new = Ok out' /\ nth 0 out [] <> nth 0 out' [].
Proof.
  destruct batch_pair as [z Hz]. exists [[1 / 2]], [[1 / 3]; z]. split; [apply batch_alone|]. split; [exact Hz|].
  simpl. intros H. injection H as H. lra.
Qed.

(** Predicting that point alone with an adaptive bisquare kernel. *)
Lemma adaptive_one : exists W, weight_matrix_from_distance (map A2 [ [[1]; [1]] ]) (a_kernel a_args) RNone (a_bandwidth a_args) (a_count a_args) = Ok W.
Proof.
  apply (wm_success [ [[1]; [1]] ] _ _ _ 2 1); [apply valid21; lra|lia|]. split; [intros [_ H]; discriminate|].
  intros dim Hd. simpl in Hd. assert (dim = 0%nat) as -> by lia. exists "bisquare", (NearestCount 1).
  split; [repeat split; simpl; auto; unfold known_kernel; tauto|]. simpl. lia.
Qed.
