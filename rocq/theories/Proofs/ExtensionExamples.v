(** Concrete cases for C163. *)
From Coq Require Import Lra Psatz Sorting.Sorted.
From Verif.Model Require Import Base Ext Sort Kernel Distance WeightMatrix Csr Neighbour WeightModel.
From Verif.Spec Require Import KernelSpec WeightSpec DistanceSpec NeighbourSpec WeightModelSpec EndToEndSpec ExtensionSpec.
From Verif.Proofs Require Import ListFacts SumFacts KernelFacts SortFacts WeightFacts WeightProps WeightRaises WeightExamples DistanceFacts CsrFacts NeighbourFacts ShrinkFacts SampleFacts NeighbourProps WeightModelFacts WeightModelProps FitProps PredictProps FitExamples PredictSparse EndToEnd EndToEndExamples Extension.
Open Scope string_scope.
Open Scope nat_scope.
Open Scope R_scope.

Definition x_fit (a : wm_args) (order : list nat) (X : matrix R) (y : list R) (v : list coords) := q_fit a order X y v.
Definition x_X : matrix R := [[0]; [1]; [2]; [3]; [4]].
Definition x_y : list R := [1; 2; 4; 8; 16].

(** Points 0, 1, 2, 10, 11 on a line, boxcar kernel with bandwidth 3/2. *)
Definition x_pts : list coords := [ [[0]; [1]; [2]; [10]; [11]] ].
Definition x_D : matrix R := [[0; 1; 2; 10; 11]; [1; 0; 1; 9; 10]; [2; 1; 0; 8; 9]; [10; 9; 8; 0; 1]; [11; 10; 9; 1; 0]].
Definition x_W : matrix ext :=
  [[Fin (1 / 2); Fin (1 / 2); Fin 0; Fin 0; Fin 0]; [Fin (1 / 3); Fin (1 / 3); Fin (1 / 3); Fin 0; Fin 0]; [Fin 0; Fin (1 / 2); Fin (1 / 2); Fin 0; Fin 0];
   [Fin 0; Fin 0; Fin 0; Fin (1 / 2); Fin (1 / 2)]; [Fin 0; Fin 0; Fin 0; Fin (1 / 2); Fin (1 / 2)]].

(** Points 0, 1, 3, 10, 11, boxcar kernel reaching half of the points. *)
Definition f_args : wm_args := WmArgs (Scalar "euclidean") (DScal "boxcar") RNone DNone (DScal (CFloat (1 / 2))).
Definition f_pts : list coords := [ [[0]; [1]; [3]; [10]; [11]] ].
Definition f_D : matrix R := [[0; 1; 3; 10; 11]; [1; 0; 2; 9; 10]; [3; 2; 0; 7; 8]; [10; 9; 7; 0; 1]; [11; 10; 8; 1; 0]].
Definition f_W : matrix ext :=
  [[Fin (1 / 3); Fin (1 / 3); Fin (1 / 3); Fin 0; Fin 0]; [Fin (1 / 3); Fin (1 / 3); Fin (1 / 3); Fin 0; Fin 0]; [Fin (1 / 3); Fin (1 / 3); Fin (1 / 3); Fin 0; Fin 0];
   [Fin 0; Fin 0; Fin (1 / 3); Fin (1 / 3); Fin (1 / 3)]; [Fin 0; Fin 0; Fin (1 / 3); Fin (1 / 3); Fin (1 / 3)]].
Definition f_pts3 : list coords := [ [[0]; [1]; [3]] ].
Definition f_D3 : matrix R := [[0; 1; 3]; [1; 0; 2]; [3; 2; 0]].
Definition f_W3 : matrix ext := [[Fin (1 / 2); Fin (1 / 2); Fin 0]; [Fin (1 / 2); Fin (1 / 2); Fin 0]; [Fin 0; Fin (1 / 2); Fin (1 / 2)]].

Definition dists (v : list coords) := distance_matrices (fun x => x) unit tt (fun _ => None) v (Some v) (Scalar "euclidean") None.

Lemma dists1 p D : (0 < length p)%nat -> Forall (fun r => length r = 1%nat) p -> cdist euclid p p = D -> dists [p] = Ok (map A2 [D]).
Proof.
  intros Hl HF HD.
  assert (E : distance_matrix (fun x => x) unit (fun _ => None) p (Some p) "euclidean" tt = Ok (A2 D)).
  { rewrite (distance_matrix_euclid _ unit _ _ _ tt 1); [|split; auto|split; auto|simpl; lia|simpl; lia]. rewrite !mmap_id. rewrite HD. reflexivity. }
  apply dms_iff. split; [reflexivity|]. split; [simpl; lia|]. intros [|dim] Hd; simpl in Hd; [exact E|lia].
Qed.

Ltac dist := apply dists1; [simpl; lia|repeat (apply Forall_cons || apply Forall_nil); reflexivity|]; unfold cdist; cbn [map]; rewrite !euclid1; rabs; unfold x_D, f_D, f_D3; repeat f_equal; lra.
Lemma x_dist : dists x_pts = Ok (map A2 [x_D]). Proof. dist. Qed.
Lemma f_dist : dists f_pts = Ok (map A2 [f_D]). Proof. dist. Qed.
Lemma f_dist3 : dists f_pts3 = Ok (map A2 [f_D3]). Proof. dist. Qed.

Ltac valid := unfold x_D, f_D, f_D3; split; [discriminate|]; constructor; [|constructor]; split; [split; [reflexivity|repeat constructor]|]; unfold entries; repeat (apply Forall_cons || apply Forall_nil); lra.
Lemma x_valid : valid_distances [x_D] 5 5. Proof. valid. Qed.
Lemma f_valid : valid_distances [f_D] 5 5. Proof. valid. Qed.
Lemma f_valid3 : valid_distances [f_D3] 3 3. Proof. valid. Qed.

Lemma box_rule_ok D r c bw nc p bs W : valid_distances [D] r c -> (0 < r)%nat -> is_none bw && is_none nc = false ->
  requests (DScal "boxcar") bw nc 0 "boxcar" p -> length bs = r -> (forall i, (i < r)%nat -> row_bandwidth p (nth i D []) (nth i bs 0)) ->
  W = mmap Fin (mtab r c (fun i j => safe_div (kernel_value "boxcar" (nth i bs 0) (mget 0 D i j) * 1)
     (Rsum (tabulate c (fun j => kernel_value "boxcar" (nth i bs 0) (mget 0 D i j) * 1))))) ->
  weight_matrix_from_distance (map A2 [D]) (DScal "boxcar") RNone bw nc = Ok W.
Proof.
  intros HV Hr Hn Hq HL Hb HW. apply (wm_complete [D] _ _ _ r c (fun _ i j => kernel_value "boxcar" (nth i bs 0) (mget 0 D i j)) W HV Hr); auto.
  intros dim Hd. simpl in Hd. assert (dim = 0%nat) as -> by lia. exists "boxcar", p, bs. auto.
Qed.

Lemma x_weights : weight_matrix_from_distance (map A2 [x_D]) (DScal "boxcar") RNone (DScal (3 / 2)) DNone = Ok x_W.
Proof.
  apply (boxW_ok x_D 5 5 x_W x_valid); [lia|]. unfold mmap, mtab, tabulate, mget, Rsum, x_D; simpl.
  rewrite !kv_box_in by lra. rewrite !kv_box_out by lra. unfold safe_div. repeat (destruct Req_EM_T; try lra).
  unfold x_W. repeat f_equal; field.
Qed.

Ltac rdec := NeighbourProps.rdec.
Lemma kv_box_in' b d : 0 < b -> d <= b -> kernel_value "boxcar" b d = 1.
Proof. intros H1 H2. rewrite kv_box by auto. destruct Rle_dec; lra. Qed.
Lemma kv_box_out' b d : 0 < b -> b < d -> kernel_value "boxcar" b d = 0.
Proof. intros H1 H2. rewrite kv_box by auto. destruct Rle_dec; lra. Qed.

(** The middle one of an odd number of values. *)
Lemma half_quantile (row : list R) (k : nat) b : length row = (2 * k + 1)%nat -> kth_smallest row (S k) b -> row_bandwidth (Fraction (1 / 2)) row b.
Proof.
  intros HL Hb. split; [lra|]. split; [intros ->; simpl in HL; lia|].
  assert (Hn : INR (length row) = 2 * INR k + 1) by (rewrite HL, plus_INR, mult_INR; simpl; lra).
  pose proof (pos_INR k). unfold hyndman_fan_8. rewrite Hn. split; [|split].
  - intros Hh. lra.
  - intros Hh. assert (Hk : INR k <= INR 0) by (simpl; lra). apply INR_le in Hk. assert (k = 0)%nat as -> by lia. rewrite HL. exact Hb.
  - intros j v w Hj [H1 H2] Hv Hw.
    assert (Hjk : j = S k).
    { assert (A : INR j <= INR (S k)) by (rewrite S_INR; lra). assert (B : INR k < INR j) by lra.
      apply INR_le in A. apply INR_lt in B. lia. }
    subst j. rewrite (kth_smallest_unique _ _ _ _ Hb Hv). rewrite S_INR. lra.
Qed.

Ltac kth := unfold kth_smallest, count; cbn [filter In]; rdec; cbn [length]; (split; [auto 10|]); simpl; lia.
Lemma lt5 i : (i < 5)%nat -> i = 0%nat \/ i = 1%nat \/ i = 2%nat \/ i = 3%nat \/ i = 4%nat.
Proof. lia. Qed.
Lemma f_bw i : (i < 5)%nat -> row_bandwidth (Fraction (1 / 2)) (nth i f_D []) (nth i [3; 2; 3; 7; 8] 0).
Proof. intros Hi. apply (half_quantile _ 2); apply lt5 in Hi as [-> | [-> | [-> | [-> | ->]]]]; unfold f_D; cbn [nth]; [reflexivity..| | | | |]; kth. Qed.
Lemma f_bw3 i : (i < 3)%nat -> row_bandwidth (Fraction (1 / 2)) (nth i f_D3 []) (nth i [1; 1; 2] 0).
Proof. intros Hi. apply (half_quantile _ 1); apply lt3 in Hi as [-> | [-> | ->]]; unfold f_D3; cbn [nth]; [reflexivity..| | |]; kth. Qed.

Lemma f_requests : requests (a_kernel f_args) (a_bandwidth f_args) (a_count f_args) 0 "boxcar" (Fraction (1 / 2)).
Proof. repeat split; simpl; auto. unfold known_kernel; tauto. Qed.

Ltac wts := unfold mmap, mtab, tabulate, mget, Rsum; simpl; 
  repeat match goal with |- context[kernel_value "boxcar" ?b ?d] => first [rewrite (kv_box_in' b d) by lra | rewrite (kv_box_out' b d) by lra] end; unfold safe_div; repeat (destruct Req_EM_T; try lra); repeat f_equal; field.
Lemma f_weights : weight_matrix_from_distance (map A2 [f_D]) (a_kernel f_args) RNone (a_bandwidth f_args) (a_count f_args) = Ok f_W.
Proof. apply (box_rule_ok f_D 5 5 _ _ (Fraction (1 / 2)) [3; 2; 3; 7; 8] f_W f_valid); [lia|reflexivity|exact f_requests|reflexivity|exact f_bw|]. unfold f_D, f_W. wts. Qed.
Lemma f_weights3 : weight_matrix_from_distance (map A2 [f_D3]) (a_kernel f_args) RNone (a_bandwidth f_args) (a_count f_args) = Ok f_W3.
Proof. apply (box_rule_ok f_D3 3 3 _ _ (Fraction (1 / 2)) [1; 1; 2] f_W3 f_valid3); [lia|reflexivity|exact f_requests|reflexivity|exact f_bw3|]. unfold f_D3, f_W3. wts. Qed.

Ltac train := unfold training_set, used_weight, mget, x_W, f_W, f_W3, eis_zero; cbn [seq filter Nat.eqb andb nth]; rdec; cbn [negb]; repeat split; reflexivity.
Lemma x_training : training_set true x_W 5 0 = [1%nat] /\ training_set true x_W 5 1 = [0%nat; 2%nat] /\ training_set true x_W 5 2 = [1%nat] /\
  training_set true x_W 5 3 = [4%nat] /\ training_set true x_W 5 4 = [3%nat].
Proof. train. Qed.
Lemma f_training : training_set true f_W 5 0 = [1%nat; 2%nat] /\ training_set true f_W 5 1 = [0%nat; 2%nat] /\ training_set true f_W 5 2 = [0%nat; 1%nat] /\
  training_set true f_W 5 3 = [2%nat; 4%nat] /\ training_set true f_W 5 4 = [2%nat; 3%nat].
Proof. train. Qed.
Lemma f_training3 : training_set true f_W3 3 0 = [1%nat] /\ training_set true f_W3 3 1 = [0%nat] /\ training_set true f_W3 3 2 = [1%nat].
Proof. train. Qed.


Lemma one_fit a (v : list coords) D W n X y order ps : schedule 2 order -> dists v = Ok (map A2 [D]) -> a_measure a = Scalar "euclidean" -> a_ratio a = RNone ->
  weight_matrix_from_distance (map A2 [D]) (a_kernel a) RNone (a_bandwidth a) (a_count a) = Ok W -> rect W n n -> valid_data X y -> length X = n ->
  (2 <= n)%nat -> length ps = n -> num_tasks 2 (cfg true None None None) n = 2%nat ->
  (forall i, (i < n)%nat -> exists e, local_model wmean_fit X y true W n i e /\ wmean_predict e [nth i X []] = Ok [nth i ps 0]) ->
  o_result R nat (q_fit a order X y v) = Ok tt /\ local_predict_ R (o_state R nat (q_fit a order X y v)) = Some ps.
Proof.
  intros HS HD Hm Hr HW HR Hd HX Hn Hl Ht HM.
  set (pw := points_weights (fun x => x) unit tt (fun _ => None) (fun _ => None) (fun r => r) unit (fun _ => true) a None).
  apply (fit_all_locations R wmean_fit wmean_predict nat first_choice 2 pw (cfg true None None None) order 0%nat no_fs s_init X y (Some v) None (WDense W) W n); auto.
  - apply first_choice_valid.
  - right. split; auto. exists v. split; auto. unfold pw. unfold dists in HD. rewrite <- Hm in HD. rewrite (pw_ok _ _ _ _ _ _ _ _ a no_fs v [D] HD).
    cbn [snd]. rewrite Hr, HW. reflexivity.
  - split; [exact HR|auto].
  - split; [exact Hd|]. split; [exact I|]. auto.
Qed.
Lemma x_data : valid_data x_X x_y.
Proof. exists 1%nat. split; [split; [reflexivity|unfold x_X; repeat (apply Forall_cons || apply Forall_nil); reflexivity]|simpl; split; auto; lia]. Qed.
Ltac model := unfold wmean_fit, used_weight, mget, x_W, f_W, f_W3, x_X, x_y; cbn; apply (f_equal Ok); field.
Lemma x_ok order : schedule 2 order ->
  o_result R nat (q_fit q_args order x_X x_y x_pts) = Ok tt /\ local_predict_ R (o_state R nat (q_fit q_args order x_X x_y x_pts)) = Some [2; 5 / 2; 2; 16; 8].
Proof.
  intros HS. apply (one_fit q_args x_pts x_D x_W 5); auto; [exact x_dist|exact x_weights|split; [reflexivity|repeat (apply Forall_cons || apply Forall_nil); reflexivity]|exact x_data|].
  intros i Hi. destruct x_training as (T0 & T1 & T2 & T3 & T4). exists (nth i [2; 5 / 2; 2; 16; 8] 0). unfold local_model.
  apply lt5 in Hi as [-> | [-> | [-> | [-> | ->]]]]; [rewrite T0|rewrite T1|rewrite T2|rewrite T3|rewrite T4]; (split; [|reflexivity]); model.
Qed.
Lemma f_ok order : schedule 2 order ->
  o_result R nat (q_fit f_args order x_X x_y f_pts) = Ok tt /\ local_predict_ R (o_state R nat (q_fit f_args order x_X x_y f_pts)) = Some [3; 5 / 2; 3 / 2; 10; 6].
Proof.
  intros HS. apply (one_fit f_args f_pts f_D f_W 5); auto; [exact f_dist|exact f_weights|split; [reflexivity|repeat (apply Forall_cons || apply Forall_nil); reflexivity]|exact x_data|].
  intros i Hi. destruct f_training as (T0 & T1 & T2 & T3 & T4). exists (nth i [3; 5 / 2; 3 / 2; 10; 6] 0). unfold local_model.
  apply lt5 in Hi as [-> | [-> | [-> | [-> | ->]]]]; [rewrite T0|rewrite T1|rewrite T2|rewrite T3|rewrite T4]; (split; [|reflexivity]); model.
Qed.
Lemma f_ok3 order : schedule 2 order ->
  o_result R nat (q_fit f_args order (firstn 3 x_X) (firstn 3 x_y) (map (firstn 3) f_pts)) = Ok tt /\
  local_predict_ R (o_state R nat (q_fit f_args order (firstn 3 x_X) (firstn 3 x_y) (map (firstn 3) f_pts))) = Some [2; 1; 2].
Proof.
  intros HS. apply (one_fit f_args f_pts3 f_D3 f_W3 3); auto; [exact f_dist3|exact f_weights3|split; [reflexivity|repeat (apply Forall_cons || apply Forall_nil); reflexivity]| |].
  - exists 1%nat. split; [split; [reflexivity|cbn [firstn x_X]; repeat (apply Forall_cons || apply Forall_nil); reflexivity]|simpl; split; auto; lia].
  - intros i Hi. destruct f_training3 as (T0 & T1 & T2). exists (nth i [2; 1; 2] 0). unfold local_model.
    apply lt3 in Hi as [-> | [-> | ->]]; [rewrite T0|rewrite T1|rewrite T2]; (split; [|reflexivity]); model.
Qed.

Lemma x_far : far_away (a_kernel q_args) (a_bandwidth q_args) (a_count q_args) [x_D] 3 5.
Proof.
  split.
  - intros i j Hi Hj. exists 0%nat, "boxcar", (FixedBandwidth (3 / 2)). split; [simpl; lia|]. split; [repeat split; simpl; auto; unfold known_kernel; tauto|].
    exists (3 / 2). split; [reflexivity|]. assert (H32 : 3 / 2 <> 0) by lra. apply (weighs_iff "boxcar"); [unfold known_kernel; tauto| |].
    + apply lt3 in Hi as [-> | [-> | ->]]; assert (j = 3 \/ j = 4)%nat as [-> | ->] by lia; unfold mget, x_D; simpl; lra.
    + symmetry. apply lt3 in Hi as [-> | [-> | ->]]; assert (j = 3 \/ j = 4)%nat as [-> | ->] by lia; unfold mget, x_D; simpl; apply kv_box_out'; lra.
  - intros [|dim] k p i Hd Hq Hi; [|simpl in Hd; lia]. destruct Hq as (_ & _ & _ & _ & Hq). simpl in Hq. injection Hq as <-. exact I.
Qed.

Lemma f_zero i j : (i < 3)%nat -> (3 <= j < 5)%nat -> mget (Fin 0) f_W i j = Fin 0.
Proof. intros Hi Hj. apply lt3 in Hi as [-> | [-> | ->]]; assert (j = 3 \/ j = 4)%nat as [-> | ->] by lia; reflexivity. Qed.
Lemma f_points : snd (points_weights (fun x => x) unit tt (fun _ => None) (fun _ => None) (fun r => r) unit (fun _ => true) f_args None no_fs f_pts f_pts) = Ok (WDense f_W).
Proof. rewrite (pw_ok _ _ _ _ _ _ _ _ f_args no_fs f_pts [f_D] f_dist). cbn [snd]. change (a_ratio f_args) with RNone. rewrite f_weights. reflexivity. Qed.
