From Coq Require Import Lra Psatz Sorting.Sorted.
From Verif.Model Require Import Base Ext Sort Kernel Distance WeightMatrix Csr Neighbour WeightModel.
From Verif.Spec Require Import KernelSpec WeightSpec DistanceSpec NeighbourSpec WeightModelSpec EndToEndSpec.
From Verif.Proofs Require MoranFacts.
From Verif.Proofs Require Import ListFacts SumFacts KernelFacts SortFacts WeightFacts WeightProps WeightRaises WeightExamples DistanceFacts CsrFacts NeighbourFacts ShrinkFacts SampleFacts NeighbourProps WeightModelFacts WeightModelProps FitProps PredictProps FitExamples PredictSparse EndToEnd.
Open Scope string_scope.
Open Scope nat_scope.
Open Scope R_scope.

(** The weighted mean does not depend on the order of the training rows. *)
Lemma wmean_blind : order_blind wmean_fit wmean_predict.
Proof.
  intros c c' l l' e HP H. unfold wmean_fit in *. rewrite !map_length, Nat.eqb_refl in *.
  rewrite <- (Permutation_length HP). destruct (length l =? 0)%nat; [discriminate|]. cbn [negb orb] in *. injection H as <-.
  eexists. split; [reflexivity|]. intros x. unfold wmean_predict. cbn [map]. apply (f_equal (fun z => Ok [z])).
  rewrite !MoranFacts.map2_map, !map_map.
  unfold Rdiv. apply (f_equal2 Rmult); [|apply (f_equal Rinv)]; apply Rsum_perm; apply Permutation_map; apply Permutation_sym; exact HP.
Qed.

(** Three points on a line. *)
Definition q_pts : list coords := [ [[0]; [1]; [2]] ].
Definition q_D : matrix R := [[0; 1; 2]; [1; 0; 1]; [2; 1; 0]].
Definition q_args : wm_args := WmArgs (Scalar "euclidean") (DScal "boxcar") RNone (DScal (3 / 2)) DNone.
Definition q_W : matrix ext := [[Fin (1 / 2); Fin (1 / 2); Fin 0]; [Fin (1 / 3); Fin (1 / 3); Fin (1 / 3)]; [Fin 0; Fin (1 / 2); Fin (1 / 2)]].
Definition q_fit (a : wm_args) (order : list nat) (X : matrix R) (y : list R) (v : list coords) :=
  fit R wmean_fit wmean_predict nat first_choice 2
    (points_weights (fun x => x) unit tt (fun _ => None) (fun _ => None) (fun r => r) unit (fun _ => true) a None)
    (cfg true None None None) order 0%nat no_fs s_init X y (Some v) None.

Lemma euclid1 a b : euclid [a] [b] = Rabs (a - b).
Proof. unfold euclid, Rsum. simpl. rewrite Rplus_0_r. apply sqrt_Rsqr_abs. Qed.

Lemma q_dist : distance_matrices (fun x => x) unit tt (fun _ => None) q_pts (Some q_pts) (a_measure q_args) None = Ok (map A2 [q_D]).
Proof.
  assert (E : distance_matrix (fun x => x) unit (fun _ => None) [[0]; [1]; [2]] (Some [[0]; [1]; [2]]) "euclidean" tt = Ok (A2 q_D)).
  { rewrite (distance_matrix_euclid _ unit _ _ _ tt 1); [|split; [reflexivity|repeat constructor]|split; [reflexivity|repeat constructor]|simpl; lia|simpl; lia].
    rewrite !mmap_id. unfold cdist. cbn [map]. rewrite !euclid1. rabs. unfold q_D. repeat f_equal; lra. }
  apply dms_iff. split; [reflexivity|]. split; [simpl; lia|]. intros [|dim] Hd; simpl in Hd; [exact E|lia].
Qed.

Lemma q_valid : valid_distances [q_D] 3 3.
Proof. split; [discriminate|]. constructor; [|constructor]. split; [split; [reflexivity|repeat constructor]|]. unfold entries, q_D. repeat (apply Forall_cons || apply Forall_nil); lra. Qed.

Lemma q_weights : weight_matrix_from_distance (map A2 [q_D]) (a_kernel q_args) RNone (a_bandwidth q_args) (a_count q_args) = Ok q_W.
Proof.
  apply (boxW_ok q_D 3 3 q_W q_valid); [lia|]. unfold mmap, mtab, tabulate, mget, Rsum, q_D; simpl.
  rewrite !kv_box_in by lra. rewrite !kv_box_out by lra. unfold safe_div. repeat (destruct Req_EM_T; try lra).
  unfold q_W. repeat f_equal; field.
Qed.

Lemma q_training : training_set true q_W 3 0 = [1%nat] /\ training_set true q_W 3 1 = [0%nat; 2%nat] /\ training_set true q_W 3 2 = [1%nat].
Proof. unfold training_set, used_weight, mget, q_W, eis_zero. cbn [seq filter Nat.eqb andb nth]. rdec. cbn [negb]. auto. Qed.

Lemma q_ok order : schedule 2 order ->
  o_result R nat (q_fit q_args order fX fy q_pts) = Ok tt /\ local_predict_ R (o_state R nat (q_fit q_args order fX fy q_pts)) = Some [2; 5 / 2; 2].
Proof.
  intros HS. set (pw := points_weights (fun x => x) unit tt (fun _ => None) (fun _ => None) (fun r => r) unit (fun _ => true) q_args None).
  apply (fit_all_locations R wmean_fit wmean_predict nat first_choice 2 pw (cfg true None None None) order 0%nat no_fs s_init fX fy (Some q_pts) None (WDense q_W) q_W 3); auto.
  - apply first_choice_valid.
  - right. split; auto. exists q_pts. split; auto. unfold pw. rewrite (pw_ok _ _ _ _ _ _ _ _ q_args no_fs q_pts [q_D] q_dist).
    cbn [snd]. change (a_ratio q_args) with RNone. rewrite q_weights. reflexivity.
  - split; [split; [reflexivity|repeat constructor]|auto].
  - split; [apply fX_data; reflexivity|]. split; [exact I|]. split; [lia|]. split; [reflexivity|].
    intros i Hi. destruct q_training as (T0 & T1 & T2). exists (nth i [2; 5 / 2; 2] 0). unfold local_model. cbn [cfg leave_local_out].
    apply lt3 in Hi as [-> | [-> | ->]]; [rewrite T0|rewrite T1|rewrite T2]; (split; [|reflexivity]); unfold wmean_fit, used_weight, mget, q_W; cbn; apply (f_equal Ok); field.
Qed.

(** The order 2, 0, 1 of the three observations. *)
Definition q_perm : list nat := [2; 0; 1]%nat.
Lemma q_perm_ok : index_permutation q_perm 3.
Proof. unfold index_permutation, q_perm. apply Permutation_sym. change (seq 0 3) with ([0; 1; 2]%nat). apply (Permutation_cons_append [0; 1]%nat 2%nat) || apply Permutation_sym, (Permutation_cons_append [0; 1]%nat 2%nat). Qed.

(** The same points in millimetres, from another origin. *)
Definition q_moves : list (R * list R) := [(1000, [5])].
Definition q_mm : dim_arg R := DScal (1500).
Lemma q_mm_ok : rescaled_bandwidth (map fst q_moves) (a_bandwidth q_args) q_mm.
Proof.
  split; [reflexivity|]. intros [|dim] Hd; simpl in Hd; [|lia]. split; [auto|]. unfold q_mm, q_args, a_bandwidth, arg_at. simpl. f_equal. lra.
Qed.
Lemma q_moved : moved q_moves q_pts = [ [[5]; [1005]; [2005]] ].
Proof. unfold moved, moved_points, q_moves, q_pts, shift. simpl. repeat f_equal; lra. Qed.
