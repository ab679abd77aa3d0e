(** Stacking from coordinates: three points close together, and three points of
    which the outer ones have only the middle one as a neighbour. *)
From Coq Require Import Lra Psatz.
From Verif.Model Require Import Base Ext Sort Kernel Distance WeightMatrix Csr Neighbour WeightModel NumbaImpl Stacking StackingPoints.
From Verif.Spec Require Import KernelSpec WeightSpec DistanceSpec NeighbourSpec WeightModelSpec StackingSpec StackingTotalSpec.
From Verif.Proofs Require Import ListFacts SumFacts KernelFacts WeightFacts WeightProps WeightExamples DistanceFacts CsrFacts NeighbourFacts ShrinkFacts SampleFacts NeighbourProps
  WeightModelFacts WeightModelProps FitProps FitExamples PredictSparse EndToEnd EndToEndExamples
  StackingClaims StackingExamples StackingTotal StackingUsual StackingTotalExamples StackingPointsProps.
Open Scope string_scope.
Open Scope nat_scope.
Open Scope R_scope.

Definition z_pts : list coords := [ [[0]; [1 / 2]; [1]] ].
Definition z_D : matrix R := [[0; 1 / 2; 1]; [1 / 2; 0; 1 / 2]; [1; 1 / 2; 0]].
Definition z_W : matrix R := repeat (repeat (1 / 3) 3) 3.
Definition z_Q : matrix R := [[1 / 2; 1 / 2; 0]; [1 / 3; 1 / 3; 1 / 3]; [0; 1 / 2; 1 / 2]].
Notation z_wm := (stacking_weights (fun x => x) unit tt (fun _ => None) (fun _ => None) (fun r => r) unit (fun _ => true) q_args None).
Notation z_sfit := (sfit R u_fit u_predict R u_fit_meta u_predict_meta ex_solve nat 0%nat rot_choice 4 z_wm).

Lemma z_dist : distance_matrices (fun x => x) unit tt (fun _ => None) z_pts (Some z_pts) (a_measure q_args) None = Ok (map A2 [z_D]).
Proof.
  assert (E : distance_matrix (fun x => x) unit (fun _ => None) [[0]; [1 / 2]; [1]] (Some [[0]; [1 / 2]; [1]]) "euclidean" tt = Ok (A2 z_D)).
  { rewrite (distance_matrix_euclid _ unit _ _ _ tt 1); [|split; [reflexivity|repeat constructor]|split; [reflexivity|repeat constructor]|simpl; lia|simpl; lia].
    rewrite !mmap_id. unfold cdist. cbn [map]. rewrite !euclid1. rabs. unfold z_D. apply (f_equal (fun m => Ok (A2 m))). repeat (apply (f_equal2 cons); [|try reflexivity]); try reflexivity; lra. }
  apply dms_iff. split; [reflexivity|]. split; [simpl; lia|]. intros [|dim] Hd; simpl in Hd; [exact E|lia].
Qed.

Lemma z_valid : valid_distances [z_D] 3 3.
Proof. split; [discriminate|]. constructor; [|constructor]. split; [split; [reflexivity|repeat constructor]|]. unfold entries, z_D. repeat (apply Forall_cons || apply Forall_nil); lra. Qed.

Lemma z_weights : weight_matrix_from_distance (map A2 [z_D]) (a_kernel q_args) RNone (a_bandwidth q_args) (a_count q_args) = Ok (mmap Fin z_W).
Proof.
  apply (boxW_ok z_D 3 3 (mmap Fin z_W) z_valid); [lia|]. unfold mmap, mtab, tabulate, mget, Rsum, z_D; simpl.
  rewrite !kv_box_in by lra. unfold safe_div. repeat (destruct Req_EM_T; try lra).
  repeat (apply (f_equal2 cons); [|try reflexivity]); try reflexivity; apply (f_equal Fin); field.
Qed.

Lemma z_real fs v Ds W : distance_matrices (fun x => x) unit tt (fun _ => None) v (Some v) (a_measure q_args) None = Ok (map A2 Ds) ->
  weight_matrix_from_distance (map A2 Ds) (a_kernel q_args) RNone (a_bandwidth q_args) (a_count q_args) = Ok (mmap Fin W) ->
  z_wm fs v v = (fs, Ok (SDense W)).
Proof.
  intros HD HW.
  assert (E : weight_matrix_from_points (fun x => x) unit tt (fun _ => None) (fun _ => None) (fun r => r) unit (fun _ => true) fs v (Some v)
      (a_measure q_args) (a_kernel q_args) (a_ratio q_args) (a_bandwidth q_args) (a_count q_args) None = (fs, Ok (mmap Fin W))).
  { unfold weight_matrix_from_points. rewrite HD. cbn. unfold q_args in *. cbn in *. rewrite HW. reflexivity. }
  apply (sw_real (fun x => x) unit tt (fun _ => None) (fun _ => None) (fun r => r) unit (fun _ => true) q_args None) in E. exact E.
Qed.

Lemma z_heaviest : self_heaviest z_W 3.
Proof. intros [|[|[|i]]] [|[|[|j]]] Hi Hj; try lia; unfold z_W, mget; simpl; lra. Qed.
Lemma z_Q_heaviest : self_heaviest z_Q 3.
Proof. intros [|[|[|i]]] [|[|[|j]]] Hi Hj; try lia; unfold z_Q, mget; simpl; lra. Qed.

Lemma z_sampled g order : sample_neighbour nat 0%nat rot_choice order g z_W (1 / 2) None = Ok (3%nat, ex_L).
Proof.
  unfold sample_neighbour, z_W, mmap, positive. cbn [map bind repeat]. rdec.
  cbn [fill_diagonal mapi mapi_from list_set map count_true select nonzero nonzero_from length].
  unfold sample_count. rewrite !(Rceil_eq _ 1) by (simpl; lra). reflexivity.
Qed.
Lemma z_Q_sampled g order : exists g', sample_neighbour nat 0%nat rot_choice order g z_Q (1 / 2) None = Ok (g', [[true; true; false]; [false; true; true]; [false; true; true]]).
Proof.
  unfold sample_neighbour, z_Q, mmap, positive. cbn [map bind repeat]. rdec.
  cbn [fill_diagonal mapi mapi_from list_set map count_true select nonzero nonzero_from length].
  unfold sample_count. rewrite !(Rceil_eq _ 1) by (simpl; lra). eexists. reflexivity.
Qed.

Lemma z_points i : (i < 3)%nat -> base_training 3 z_W ex_L i <> [] /\ meta_points 3 z_W i <> [].
Proof.
  intros Hi. destruct i as [|[|[|i]]]; [| | |lia]; (split; [unfold base_training, z_W, ex_L; cbn -[Rdiv]; rdec; cbn -[Rdiv]; discriminate|unfold meta_points, z_W; cbn -[Rdiv]; rdec; cbn -[Rdiv]; discriminate]).
Qed.

Lemma z_run fs s0 g y0 y1 y2 : so_result R R nat (z_sfit ex_r (ex_c None false) g fs s0 ex_X [y0; y1; y2] (Some z_pts) None) = Ok tt.
Proof.
  apply (heaviest_iff u_fit u_predict u_fit_meta u_predict_meta ex_solve 0%nat rot_choice 4 z_wm ex_r (ex_c None false) g fs s0 ex_X
    [y0; y1; y2] (Some z_pts) None (SDense z_W) z_W).
  - apply rot_choice_valid.
  - apply u_data.
  - apply u_design.
  - apply ex_runtime.
  - apply ex_rates.
  - right. split; auto. exists z_pts. split; auto. rewrite (z_real fs z_pts [z_D] z_W z_dist z_weights). reflexivity.
  - split; [split; [reflexivity|repeat constructor]|left; reflexivity].
  - apply z_heaviest.
  - reflexivity.
  - split; [exists 1%nat; split; [split; [reflexivity|repeat constructor]|cbn; lia]|]. split; [intros q H; discriminate|]. split; [cbn; lia|]. split; [intros; discriminate|].
    exists ex_L, z_W. split; [|split; [reflexivity|apply z_points]].
    exists (1 / 2), [0; 1; 2]%nat, 0%nat, 3%nat. split; [reflexivity|]. split; [apply Permutation_refl|apply z_sampled].
Qed.

Lemma z_Q_fails fs s0 g y : so_result R R nat (z_sfit ex_r (ex_c None false) g fs s0 ex_X y (Some q_pts) None) <> Ok tt.
Proof.
  intros H.
  apply (heaviest_iff u_fit u_predict u_fit_meta u_predict_meta ex_solve 0%nat rot_choice 4 z_wm ex_r (ex_c None false) g fs s0 ex_X
    y (Some q_pts) None (SDense z_Q) z_Q) in H.
  - destruct H as (_ & _ & _ & _ & L & W' & HL & _ & HP).
    destruct HL as (q & order & g1 & g2 & Eq & _ & HS). injection Eq as <-. destruct (z_Q_sampled g1 order) as [g3 E].
    change (sc_leave_out_shrink (ex_c None false)) with (@None R) in HS. rewrite E in HS. injection HS as _ <-.
    apply (proj1 (HP 1%nat ltac:(cbn; lia))). reflexivity || (unfold base_training, z_Q; cbn -[Rdiv]; rdec; reflexivity).
  - apply rot_choice_valid.
  - apply u_data.
  - apply u_design.
  - apply ex_runtime.
  - apply ex_rates.
  - right. split; auto. exists q_pts. split; auto. rewrite (z_real fs q_pts [q_D] z_Q q_dist); [reflexivity|]. exact q_weights.
  - split; [split; [reflexivity|repeat constructor]|left; reflexivity].
  - apply z_Q_heaviest.
  - reflexivity.
Qed.
