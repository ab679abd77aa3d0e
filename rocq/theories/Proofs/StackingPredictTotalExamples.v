(** Three training points on a line, new points at its ends: both together, and one
    alone. *)
From Coq Require Import Lra Psatz.
From Verif.Model Require Import Base Ext Sort Kernel Distance WeightMatrix Csr Neighbour WeightModel NumbaImpl Stacking StackingPredict StackingPoints.
From Verif.Spec Require Import KernelSpec WeightSpec DistanceSpec NeighbourSpec WeightModelSpec StackingSpec StackingTotalSpec.
From Verif.Proofs Require Import ListFacts SumFacts KernelFacts WeightFacts WeightProps WeightExamples DistanceFacts CsrFacts NeighbourFacts ShrinkFacts SampleFacts NeighbourProps
  WeightModelFacts WeightModelProps FitProps FitExamples PredictSparse EndToEnd EndToEndExamples
  StackingClaims StackingExamples StackingTotal StackingUsual StackingTotalExamples StackingPointsProps StackingPointsExamples StackingPredictTotal.
Open Scope string_scope.
Open Scope nat_scope.
Open Scope R_scope.

Definition ends : list coords := [ [[0]; [2]] ].
Definition one_end : list coords := [ [[0]] ].
Definition ends_D : matrix R := [[0; 2]; [1; 1]; [2; 0]].
Definition one_D : matrix R := [[0]; [1]; [2]].
Definition ends_U : matrix R := [[1; 0]; [1 / 2; 1 / 2]; [0; 1]].
Definition one_U : matrix R := [[1]; [1]; [0]].
Notation z_predict := (spredict R u_fit u_predict R u_fit_meta u_predict_meta 4 z_wm).

Lemma ends_dist : distance_matrices (fun x => x) unit tt (fun _ => None) q_pts (Some ends) (a_measure q_args) None = Ok (map A2 [ends_D]).
Proof.
  assert (E : distance_matrix (fun x => x) unit (fun _ => None) [[0]; [1]; [2]] (Some [[0]; [2]]) "euclidean" tt = Ok (A2 ends_D)).
  { rewrite (distance_matrix_euclid _ unit _ _ _ tt 1); [|split; [reflexivity|repeat constructor]|split; [reflexivity|repeat constructor]|simpl; lia|simpl; lia].
    rewrite !mmap_id. unfold cdist. cbn [map]. rewrite !euclid1. rabs. unfold ends_D. apply (f_equal (fun m => Ok (A2 m))). repeat (apply (f_equal2 cons); [|try reflexivity]); try reflexivity; lra. }
  transitivity (bind (distance_matrix (fun x => x) unit (fun _ => None) [[0]; [1]; [2]] (Some [[0]; [2]]) "euclidean" tt) (fun m => Ok [m])); [reflexivity|]. rewrite E. reflexivity.
Qed.
Lemma one_dist : distance_matrices (fun x => x) unit tt (fun _ => None) q_pts (Some one_end) (a_measure q_args) None = Ok (map A2 [one_D]).
Proof.
  assert (E : distance_matrix (fun x => x) unit (fun _ => None) [[0]; [1]; [2]] (Some [[0]]) "euclidean" tt = Ok (A2 one_D)).
  { rewrite (distance_matrix_euclid _ unit _ _ _ tt 1); [|split; [reflexivity|repeat constructor]|split; [reflexivity|repeat constructor]|simpl; lia|simpl; lia].
    rewrite !mmap_id. unfold cdist. cbn [map]. rewrite !euclid1. rabs. unfold one_D. apply (f_equal (fun m => Ok (A2 m))). repeat (apply (f_equal2 cons); [|try reflexivity]); try reflexivity; lra. }
  transitivity (bind (distance_matrix (fun x => x) unit (fun _ => None) [[0]; [1]; [2]] (Some [[0]]) "euclidean" tt) (fun m => Ok [m])); [reflexivity|]. rewrite E. reflexivity.
Qed.

Lemma ends_valid : valid_distances [ends_D] 3 2.
Proof. split; [discriminate|]. constructor; [|constructor]. split; [split; [reflexivity|repeat constructor]|]. unfold entries, ends_D. repeat (apply Forall_cons || apply Forall_nil); lra. Qed.
Lemma one_valid : valid_distances [one_D] 3 1.
Proof. split; [discriminate|]. constructor; [|constructor]. split; [split; [reflexivity|repeat constructor]|]. unfold entries, one_D. repeat (apply Forall_cons || apply Forall_nil); lra. Qed.

Lemma ends_weights : weight_matrix_from_distance (map A2 [ends_D]) (a_kernel q_args) RNone (a_bandwidth q_args) (a_count q_args) = Ok (mmap Fin ends_U).
Proof.
  apply (boxW_ok ends_D 3 2 (mmap Fin ends_U) ends_valid); [lia|]. unfold mmap, mtab, tabulate, mget, Rsum, ends_D; simpl.
  rewrite ?(kv_box_in 0), ?(kv_box_in 1), ?(kv_box_out 2) by lra. unfold safe_div. repeat (destruct Req_EM_T; try lra).
  repeat (apply (f_equal2 cons); [|try reflexivity]); try reflexivity; apply (f_equal Fin); first [field | lra].
Qed.
Lemma one_weights : weight_matrix_from_distance (map A2 [one_D]) (a_kernel q_args) RNone (a_bandwidth q_args) (a_count q_args) = Ok (mmap Fin one_U).
Proof.
  apply (boxW_ok one_D 3 1 (mmap Fin one_U) one_valid); [lia|]. unfold mmap, mtab, tabulate, mget, Rsum, one_D; simpl.
  rewrite ?(kv_box_in 0), ?(kv_box_in 1), ?(kv_box_out 2) by lra. unfold safe_div. repeat (destruct Req_EM_T; try lra);
  repeat (apply (f_equal2 cons); [|try reflexivity]); try reflexivity; apply (f_equal Fin); first [field | lra].
Qed.

Lemma z_real2 fs v t Ds W : distance_matrices (fun x => x) unit tt (fun _ => None) v (Some t) (a_measure q_args) None = Ok (map A2 Ds) ->
  weight_matrix_from_distance (map A2 Ds) (a_kernel q_args) RNone (a_bandwidth q_args) (a_count q_args) = Ok (mmap Fin W) ->
  z_wm fs v t = (fs, Ok (SDense W)).
Proof.
  intros HD HW.
  assert (E : weight_matrix_from_points (fun x => x) unit tt (fun _ => None) (fun _ => None) (fun r => r) unit (fun _ => true) fs v (Some t)
      (a_measure q_args) (a_kernel q_args) (a_ratio q_args) (a_bandwidth q_args) (a_count q_args) None = (fs, Ok (mmap Fin W))).
  { unfold weight_matrix_from_points. rewrite HD. cbn. unfold q_args in *. cbn in *. rewrite HW. reflexivity. }
  apply (sw_real (fun x => x) unit tt (fun _ => None) (fun _ => None) (fun r => r) unit (fun _ => true) q_args None) in E. exact E.
Qed.

Lemma ex_second : schedule 3 (r_second ex_r) /\ List.length (r_buffer ex_r) = 3%nat /\ forall k', patches 4 (ex_c None false) = Some k' -> schedule k' (r_base ex_r).
Proof. destruct (ex_runtime None false) as (A & B & C & D & E). repeat split; auto. Qed.

Lemma ends_predicted fs s0 y0 y1 y2 x1 x2 : exists out, snd (z_predict ex_r (ex_c None false) fs s0 ex_X [y0; y1; y2] q_pts [[x1]; [x2]] ends) = Ok out.
Proof.
  destruct ex_second as (S1 & S2 & S3).
  apply (spredict_iff u_fit u_predict u_fit_meta u_predict_meta 4 z_wm u_data u_design ex_r (ex_c None false) fs s0 ex_X [y0; y1; y2] q_pts [[x1]; [x2]] ends z_Q ends_U fs fs); auto.
  - apply (z_real fs q_pts [q_D] z_Q q_dist). exact q_weights.
  - apply (z_real2 fs q_pts ends [ends_D] ends_U ends_dist ends_weights).
  - split; [reflexivity|repeat constructor].
  - split; [reflexivity|repeat constructor].
  - cbn; lia.
  - split; [exists 1%nat; split; [split; [reflexivity|repeat constructor]|cbn; lia]|]. split; [cbn; lia|]. split; [reflexivity|]. cbn [length ex_X]. split; [|split].
    + intros [|[|[|j]]] Hj; try lia.
      * exists 1%nat. split; [lia|]. split; [unfold z_Q, mget; simpl; lra|lia].
      * exists 0%nat. split; [lia|]. split; [unfold z_Q, mget; simpl; lra|lia].
      * exists 1%nat. split; [lia|]. split; [unfold z_Q, mget; simpl; lra|lia].
    + intros [|[|[|j]]] Hj; try lia.
      * exists 0%nat. split; [lia|]. unfold ends_U, mget; simpl; lra.
      * exists 0%nat. split; [lia|]. unfold ends_U, mget; simpl; lra.
      * exists 1%nat. split; [lia|]. unfold ends_U, mget; simpl; lra.
    + intros [|[|i]] Hi; try lia; exists 1%nat; (split; [lia|]); unfold ends_U, mget; simpl; lra.
Qed.

Lemma one_not_predicted fs s0 y x : raises (snd (z_predict ex_r (ex_c None false) fs s0 ex_X y q_pts [x] one_end)).
Proof.
  destruct ex_second as (S1 & S2 & S3). apply raises_not_ok. intros out H.
  assert (H' : exists out, snd (z_predict ex_r (ex_c None false) fs s0 ex_X y q_pts [x] one_end) = Ok out) by (eexists; exact H).
  apply (spredict_iff u_fit u_predict u_fit_meta u_predict_meta 4 z_wm u_data u_design ex_r (ex_c None false) fs s0 ex_X y q_pts [x] one_end z_Q one_U fs fs) in H'; auto.
  - destruct H' as (_ & _ & _ & _ & H' & _). destruct (H' 2%nat) as (i & Hi & Hp); [cbn; lia|]. destruct i; [|cbn in Hi; lia]. unfold one_U, mget in Hp; simpl in Hp; lra.
  - apply (z_real fs q_pts [q_D] z_Q q_dist). exact q_weights.
  - apply (z_real2 fs q_pts one_end [one_D] one_U one_dist one_weights).
  - split; [reflexivity|repeat constructor].
  - split; [reflexivity|repeat constructor].
Qed.
