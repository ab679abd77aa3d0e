(** Three training points on a line: the two ends as new points, and the same with
    one of them given twice; one new point with an adaptive kernel; a gaussian
    kernel. *)
From Coq Require Import Lra Psatz.
From Verif.Model Require Import Base Ext Sort Kernel Distance WeightMatrix Csr Neighbour WeightModel NumbaImpl Stacking StackingPredict StackingPoints.
From Verif.Spec Require Import KernelSpec WeightSpec WeightFloatSpec DistanceSpec NeighbourSpec WeightModelSpec StackingSpec StackingTotalSpec StackingNewSpec.
From Verif.Proofs Require Import ListFacts SumFacts KernelFacts WeightFacts WeightProps WeightExamples DistanceFacts CsrFacts NeighbourFacts ShrinkFacts SampleFacts NeighbourProps
  WeightModelFacts WeightModelProps FitProps FitExamples PredictSparse EndToEnd EndToEndExamples
  StackingClaims StackingExamples StackingTotal StackingUsual StackingTotalExamples StackingPointsProps StackingPointsExamples StackingPredictProps StackingPredictTotal StackingPredictTotalExamples StackingNewProps.
Open Scope string_scope.
Open Scope nat_scope.
Open Scope R_scope.

(** A meta learner that predicts the weighted mean of the responses. *)
Definition mean_meta (alpha : R) (k : nat) (X : matrix R) (y w : list R) : result R :=
  match X, k with _ :: _, S _ => Ok (Rsum (map2 Rmult w y) / Rsum w) | _, _ => Raise ValueError end.
Definition mean_predict (m : R) (X : matrix R) : result (list R) := Ok (map (fun _ => m) X).
Lemma mean_design : needs_design mean_meta mean_predict.
Proof.
  split; [discriminate|]. split; [intros alpha [|x X]; discriminate|].
  split; [intros alpha [|k] [|x X] y w H1 H2 _ _ _; try congruence; try lia; eexists; reflexivity|]. intros m x. eexists. reflexivity.
Qed.
Notation mean_run := (spredict R u_fit u_predict R mean_meta mean_predict 4 z_wm).

Definition twice : list coords := [ [[0]; [2]; [2]] ].
Definition twice_D : matrix R := [[0; 2; 2]; [1; 1; 1]; [2; 0; 0]].
Definition twice_U : matrix R := [[1; 0; 0]; [1 / 3; 1 / 3; 1 / 3]; [0; 1 / 2; 1 / 2]].

Lemma twice_dist : distance_matrices (fun x => x) unit tt (fun _ => None) q_pts (Some twice) (a_measure q_args) None = Ok (map A2 [twice_D]).
Proof.
  assert (E : distance_matrix (fun x => x) unit (fun _ => None) [[0]; [1]; [2]] (Some [[0]; [2]; [2]]) "euclidean" tt = Ok (A2 twice_D)).
  { rewrite (distance_matrix_euclid _ unit _ _ _ tt 1); [|split; [reflexivity|repeat constructor]|split; [reflexivity|repeat constructor]|simpl; lia|simpl; lia].
    rewrite !mmap_id. unfold cdist. cbn [map]. rewrite !euclid1. rabs. unfold twice_D. apply (f_equal (fun m => Ok (A2 m))). repeat (apply (f_equal2 cons); [|try reflexivity]); try reflexivity; lra. }
  transitivity (bind (distance_matrix (fun x => x) unit (fun _ => None) [[0]; [1]; [2]] (Some [[0]; [2]; [2]]) "euclidean" tt) (fun m => Ok [m])); [reflexivity|]. rewrite E. reflexivity.
Qed.
Lemma twice_valid : valid_distances [twice_D] 3 3.
Proof. split; [discriminate|]. constructor; [|constructor]. split; [split; [reflexivity|repeat constructor]|]. unfold entries, twice_D. repeat (apply Forall_cons || apply Forall_nil); lra. Qed.
Lemma twice_weights : weight_matrix_from_distance (map A2 [twice_D]) (a_kernel q_args) RNone (a_bandwidth q_args) (a_count q_args) = Ok (mmap Fin twice_U).
Proof.
  apply (boxW_ok twice_D 3 3 (mmap Fin twice_U) twice_valid); [lia|]. unfold mmap, mtab, tabulate, mget, Rsum, twice_D; simpl.
  rewrite ?(kv_box_in 0), ?(kv_box_in 1), ?(kv_box_out 2) by lra. unfold safe_div. repeat (destruct Req_EM_T; try lra).
  repeat (apply (f_equal2 cons); [|try reflexivity]); try reflexivity; apply (f_equal Fin); first [field | lra].
Qed.

Lemma u_rowwise : rowwise u_predict ex_row.
Proof. intros e [|x X] p H; [discriminate|]. injection H as <-. reflexivity. Qed.

(** What the first new point gets, when its weights are those of [U]. *)
Lemma mean_first fs s0 y X' vp U s out fs2 : forall k, length X' = k -> (0 < k)%nat -> rect U 3 k ->
  z_wm fs q_pts vp = (fs2, Ok (SDense U)) ->
  mean_run ex_r (ex_c None false) fs s0 ex_X y q_pts X' vp = (s, fs2, Ok out) ->
  support 3 U 0 = [0; 1]%nat ->
  nth 0 out [] = [Fin ((mget 0 U 0 0 * nth 0 y 0 + (mget 0 U 1 0 * nth 1 y 0 + 0)) / (mget 0 U 0 0 + (mget 0 U 1 0 + 0)))].
Proof.
  intros k Ek Hk HR HU H HS. destruct ex_second as (S1 & S2 & S3).
  assert (HQ : z_wm fs q_pts q_pts = (fs, Ok (SDense z_Q))) by (apply (z_real fs q_pts [q_D] z_Q q_dist); exact q_weights).
  pose proof (new_predictions u_fit u_predict mean_meta mean_predict 4 z_wm ex_row u_rowwise ex_r (ex_c None false) fs s0 ex_X y q_pts X' vp z_Q U fs fs2 s out) as HN.
  cbv zeta in HN. rewrite Ek in HN. change (length ex_X) with 3%nat in HN.
  destruct HN as (es & _ & _ & _ & _ & HN); auto. { split; [reflexivity|repeat constructor]. }
  destruct (HN 0%nat Hk) as (bases & p & _ & -> & m & Hm & Hp). rewrite HS in Hm. injection Hm as <-. injection Hp as <-.
  cbn [map]. unfold Rsum, map2. cbn. reflexivity.
Qed.

Lemma mean_differ fs s0 y0 y1 y2 x1 x2 : y0 <> y1 ->
  exists out out', snd (mean_run ex_r (ex_c None false) fs s0 ex_X [y0; y1; y2] q_pts [[x1]; [x2]] ends) = Ok out /\
    snd (mean_run ex_r (ex_c None false) fs s0 ex_X [y0; y1; y2] q_pts [[x1]; [x2]; [x2]] twice) = Ok out' /\
    nth 0 out [] = [Fin ((2 * y0 + y1) / 3)] /\ nth 0 out' [] = [Fin ((3 * y0 + y1) / 4)].
Proof.
  intros Hne. destruct ex_second as (S1 & S2 & S3).
  assert (HQ : z_wm fs q_pts q_pts = (fs, Ok (SDense z_Q))) by (apply (z_real fs q_pts [q_D] z_Q q_dist); exact q_weights).
  assert (HE : z_wm fs q_pts ends = (fs, Ok (SDense ends_U))) by apply (z_real2 fs q_pts ends [ends_D] ends_U ends_dist ends_weights).
  assert (HT : z_wm fs q_pts twice = (fs, Ok (SDense twice_U))) by apply (z_real2 fs q_pts twice [twice_D] twice_U twice_dist twice_weights).
  assert (RQ : rect z_Q 3 3) by (split; [reflexivity|repeat constructor]).
  assert (RE : rect ends_U 3 2) by (split; [reflexivity|repeat constructor]).
  assert (RT : rect twice_U 3 3) by (split; [reflexivity|repeat constructor]).
  assert (V : valid_data ex_X [y0; y1; y2]) by (exists 1%nat; split; [split; [reflexivity|repeat constructor]|cbn; lia]).
  assert (N : forall j, (j < 3)%nat -> exists t, (t < 3)%nat /\ mget 0 z_Q j t <> 0 /\ ~ (sc_leave_local_out (ex_c None false) = true /\ t = j)).
  { intros [|[|[|j]]] Hj; try lia.
    - exists 1%nat. split; [lia|]. split; [unfold z_Q, mget; simpl; lra|lia].
    - exists 0%nat. split; [lia|]. split; [unfold z_Q, mget; simpl; lra|lia].
    - exists 1%nat. split; [lia|]. split; [unfold z_Q, mget; simpl; lra|lia]. }
  assert (A1 : exists out, snd (mean_run ex_r (ex_c None false) fs s0 ex_X [y0; y1; y2] q_pts [[x1]; [x2]] ends) = Ok out).
  { apply (spredict_iff u_fit u_predict mean_meta mean_predict 4 z_wm u_data mean_design ex_r (ex_c None false) fs s0 ex_X [y0; y1; y2] q_pts [[x1]; [x2]] ends z_Q ends_U fs fs); auto; [cbn; lia|].
    split; [exact V|]. split; [cbn; lia|]. split; [reflexivity|]. cbn [length ex_X]. split; [exact N|split].
    - intros [|[|[|j]]] Hj; try lia; [exists 0%nat|exists 0%nat|exists 1%nat]; (split; [lia|]); unfold ends_U, mget; simpl; lra.
    - intros [|[|i]] Hi; try lia; exists 1%nat; (split; [lia|]); unfold ends_U, mget; simpl; lra. }
  assert (A2 : exists out, snd (mean_run ex_r (ex_c None false) fs s0 ex_X [y0; y1; y2] q_pts [[x1]; [x2]; [x2]] twice) = Ok out).
  { apply (spredict_iff u_fit u_predict mean_meta mean_predict 4 z_wm u_data mean_design ex_r (ex_c None false) fs s0 ex_X [y0; y1; y2] q_pts [[x1]; [x2]; [x2]] twice z_Q twice_U fs fs); auto; [cbn; lia|].
    split; [exact V|]. split; [cbn; lia|]. split; [reflexivity|]. cbn [length ex_X]. split; [exact N|split].
    - intros [|[|[|j]]] Hj; try lia; [exists 0%nat|exists 0%nat|exists 1%nat]; (split; [lia|]); unfold twice_U, mget; simpl; lra.
    - intros [|[|[|i]]] Hi; try lia; exists 1%nat; (split; [lia|]); unfold twice_U, mget; simpl; lra. }
  destruct A1 as [out A1]. destruct A2 as [out' A2]. exists out, out'. split; [exact A1|]. split; [exact A2|]. split.
  - destruct (mean_run ex_r (ex_c None false) fs s0 ex_X [y0; y1; y2] q_pts [[x1]; [x2]] ends) as [[s f2] o] eqn:E. cbn [snd] in A1. subst o.
    assert (f2 = fs) as ->. { unfold spredict in E. destruct (check_X_y _ _) in E; [|discriminate]. rewrite HQ in E. rewrite HE in E.
      repeat (match type of E with match ?x with _ => _ end = _ => destruct x; try discriminate end). all: congruence. }
    rewrite (mean_first fs s0 [y0; y1; y2] [[x1]; [x2]] ends ends_U s out fs 2 eq_refl ltac:(lia) RE HE E).
    + unfold ends_U, mget; simpl. apply (f_equal (fun z => [Fin z])). field.
    + unfold support, ends_U, mget; simpl. rdec. reflexivity.
  - destruct (mean_run ex_r (ex_c None false) fs s0 ex_X [y0; y1; y2] q_pts [[x1]; [x2]; [x2]] twice) as [[s f2] o] eqn:E. cbn [snd] in A2. subst o.
    assert (f2 = fs) as ->. { unfold spredict in E. destruct (check_X_y _ _) in E; [|discriminate]. rewrite HQ in E. rewrite HT in E.
      repeat (match type of E with match ?x with _ => _ end = _ => destruct x; try discriminate end). all: congruence. }
    rewrite (mean_first fs s0 [y0; y1; y2] [[x1]; [x2]; [x2]] twice twice_U s out' fs 3 eq_refl ltac:(lia) RT HT E).
    + unfold twice_U, mget; simpl. apply (f_equal (fun z => [Fin z])). field.
    + unfold support, twice_U, mget; simpl. rdec. reflexivity.
Qed.

(** A gaussian kernel, and the two nearest points, for the same points. *)
Definition gauss_args : wm_args := WmArgs (Scalar "euclidean") (DScal "gaussian") RNone (DScal 1) DNone.
Definition near_args : wm_args := WmArgs (Scalar "euclidean") (DScal "bisquare") RNone DNone (DScal (CInt 1)).
Lemma gauss_fixed m : fixed_bandwidths gauss_args m.
Proof. intros dim _. exists "gaussian", 1. split; [|lra]. repeat split; simpl; auto. unfold known_kernel; tauto. Qed.
Lemma gauss_unlimited m : unlimited gauss_args m.
Proof. intros dim k _ H. injection H as <-. split; [|discriminate]. intros [H|[H|H]]; discriminate. Qed.
Lemma box_fixed m : fixed_bandwidths q_args m.
Proof. intros dim _. exists "boxcar", (3 / 2). split; [|lra]. repeat split; simpl; auto. unfold known_kernel; tauto. Qed.
Lemma near_requests : requests (a_kernel near_args) (a_bandwidth near_args) (a_count near_args) 0 "bisquare" (NearestCount 1).
Proof. repeat split; simpl; auto. unfold known_kernel; tauto. Qed.

(** A batch with a far point. *)
Definition far : list coords := [ [[0]; [2]; [9]] ].
Definition far_D : matrix R := [[0; 2; 9]; [1; 1; 8]; [2; 0; 7]].
Lemma far_dist : distance_matrices (fun x => x) unit tt (fun _ => None) q_pts (Some far) (a_measure q_args) None = Ok (map A2 [far_D]).
Proof.
  assert (E : distance_matrix (fun x => x) unit (fun _ => None) [[0]; [1]; [2]] (Some [[0]; [2]; [9]]) "euclidean" tt = Ok (A2 far_D)).
  { rewrite (distance_matrix_euclid _ unit _ _ _ tt 1); [|split; [reflexivity|repeat constructor]|split; [reflexivity|repeat constructor]|simpl; lia|simpl; lia].
    rewrite !mmap_id. unfold cdist. cbn [map]. rewrite !euclid1. rabs. unfold far_D. apply (f_equal (fun m => Ok (A2 m))). repeat (apply (f_equal2 cons); [|try reflexivity]); try reflexivity; lra. }
  transitivity (bind (distance_matrix (fun x => x) unit (fun _ => None) [[0]; [1]; [2]] (Some [[0]; [2]; [9]]) "euclidean" tt) (fun m => Ok [m])); [reflexivity|]. rewrite E. reflexivity.
Qed.
Lemma far_valid : valid_distances [far_D] 3 3.
Proof. split; [discriminate|]. constructor; [|constructor]. split; [split; [reflexivity|repeat constructor]|]. unfold entries, far_D. repeat (apply Forall_cons || apply Forall_nil); lra. Qed.
Lemma far_count (d : R) l : In d l -> (Z.to_nat 1 <= length (filter (fun x => Rleb x d) l))%nat.
Proof.
  intros H. assert (HI : In d (filter (fun x => Rleb x d) l)) by (apply filter_In; split; [auto|apply Rleb_true; lra]).
  destruct (filter _ l); [contradiction|]. cbn [length]. change (Z.to_nat 1) with 1%nat. lia.
Qed.
