(** C176: growing neighbourhoods. *)
From Coq Require Import Lra Lia.
From Verif.Model Require Import Base Ext Csr Kernel Neighbour Distance WeightMatrix WeightModel.
From Verif.Spec Require Import KernelSpec WeightSpec NeighbourSpec WeightModelSpec GrowingSpec.
From Verif.Proofs Require Import ListFacts FitExamples GrowingProps.
Open Scope string_scope.
Open Scope nat_scope.
Open Scope R_scope.

(** The weight of a pair never falls when the bandwidth grows. *)
Theorem C176_kernel :
  forall k b b' d w w', known_kernel k -> 0 <= d -> 0 <= b -> b <= b' -> weighs k b d w -> weighs k b' d w' -> w <= w'.
Proof. exact weighs_wider. Qed.
Print Assumptions C176_kernel.

(** A neighbour stays a neighbour; the share of a coinciding observation, such as the
    location itself, never grows. *)
Theorem C176_neighbours :
  forall Ds kt bw bw' nc nc' r c W W',
  valid_distances Ds r c -> (0 < r)%nat -> wider kt bw bw' nc nc' (List.length Ds) ->
  weight_matrix_from_distance (map A2 Ds) kt RNone bw nc = Ok W ->
  weight_matrix_from_distance (map A2 Ds) kt RNone bw' nc' = Ok W' ->
  forall i j, (i < r)%nat -> (j < c)%nat ->
    (mget (Fin 0) W i j <> Fin 0 -> mget (Fin 0) W' i j <> Fin 0) /\
    ((forall dim, (dim < List.length Ds)%nat -> mget 0 (nth dim Ds []) i j = 0) ->
     exists w w', mget (Fin 0) W i j = Fin w /\ mget (Fin 0) W' i j = Fin w' /\ 0 < w' <= w).
Proof.
  intros Ds kt bw bw' nc nc' r c W W' HV Hr HG H H' i j Hi Hj. split.
  - exact (neighbours_grow Ds kt bw bw' nc nc' r c W W' HV Hr HG H H' i j Hi Hj).
  - exact (own_share_shrinks Ds kt bw bw' nc nc' r c W W' HV Hr HG H H' i j Hi Hj).
Qed.
Print Assumptions C176_neighbours.

(** The training sets of a fit are nested. *)
Theorem C176_training_sets :
  forall Ds kt bw bw' nc nc' N W W' leave_out i j,
  valid_distances Ds N N -> (0 < N)%nat -> wider kt bw bw' nc nc' (List.length Ds) ->
  weight_matrix_from_distance (map A2 Ds) kt RNone bw nc = Ok W ->
  weight_matrix_from_distance (map A2 Ds) kt RNone bw' nc' = Ok W' -> (i < N)%nat ->
  In j (training_set leave_out W N i) -> In j (training_set leave_out W' N i).
Proof. exact training_grows. Qed.
Print Assumptions C176_training_sets.

(** So with a learner that only needs data, a fit that works goes on working. *)
Theorem C176_keeps_working :
  forall est fit_est predict_est G choice cpu Ds kt bw bw' nc nc' wm wm' c order order' g g' fs fs' s0 s0' X y coords coords' given given' w w' W W' N,
  @needs_data est fit_est predict_est -> valid_choice choice -> (0 < cpu)%nat -> List.length X = N ->
  valid_distances Ds N N -> wider kt bw bw' nc nc' (List.length Ds) ->
  weight_matrix_from_distance (map A2 Ds) kt RNone bw nc = Ok W ->
  weight_matrix_from_distance (map A2 Ds) kt RNone bw' nc' = Ok W' ->
  in_force wm fs coords given w -> holds w W N -> in_force wm' fs' coords' given' w' -> holds w' W' N ->
  schedule (num_tasks cpu c (num_locations c N)) order -> schedule (num_tasks cpu c (num_locations c N)) order' ->
  sample_local_rate c = None ->
  o_result est G (fit est fit_est predict_est G choice cpu wm c order g fs s0 X y coords given) = Ok tt ->
  o_result est G (fit est fit_est predict_est G choice cpu wm' c order' g' fs' s0' X y coords' given') = Ok tt.
Proof. exact wider_keeps_working. Qed.
Print Assumptions C176_keeps_working.

(** Fixed bandwidths so large that every distance is at most [t] of them: the weights of
    a row are equal up to [3 * dimensions * t]. *)
Theorem C176_flat :
  forall Ds kt bw nc r c W t,
  valid_distances Ds r c -> (0 < r)%nat -> 0 <= t -> 3 * INR (List.length Ds) * t < 1 ->
  (forall dim i j, (dim < List.length Ds)%nat -> (i < r)%nat -> (j < c)%nat ->
     exists k b, requests kt bw nc dim k (FixedBandwidth b) /\ 0 < b /\ mget 0 (nth dim Ds []) i j <= t * b) ->
  weight_matrix_from_distance (map A2 Ds) kt RNone bw nc = Ok W ->
  let delta := 3 * INR (List.length Ds) * t in
  forall i j, (i < r)%nat -> (j < c)%nat ->
    exists w, mget (Fin 0) W i j = Fin w /\ (1 - delta) / INR c <= w <= / (INR c * (1 - delta)).
Proof. exact flat_weights. Qed.
Print Assumptions C176_flat.

(** Uniform kernels, and boxcars that reach everything: all weights are equal, and each
    local model is trained on everything, or on everything else. *)
Theorem C176_everything :
  forall Ds kt bw nc N W,
  valid_distances Ds N N -> (0 < N)%nat ->
  (forall dim i j, (dim < List.length Ds)%nat -> (i < N)%nat -> (j < N)%nat ->
     exists k p, requests kt bw nc dim k p /\
       (k = "uniform" \/ k = "boxcar" /\ exists b, p = FixedBandwidth b /\ 0 < b /\ mget 0 (nth dim Ds []) i j <= b)) ->
  weight_matrix_from_distance (map A2 Ds) kt RNone bw nc = Ok W ->
  forall i, (i < N)%nat ->
    (forall j, (j < N)%nat -> mget (Fin 0) W i j = Fin (/ INR N)) /\
    training_set false W N i = seq 0 N /\ training_set true W N i = filter (fun j => negb (i =? j)%nat) (seq 0 N).
Proof.
  intros Ds kt bw nc N W HV HN HB H i Hi. split; [intros j Hj; exact (equal_weights Ds kt bw nc N N W HV HN HB H i j Hi Hj)|].
  split; [|exact (equal_training Ds kt bw nc N W true i HV HN HB H Hi)].
  rewrite (equal_training Ds kt bw nc N W false i HV HN HB H Hi). cbn [andb negb]. induction (seq 0 N) as [|a l IH]; simpl; congruence.
Qed.
Print Assumptions C176_everything.

(** Three points on a line: two, then three nearest; bandwidth 100; a boxcar of width 2. *)
Example C176_example :
  valid_distances line3 3 3 /\ wider (DScal "bisquare") DNone DNone (DScal (CInt 2)) (DScal (CInt 3)) 1 /\
  (forall z, (1 <= z <= 3)%Z -> exists W, weight_matrix_from_distance (map A2 line3) (DScal "bisquare") RNone DNone (DScal (CInt z)) = Ok W) /\
  needs_data wmean_fit wmean_predict.
Proof.
  split; [exact line3_valid|]. split; [|split; [exact line3_counts|exact mean_needs_data]].
  intros dim k k' p p' _ (_ & _ & _ & _ & A) (_ & _ & _ & _ & B). simpl in A, B. inversion A; inversion B; subst. simpl. lia.
Qed.
Example C176_flat_example :
  (exists W, weight_matrix_from_distance (map A2 line3) (DScal "tricube") RNone (DScal 100) DNone = Ok W) /\
  3 * INR (List.length line3) * (1 / 50) < 1 /\
  forall dim i j, (dim < List.length line3)%nat -> (i < 3)%nat -> (j < 3)%nat ->
     exists k b, requests (DScal "tricube") (DScal 100) DNone dim k (FixedBandwidth b) /\ 0 < b /\ mget 0 (nth dim line3 []) i j <= 1 / 50 * b.
Proof.
  split; [apply line3_fixed; unfold known_kernel; tauto|]. split; [simpl; lra|]. intros dim i j Hd Hi Hj. exists "tricube", 100.
  pose proof (line3_at dim i j Hd Hi Hj). split; [|lra]. repeat split; simpl; auto. unfold known_kernel; tauto.
Qed.
Example C176_everything_example :
  (exists W, weight_matrix_from_distance (map A2 line3) (DScal "boxcar") RNone (DScal 2) DNone = Ok W) /\
  forall dim i j, (dim < List.length line3)%nat -> (i < 3)%nat -> (j < 3)%nat ->
     exists k p, requests (DScal "boxcar") (DScal 2) DNone dim k p /\
       (k = "uniform" \/ k = "boxcar" /\ exists b, p = FixedBandwidth b /\ 0 < b /\ mget 0 (nth dim line3 []) i j <= b).
Proof.
  split; [apply line3_fixed; unfold known_kernel; tauto|]. intros dim i j Hd Hi Hj. exists "boxcar", (FixedBandwidth 2).
  pose proof (line3_at dim i j Hd Hi Hj). split; [repeat split; simpl; auto; unfold known_kernel; tauto|]. right. split; auto. exists 2. repeat split; lra.
Qed.
