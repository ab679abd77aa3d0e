(** C177: neighbours in several dimensions. *)
From Coq Require Import Lra Lia.
From Verif.Model Require Import Base Ext Csr Kernel Neighbour Distance WeightMatrix WeightModel.
From Verif.Spec Require Import KernelSpec WeightSpec NeighbourSpec WeightModelSpec GrowingSpec ManyDimsSpec.
From Verif.Proofs Require Import ListFacts WeightProps FitExamples GrowingProps ManyDimsProps.
Open Scope string_scope.
Open Scope nat_scope.
Open Scope R_scope.

(** With boxcars and [z dim] neighbours in dimension [dim], how many neighbours a
    location has at least. *)
Theorem C177_at_least :
  forall Ds bw nc r c W z i,
  valid_distances Ds r c -> (0 < r)%nat -> (i < r)%nat ->
  (forall dim, (dim < List.length Ds)%nat -> requests (DScal "boxcar") bw nc dim "boxcar" (NearestCount (z dim))) ->
  weight_matrix_from_distance (map A2 Ds) (DScal "boxcar") RNone bw nc = Ok W ->
  (total (map (fun dim => Z.to_nat (z dim)) (seq 0 (List.length Ds))) <= support_size W c i + (List.length Ds - 1) * c)%nat.
Proof. exact enough_neighbours. Qed.
Print Assumptions C177_at_least.

(** So with this many, each location has another one. *)
Theorem C177_enough :
  forall Ds bw nc r c W z i,
  valid_distances Ds r c -> (0 < r)%nat -> (i < r)%nat ->
  (forall dim, (dim < List.length Ds)%nat -> requests (DScal "boxcar") bw nc dim "boxcar" (NearestCount (z dim))) ->
  weight_matrix_from_distance (map A2 Ds) (DScal "boxcar") RNone bw nc = Ok W ->
  ((List.length Ds - 1) * c + 2 <= total (map (fun dim => Z.to_nat (z dim)) (seq 0 (List.length Ds))))%nat ->
  exists j, (j < c)%nat /\ j <> i /\ mget (Fin 0) W i j <> Fin 0.
Proof.
  intros Ds bw nc r c W z i HV Hr Hi HQ HW HT. apply two_in_support.
  pose proof (enough_neighbours Ds bw nc r c W z i HV Hr Hi HQ HW). lia.
Qed.
Print Assumptions C177_enough.

(** Relied on: with neighbour_count = k every location has about k neighbours.  False
    with two dimensions: whenever [2 k <= N + 1], or for a share of a half or less,
    [N] places with different positions in both dimensions exist where one has no
    neighbour but itself, and a fit leaving it out fails. *)
Theorem C177_isolated_refuted :
  forall k count N, (2 <= N)%nat -> compact_kernel k -> at_most_half count N ->
  exists position time W,
    (forall i j, (i < N)%nat -> (j < N)%nat -> position i = position j \/ time i = time j -> i = j) /\
    weight_matrix_from_distance (map A2 [line_distances position N; line_distances time N]) (DScal k) RNone DNone (DScal count) = Ok W /\
    (forall j, (0 < j < N)%nat -> mget (Fin 0) W 0 j = Fin 0) /\
    forall est fit_est predict_est G choice cpu wm c order g fs s0 X y coords given w,
    @needs_data est fit_est predict_est -> valid_choice choice -> (0 < cpu)%nat -> List.length X = N ->
    in_force wm fs coords given w -> holds w W N -> schedule (num_tasks cpu c (num_locations c N)) order ->
    sample_local_rate c = None -> leave_local_out c = true ->
    o_result est G (fit est fit_est predict_est G choice cpu wm c order g fs s0 X y coords given) <> Ok tt.
Proof.
  intros k count N HN Hk Hc. destruct (isolated k count N HN Hk Hc) as (W & HW & _ & HZ). exists pos1, (pos2 N), W.
  split; [intros i j Hi Hj [E|E]; [apply pos1_inj; auto|apply (pos2_inj N); auto]|]. split; [exact HW|]. split; [exact HZ|].
  intros est fit_est predict_est G choice cpu wm c order g fs s0 X y coords given w HL Hch Hcpu HX Hf Hh HS Hs HLO.
  apply (isolated_raises est fit_est predict_est G choice cpu wm c order g fs s0 X y coords given w W N); auto. lia.
Qed.
Print Assumptions C177_isolated_refuted.

(** The share 0.3 of Examples; two of three neighbours in two dimensions, and three in both. *)
Example C177_example :
  at_most_half (CFloat (3 / 10)) 50 /\ compact_kernel "bisquare" /\ at_most_half (CInt 2) 3 /\ needs_data wmean_fit wmean_predict /\
  exists W, weight_matrix_from_distance (map A2 (line3 ++ line3)%list) (DScal "boxcar") RNone DNone (DScal (CInt 3)) = Ok W /\
    valid_distances (line3 ++ line3)%list 3 3 /\ ((2 - 1) * 3 + 2 <= total (map (fun _ => Z.to_nat 3) (seq 0 2)))%nat.
Proof.
  split; [simpl; lra|]. split; [right; unfold vanishing_kernel; auto|]. split; [simpl; lia|]. split; [exact mean_needs_data|].
  assert (HV : valid_distances (line3 ++ line3)%list 3 3).
  { destruct line3_valid as [_ HF]. split; [discriminate|]. apply Forall_app; auto. }
  assert (HS : exists W, weight_matrix_from_distance (map A2 (line3 ++ line3)%list) (DScal "boxcar") RNone DNone (DScal (CInt 3)) = Ok W).
  { apply (wm_success _ _ _ _ 3 3 HV); [lia|]. split; [intros [_ ?]; discriminate|]. intros dim _. exists "boxcar", (NearestCount 3).
    split; [|simpl; lia]. repeat split; simpl; auto. unfold known_kernel; tauto. }
  destruct HS as [W HW]. exists W. repeat split; try apply HV; auto. simpl. lia.
Qed.
