(** C185: a dimension that is given several times. *)
From Coq Require Import Lra Lia.
From Verif.Model Require Import Base Ext Kernel Distance WeightMatrix.
From Verif.Spec Require Import KernelSpec WeightSpec CopiesSpec.
From Verif.Proofs Require Import ListFacts WeightExamples Copies CopiesExamples.
Open Scope string_scope.
Open Scope nat_scope.
Open Scope R_scope.

(** Giving it [m] times succeeds exactly when giving it once does ... *)
Theorem C185_success :
  forall D kernel_type bandwidth neighbour_count r c m,
  valid_distances [D] r c -> (0 < r)%nat -> (1 <= m)%nat ->
  for_all_dimensions kernel_type -> for_all_dimensions bandwidth -> for_all_dimensions neighbour_count ->
  ((exists W, weight_matrix_from_distance [A2 D] kernel_type RNone bandwidth neighbour_count = Ok W) <->
   (exists W, weight_matrix_from_distance (map A2 (repeat D m)) kernel_type RNone bandwidth neighbour_count = Ok W)).
Proof. exact success_copies. Qed.
Print Assumptions C185_success.

(** ... and every row of weights becomes the row of their [m]-th powers, divided by the
    total of these. *)
Theorem C185_powers :
  forall D kernel_type bandwidth neighbour_count r c m W W',
  valid_distances [D] r c -> (0 < r)%nat -> (1 <= m)%nat ->
  for_all_dimensions kernel_type -> for_all_dimensions bandwidth -> for_all_dimensions neighbour_count ->
  weight_matrix_from_distance [A2 D] kernel_type RNone bandwidth neighbour_count = Ok W ->
  weight_matrix_from_distance (map A2 (repeat D m)) kernel_type RNone bandwidth neighbour_count = Ok W' ->
  exists Wr, W = mmap Fin Wr /\ rect Wr r c /\ Forall normalised_row Wr /\ W' = mmap Fin (map (sharpened m) Wr).
Proof. exact sharpened_rows. Qed.
Print Assumptions C185_powers.

(** So the neighbours and their order by weight stay the same, the heaviest neighbour
    never gets lighter and the lightest never heavier. *)
Theorem C185_sharper :
  forall m row, (1 <= m)%nat -> normalised_row row ->
  forall j, (j < List.length row)%nat ->
  (nth j (sharpened m row) 0 = 0 <-> nth j row 0 = 0) /\
  (forall l, (l < List.length row)%nat -> nth j row 0 <= nth l row 0 -> nth j (sharpened m row) 0 <= nth l (sharpened m row) 0) /\
  ((forall l, (l < List.length row)%nat -> nth l row 0 <= nth j row 0) -> nth j row 0 <= nth j (sharpened m row) 0) /\
  (nth j row 0 <> 0 -> (forall l, (l < List.length row)%nat -> nth l row 0 <> 0 -> nth j row 0 <= nth l row 0) -> nth j (sharpened m row) 0 <= nth j row 0).
Proof.
  intros m row Hm HN j Hj. split; [apply sharp_zero; auto|]. split; [intros l Hl H; apply sharp_order; auto|]. split; [apply sharp_top; auto|apply sharp_bottom; auto].
Qed.
Print Assumptions C185_sharper.

(** With the kernels of weights 0 and 1 nothing changes. *)
Theorem C185_flat_kernels :
  forall D k bandwidth neighbour_count r c m W,
  valid_distances [D] r c -> (0 < r)%nat -> (1 <= m)%nat -> k = "uniform" \/ k = "boxcar" ->
  for_all_dimensions bandwidth -> for_all_dimensions neighbour_count ->
  weight_matrix_from_distance [A2 D] (DScal k) RNone bandwidth neighbour_count = Ok W ->
  weight_matrix_from_distance (map A2 (repeat D m)) (DScal k) RNone bandwidth neighbour_count = Ok W.
Proof. exact flat_copies. Qed.
Print Assumptions C185_flat_kernels.

(** Relied on: so it is with all kernels, the second time adds nothing.  False as soon as
    two neighbours of a location have different weights. *)
Theorem C185_unchanged_refuted :
  forall D kernel_type bandwidth neighbour_count r c m W W' i j l a b,
  valid_distances [D] r c -> (0 < r)%nat -> (2 <= m)%nat ->
  for_all_dimensions kernel_type -> for_all_dimensions bandwidth -> for_all_dimensions neighbour_count ->
  weight_matrix_from_distance [A2 D] kernel_type RNone bandwidth neighbour_count = Ok W ->
  weight_matrix_from_distance (map A2 (repeat D m)) kernel_type RNone bandwidth neighbour_count = Ok W' ->
  (i < r)%nat -> (j < c)%nat -> (l < c)%nat -> mget NaN W i j = Fin a -> mget NaN W i l = Fin b -> a <> 0 -> b <> 0 -> a <> b ->
  W' <> W.
Proof.
  intros D kt bw nc r c m W W' i j l a b HV Hr Hm Hk Hb Hc H H' Hi Hj Hl Ea Eb Ha Hb0 Hab EW.
  destruct (sharpened_rows D kt bw nc r c m W W' HV Hr ltac:(lia) Hk Hb Hc H H') as (Wr & E & HR & HN & E').
  rewrite EW, E in E'. apply Fin_rows in E'.
  rewrite E, (ListFacts.mmap_get Fin Wr 0 NaN r c i j HR Hi Hj) in Ea. rewrite E, (ListFacts.mmap_get Fin Wr 0 NaN r c i l HR Hi Hl) in Eb.
  injection Ea as Ea. injection Eb as Eb. unfold mget in Ea, Eb. destruct HR as [HR1 HR2]. rewrite Forall_forall in HN, HR2.
  assert (HI : In (nth i Wr []) Wr) by (apply nth_In; lia).
  apply (sharp_changes (nth i Wr []) m ltac:(lia) (HN _ HI) j l); try rewrite (HR2 _ HI); auto; try congruence.
  assert (EN : nth i (map (sharpened m) Wr) [] = sharpened m (nth i Wr [])) by (change (@nil R) with (sharpened m []) at 1; apply map_nth).
  rewrite <- EN, <- E'. reflexivity.
Qed.
Print Assumptions C185_unchanged_refuted.

(** For the Gaussian and the exponential kernel it is the same as dividing the bandwidth,
    by the root of [m] and by [m]. *)
Theorem C185_gaussian :
  forall D b r c m, valid_distances [D] r c -> (0 < r)%nat -> (1 <= m)%nat -> 0 < b ->
  weight_matrix_from_distance (map A2 (repeat D m)) (DScal "gaussian") RNone (DScal b) DNone =
  weight_matrix_from_distance [A2 D] (DScal "gaussian") RNone (DScal (b / sqrt (INR m))) DNone.
Proof. exact gaussian_copies. Qed.
Print Assumptions C185_gaussian.

Theorem C185_exponential :
  forall D b r c m, valid_distances [D] r c -> (0 < r)%nat -> (1 <= m)%nat -> 0 < b ->
  weight_matrix_from_distance (map A2 (repeat D m)) (DScal "exponential") RNone (DScal b) DNone =
  weight_matrix_from_distance [A2 D] (DScal "exponential") RNone (DScal (b / INR m)) DNone.
Proof. exact exponential_copies. Qed.
Print Assumptions C185_exponential.

(** Two places at distance 1, linear kernel of bandwidth 2: the shares 2/3 and 1/3 become
    4/5 and 1/5. *)
Example C185_example :
  valid_distances [ex_pair] 2 2 /\ normalised_row [2 / 3; 1 / 3] /\
  weight_matrix_from_distance (map A2 (repeat ex_pair 1)) (DScal "linear") RNone (DScal 2) DNone = Ok (mmap Fin (map (sharpened 1) once)) /\
  weight_matrix_from_distance (map A2 (repeat ex_pair 2)) (DScal "linear") RNone (DScal 2) DNone = Ok (mmap Fin twice).
Proof.
  split; [exact ex_pair_valid|]. split.
  { split; [repeat constructor; lra|]. left. unfold Rsum; simpl; lra. }
  split; [apply linear_copies; lia|]. rewrite <- sharpened_twice. apply linear_copies. lia.
Qed.
