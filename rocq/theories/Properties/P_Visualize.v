(** Properties C75-C78, C101-C109: the computations behind the plots. *)
From Coq Require Import Lra Lia Permutation Sorting.Sorted.
From Verif.Model Require Import Base Ext Visualize.
From Verif.Spec Require Import NeighbourSpec VisualizeSpec.
From Verif.Proofs Require Import AleFacts NeighbourProps VisualizeFacts LineProps VisualizeProps.
Open Scope string_scope.
Open Scope nat_scope.
Open Scope R_scope.

(** C75 *)
Theorem C75_cluster_sampling :
  forall G choice nearest, valid_choice choice ->
  forall (seed : option G) g0 ys a s labels, List.length labels = List.length ys -> (0 < List.length ys)%nat -> size_spec a (List.length ys) s ->
  exists g idx, sample_partial G choice nearest seed g0 ys (Some a) None (Some labels) = Ok (g, idx) /\
    NoDup idx /\ (forall i, In i idx -> (i < List.length ys)%nat) /\
    (forall v, In v labels -> (1 <= chosen labels idx v <= label_count labels v)%nat) /\
    (forall v, In v labels -> Z.of_nat (chosen labels idx v) =
        Z.min (Z.max (Rceil (INR (label_count labels v) * IZR s / INR (List.length ys))) 1) (Z.of_nat (label_count labels v))) /\
    ((s <= Z.of_nat (List.length ys))%Z -> (s <= Z.of_nat (List.length idx))%Z) /\
    ((Z.of_nat (List.length ys) <= s)%Z -> Permutation idx (seq 0 (List.length ys))) /\
    ((1 <= s)%Z -> forall values, distinct_values labels values -> (Z.of_nat (List.length idx) < s + Z.of_nat (List.length values))%Z).
Proof. exact sample_with_labels. Qed.
Print Assumptions C75_cluster_sampling.

Example C75_example : List.length exLabels = List.length exYs /\ (0 < List.length exYs)%nat /\ valid_choice first_choice /\
  size_spec (SizeFloat (1 / 2)) (List.length exYs) 2 /\ size_spec (SizeInt 3) (List.length exYs) 3.
Proof. exact exLabels_example. Qed.

(** C76 *)
Theorem C76_line_distances :
  forall ls m, Forall wf_line ls -> partial_distance ls = Ok m ->
  let n := List.length ls in
  rect m n n /\ (forall i j, (i < n)%nat -> (j < n)%nat -> mget 0 m i j = mget 0 m j i) /\
  exists top, 0 <= top /\
    (forall i j, (i < n)%nat -> (j < n)%nat -> i <> j -> overlaps (nth i ls ([], [])) (nth j ls ([], [])) ->
       is_line_distance (nth i ls ([], [])) (nth j ls ([], [])) (mget 0 m i j) /\ 0 <= mget 0 m i j <= top) /\
    (forall i j, (i < n)%nat -> (j < n)%nat -> i <> j -> ~ overlaps (nth i ls ([], [])) (nth j ls ([], [])) -> mget 0 m i j = 2 * top) /\
    (top = 0 \/ exists i j, (i < n)%nat /\ (j < n)%nat /\ i <> j /\ overlaps (nth i ls ([], [])) (nth j ls ([], [])) /\ mget 0 m i j = top) /\
    (forall i, (i < n)%nat -> (2 <= List.length (fst (nth i ls ([], []))))%nat -> mget 0 m i i = 0) /\
    (forall i, (i < n)%nat -> List.length (fst (nth i ls ([], []))) = 1%nat -> mget 0 m i i = 4 * top).
Proof. exact partial_distance_spec. Qed.
Print Assumptions C76_line_distances.

Theorem C76_when_it_succeeds :
  forall ls, Forall wf_line ls ->
  ((2 <= List.length ls)%nat \/ (exists l, ls = [l] /\ (2 <= List.length (fst l))%nat) -> exists m, partial_distance ls = Ok m) /\
  (ls = [] \/ (exists l, ls = [l] /\ List.length (fst l) = 1%nat) -> partial_distance ls = Raise ValueError).
Proof. exact partial_distance_total. Qed.
Print Assumptions C76_when_it_succeeds.

Theorem C76_distance_determined :
  forall l1 l2 d pts f1 f2, wf_line l1 -> wf_line l2 -> is_line_distance l1 l2 d -> common_points l1 l2 pts -> interpolates l1 f1 -> interpolates l2 f2 ->
  d = shifted_distance pts f1 f2 (mean_difference pts f1 f2).
Proof. exact is_line_distance_any. Qed.
Print Assumptions C76_distance_determined.

Example C76_example : Forall wf_line [lineA; lineB; lineC; lineD] /\ overlaps lineA lineB /\ overlaps lineA lineD /\ ~ overlaps lineA lineC /\ common_points lineA lineB [0; 1; 3].
Proof.
  split; [apply Forall_cons; [exact lineA_wf|apply Forall_cons; [exact lineB_wf|apply Forall_cons; [exact lineC_wf|apply Forall_cons; [exact lineD_wf|apply Forall_nil]]]]|].
  exact (conj AB_overlap (conj AD_overlap (conj AC_disjoint AB_points))).
Qed.

(** C77 *)
Theorem C77_typical_is_medoid :
  forall embedding labels, List.length embedding = List.length labels ->
  exists values idx, choose_cluster_typical embedding labels = Ok idx /\ distinct_values labels values /\ Forall2 (medoid embedding labels) values idx.
Proof. exact typical_medoid. Qed.
Print Assumptions C77_typical_is_medoid.

Example C77_example : List.length exEmb = List.length exLabels.
Proof. exact exEmb_len. Qed.

(** C78 *)
Theorem C78_range_margin :
  forall v vmin' vmax' margin, v <> [] ->
  exists lo hi, In lo v /\ In hi v /\ (forall y, In y v -> lo <= y <= hi) /\
    range_margin (Some v) vmin' vmax' margin = Ok (lo - margin * (hi - lo), hi + margin * (hi - lo)) /\
    (0 <= margin -> forall y, In y v -> lo - margin * (hi - lo) <= y <= hi + margin * (hi - lo)).
Proof. exact range_margin_spec. Qed.
Print Assumptions C78_range_margin.

Theorem C78_range_margin_of_bounds :
  (forall lo hi margin, range_margin None (Some lo) (Some hi) margin = Ok (lo - margin * (hi - lo), hi + margin * (hi - lo))) /\
  (forall a b margin, a = None \/ b = None -> range_margin None a b margin = Raise (PyException "Invalid parameter")).
Proof. exact (conj range_margin_values range_margin_missing). Qed.
Print Assumptions C78_range_margin_of_bounds.

Theorem C78_colour_normalisation :
  forall v, v <> [] ->
  ((exists a b, In a v /\ In b v /\ a <> b) -> exists u, vector_normed v = Ok (map Fin u) /\ List.length u = List.length v /\
     (forall i, (i < List.length v)%nat -> 0 <= nth i u 0 <= 1) /\
     (forall i, (i < List.length v)%nat -> (forall y, In y v -> nth i v 0 <= y) -> nth i u 0 = 0) /\
     (forall i, (i < List.length v)%nat -> (forall y, In y v -> y <= nth i v 0) -> nth i u 0 = 1) /\
     (forall i j, (i < List.length v)%nat -> (j < List.length v)%nat -> (nth i u 0 <= nth j u 0 <-> nth i v 0 <= nth j v 0))) /\
  ((forall a b, In a v -> In b v -> a = b) -> vector_normed v = Ok (map (fun _ => NaN) v)).
Proof. exact color_spec. Qed.
Print Assumptions C78_colour_normalisation.

Theorem C78_colour_components :
  forall c, (forall x, In x c -> 0 <= x <= 1) -> forall k, In k (color_ints c) -> (0 <= k <= 255)%Z.
Proof. exact color_ints_range. Qed.
Print Assumptions C78_colour_components.

Example C78_example : exists a b, In a exLabels /\ In b exLabels /\ a <> b.
Proof. exists 7, 2. repeat split; [simpl; tauto|simpl; tauto|lra]. Qed.

(** C101 *)
Theorem C101_plain_sampling :
  forall G choice nearest, valid_choice choice -> forall (seed : option G) g0 ys a s, size_spec a (List.length ys) s ->
  ((0 <= s <= Z.of_nat (List.length ys))%Z -> exists g idx, sample_partial G choice nearest seed g0 ys (Some a) None None = Ok (g, idx) /\
      Z.of_nat (List.length idx) = s /\ NoDup idx /\ forall i, In i idx -> (i < List.length ys)%nat) /\
  ((s < 0 \/ Z.of_nat (List.length ys) < s)%Z -> sample_partial G choice nearest seed g0 ys (Some a) None None = Raise ValueError).
Proof. exact sample_without_labels. Qed.
Print Assumptions C101_plain_sampling.

Theorem C101_seeded_sampling_is_reproducible :
  forall G choice nearest (st g1 g2 : G) ys size q labels,
  sample_partial G choice nearest (Some st) g1 ys size q labels = sample_partial G choice nearest (Some st) g2 ys size q labels.
Proof. exact sample_seeded. Qed.
Print Assumptions C101_seeded_sampling_is_reproducible.

Theorem C101_one_selection_method :
  forall G choice nearest (seed : option G) g ys labels a q,
  sample_partial G choice nearest seed g ys None None labels = Raise (PyException "No selection method is chosen.") /\
  sample_partial G choice nearest seed g ys (Some a) (Some q) labels = Raise (PyException "Only one selection method is allowed.").
Proof. exact sample_selection. Qed.
Print Assumptions C101_one_selection_method.

Example C101_example : valid_choice first_choice /\ size_spec (SizeInt 3) (List.length exYs) 3 /\ (0 <= 3 <= Z.of_nat (List.length exYs))%Z.
Proof. split; [exact first_choice_valid|]. split; [reflexivity|simpl; lia]. Qed.

(** C102 *)
Theorem C102_quantile_selection :
  forall G choice nearest, valid_nearest nearest ->
  forall (seed : option G) g0 ys qs labels, ys <> [] -> (forall y, In y ys -> y <> []) -> (forall q, In q qs -> 0 <= q <= 1) ->
  let means := map average ys in
  exists g idx, sample_partial G choice nearest seed g0 ys None (Some qs) labels = Ok (g, idx) /\
    g = match seed with Some st => st | None => g0 end /\
    Forall2 (fun q i => exists v r, Rabs (INR r - INR (List.length ys - 1) * q) <= 1 / 2 /\ has_rank means v r /\ first_at means v i) qs idx.
Proof. exact sample_quantile. Qed.
Print Assumptions C102_quantile_selection.

Example C102_example : valid_nearest round_half /\ exYs <> [] /\ (forall y, In y exYs -> y <> []) /\ (forall q, In q [0; 1 / 2; 1] -> 0 <= q <= 1).
Proof. exact quantile_example. Qed.

(** C103 *)
Theorem C103_vertical_shifts :
  forall cs ls, Forall wf_line ls -> List.length cs = List.length ls -> partial_distance (map2 lift cs ls) = partial_distance ls.
Proof. exact partial_distance_lift. Qed.
Print Assumptions C103_vertical_shifts.

Theorem C103_zero_iff_parallel :
  forall l1 l2 d pts f1 f2, wf_line l1 -> wf_line l2 -> overlaps l1 l2 -> is_line_distance l1 l2 d ->
  common_points l1 l2 pts -> interpolates l1 f1 -> interpolates l2 f2 -> (d = 0 <-> exists c, forall x, In x pts -> f1 x = f2 x + c).
Proof. exact line_distance_zero. Qed.
Print Assumptions C103_zero_iff_parallel.

Example C103_example : Forall wf_line [lineA; lineD] /\ List.length [3; -2] = List.length [lineA; lineD].
Proof. split; [apply Forall_cons; [exact lineA_wf|apply Forall_cons; [exact lineD_wf|apply Forall_nil]]|reflexivity]. Qed.

(** C104 *)
Theorem C104_minimal_distance_refuted :
  exists l1 l2 d pts f1 f2 c, wf_line l1 /\ wf_line l2 /\ overlaps l1 l2 /\ partial_distance [l1; l2] = Ok [[0; d]; [d; 0]] /\
  common_points l1 l2 pts /\ interpolates l1 f1 /\ interpolates l2 f2 /\ shifted_distance pts f1 f2 c < d.
Proof. exact not_minimal. Qed.
Print Assumptions C104_minimal_distance_refuted.

Theorem C104_excess_over_the_minimum :
  forall l1 l2 d pts f1 f2, wf_line l1 -> wf_line l2 -> overlaps l1 l2 -> is_line_distance l1 l2 d ->
  common_points l1 l2 pts -> interpolates l1 f1 -> interpolates l2 f2 ->
  let best := weighted_mean_difference pts f1 f2 in
  (forall c, shifted_distance pts f1 f2 best <= shifted_distance pts f1 f2 c) /\
  d = shifted_distance pts f1 f2 best + (mean_difference pts f1 f2 - best) ^ 2.
Proof. exact line_distance_decomposition. Qed.
Print Assumptions C104_excess_over_the_minimum.

Example C104_example : wf_line lineA /\ wf_line lineB /\ overlaps lineA lineB /\ common_points lineA lineB [0; 1; 3].
Proof. exact (conj lineA_wf (conj lineB_wf (conj AB_overlap AB_points))). Qed.

(** C105 *)
Theorem C105_disjoint_lines_far_apart_refuted :
  forall l1 l2, wf_line l1 -> wf_line l2 -> ~ overlaps l1 l2 -> partial_distance [l1; l2] = Ok [[0; 0]; [0; 0]].
Proof. exact two_disjoint_lines. Qed.
Print Assumptions C105_disjoint_lines_far_apart_refuted.

Example C105_example : wf_line lineA /\ wf_line lineC /\ ~ overlaps lineA lineC.
Proof. exact (conj lineA_wf (conj lineC_wf AC_disjoint)). Qed.

(** C106 *)
Theorem C106_scatter_hover_refuted :
  exists labels c points shown k, In (c, points, shown) (cluster_traces labels) /\ (k < List.length points)%nat /\ nth k shown 0%nat <> nth k points 0%nat.
Proof. exact scatter_refuted. Qed.
Print Assumptions C106_scatter_hover_refuted.

Theorem C106_scatter_hover_when_right :
  forall labels c points shown, In (c, points, shown) (cluster_traces labels) ->
  forall k, (k < List.length points)%nat ->
    nth k shown 0%nat = k /\ (nth k shown 0%nat = nth k points 0%nat <-> forall j, (j <= nth k points 0)%nat -> nth j labels 0 = c).
Proof. exact scatter_hover. Qed.
Print Assumptions C106_scatter_hover_when_right.

Theorem C106_embedding_hover : forall labels c points shown, In (c, points, shown) (embedding_traces labels) -> shown = points.
Proof. exact embedding_hover. Qed.
Print Assumptions C106_embedding_hover.

Theorem C106_every_point_in_one_trace :
  forall labels i, (i < List.length labels)%nat ->
  (exists! c, exists points shown, In (c, points, shown) (cluster_traces labels) /\ In i points) /\
  (exists! c, exists points shown, In (c, points, shown) (embedding_traces labels) /\ In i points).
Proof. exact traces_partition. Qed.
Print Assumptions C106_every_point_in_one_trace.

Theorem C106_one_legend_entry_per_cluster :
  forall labels, List.length (show_vector labels) = List.length labels /\
  forall i, (i < List.length labels)%nat -> (nth i (show_vector labels) false = true <-> forall j, (j < i)%nat -> nth j labels 0 <> nth i labels 0).
Proof. exact legend_once. Qed.
Print Assumptions C106_one_legend_entry_per_cluster.

(** Points 0 and 2 form cluster 5: the scatter plot labels point 2 with 1. *)
Example C106_example : exists points shown, In (5, points, shown) (cluster_traces [5; 7; 5]) /\ points = [0; 2]%nat /\ nth 1 shown 0%nat = 1%nat.
Proof.
  assert (E : members [5; 7; 5] 5 = [0; 2]%nat).
  { unfold members. cbn. rdec. reflexivity. }
  exists (members [5; 7; 5] 5), (seq 0 3). split; [|split; [exact E|reflexivity]].
  apply in_map_iff. exists 5. split; [reflexivity|]. apply AleFacts.unique_in. left. reflexivity.
Qed.

(** C107 *)
Theorem C107_importance_plot :
  forall A (d : A) sort_index labels importance,
  List.length labels = List.length importance -> Permutation sort_index (seq 0 (List.length importance)) ->
  (forall i j, (i < j)%nat -> (j < List.length sort_index)%nat ->
     average (nth (nth i sort_index 0%nat) importance []) <= average (nth (nth j sort_index 0%nat) importance [])) ->
  let (labels', importance') := sorted_importance d sort_index labels importance in
  Permutation (combine labels' importance') (combine labels importance) /\
  forall i j, (i < j)%nat -> (j < List.length importance')%nat -> average (nth i importance' []) <= average (nth j importance' []).
Proof. exact importance_aligned. Qed.
Print Assumptions C107_importance_plot.

Example C107_example : Permutation [1; 0]%nat (seq 0 (List.length [[5]; [2]])) /\ average [2] <= average [5].
Proof. split; [apply perm_swap|]. unfold average, Rsum. simpl. lra. Qed.

(** C108 *)
Theorem C108_aspect_ratio :
  forall xi yi slices, 0 < xi -> 0 < yi ->
  exists ax ay az, scatter_aspect xi yi slices = (Fin ax, Fin ay, Fin az) /\ ax * yi = ay * xi /\ Rmin ax ay = 1 /\ az = Rmax ax ay * INR slices * (6 / 10).
Proof. exact aspect_true_to_scale. Qed.
Print Assumptions C108_aspect_ratio.

Theorem C108_degenerate_extent :
  forall slices, (0 < slices)%nat ->
  scatter_aspect 0 0 slices = (NaN, Fin 1, NaN) /\ (forall yi, 0 < yi -> scatter_aspect 0 yi slices = (Fin 1, PInf, PInf)) /\
  (forall xi, 0 < xi -> scatter_aspect xi 0 slices = (PInf, Fin 1, PInf)).
Proof. exact aspect_degenerate. Qed.
Print Assumptions C108_degenerate_extent.

(** An area twice as high as wide, in three slices. *)
Example C108_example : exists ax ay az, scatter_aspect 5 10 3 = (Fin ax, Fin ay, Fin az) /\ ax = 1 /\ ay = 2 /\ az = 36 / 10.
Proof.
  destruct (C108_aspect_ratio 5 10 3 ltac:(lra) ltac:(lra)) as (ax & ay & az & E & R1 & R2 & R3). exists ax, ay, az. split; [exact E|].
  unfold Rmin, Rmax in *. destruct (Rle_dec ax ay); simpl in R3; repeat split; lra.
Qed.

(** C109 *)
Theorem C109_line_style :
  forall sg p lo hi labels, labels <> [] -> 0 <= p -> lo <= hi ->
  exists st, style_vector sg p lo hi labels = Ok st /\ List.length st = List.length labels /\
    (forall i, (i < List.length labels)%nat -> lo <= nth i st 0 <= hi) /\
    (forall i j, (i < List.length labels)%nat -> (j < List.length labels)%nat -> (cluster_size labels i <= cluster_size labels j)%nat -> nth i st 0 <= nth j st 0) /\
    ((forall i j, (i < List.length labels)%nat -> (j < List.length labels)%nat -> cluster_size labels i = cluster_size labels j) ->
     forall i, (i < List.length labels)%nat -> nth i st 0 = hi).
Proof. exact style_spec. Qed.
Print Assumptions C109_line_style.

Example C109_example : exLabels <> [] /\ 0 <= 1 /\ 1 / 10 <= 1.
Proof. split; [discriminate|lra]. Qed.
