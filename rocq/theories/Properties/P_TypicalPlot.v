(** C180: the plot of the typical curves of each cluster. *)
From Coq Require Import Lra Lia.
From Verif.Model Require Import Base Ext Visualize Plots TypicalPlot.
From Verif.Spec Require Import VisualizeSpec TypicalPlotSpec.
From Verif.Proofs Require Import VisualizeProps PlotProps TypicalPlotProps.
Open Scope string_scope.
Open Scope nat_scope.
Open Scope R_scope.

(** With the typical observations that choose_cluster_typical chose, the figure of a
    feature has one line per cluster, in the order of the labels: the curve of the
    cluster's medoid, named after the cluster.  Opacity and width stay within their
    ranges and follow the size of the cluster, strictly unless told otherwise. *)
Theorem C180_one_line_per_cluster : forall cmap partials labels typical alpha width use_sigmoid scale_power ls es,
  partials <> [] -> 0 <= scale_power -> proper alpha -> proper width -> typical_of partials labels typical ls es ->
  exists fig, partial_plot_2d cmap partials labels typical alpha width use_sigmoid scale_power = Ok fig /\ List.length fig = List.length partials /\
    forall f, (f < List.length partials)%nat ->
      (exists values, distinct_values (ls f) values /\ Forall2 (line_of_cluster (nth f partials []) (es f) (ls f)) values (nth f fig [])) /\
      (forall s, In s (nth f fig []) ->
         lowest (1 / 10, 1) alpha <= sl_opacity s <= highest (1 / 10, 1) alpha /\ lowest (1 / 2, 3) width <= sl_width s <= highest (1 / 2, 3) width) /\
      stronger_when_larger (ls f) sl_opacity (nth f fig []) /\ stronger_when_larger (ls f) sl_width (nth f fig []) /\
      (0 < scale_power -> lowest (1 / 10, 1) alpha < highest (1 / 10, 1) alpha -> strictly_stronger_when_larger (ls f) sl_opacity (nth f fig [])) /\
      (0 < scale_power -> lowest (1 / 2, 3) width < highest (1 / 2, 3) width -> strictly_stronger_when_larger (ls f) sl_width (nth f fig [])).
Proof. exact shown_lines. Qed.
Print Assumptions C180_one_line_per_cluster.

(** Colours run over the whole colour map.  A single cluster has the colour of NaN, drawn
    with the largest opacity and width. *)
Theorem C180_colours : forall cmap partials labels typical alpha width use_sigmoid scale_power ls es fig,
  partials <> [] -> 0 <= scale_power -> proper alpha -> proper width -> typical_of partials labels typical ls es ->
  partial_plot_2d cmap partials labels typical alpha width use_sigmoid scale_power = Ok fig ->
  forall f, (f < List.length partials)%nat ->
    ((exists a b, In a (ls f) /\ In b (ls f) /\ a <> b) -> exists lo hi, In lo (ls f) /\ In hi (ls f) /\ lo < hi /\ (forall x, In x (ls f) -> lo <= x <= hi) /\
       forall s, In s (nth f fig []) -> sl_colour s = cmap (Fin ((sl_cluster s - lo) / (hi - lo)))) /\
    ((forall a b, In a (ls f) -> In b (ls f) -> a = b) -> List.length (nth f fig []) = 1%nat /\
       forall s, In s (nth f fig []) -> sl_colour s = cmap NaN /\ sl_opacity s = highest (1 / 10, 1) alpha /\ sl_width s = highest (1 / 2, 3) width).
Proof. exact colours. Qed.
Print Assumptions C180_colours.

(** With one set of labels a cluster looks the same in the figures of all features. *)
Theorem C180_same_style_in_all_features : forall cmap partials l typical alpha width use_sigmoid scale_power es fig,
  partials <> [] -> 0 <= scale_power -> proper alpha -> proper width -> typical_of partials (Merged l) typical (fun _ => l) es ->
  partial_plot_2d cmap partials (Merged l) typical alpha width use_sigmoid scale_power = Ok fig ->
  forall f f' s s', (f < List.length partials)%nat -> (f' < List.length partials)%nat -> In s (nth f fig []) -> In s' (nth f' fig []) ->
    sl_cluster s = sl_cluster s' -> sl_colour s = sl_colour s' /\ sl_opacity s = sl_opacity s' /\ sl_width s = sl_width s'.
Proof. exact one_colour. Qed.
Print Assumptions C180_same_style_in_all_features.

(** Relied on: only clusters are shown.  False: HDBSCAN labels noise -1, and noise gets a
    line like any cluster. *)
Theorem C180_only_clusters_refuted : forall cmap partials labels typical alpha width use_sigmoid scale_power ls es fig,
  partials <> [] -> 0 <= scale_power -> proper alpha -> proper width -> typical_of partials labels typical ls es ->
  partial_plot_2d cmap partials labels typical alpha width use_sigmoid scale_power = Ok fig ->
  forall f, (f < List.length partials)%nat -> In (-1) (ls f) -> exists s, In s (nth f fig []) /\ sl_cluster s = -1.
Proof. intros cmap partials labels typical alpha width sg p ls es fig Hne Hp Ha Hw HT E f. exact (every_label_drawn cmap partials labels typical alpha width sg p ls es fig Hne Hp Ha Hw HT E f (-1)). Qed.
Print Assumptions C180_only_clusters_refuted.

(** Two features, five observations in three clusters, one of them noise. *)
Example C180_example : exists partials typical, List.length partials = 2%nat /\ partials <> [] /\ proper None /\ proper (Some (1, 2)) /\
  typical_of partials (Merged exLabels) typical (fun _ => exLabels) (fun _ => exEmb) /\ In (-1) exLabels /\
  exists fig, partial_plot_2d (fun _ => [0; 0; 0; 0]) partials (Merged exLabels) typical None (Some (1, 2)) true 1 = Ok fig.
Proof.
  destruct (typical_medoid exEmb exLabels exEmb_len) as (values & idx & E & _).
  set (ps := [[([0], [1]); ([0], [2]); ([0], [3]); ([0], [4]); ([0], [5])]; [([0], [6]); ([0], [7]); ([0], [8]); ([0], [9]); ([0], [10])]] : list (list line)).
  assert (HT : typical_of ps (Merged exLabels) (Merged idx) (fun _ => exLabels) (fun _ => exEmb)).
  { intros f Hf. split; [discriminate|]. split; [destruct f as [|[|f]]; [reflexivity|reflexivity|simpl in Hf; lia]|]. split; [reflexivity|]. split; [reflexivity|]. exists idx. split; [reflexivity|exact E]. }
  exists ps, (Merged idx). split; [reflexivity|]. split; [discriminate|]. split; [exact I|]. split; [simpl; lra|]. split; [exact HT|]. split; [simpl; auto|].
  destruct (C180_one_line_per_cluster (fun _ => [0; 0; 0; 0]) ps (Merged exLabels) (Merged idx) None (Some (1, 2)) true 1 (fun _ => exLabels) (fun _ => exEmb)) as (fig & Ef & _); [discriminate|lra|exact I|simpl; lra|exact HT|].
  exists fig. exact Ef.
Qed.
