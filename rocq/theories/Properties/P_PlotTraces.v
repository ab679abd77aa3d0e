(** Properties C158, C159: contents of the embedding and scatter plots. *)
From Coq Require Import Lra Lia Sorting.Sorted.
From Verif.Model Require Import Base Ext Visualize Plots.
From Verif.Spec Require Import NeighbourSpec VisualizeSpec PlotSpec.
From Verif.Proofs Require Import NeighbourProps VisualizeProps PlotProps PlotMore PlotEnd PlotTraces.
Open Scope string_scope.
Open Scope nat_scope.
Open Scope R_scope.

(** C158: the embedding plot has one trace per cluster; it holds every observation of
    that cluster once, at its place, with its time and number.  It is drawn exactly if
    there is at least one observation and a time and a label for each. *)
Theorem C158_embedding_plot : forall cmap e cluster t es, embedding_plot cmap e cluster (Column t) = Ok es ->
  distinct_values cluster (map et_cluster es) /\
  forall tr, In tr es -> exists ms, group cluster (et_cluster tr) ms /\
    et_points tr = map (fun i => nth i e []) ms /\ et_hover tr = map (fun i => (nth i t 0, i)) ms /\
    List.length (et_colours tr) = List.length ms.
Proof. exact emb_contents. Qed.
Print Assumptions C158_embedding_plot.
Theorem C158_embedding_plot_succeeds : forall cmap e cluster t,
  (exists es, embedding_plot cmap e cluster (Column t) = Ok es) <->
  (0 < List.length e)%nat /\ List.length t = List.length e /\ List.length cluster = List.length e.
Proof. exact emb_ok. Qed.
Print Assumptions C158_embedding_plot_succeeds.

(** C158: the scatter plot of clusters likewise, with the observations at their
    geographic place and time. *)
Theorem C158_scatter_plot : forall cmap geo z value fig, scatter_3d cmap geo (Column z) value = Ok fig ->
  distinct_values value (map pt_cluster (sc_traces fig)) /\
  forall tr, In tr (sc_traces fig) -> exists ms, group value (pt_cluster tr) ms /\
    pt_places tr = map (fun i => (fst (nth i geo (0, 0)), snd (nth i geo (0, 0)), nth i z 0)) ms /\
    List.length (pt_colours tr) = List.length ms.
Proof. exact scat_contents. Qed.
Print Assumptions C158_scatter_plot.

(** C158: with labels per feature each feature's line plot uses its own labels, and the
    compound plot joins the three plots of the same feature. *)
Theorem C158_labels_per_feature : forall G choice nearest seed cmap labels temporal size quantile partials g0 g figs,
  partials_plot_3d G choice nearest seed cmap g0 partials temporal (Some (Individual labels)) size quantile = Ok (g, figs) ->
  List.length figs = List.length partials /\
  forall k, (k < List.length partials)%nat -> exists g' idx,
    sample_partial G choice nearest (Some seed) seed (map snd (nth k partials [])) size quantile (Some (nth k labels [])) = Ok (g', idx) /\
    shows (nth k partials []) temporal (Some (nth k labels [])) idx (nth k figs (LineFigure [] (0, 0) (0, 0) (0, 0))).
Proof.
  intros * H. destruct (features_own G choice nearest seed cmap labels temporal size quantile partials g0 0 g figs H) as (L & _ & S).
  split; [exact L|exact S].
Qed.
Print Assumptions C158_labels_per_feature.
Theorem C158_compound_per_feature : forall G choice nearest seed cmap g0 geo t partials es cs size quantile g lines efs sfs compass,
  partial_compound_plot G choice nearest seed cmap g0 geo (Column t) partials (Individual es) (Individual cs) size quantile = Ok (g, (lines, efs, sfs, compass)) ->
  partials_plot_3d G choice nearest seed cmap g0 partials (Column t) (Some (Individual cs)) size quantile = Ok (g, lines) /\
  List.length efs = List.length partials /\ List.length sfs = List.length partials /\ List.length compass = List.length partials /\
  forall k, (k < List.length partials)%nat ->
    embedding_plot cmap (nth k es []) (nth k cs []) (Column t) = Ok (nth k efs []) /\
    scatter_3d cmap geo (Column t) (nth k cs []) = Ok (nth k sfs (ScatterFigure [] [])) /\
    nth k compass (ScatterFigure [] [], LineFigure [] (0, 0) (0, 0) (0, 0), []) =
      (nth k sfs (ScatterFigure [] []), nth k lines (LineFigure [] (0, 0) (0, 0) (0, 0)), nth k efs []).
Proof. exact compound_own. Qed.
Print Assumptions C158_compound_per_feature.

Example C158_example : exists g r,
  partial_compound_plot nat first_choice round_half 0%nat (fun _ => [1; 0; 0; 1]) 7%nat [(0, 0); (1, 1); (2, 2)] (Column [0; 1; 2]) [wLines]
    (Individual [[[0]; [0]; [0]]]) (Individual [wLabels]) (Some (SizeInt 2)) None = Ok (g, r).
Proof.
  destruct (plot3_ok nat first_choice round_half 0%nat (fun _ => [1; 0; 0; 1]) first_choice_valid 7%nat wLines (Column [0; 1; 2]) wLabels (SizeInt 2) 2 wLabelled eq_refl) as (g & fig & _ & E & _).
  destruct (proj2 (emb_ok (fun _ => [1; 0; 0; 1]) [[0]; [0]; [0]] wLabels [0; 1; 2])) as [ef Ee]; [cbn; lia|].
  destruct (scat_ok (fun _ => [1; 0; 0; 1]) [(0, 0); (1, 1); (2, 2)] [0; 1; 2] wLabels) as [sf Es]; try reflexivity; try discriminate.
  unfold partial_compound_plot, partials_plot_3d. cbn [plot_features labels_of getitem nth_error bind fst snd List.length seq mapM].
  rewrite E. cbn [bind fst snd mapM getitem nth_error]. rewrite Ee. cbn [bind fst snd mapM getitem nth_error]. rewrite Es. eexists _, _. reflexivity.
Qed.

(** C159: the scatter plot of a continuous value shows every observation at its place,
    with its number and value; its five ticks are values of the data at the quartiles
    (up to half a rank), in order, from the smallest to the largest value. *)
Theorem C159_scatter_of_values : forall nearest cmap, valid_nearest nearest -> forall geo z value fig,
  scatter_3d_values nearest cmap geo (Column z) value = Ok fig ->
  List.length geo = List.length z -> List.length value = List.length z ->
  List.length (vf_places fig) = List.length z /\ vf_hover fig = seq 0 (List.length z) /\ vf_values fig = value /\
  slice_surfaces cmap z = Ok (vf_surfaces fig) /\
  (forall i, (i < List.length z)%nat -> nth i (vf_places fig) (0, 0, 0) = (fst (nth i geo (0, 0)), snd (nth i geo (0, 0)), nth i z 0)) /\
  Forall2 (fun q v => exists r, Rabs (INR r - INR (List.length value - 1) * q) <= 1 / 2 /\ has_rank value v r) [0; 1 / 4; 1 / 2; 3 / 4; 1] (vf_ticks fig) /\
  StronglySorted Rle (vf_ticks fig) /\
  (forall x, In x value -> nth 0 (vf_ticks fig) 0 <= x <= nth 4 (vf_ticks fig) 0).
Proof. exact values_contents. Qed.
Print Assumptions C159_scatter_of_values.

Example C159_example : valid_nearest round_half /\
  exists fig, scatter_3d_values round_half (fun _ => [1]) [(0, 0); (1, 1); (2, 2)] (Column [1; 3; 5]) [7; 0; 4] = Ok fig.
Proof.
  split; [exact round_half_valid|]. unfold scatter_3d_values. cbn [map fst snd vmin bind].
  assert (H : exists s, slice_surfaces (fun _ => [1]) [1; 3; 5] = Ok s).
  { destruct (surfaces_ok (fun _ => [1]) [1; 3; 5]) as (lo & hi & colors & _ & _ & _ & E); [discriminate|]. eexists. exact E. }
  destruct H as [s ->]. eexists. reflexivity.
Qed.
