(** C143-C148: what the plots show. *)
From Coq Require Import Lra Lia Sorting.Sorted.
From Verif.Model Require Import Base Ext Visualize Plots.
From Verif.Spec Require Import NeighbourSpec VisualizeSpec PlotSpec.
From Verif.Proofs Require Import NeighbourProps VisualizeProps PlotProps PlotMore PlotEnd.
Open Scope string_scope.
Open Scope nat_scope.
Open Scope R_scope.

(** C143.  A returned figure shows exactly the sampled observations, each with its own
    line, time, number and cluster, one legend entry per cluster, nothing cut off. *)
Theorem C143_figure_shows_the_sample : forall G choice nearest seed cmap g0 partial temporal labels size quantile g fig,
  partial_plot_3d G choice nearest seed cmap g0 partial temporal labels size quantile = Ok (g, fig) ->
  exists idx, sample_partial G choice nearest (Some seed) g0 (map snd partial) size quantile labels = Ok (g, idx) /\
    shows partial temporal labels idx fig.
Proof. intros * H. destruct (plot3_inv _ _ _ _ _ _ _ _ _ _ _ _ _ H) as (idx & A & B & _). exists idx. auto. Qed.
Print Assumptions C143_figure_shows_the_sample.

(** With labels and a sample size the plot returns, and shows at least one line of
    every cluster. *)
Theorem C143_every_cluster_is_shown : forall G choice nearest seed cmap, valid_choice choice -> forall g0 partial temporal labels a s,
  labelled partial temporal labels -> size_spec a (List.length partial) s ->
  exists g fig idx, partial_plot_3d G choice nearest seed cmap g0 partial temporal (Some labels) (Some a) None = Ok (g, fig) /\
    shows partial temporal (Some labels) idx fig /\ NoDup idx /\
    forall v, In v labels -> (1 <= chosen labels idx v <= label_count labels v)%nat.
Proof. exact plot3_ok. Qed.
Print Assumptions C143_every_cluster_is_shown.

(** All features show the same observations. *)
Theorem C143_same_observations_in_all_features : forall G choice nearest seed cmap N labels temporal size partials,
  (forall p, In p partials -> List.length p = N) -> forall g0 g figs,
  partials_plot_3d G choice nearest seed cmap g0 partials temporal (option_map Merged labels) size None = Ok (g, figs) ->
  exists idx, List.length figs = List.length partials /\
    forall k, (k < List.length partials)%nat -> shows (nth k partials []) temporal labels idx (nth k figs (LineFigure [] (0, 0) (0, 0) (0, 0))).
Proof. exact plots_same. Qed.
Print Assumptions C143_same_observations_in_all_features.

(** Figure and final generator state do not depend on the state before. *)
Theorem C143_generator_is_reset : forall G choice nearest seed cmap g1 g2 temporal size quantile,
  (forall partial labels, partial_plot_3d G choice nearest seed cmap g1 partial temporal labels size quantile =
                          partial_plot_3d G choice nearest seed cmap g2 partial temporal labels size quantile) /\
  (forall partials labels, partials <> [] -> partials_plot_3d G choice nearest seed cmap g1 partials temporal labels size quantile =
                                             partials_plot_3d G choice nearest seed cmap g2 partials temporal labels size quantile).
Proof. intros. split; intros; [apply plot3_generator|apply plots3_generator; assumption]. Qed.
Print Assumptions C143_generator_is_reset.

Example C143_example : valid_choice first_choice /\ labelled wLines (Column [0; 1; 2]) wLabels /\ size_spec (SizeInt 2) (List.length wLines) 2 /\
  exists g fig, partial_plot_3d nat first_choice round_half 0%nat (fun _ => [1; 0; 0; 1]) 7%nat wLines (Column [0; 1; 2]) (Some wLabels) (Some (SizeInt 2)) None = Ok (g, fig) /\
    List.length (lf_traces fig) = 3%nat.
Proof. split; [exact first_choice_valid|]. split; [exact wLabelled|]. split; [reflexivity|exact wShows]. Qed.

(** C144.  With labels and a sample size a cluster has one colour in all three plots. *)
Theorem C144_one_colour_per_cluster : forall G choice nearest seed cmap, valid_choice choice -> forall g0 partial temporal labels a s g fig,
  labelled partial temporal labels -> size_spec a (List.length partial) s ->
  partial_plot_3d G choice nearest seed cmap g0 partial temporal (Some labels) (Some a) None = Ok (g, fig) ->
  exists colour, (forall t, In t (lf_traces fig) -> exists c, lt_cluster t = Some c /\ lt_colour t = colour c) /\
    (forall e times es, embedding_plot cmap e labels (Column times) = Ok es -> forall t, In t es -> forall x, In x (et_colours t) -> x = colour (et_cluster t)) /\
    (forall geo z sc, scatter_3d cmap geo (Column z) labels = Ok sc -> forall t, In t (sc_traces sc) -> forall x, In x (pt_colours t) -> x = colour (pt_cluster t)).
Proof. exact same_colours. Qed.
Print Assumptions C144_one_colour_per_cluster.

(** Not with quantiles: the colours are spread over the clusters that happen to be
    selected. *)
Theorem C144_one_colour_with_quantiles_refuted : forall G choice nearest (seed : G) cmap g0, valid_nearest nearest ->
  color_ints (cmap (Fin 0)) <> color_ints (cmap (Fin (1 / 2))) ->
  exists partial temporal labels qs e fig es,
    labelled partial temporal labels /\
    partial_plot_3d G choice nearest seed cmap g0 partial temporal (Some labels) None (Some qs) = Ok (seed, fig) /\
    embedding_plot cmap e labels temporal = Ok es /\
    exists t t' c, In t (lf_traces fig) /\ In t' es /\ lt_cluster t = Some c /\ et_cluster t' = c /\ et_colours t' <> [] /\ ~ In (lt_colour t) (et_colours t').
Proof.
  intros G choice nearest seed cmap g0 HV HC. destruct (colour_quantile G choice nearest seed cmap g0 HV HC) as (fig & es & A & B & C).
  exists wLines, (Column [0; 1; 2]), wLabels, [1 / 2; 1], [[0]; [0]; [0]], fig, es. split; [exact wLabelled|]. auto.
Qed.
Print Assumptions C144_one_colour_with_quantiles_refuted.

(** With a single cluster nothing can be seen: the colour of NaN is used, which
    matplotlib makes transparent. *)
Theorem C144_single_cluster_is_invisible : forall G choice nearest seed cmap g0 partial temporal labels size quantile g fig c,
  partial_plot_3d G choice nearest seed cmap g0 partial temporal (Some labels) size quantile = Ok (g, fig) ->
  (forall x, In x labels -> x = c) -> cmap NaN = [0; 0; 0; 0] -> forall t, In t (lf_traces fig) -> lt_colour t = [0; 0; 0; 0]%Z.
Proof. exact invisible. Qed.
Print Assumptions C144_single_cluster_is_invisible.

(** Conditions of C144 are met: the plot of C143_example; and a single cluster. *)
Example C144_example : labelled wLines (Column [0; 1; 2]) [5; 5; 5] /\ valid_nearest round_half /\
  exists g fig, partial_plot_3d nat first_choice round_half 0%nat (fun _ => [0; 0; 0; 0]) 7%nat wLines (Column [0; 1; 2]) (Some [5; 5; 5]) (Some (SizeInt 2)) None = Ok (g, fig).
Proof.
  assert (HL : labelled wLines (Column [0; 1; 2]) [5; 5; 5]) by (destruct wLabelled as (A & _ & C & D); repeat split; auto; apply D; auto).
  split; [exact HL|]. split; [exact round_half_valid|].
  destruct (plot3_ok nat first_choice round_half 0%nat (fun _ => [0; 0; 0; 0]) first_choice_valid 7%nat wLines (Column [0; 1; 2]) [5; 5; 5] (SizeInt 2) 2 HL eq_refl) as (g & fig & _ & E & _).
  exists g, fig. exact E.
Qed.

(** C145.  Times of shape (N,) are rejected by two plots, and so by the compound plot;
    times of shape (N, 1) by the third, without labels. *)
Theorem C145_flat_times_rejected : forall G choice nearest seed cmap t,
  (forall e cluster, raises (embedding_plot cmap e cluster (Flat t))) /\
  (forall geo value, raises (scatter_3d cmap geo (Flat t) value)) /\
  (forall g geo partials e cluster size quantile, raises (partial_compound_plot G choice nearest seed cmap g geo (Flat t) partials (Merged e) cluster size quantile)) /\
  (forall g geo partials embedding cluster size quantile, partials <> [] ->
     raises (partial_compound_plot G choice nearest seed cmap g geo (Flat t) partials embedding cluster size quantile)).
Proof.
  intros. split; [intros; eexists; reflexivity|]. split; [intros; eexists; reflexivity|]. split; intros; apply compound_flat; eauto.
Qed.
Print Assumptions C145_flat_times_rejected.

Theorem C145_column_times_need_labels : forall G choice nearest seed cmap g0 partial t size quantile,
  raises (partial_plot_3d G choice nearest seed cmap g0 partial (Column t) None size quantile) /\
  forall l, partial_plot_3d G choice nearest seed cmap g0 partial (Flat t) (Some l) size quantile =
            partial_plot_3d G choice nearest seed cmap g0 partial (Column t) (Some l) size quantile.
Proof. intros. split; [apply plot3_column|intros; apply plot3_shape]. Qed.
Print Assumptions C145_column_times_need_labels.

(** A time column, merged labels and a sample size: the compound plot returns the
    figures of the three plots, and joins those of the same feature. *)
Theorem C145_compound_plot : forall G choice nearest seed cmap, valid_choice choice -> forall g0 geo t partials e labels a s N,
  size_spec a N s -> (0 < N)%nat -> (forall p, In p partials -> List.length p = N /\ labelled p (Column t) labels) ->
  List.length t = N -> List.length geo = N -> List.length e = N -> List.length labels = N ->
  exists g lines ef sf compass,
    partial_compound_plot G choice nearest seed cmap g0 geo (Column t) partials (Merged e) (Merged labels) (Some a) None =
      Ok (g, (lines, repeat ef (List.length partials), repeat sf (List.length partials), compass)) /\
    partials_plot_3d G choice nearest seed cmap g0 partials (Column t) (Some (Merged labels)) (Some a) None = Ok (g, lines) /\
    embedding_plot cmap e labels (Column t) = Ok ef /\ scatter_3d cmap geo (Column t) labels = Ok sf /\
    compass = map (fun l => (sf, l, ef)) lines.
Proof. exact compound_columns. Qed.
Print Assumptions C145_compound_plot.

Example C145_example : size_spec (SizeInt 2) 3 2 /\ (forall p, In p [wLines; wLines] -> List.length p = 3%nat /\ labelled p (Column [0; 1; 2]) wLabels).
Proof. split; [reflexivity|]. intros p [<-|[<-|[]]]; (split; [reflexivity|exact wLabelled]). Qed.

(** C146.  The eye of the camera moves on the cylinder of radius 1, at height
    sin(pitch); a full turn changes nothing. *)
Theorem C146_camera_on_a_cylinder : forall rotation pitch,
  (let '(x, y, z) := camera_position rotation pitch in x ^ 2 + y ^ 2 = 1 /\ z = sin (pitch * PI / 180) /\ x ^ 2 + y ^ 2 + z ^ 2 <= 2) /\
  camera_position (rotation + 360) pitch = camera_position rotation pitch.
Proof. intros. split; [apply camera_circle|apply rotation_turns]. Qed.
Print Assumptions C146_camera_on_a_cylinder.

(** The view is never steeper than 45 degrees, and always flatter than asked for. *)
Theorem C146_pitch_is_elevation_refuted : forall rotation pitch,
  elevation (camera_position rotation pitch) <= PI / 4 /\
  (0 < pitch <= 90 -> elevation (camera_position rotation pitch) < pitch * PI / 180).
Proof. exact elevation_lower. Qed.
Print Assumptions C146_pitch_is_elevation_refuted.

(** Scaling the aspect ratio keeps proportions; two scalings are one. *)
Theorem C146_aspect_scaling : forall x y z s t,
  aspect_ratio_scale (Some (x, y, z)) s = Ok (Some (x * s, y * s, z * s)) /\
  (a <- aspect_ratio_scale (Some (x, y, z)) s ;; aspect_ratio_scale a t) = aspect_ratio_scale (Some (x, y, z)) (s * t) /\
  raises (aspect_ratio_scale None s).
Proof. intros. split; [reflexivity|]. split; [cbn; rewrite !Rmult_assoc; reflexivity|eexists; reflexivity]. Qed.
Print Assumptions C146_aspect_scaling.

Example C146_example : 0 < 40 <= 90 /\ camera_position 0 0 = (1, 0, 0).
Proof. split; [lra|]. unfold camera_position. replace (0 * PI / 180) with 0 by field. rewrite cos_0, sin_0. reflexivity. Qed.

(** C147.  One surface per distinct time, the first with a legend entry, each below
    its own slice as soon as there are two. *)
Theorem C147_surfaces_below_their_slice : forall cmap geo z value fig ts, scatter_3d cmap geo (Column z) value = Ok fig -> distinct_values z ts ->
  List.length (sc_surfaces fig) = List.length ts /\
  forall k, (k < List.length ts)%nat ->
    (sf_legend (nth k (sc_surfaces fig) (Surface 0 [] false)) = true <-> k = 0%nat) /\
    ((2 <= List.length ts)%nat -> sf_height (nth k (sc_surfaces fig) (Surface 0 [] false)) < nth k ts 0) /\
    (List.length ts = 1%nat -> sf_height (nth k (sc_surfaces fig) (Surface 0 [] false)) = nth k ts 0).
Proof. exact surfaces_below. Qed.
Print Assumptions C147_surfaces_below_their_slice.

(** Between neighbouring slices, if the times are equally spaced; otherwise not. *)
Theorem C147_surfaces_between_slices : forall cmap geo z value fig ts step, scatter_3d cmap geo (Column z) value = Ok fig -> distinct_values z ts ->
  equally_spaced step ts -> forall k, (S k < List.length ts)%nat ->
  nth k ts 0 < sf_height (nth (S k) (sc_surfaces fig) (Surface 0 [] false)) < nth (S k) ts 0.
Proof. exact surfaces_between. Qed.
Print Assumptions C147_surfaces_between_slices.
Theorem C147_surfaces_between_uneven_slices_refuted : forall cmap, exists geo z value fig ts, scatter_3d cmap geo (Column z) value = Ok fig /\ distinct_values z ts /\
  sf_height (nth 1 (sc_surfaces fig) (Surface 0 [] false)) < nth 0 ts 0.
Proof. exact uneven. Qed.
Print Assumptions C147_surfaces_between_uneven_slices_refuted.

Example C147_example : (exists fig, scatter_3d (fun _ => [1]) [(0, 0); (1, 1); (2, 2)] (Column [1; 3; 5]) [0; 1; 1] = Ok fig) /\
  distinct_values [1; 3; 5] [1; 3; 5] /\ equally_spaced 2 [1; 3; 5].
Proof.
  split; [apply scat_ok; try reflexivity; discriminate|]. split; [split; [repeat constructor; lra|reflexivity]|].
  intros [|[|k]] Hk; cbn in *; try lra. exfalso. lia.
Qed.

(** C148.  Distances handed to the clustering are used as they are and returned; the
    lines are then ignored.  Without distances those of the lines are used; with
    neither the call fails. *)
Theorem C148_distances_are_used : forall umap hdbscan p d n_neighbours min_dist n_components size samples epsilon,
  partial_cluster umap hdbscan p (Some d) n_neighbours min_dist n_components size samples epsilon =
    partial_cluster umap hdbscan None (Some d) n_neighbours min_dist n_components size samples epsilon /\
  (forall r, partial_cluster umap hdbscan p (Some d) n_neighbours min_dist n_components size samples epsilon = Ok r -> snd r = d) /\
  (forall ls, partial_distance ls = Ok d ->
     partial_cluster umap hdbscan (Some ls) None n_neighbours min_dist n_components size samples epsilon =
     partial_cluster umap hdbscan None (Some d) n_neighbours min_dist n_components size samples epsilon) /\
  raises (partial_cluster umap hdbscan None None n_neighbours min_dist n_components size samples epsilon).
Proof.
  intros. split; [apply cluster_distance|]. split; [intros; eapply cluster_returns_distance; eassumption|]. split; [intros; apply cluster_partial; assumption|eexists; reflexivity].
Qed.
Print Assumptions C148_distances_are_used.

(** The embedding returned for plotting is the two-dimensional one; the labels come from
    the embedding in n_components dimensions. *)
Theorem C148_embedding_and_labels : forall umap hdbscan d n_neighbours min_dist n_components size samples epsilon e l d',
  partial_cluster umap hdbscan None (Some d) n_neighbours min_dist n_components size samples epsilon = Ok (e, l, d') <->
  d' = d /\ umap 2%nat n_neighbours min_dist d = Ok e /\
  exists c, umap n_components n_neighbours min_dist d = Ok c /\ hdbscan size samples epsilon c = Ok l.
Proof.
  intros. unfold partial_cluster. cbn [bind]. destruct (umap 2%nat n_neighbours min_dist d) as [st|ex] eqn:E2; cbn [bind].
  2:{ split; [discriminate|intros (_ & H & _); discriminate]. }
  destruct (Nat.eqb_spec n_components 2) as [->|Hne].
  - cbn [bind]. split.
    + intros H. destruct (hdbscan size samples epsilon st) as [l0|] eqn:Eh; [|discriminate]. cbn in H. injection H as <- <- <-. repeat split; auto. exists st. auto.
    + intros (-> & H & c & Hc & Hh). assert (c = st) by congruence. subst c. rewrite Hh. cbn. congruence.
  - destruct (umap n_components n_neighbours min_dist d) as [c|ex] eqn:Ec; cbn [bind].
    2:{ split; [discriminate|intros (_ & _ & c & H & _); discriminate]. }
    split.
    + intros H. destruct (hdbscan size samples epsilon c) as [l0|] eqn:Eh; [|discriminate]. cbn in H. injection H as <- <- <-. repeat split; auto. exists c. auto.
    + intros (-> & H & c' & Hc & Hh). assert (c' = c) by congruence. subst c'. rewrite Hh. cbn. congruence.
Qed.
Print Assumptions C148_embedding_and_labels.

(** Features are clustered independently: feature [f] as it would be alone. *)
Theorem C148_features_are_independent : forall umap hdbscan ps ds n_neighbours min_dist n_components size samples epsilon es ls dd,
  features_partial_cluster umap hdbscan ps (Some ds) n_neighbours min_dist n_components size samples epsilon = Ok (es, ls, dd) ->
  dd = ds /\ List.length es = List.length ds /\ List.length ls = List.length ds /\
  forall f, (f < List.length ds)%nat ->
    partial_cluster umap hdbscan None (Some (nth f ds [])) n_neighbours min_dist n_components size samples epsilon =
      Ok (nth f es [], nth f ls [], nth f ds []).
Proof. exact fcl_inv. Qed.
Print Assumptions C148_features_are_independent.

Example C148_example : features_partial_cluster (fun _ _ _ d => Ok d) (fun _ _ _ d => Ok (map Rsum d)) None (Some [[[0; 1]; [1; 0]]; [[0; 3]; [3; 0]]]) 2 0 2 2 1 0 =
  Ok ([[[0; 1]; [1; 0]]; [[0; 3]; [3; 0]]], [map Rsum [[0; 1]; [1; 0]]; map Rsum [[0; 3]; [3; 0]]], [[[0; 1]; [1; 0]]; [[0; 3]; [3; 0]]]).
Proof. reflexivity. Qed.
