(** What the plots show: /repo/georegression/visualize/pd.py, scatter.py, utils.py.
    A figure is the data of its traces; titles, fonts, file output and drawing are not
    modelled. *)
From Coq Require Import Rtrigo1.
From Verif.Model Require Import Base Ext Sort Csr Neighbour Distance WeightModel Ale Visualize.
Open Scope string_scope.
Open Scope nat_scope.
Open Scope R_scope.

(** A time vector, of shape (N,) or (N, 1). *)
Inductive times : Type := Flat (t : list R) | Column (t : list R).
Definition time_values (t : times) : list R := match t with Flat v | Column v => v end.

(** One line of [partial_plot_3d]: its points, time, observation number (hover text),
    cluster (trace name), whether it has a legend entry, colour string (four integers). *)
Record line_trace := LineTrace {
  lt_line : line; lt_time : R; lt_index : nat; lt_cluster : option R; lt_legend : bool; lt_colour : list Z }.
Record line_figure := LineFigure {
  lf_traces : list line_trace; lf_time_range : R * R; lf_x_range : R * R; lf_y_range : R * R }.

(** One cluster of [embedding_plot]: points, hover data (time, observation), colours. *)
Record embedding_trace := EmbeddingTrace {
  et_cluster : R; et_points : list (list R); et_hover : list (R * nat); et_colours : list (list Z) }.

(** One cluster of [scatter_3d]: places (x, y, time), hover indices, colours; and the
    auxiliary surface of one time slice: height, colour, legend entry. *)
Record point_trace := PointTrace {
  pt_cluster : R; pt_places : list (R * R * R); pt_hover : list nat; pt_colours : list (list Z) }.
Record surface := Surface { sf_height : R; sf_colour : list Z; sf_legend : bool }.
Record scatter_figure := ScatterFigure { sc_traces : list point_trace; sc_surfaces : list surface }.

(** [scatter_3d] of continuous values: places, hover indices, values, ticks of the
    colour bar, surfaces. *)
Record value_figure := ValueFigure {
  vf_places : list (R * R * R); vf_hover : list nat; vf_values : list R; vf_ticks : list R; vf_surfaces : list surface }.

(** Labels and embeddings, of all features together or one per feature.  (The code
    tells them apart by [len(shape)]; mixed shapes are not modelled.) *)
Inductive per_feature (A : Type) : Type := Merged (a : A) | Individual (l : list A).
Arguments Merged {A}. Arguments Individual {A}.

Section Plots.
  (** NumPy's global generator and [choice]; [nearest] as in [sample_partial]. *)
  Variable G : Type.
  Variable choice : G -> list nat -> nat -> G * list nat.
  Variable nearest : R -> nat.
  (** The state set by [np.random.seed(1003)], the default of [sample_partial]. *)
  Variable seed_1003 : G.
  (** matplotlib's colormap: four components. *)
  Variable cmap : ext -> list R.

  (** utils.py:16-33 [vector_to_color] of a 1-D vector, stringified. *)
  Definition vector_to_color (v : list R) : result (list (list Z)) :=
    n <- vector_normed v ;; Ok (map (fun t => color_ints (cmap t)) n).

  (** pd.py:350-355: extremes over all lines. *)
  Definition extremes (vs : list (list R)) : result (R * R) :=
    highs <- mapM vmax vs ;; hi <- vmax highs ;;
    lows <- mapM vmin vs ;; lo <- vmin lows ;; Ok (lo, hi).

  (** pd.py:259-366 [partial_plot_3d].  Without labels and with a time column, the
      names are a column of [None]s, and plotly rejects an array as a name. *)
  Definition partial_plot_3d (g0 : G) (partial : list line) (temporal : times) (labels : option (list R))
      (sample_size : option size_arg) (quantile : option (list R)) : result (G * line_figure) :=
    r <- sample_partial G choice nearest (Some seed_1003) g0 (map snd partial) sample_size quantile labels ;;
    let idx := snd r in
    lines <- take_checked partial idx ;;
    ts <- take_checked (time_values temporal) idx ;;
    style <- match labels with
             | Some l => cl <- take_checked l idx ;; cs <- vector_to_color cl ;; Ok (cs, map Some cl, show_vector cl)
             | None => match temporal with
                       | Flat _ => cs <- vector_to_color ts ;; Ok (cs, map (fun _ => None) ts, map (fun _ => false) ts)
                       | Column _ => Raise ValueError
                       end
             end ;;
    let '(cs, names, show) := style in
    ty <- extremes (map snd lines) ;;
    tx <- extremes (map fst lines) ;;
    trange <- range_margin (Some ts) None None (5 / 100) ;;
    xrange <- range_margin None (Some (fst tx)) (Some (snd tx)) (5 / 100) ;;
    yrange <- range_margin None (Some (fst ty)) (Some (snd ty)) (5 / 100) ;;
    Ok (fst r, LineFigure
      (tabulate (List.length idx) (fun k =>
         LineTrace (nth k lines ([], [])) (nth k ts 0) (nth k idx 0%nat) (nth k names None) (nth k show false) (nth k cs [])))
      trange xrange yrange).

  (** pd.py:369-409 [partials_plot_3d]: one figure per feature; merged labels are
      repeated for each. *)
  Definition labels_of (labels : option (per_feature (list R))) (f : nat) : result (option (list R)) :=
    match labels with
    | None => Ok None
    | Some (Merged l) => Ok (Some l)
    | Some (Individual ls) => l <- getitem ls f ;; Ok (Some l)
    end.
  Fixpoint plot_features (g : G) (f : nat) (partials : list (list line)) (temporal : times) (labels : option (per_feature (list R)))
      (sample_size : option size_arg) (quantile : option (list R)) : result (G * list line_figure) :=
    match partials with
    | [] => Ok (g, [])
    | p :: ps =>
      l <- labels_of labels f ;;
      r <- partial_plot_3d g p temporal l sample_size quantile ;;
      rs <- plot_features (fst r) (S f) ps temporal labels sample_size quantile ;;
      Ok (fst rs, snd r :: snd rs)
    end.
  Definition partials_plot_3d (g : G) (partials : list (list line)) (temporal : times) (labels : option (per_feature (list R)))
      (sample_size : option size_arg) (quantile : option (list R)) : result (G * list line_figure) :=
    plot_features g 0 partials temporal labels sample_size quantile.

  (** pd.py:666-734 [embedding_plot]: a 1-D time vector cannot be concatenated to the
      column of observation numbers. *)
  Definition embedding_plot (embedding : matrix R) (cluster : list R) (temporal : times) : result (list embedding_trace) :=
    match temporal with
    | Flat _ => Raise ValueError
    | Column t =>
      if negb (List.length t =? List.length embedding)%nat then Raise ValueError
      else
        color <- vector_to_color cluster ;;
        if negb (List.length cluster =? List.length embedding)%nat then Raise IndexError
        else
          Ok (map (fun c => let ms := members cluster c in
                            EmbeddingTrace c (take [] embedding ms) (map (fun i => (nth i t 0, i)) ms) (take [] color ms))
                  (unique cluster))
    end.

  (** scatter.py:27-33, 102-119: height of the surface below each time slice. *)
  Definition slice_surfaces (z : list R) : result (list surface) :=
    lo <- vmin z ;; hi <- vmax z ;;
    let slices := unique z in
    let z_step := (hi - lo) / INR (List.length slices) in
    let z_shift := z_step * (8 / 100) in
    colors <- vector_to_color slices ;;
    Ok (tabulate (List.length slices) (fun k => Surface (nth k slices 0 - z_shift) (nth k colors []) (k =? 0)%nat)).

  (** scatter.py:10-119 [scatter_3d] with [is_cluster=True]: [temporal_vector[:, 0]]
      needs a column; [customdata] is not masked. *)
  Definition scatter_3d (geo : list (R * R)) (temporal : times) (value : list R) : result scatter_figure :=
    match temporal with
    | Flat _ => Raise IndexError
    | Column z =>
      _ <- vmin (map fst geo) ;;
      _ <- vmin z ;;
      color <- vector_to_color value ;;
      if negb (List.length value =? List.length geo)%nat || negb (List.length value =? List.length z)%nat then Raise IndexError
      else
        surfaces <- slice_surfaces z ;;
        Ok (ScatterFigure
          (map (fun c => let ms := members value c in
                         PointTrace c (map (fun i => (fst (nth i geo (0, 0)), snd (nth i geo (0, 0)), nth i z 0)) ms)
                                    (seq 0 (List.length value)) (take [] color ms))
               (unique value))
          surfaces)
    end.

  (** scatter.py:10-119 [scatter_3d] with [is_cluster=False]: one trace with all points,
      colour bar ticks at five quantiles.  Plotly draws as many points as the shortest
      of the three coordinate arrays has. *)
  Definition scatter_3d_values (geo : list (R * R)) (temporal : times) (value : list R) : result value_figure :=
    match temporal with
    | Flat _ => Raise IndexError
    | Column z =>
      _ <- vmin (map fst geo) ;;
      _ <- vmin z ;;
      _ <- vmin value ;;
      surfaces <- slice_surfaces z ;;
      Ok (ValueFigure
        (map (fun p => (fst (fst p), snd (fst p), snd p)) (combine geo z)) (seq 0 (List.length value)) value
        (map (fun q => nth (nearest (INR (List.length value - 1) * q)) (sortR value) 0) [0; 1 / 4; 1 / 2; 3 / 4; 1])
        surfaces)
    end.

  (** pd.py:775-850 [partial_compound_plot], with [compass_plot] (lines 737-772) as the
      triple of figures it joins. *)
  Definition partial_compound_plot (g : G) (geo : list (R * R)) (temporal : times) (partials : list (list line))
      (embedding : per_feature (matrix R)) (cluster : per_feature (list R)) (sample_size : option size_arg) (quantile : option (list R))
      : result (G * (list line_figure * list (list embedding_trace) * list scatter_figure
                     * list (scatter_figure * line_figure * list embedding_trace))) :=
    let n := List.length partials in
    pf <- partials_plot_3d g partials temporal (Some cluster) sample_size quantile ;;
    figs <- match embedding, cluster with
            | Merged e, Merged c =>
              ef <- embedding_plot e c temporal ;;
              sf <- scatter_3d geo temporal c ;;
              Ok (repeat ef n, repeat sf n)
            | Individual es, Individual cs =>
              efs <- mapM (fun f => e <- getitem es f ;; c <- getitem cs f ;; embedding_plot e c temporal) (seq 0 n) ;;
              sfs <- mapM (fun f => c <- getitem cs f ;; scatter_3d geo temporal c) (seq 0 n) ;;
              Ok (efs, sfs)
            | _, _ => Raise (PyException "not modelled")
            end ;;
    compass <- mapM (fun f => s <- getitem (snd figs) f ;; p <- getitem (snd pf) f ;; e <- getitem (fst figs) f ;; Ok (s, p, e)) (seq 0 n) ;;
    Ok (fst pf, (snd pf, fst figs, snd figs, compass)).
End Plots.

(** utils.py:63-77 [camera_position]: the eye of the camera. *)
Definition camera_position (rotation pitch : R) : R * R * R :=
  (cos (rotation * PI / 180), sin (rotation * PI / 180), sin (pitch * PI / 180)).

(** utils.py:49-60 [aspect_ratio_scale]: the three aspects of the figure, absent
    ([None]) unless set before. *)
Definition aspect_ratio_scale (aspect : option (R * R * R)) (scale : R) : result (option (R * R * R)) :=
  match aspect with
  | None => Raise TypeError
  | Some (x, y, z) => Ok (Some (x * scale, y * scale, z * scale))
  end.

Section Clusters.
  (** UMAP with the fixed seed 42 (number of components, neighbours, minimum distance)
      and HDBSCAN (its three parameters). *)
  Variable umap : nat -> nat -> R -> matrix R -> result (matrix R).
  Variable hdbscan : nat -> nat -> R -> matrix R -> result (list R).

  (** pd.py:499-571 [partial_cluster], without the optional condensed-tree plot. *)
  Definition partial_cluster (partial : option (list line)) (distance : option (matrix R))
      (n_neighbours : nat) (min_dist : R) (n_components min_cluster_size min_samples : nat) (epsilon : R)
      : result (matrix R * list R * matrix R) :=
    d <- match partial, distance with
         | None, None => Raise (PyException "Feature partial or feature distance matrix should be provided.")
         | _, Some d => Ok d
         | Some p, None => partial_distance p
         end ;;
    standard <- umap 2 n_neighbours min_dist d ;;
    clusterable <- (if (n_components =? 2)%nat then Ok standard else umap n_components n_neighbours min_dist d) ;;
    labels <- hdbscan min_cluster_size min_samples epsilon clusterable ;;
    Ok (standard, labels, d).

  (** pd.py:574-638 [features_partial_cluster]. *)
  Definition features_partial_cluster (features_partial : option (list (list line))) (features_distance : option (list (matrix R)))
      (n_neighbours : nat) (min_dist : R) (n_components min_cluster_size min_samples : nat) (epsilon : R)
      : result (list (matrix R) * list (list R) * list (matrix R)) :=
    ds <- match features_partial, features_distance with
          | None, None => Raise (PyException "Feature partial or feature distance should be provided.")
          | _, Some ds => Ok ds
          | Some ps, None => features_partial_distance ps
          end ;;
    rs <- mapM (fun d => partial_cluster None (Some d) n_neighbours min_dist n_components min_cluster_size min_samples epsilon) ds ;;
    Ok (map (fun r => fst (fst r)) rs, map (fun r => snd (fst r)) rs, ds).
End Clusters.
