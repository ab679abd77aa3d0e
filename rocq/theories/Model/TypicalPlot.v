(** Model of /repo/georegression/visualize/pd.py:105-256 [partial_plot_2d]: the lines of
    the figure of each feature.  The joint figure has the same lines.  Labels for
    another number of observations than there are lines are not modelled; titles,
    legends' position and files are not either. *)
From Verif.Model Require Import Base Ext Sort Csr Neighbour Distance WeightModel Ale Visualize Plots.
Open Scope string_scope.
Open Scope nat_scope.
Open Scope R_scope.

(** One [ax.plot] call (pd.py:203-213, 220-228): points, cluster (label), colour
    components, opacity and width. *)
Record styled_line := StyledLine {
  sl_line : line; sl_cluster : R; sl_colour : list R; sl_opacity : R; sl_width : R }.

Section Typical.
  (** matplotlib's colormap: four components. *)
  Variable cmap : ext -> list R.

  (** pd.py:178-185: the entry of a feature, or the common one. *)
  Definition for_feature {A} (a : per_feature A) (f : nat) : result A :=
    match a with Merged x => Ok x | Individual l => getitem l f end.

  (** pd.py:187-213, one feature. *)
  Definition typical_lines (use_sigmoid : bool) (scale_power : R) (alpha width : R * R)
      (lines : list line) (labels : list R) (typical : list nat) : result (list styled_line) :=
    alphas <- style_vector use_sigmoid scale_power (fst alpha) (snd alpha) labels ;;
    widths <- style_vector use_sigmoid scale_power (fst width) (snd width) labels ;;
    ls <- take_checked lines typical ;;
    cs <- take_checked labels typical ;;
    al <- take_checked alphas typical ;;
    wi <- take_checked widths typical ;;
    normed <- vector_normed cs ;;
    Ok (tabulate (List.length ls) (fun k =>
          StyledLine (nth k ls ([], [])) (nth k cs 0) (cmap (nth k normed NaN)) (nth k al 0) (nth k wi 0))).

  (** pd.py:131-138 (defaults of the ranges; len(feature_partial[0])) and the loop over
      the features. *)
  Definition partial_plot_2d (partials : list (list line)) (labels : per_feature (list R)) (typical : per_feature (list nat))
      (alpha_range width_range : option (R * R)) (use_sigmoid : bool) (scale_power : R) : result (list (list styled_line)) :=
    let alpha := match alpha_range with Some r => r | None => (1 / 10, 1) end in
    let width := match width_range with Some r => r | None => (1 / 2, 3) end in
    match partials with
    | [] => Raise IndexError
    | _ => mapM (fun f =>
             l <- for_feature labels f ;;
             t <- for_feature typical f ;;
             p <- getitem partials f ;;
             typical_lines use_sigmoid scale_power alpha width p l t)
           (seq 0 (List.length partials))
    end.
End Typical.
