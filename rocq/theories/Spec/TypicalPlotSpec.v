(** What [partial_plot_2d] shows of one feature. *)
From Verif.Model Require Import Base Ext Sort Distance Visualize Plots TypicalPlot.
From Verif.Spec Require Import VisualizeSpec.
Open Scope string_scope.
Open Scope nat_scope.
Open Scope R_scope.

(** A range of styles: not reversed. *)
Definition proper (r : option (R * R)) : Prop := match r with Some (lo, hi) => lo <= hi | None => True end.
Definition lowest (default : R * R) (r : option (R * R)) : R := match r with Some (lo, _) => lo | None => fst default end.
Definition highest (default : R * R) (r : option (R * R)) : R := match r with Some (_, hi) => hi | None => snd default end.

(** The line of cluster [v] shows observation [i]. *)
Definition line_of_cluster (lines : list line) (embedding : list (list R)) (labels : list R) (v : R) (s : styled_line) : Prop :=
  sl_cluster s = v /\ exists i, medoid embedding labels v i /\ sl_line s = nth i lines ([], []).

(** Smaller clusters are not drawn stronger. *)
Definition stronger_when_larger (labels : list R) (style : styled_line -> R) (drawn : list styled_line) : Prop :=
  forall s t, In s drawn -> In t drawn -> (label_count labels (sl_cluster s) <= label_count labels (sl_cluster t))%nat -> style s <= style t.
Definition strictly_stronger_when_larger (labels : list R) (style : styled_line -> R) (drawn : list styled_line) : Prop :=
  forall s t, In s drawn -> In t drawn -> (label_count labels (sl_cluster s) < label_count labels (sl_cluster t))%nat -> style s < style t.

(** [x] is given for feature [f]: of its own, or one for all. *)
Definition given {A} (a : per_feature A) (f : nat) (x : A) : Prop :=
  match a with Merged y => x = y | Individual l => nth_error l f = Some x end.

(** The arguments of the plot, feature by feature: labels, and the typical observations
    chosen with the embedding. *)
Definition typical_of (partials : list (list line)) (labels : per_feature (list R)) (typical : per_feature (list nat))
    (ls : nat -> list R) (es : nat -> list (list R)) : Prop :=
  forall f, (f < List.length partials)%nat ->
    ls f <> [] /\ List.length (nth f partials []) = List.length (ls f) /\ List.length (es f) = List.length (ls f) /\
    given labels f (ls f) /\ exists t, given typical f t /\ choose_cluster_typical (es f) (ls f) = Ok t.
