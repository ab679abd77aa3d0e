(** Specification vocabulary for the plots (C143-C148). *)
From Coq Require Import Ratan Sorting.Sorted.
From Verif.Model Require Import Base Visualize Plots.
Open Scope nat_scope.
Open Scope R_scope.

Definition no_trace : line_trace := LineTrace ([], []) 0 0%nat None false [].

Definition within (r : R * R) (x : R) : Prop := fst r <= x <= snd r.

(** The figure shows the observations [idx], in this order: trace [k] is the line of
    observation idx[k] at its time, with its number and cluster; the first trace of a
    cluster has the legend entry; the axes contain everything. *)
Definition shows (partial : list line) (temporal : times) (labels : option (list R)) (idx : list nat) (fig : line_figure) : Prop :=
  List.length (lf_traces fig) = List.length idx /\
  forall k, (k < List.length idx)%nat ->
    let t := nth k (lf_traces fig) no_trace in let i := nth k idx 0%nat in
    (i < List.length partial)%nat /\
    lt_line t = nth i partial ([], []) /\ lt_time t = nth i (time_values temporal) 0 /\ lt_index t = i /\
    lt_cluster t = option_map (fun l => nth i l 0) labels /\
    match labels with
    | Some l => lt_legend t = true <-> forall j, (j < k)%nat -> nth (nth j idx 0%nat) l 0 <> nth i l 0
    | None => lt_legend t = false
    end /\
    within (lf_time_range fig) (lt_time t) /\
    (forall x, In x (fst (lt_line t)) -> within (lf_x_range fig) x) /\ (forall y, In y (snd (lt_line t)) -> within (lf_y_range fig) y).

(** A line with at least one point. *)
Definition wf_lineb (l : line) : Prop := fst l <> [] /\ snd l <> [].

(** At least one line, none empty; one label and one time for each. *)
Definition labelled (partial : list line) (temporal : times) (labels : list R) : Prop :=
  (0 < List.length partial)%nat /\ List.length labels = List.length partial /\
  List.length (time_values temporal) = List.length partial /\ forall l, In l partial -> wf_lineb l.

(** Consecutive elements of an increasing list are [step] apart. *)
Definition equally_spaced (step : R) (ts : list R) : Prop :=
  forall k, (S k < List.length ts)%nat -> nth (S k) ts 0 - nth k ts 0 = step.

(** Angle of the direction (x, y, z) above the horizontal plane. *)
Definition elevation (eye : R * R * R) : R := let '(x, y, z) := eye in atan (z / sqrt (x ^ 2 + y ^ 2)).

(** The observations with label [v], in increasing order. *)
Definition group (labels : list R) (v : R) (ms : list nat) : Prop :=
  StronglySorted lt ms /\ forall i, In i ms <-> (i < List.length labels)%nat /\ nth i labels 0 = v.
