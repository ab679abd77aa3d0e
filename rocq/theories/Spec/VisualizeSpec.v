(** Specification vocabulary for the plotting helpers (C75-C78, C101-...). *)
From Coq Require Import Sorting.Sorted.
From Verif.Model Require Import Base.
From Verif.Model Require Visualize.
Open Scope nat_scope.
Open Scope R_scope.

(** How many observations carry label [v]. *)
Definition label_count (labels : list R) (v : R) : nat := List.length (filter (fun x => Reqb x v) labels).

(** Rounding to a nearest integer. *)
Definition valid_nearest (nearest : R -> nat) : Prop := forall v, 0 <= v -> Rabs (INR (nearest v) - v) <= 1 / 2.

(** A line: increasing x-values, as many y-values, at least one point. *)
Definition wf_line (l : list R * list R) : Prop :=
  StronglySorted Rlt (fst l) /\ List.length (fst l) = List.length (snd l) /\ fst l <> [].

(** The common x-range. *)
Definition range_start (l1 l2 : list R * list R) : R := Rmax (hd 0 (fst l1)) (hd 0 (fst l2)).
Definition range_end (l1 l2 : list R * list R) : R := Rmin (last (fst l1) 0) (last (fst l2) 0).
Definition overlaps (l1 l2 : list R * list R) : Prop := range_start l1 l2 < range_end l1 l2.

(** [f] is the line through the points, linear between neighbouring ones. *)
Definition interpolates (l : list R * list R) (f : R -> R) : Prop :=
  (forall k, (k < List.length (fst l))%nat -> f (nth k (fst l) 0) = nth k (snd l) 0) /\
  (forall k x, (S k < List.length (fst l))%nat -> nth k (fst l) 0 <= x <= nth (S k) (fst l) 0 ->
     f x = nth k (snd l) 0 + (nth (S k) (snd l) 0 - nth k (snd l) 0) / (nth (S k) (fst l) 0 - nth k (fst l) 0) * (x - nth k (fst l) 0)).

(** Common points of two lines: all x-values of either inside the common range. *)
Definition common_points (l1 l2 : list R * list R) (pts : list R) : Prop :=
  StronglySorted Rlt pts /\
  forall x, In x pts <-> (In x (fst l1) \/ In x (fst l2)) /\ range_start l1 l2 <= x <= range_end l1 l2.

(** Weight of point [k]: distance between its two neighbours; twice the distance to the
    only neighbour at the ends. *)
Definition gap_weight (pts : list R) (k : nat) : R :=
  if (k =? 0)%nat then 2 * (nth 1 pts 0 - nth 0 pts 0)
  else if (S k =? List.length pts)%nat then 2 * (nth k pts 0 - nth (k - 1) pts 0)
  else nth (k + 1) pts 0 - nth (k - 1) pts 0.

Definition sum_k (n : nat) (f : nat -> R) : R := Rsum (map f (seq 0 n)).

(** Weighted mean square of the differences, shifted by [c]. *)
Definition shifted_distance (pts : list R) (f1 f2 : R -> R) (c : R) : R :=
  let n := List.length pts in
  sum_k n (fun k => gap_weight pts k * (f1 (nth k pts 0) - f2 (nth k pts 0) - c) ^ 2) / sum_k n (gap_weight pts).

Definition mean_difference (pts : list R) (f1 f2 : R -> R) : R :=
  sum_k (List.length pts) (fun k => f1 (nth k pts 0) - f2 (nth k pts 0)) / INR (List.length pts).
Definition weighted_mean_difference (pts : list R) (f1 f2 : R -> R) : R :=
  sum_k (List.length pts) (fun k => gap_weight pts k * (f1 (nth k pts 0) - f2 (nth k pts 0))) / sum_k (List.length pts) (gap_weight pts).

(** The distance of two overlapping lines: shift by the unweighted mean difference. *)
Definition is_line_distance (l1 l2 : list R * list R) (d : R) : Prop :=
  exists pts f1 f2, common_points l1 l2 pts /\ interpolates l1 f1 /\ interpolates l2 f2 /\
    d = shifted_distance pts f1 f2 (mean_difference pts f1 f2).

(** A line moved up by [c]. *)
Definition lift (c : R) (l : list R * list R) : list R * list R := (fst l, map (fun y => y + c) (snd l)).

(** Euclidean distance. *)
Definition distance (p q : list R) : R := sqrt (Rsum (map2 (fun a b => (a - b) ^ 2) p q)).

(** How many observations are asked for: an int is a count, a float a rate whose
    product with [N] is cut towards zero. *)
Definition requested_count (k : Z) (s : Z) : Prop := s = k.
Definition requested_rate (r : R) (N : nat) (s : Z) : Prop :=
  (0 <= r -> IZR s <= r * INR N < IZR s + 1) /\ (r < 0 -> IZR s - 1 < r * INR N <= IZR s).

Definition size_spec (a : Visualize.size_arg) (N : nat) (s : Z) : Prop :=
  match a with Visualize.SizeInt k => requested_count k s | Visualize.SizeFloat r => requested_rate r N s end.

(** How many of the chosen observations carry label [v]. *)
Definition chosen (labels : list R) (idx : list nat) (v : R) : nat :=
  List.length (filter (fun i => Reqb (nth i labels 0) v) idx).

(** The distinct values of a list, increasing. *)
Definition distinct_values (labels values : list R) : Prop :=
  StronglySorted Rlt values /\ forall v, In v values <-> In v labels.

(** [v] has rank [r] among the values (0 = smallest). *)
Definition has_rank (values : list R) (v : R) (r : nat) : Prop :=
  In v values /\
  (List.length (filter (fun x => Rltb x v) values) <= r)%nat /\ (r < List.length (filter (fun x => Rleb x v) values))%nat.

(** Index of the first occurrence. *)
Definition first_at (values : list R) (v : R) (i : nat) : Prop :=
  (i < List.length values)%nat /\ nth i values 0 = v /\ forall j, (j < i)%nat -> nth j values 0 <> v.

Definition average (l : list R) : R := Rsum l / INR (List.length l).

(** Total distance from observation [i] to the observations with label [v]. *)
Definition total_distance (embedding : list (list R)) (labels : list R) (v : R) (i : nat) : R :=
  Rsum (map (fun j => distance (nth i embedding []) (nth j embedding []))
            (filter (fun j => Reqb (nth j labels 0) v) (seq 0 (List.length labels)))).

(** [i] is the first medoid of cluster [v]. *)
Definition medoid (embedding : list (list R)) (labels : list R) (v : R) (i : nat) : Prop :=
  (i < List.length labels)%nat /\ nth i labels 0 = v /\
  forall j, (j < List.length labels)%nat -> nth j labels 0 = v ->
    total_distance embedding labels v i <= total_distance embedding labels v j /\
    ((j < i)%nat -> total_distance embedding labels v i < total_distance embedding labels v j).

(** Size of the cluster of observation [i]. *)
Definition cluster_size (labels : list R) (i : nat) : nat := label_count labels (nth i labels 0).
