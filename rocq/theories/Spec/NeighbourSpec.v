(** Specification vocabulary for neighbour matrices (C26-C35). *)
From Verif.Model Require Import Base Csr Neighbour.
From Verif.Spec Require Import KernelSpec.
Open Scope nat_scope.
Open Scope R_scope.

(** An execution order of the [n] iterations of a parallel loop. *)
Definition schedule (n : nat) (order : list nat) : Prop := Permutation order (seq 0 n).

(** The CSR form of a dense matrix: per row the columns and values of the entries
    that are not zero, columns in increasing order. *)
Definition csr_form {A} (d : A) (is_zero : A -> bool) (m : matrix A) (ncols : nat) (c : csr A) : Prop :=
  c = csr_of_rows ncols
        (map (fun row => map (fun j => (j, nth j row d)) (filter (fun j => negb (is_zero (nth j row d))) (seq 0 ncols))) m).

(** Mask of the CSR form of a boolean matrix. *)
Definition csr_mask (m : matrix bool) (ncols : nat) (c : csr bool) : Prop :=
  csr_form false negb m ncols c.

(** How a shrunk row relates to the original one: entries are kept or zeroed;
    zeroed ones are strictly smaller than every kept non-zero one. *)
Definition kept (row row' : list R) (j : nat) : Prop := nth j row' 0 = nth j row 0 /\ nth j row 0 <> 0.
Definition dropped (row row' : list R) (j : nat) : Prop := nth j row' 0 = 0 /\ nth j row 0 <> 0.
Definition num_nonzero (row : list R) : nat := List.length (filter (fun x => negb (Reqb x 0)) row).

(** Sampling without replacement: the drawn indices are [size] of the
    population's, no position twice. *)
Definition valid_choice {G} (choice : G -> list nat -> nat -> G * list nat) : Prop :=
  forall g population size, (size <= List.length population)%nat ->
    List.length (snd (choice g population size)) = size /\
    exists rest, Permutation population (snd (choice g population size) ++ rest)%list.

(** What shrinking by [rate] does to one row. *)
Record shrink_spec (rate : R) (row row' : list R) : Prop := {
  ss_length : List.length row' = List.length row;
  ss_kept_or_zero : forall j, nth j row' 0 = nth j row 0 \/ nth j row' 0 = 0;
  ss_order : forall j k, dropped row row' j -> kept row row' k -> nth j row 0 < nth k row 0;
  ss_max : forall j, nth j row 0 <> 0 ->
     (forall k, nth k row 0 <> 0 -> nth k row 0 <= nth j row 0) -> kept row row' j;
  ss_count : (0 < num_nonzero row)%nat ->
     (num_nonzero row - Z.to_nat (Rceil (rate * INR (num_nonzero row - 1))) <= num_nonzero row')%nat;
  ss_count_distinct : (0 < num_nonzero row)%nat -> NoDup (filter (fun x => negb (Reqb x 0)) row) ->
     (num_nonzero row' = num_nonzero row - Z.to_nat (Rceil (rate * INR (num_nonzero row - 1))))%nat;
  ss_rate_zero : rate = 0 -> row' = row
}.

(** The same exactly: the weights below the [rate]-quantile of the row's non-zero
    weights become zero, the others stay; a row of zeros stays. *)
Definition cut_row (rate : R) (row row' : list R) : Prop :=
  (filter (fun x => negb (Reqb x 0)) row = [] /\ row' = row) \/
  exists b, hyndman_fan_7 (filter (fun x => negb (Reqb x 0)) row) rate b /\ row' = map (fun x => if Rltb x b then 0 else x) row.

(** [W'] is [W], or [W] shrunk row by row. *)
Definition shrunk_weights (rate : option R) (W W' : matrix R) : Prop :=
  match rate with
  | None => W' = W
  | Some q => 0 <= q <= 1 /\ Forall2 (cut_row q) W W'
  end.

(** A row of a sampled neighbour matrix: the point itself, and [count] of the
    other points with positive weight. *)
Record sample_spec (count : nat) (i : nat) (weights : list R) (row : list bool) : Prop := {
  sp_length : List.length row = List.length weights;
  sp_self : nth i row false = true;
  sp_only : forall j, nth j row false = true -> j = i \/ 0 < nth j weights 0;
  sp_count : List.length (filter (fun j => nth j row false && negb (j =? i)%nat) (seq 0 (List.length row))) = count
}.

(** Number of other points with positive weight. *)
Definition num_neighbours (i : nat) (weights : list R) : nat :=
  List.length (filter (fun j => Rltb 0 (nth j weights 0) && negb (j =? i)%nat) (seq 0 (List.length weights))).
