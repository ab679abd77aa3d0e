(** Specification vocabulary for lazily read distances (C167). *)
From Verif.Model Require Import Base Distance Cache CacheLazy.
From Verif.Spec Require Import CacheSpec.
Open Scope string_scope.
Open Scope nat_scope.
Open Scope R_scope.

(** The file at [path] holds the whole matrix [m], in blocks of the given heights. *)
Definition holds (d : disk) (path : string) (m : matrix R) (sizes : list nat) : Prop :=
  d path = Some (ZArr (ncols m) (map (fun c => (nth c sizes O, Some (nth c (split_rows sizes m) []))) (seq 0 (List.length sizes)))) /\
  list_sum sizes = List.length m.
