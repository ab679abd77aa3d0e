(** Specification vocabulary for the maps of local importances (C182). *)
From Verif.Model Require Import Base Ext.
Open Scope nat_scope.
Open Scope R_scope.

Definition is_number (x : ext) : Prop := exists r, x = Fin r.

(** [lo] and [hi] are the lowest and the highest of the values. *)
Definition lowest (l : list R) (lo : R) : Prop := In lo l /\ forall a, In a l -> lo <= a.
Definition highest (l : list R) (hi : R) : Prop := In hi l /\ forall a, In a l -> a <= hi.

(** The array holds the numbers [M]. *)
Definition numbers (m : matrix ext) (M : matrix R) : Prop := m = map (map Fin) M.

(** A map shows [value j] at the [j]-th point. *)
Definition shows {point} (points : list point) (value : nat -> ext) (picture : list (point * ext)) : Prop :=
  List.length picture = List.length points /\
  forall j p, nth_error points j = Some p -> nth_error picture j = Some (p, value j).
