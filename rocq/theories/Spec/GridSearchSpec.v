(** Specification vocabulary for the parameter search of the experiments (C183). *)
From Verif.Model Require Import Base Ext GridSearch.
Open Scope nat_scope.
Open Scope list_scope.

Section Spec.
  Context {count rate G : Type}.
  Notation entry := (entry count rate).
  Variable weight_fit : family -> G -> bool -> count -> G * result ext.
  Variable stacking_fit : G -> bool -> count -> rate -> G * result (ext * ext).

  (** Entry [e] reports the fit with these parameters, on the data with the coordinates
      as features if [plus]. *)
  Definition reports_weight (f : family) (plus : bool) (n : count) (e : entry) : Prop :=
    e_count _ _ e = n /\ exists g g', weight_fit f g plus n = (g', Ok (e_score _ _ e)).
  Definition reports_stacking (plus : bool) (n : count) (q : rate) (e : entry) : Prop :=
    e_count _ _ e = n /\ e_rate _ _ e = Some q /\
    exists g g' b, stacking_fit g plus n q = (g', Ok (b, e_score _ _ e)) /\ e_base _ _ e = Some b.

  (** One entry per neighbour count on the data with the coordinates, labelled so, then
      one on the data without them, labelled so. *)
  Definition weight_grid (f : family) (counts : list count) (es : list entry) : Prop :=
    List.length es = 2 * List.length counts /\
    forall k n, nth_error counts k = Some n ->
      (exists e, nth_error es k = Some e /\ reports_weight f true n e /\ e_plus _ _ e = true) /\
      (exists e, nth_error es (List.length counts + k) = Some e /\ reports_weight f false n e /\ e_plus _ _ e = false).
  (** Likewise for each count and rate, the rates running faster. *)
  Definition stacking_grid (counts : list count) (rates : list rate) (es : list entry) : Prop :=
    List.length es = 2 * List.length counts * List.length rates /\
    forall k n j q, nth_error counts k = Some n -> nth_error rates j = Some q ->
      (exists e, nth_error es (k * List.length rates + j) = Some e /\ reports_stacking true n q e /\ e_plus _ _ e = true) /\
      (exists e, nth_error es ((List.length counts + k) * List.length rates + j) = Some e /\ reports_stacking false n q e /\ e_plus _ _ e = false).

  (** [e] is the first entry of [es] with the highest score; scores that are not numbers
      count for nothing. *)
  Definition first_best (es : list entry) (e : entry) : Prop :=
    exists k, nth_error es k = Some e /\ e_score _ _ e <> NaN /\
      forall k' e', nth_error es k' = Some e' ->
        egtb (e_score _ _ e') (e_score _ _ e) = false /\
        (k' < k -> e_score _ _ e' = NaN \/ egtb (e_score _ _ e) (e_score _ _ e') = true).
End Spec.
