(** Specification vocabulary for the repeated fits of simulation_for_STST_variation.py (C186). *)
From Verif.Model Require Import Base Ext WeightModel Variation.
Open Scope string_scope.
Open Scope nat_scope.
Open Scope R_scope.

(** [fits] are the outcomes of fits done one after the other, from [w] on to [w']. *)
Inductive successive {world} (fit_once : bool -> world -> world * result (ext * ext * R)) (extra : bool)
  : world -> list (ext * ext * R) -> world -> Prop :=
| no_more w : successive fit_once extra w [] w
| one_fit w f w1 fits w' : fit_once extra w = (w1, Ok f) -> successive fit_once extra w1 fits w' -> successive fit_once extra w (f :: fits) w'.

(** The values of [x] around their mean [mu]: [s] is the standard deviation, without
    the correction for the lost degree of freedom. *)
Definition is_mean (x : list R) (mu : R) : Prop := INR (List.length x) * mu = Rsum x.
Definition is_deviation (x : list R) (s : R) : Prop :=
  0 <= s /\ forall mu, is_mean x mu -> INR (List.length x) * s ^ 2 = Rsum (map (fun v => (v - mu) ^ 2) x).
Definition greatest (x : list R) (m : R) : Prop := In m x /\ forall v, In v x -> v <= m.
Definition least (x : list R) (m : R) : Prop := In m x /\ forall v, In v x -> m <= v.

(** A line reports these ten fits of a model. *)
Record reports {I} (extra : bool) (fits : list (ext * ext * R)) (line : dict I) : Prop := {
  rep_scores : forall i base stacking t, nth_error fits i = Some (base, stacking, t) ->
    dict_get line (prefix extra ++ "Base_" ++ digit i) = Some (Num base) /\ dict_get line (prefix extra ++ digit i) = Some (Num stacking);
  rep_spread : forall x, map (fun f => snd (fst f)) fits = map Fin x ->
    (exists mu, dict_get line (prefix extra ++ "Mean") = Some (Num (Fin mu)) /\ is_mean x mu) /\
    (exists s, dict_get line (prefix extra ++ "Std") = Some (Num (Fin s)) /\ is_deviation x s) /\
    (exists m, dict_get line (prefix extra ++ "Max") = Some (Num (Fin m)) /\ greatest x m) /\
    (exists m, dict_get line (prefix extra ++ "Min") = Some (Num (Fin m)) /\ least x m);
  rep_time : forall base stacking t, nth_error fits 9 = Some (base, stacking, t) ->
    dict_get line (prefix extra ++ "Time") = Some (Num (Fin t))
}.

(** The [info] of the script's calls: f, coef and count. *)
Definition script_info {I} (info : dict I) : Prop :=
  NoDup (map fst info) /\ forall k, In k (map fst info) -> In k ["f"; "coef"; "count"].
