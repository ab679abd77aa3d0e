(** Vocabulary of the statements on the simulation script for seven models. *)
From Verif.Model Require Import Base Ext Constructor Variation Robust.
Open Scope string_scope.
Open Scope nat_scope.

(** The dict given as [info] has the key. *)
Definition in_info {I} (info : dict I) (k : string) : Prop := exists v, In (k, v) info.

(** The line shows these scores and this duration of the model, as far as [info] does not
    use the same keys. *)
Definition shows {I} (info line : dict I) (l : learner) (scores : list ext) (seconds : R) : Prop :=
  (forall i k v, nth_error (score_keys l) i = Some k -> nth_error scores i = Some v -> ~ in_info info k -> dict_get line k = Some (Num v)) /\
  (forall k, In k (time_keys l) -> ~ in_info info k -> dict_get line k = Some (Num (Fin seconds))).

(** The outcome of fitting the model to the training data is always the same. *)
Definition always {world} (fit_train : learner -> world -> world * result (list ext * R)) (l : learner) (scores : list ext) (seconds : R) : Prop :=
  forall w, snd (fit_train l w) = Ok (scores, seconds).
