(** Model of /repo/georegression/simulation/parameter_tuning.py and of the end of
    simulation_data_fitting.py. *)
From Verif.Model Require Import Base Constructor.
Open Scope string_scope.
Open Scope nat_scope.
Open Scope list_scope.

Section Scripts.
  Variable obj : Type.
  Notation val := (pyval obj).
  Variable cpu_count : nat.

  (** [object.name] on an instance whose class has no such attribute. *)
  Definition get_attribute (d : dict obj) (k : string) : result val :=
    match lookup obj k d with Some v => Ok v | None => Raise AttributeError end.
  (** [object.name = v]. *)
  Definition set_attribute (d : dict obj) (a : string * val) : dict obj := a :: d.

  (** Unary minus; on other objects not modelled beyond [negate_obj]. *)
  Variable negate_obj : obj -> result val.
  Definition negate (v : val) : result val :=
    match v with
    | VNone | VTuple _ | VDict _ => Raise TypeError
    | VBool b => Ok (VInt (if b then -1 else 0)%Z)
    | VInt z => Ok (VInt (- z)%Z)
    | VFloat r => Ok (VFloat (- r)%R)
    | VObj o => negate_obj o
    end.

  (** parameter_tuning.py:13-15 [objective]; only the loss of the returned dict, the
      status is a constant. *)
  Definition objective (params : dict obj) : result val :=
    clf <- stacking_init obj cpu_count [] params ;;
    score <- get_attribute clf "llocv_stacking_" ;;
    negate score.

  (** parameter_tuning.py:18-25: hyperopt.fmin calls the objective on one suggestion
      after the other, each depending on the losses so far; exceptions are not caught
      (catch_eval_exceptions=False). *)
  Variable suggest : list (dict obj * val) -> dict obj.
  Fixpoint fmin (max_evals : nat) (trials : list (dict obj * val)) : result (list (dict obj * val)) :=
    match max_evals with
    | 0 => Ok trials
    | S n =>
      let params := suggest trials in
      loss <- objective params ;;
      fmin n (trials ++ [(params, loss)])
    end.

  (** simulation_data_fitting.py:36-43 and 150, from the construction of the model to
      the residuals; [assigned] are the attributes fit and the analyses set. *)
  Definition residual_step (pos : list val) (kw : dict obj) (assigned : list (string * val)) (difference : val -> val -> result val) : result val :=
    d <- weight_model_init obj cpu_count pos kw ;;
    let model := fold_left set_attribute assigned d in
    predicted <- get_attribute model "stacking_predict_" ;;
    sample <- get_attribute model "y_sample_" ;;
    difference predicted sample.
End Scripts.
