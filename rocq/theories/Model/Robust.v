(** Model of /repo/georegression/simulation/simulation_for_robust.py: [fit_models] (26-196)
    and the calls of it (333-904). *)
From Verif.Model Require Import Base Ext Distance WeightModel Constructor Variation.
Open Scope string_scope.
Open Scope nat_scope.

(** The seven models in the order of fit_models. *)
Inductive learner : Type := Stacking | StackingExtra | GRF | GWR | RF | XGB | LR.
Definition learners : list learner := [Stacking; StackingExtra; GRF; GWR; RF; XGB; LR].

(** Keys of the scores noted after the fit to the training data, and of its duration
    (lines 64-66, 88-90, 111-112, 133-134, 155-156, 183-184).  Nothing is noted of XGB. *)
Definition score_keys (l : learner) : list string :=
  match l with
  | Stacking => ["Stacking_Base"; "Stacking"]
  | StackingExtra => ["Stacking_Extra_Base"; "Stacking_Extra"]
  | GRF => ["GRF"]
  | GWR => ["GWR"]
  | RF => ["RF"]
  | XGB => []
  | LR => ["LR"]
  end.
Definition time_keys (l : learner) : list string :=
  match l with
  | Stacking => ["Stacking_Time"]
  | StackingExtra => ["Stacking_Extra_Time"]
  | GRF => ["GRF_Time"]
  | GWR => ["GWR_Time"]
  | RF => ["RF_Time"]
  | XGB => []
  | LR => ["LR_Time"]
  end.

Section Robust.
  Variable I : Type.
  (** The seven objects, random numbers, files. *)
  Variable world : Type.
  (** Fitting a model to the training data: the scores read afterwards (attributes of the
      object; for LR [score(X_plus, y)]) and the duration. *)
  Variable fit_train : learner -> world -> world * result (list ext * R).
  (** Predictions for the test data: [predict_by_fit] of the local models, else [predict]. *)
  Variable predict_test : learner -> world -> world * result (list R).
  (** The fit to the test data and the scores printed afterwards. *)
  Variable fit_test : learner -> world -> world * result unit.
  Variable y_test : list R.

  (** [result[k] = v] for keys and values in turn. *)
  Definition note (d : dict I) (keys : list string) (values : list ext) : dict I :=
    fold_left (fun d kv => dict_set d (fst kv) (Num (snd kv))) (combine keys values) d.

  (** What is done with one model. *)
  Definition one_model (l : learner) (w : world) (d : dict I) : world * result (dict I) :=
    match fit_train l w with
    | (w, Raise e) => (w, Raise e)
    | (w, Ok (scores, seconds)) =>
      let d := note (note d (score_keys l) scores) (time_keys l) [Fin seconds] in
      match predict_test l w with
      | (w, Raise e) => (w, Raise e)
      | (w, Ok prediction) =>
        match r2_score y_test prediction with
        | Raise e => (w, Raise e)
        | Ok _ =>
          match l with
          | XGB => (w, Ok d)
          | _ => match fit_test l w with
                 | (w, Raise e) => (w, Raise e)
                 | (w, Ok _) => (w, Ok d)
                 end
          end
        end
      end
    end.
  Fixpoint all_models (ls : list learner) (w : world) (d : dict I) : world * result (dict I) :=
    match ls with
    | [] => (w, Ok d)
    | l :: ls => match one_model l w d with
                 | (w, Raise e) => (w, Raise e)
                 | (w, Ok d) => all_models ls w d
                 end
    end.
  (** Lines 26-196 after [np.concatenate]; the file is opened for appending at the end. *)
  Definition robust (w : world) (file : list (dict I)) (info : dict I) : world * list (dict I) * result (dict I) :=
    match all_models learners w [] with
    | (w, Raise e) => (w, file, Raise e)
    | (w, Ok d) => let d := dict_update d info in (w, (file ++ [d])%list, Ok d)
    end.
End Robust.

Section Calls.
  Variable obj : Type.
  Notation val := (pyval obj).
  (** The signature of fit_models (lines 26-39): six parameters without default. *)
  Definition fit_models_sig (defaults : string -> val) : signature obj :=
    Sig obj (map (fun k => (k, None)) ["X"; "y"; "points"; "X_test"; "y_test"; "points_test"] ++
             map (fun k => (k, Some (defaults k))) ["stacking_neighbour_count"; "stacking_neighbour_leave_out_rate"; "grf_neighbour_count";
                                                    "grf_n_estimators"; "gwr_neighbour_count"; "rf_n_estimators"; "info"])%list false false.
  (** The keywords used in all calls. *)
  Definition call_keywords (values : string -> val) : Constructor.dict obj :=
    map (fun k => (k, values k)) ["stacking_neighbour_count"; "stacking_neighbour_leave_out_rate"; "grf_neighbour_count";
                                  "grf_n_estimators"; "gwr_neighbour_count"; "rf_n_estimators"; "info"].
  (** [fit_models(X, y, points, ...)] as in square_strong_100 (348-359), square_strong_500,
      square_gau_strong_100 ... _5000, square_gau_weak_100 ... _5000,
      square_2_gau_strong_weak_5000 and interact_ale (897-908). *)
  Definition call_without_test (defaults : string -> val) (X y points : val) (values : string -> val) : result (bound obj) :=
    bind_call obj (fit_models_sig defaults) [X; y; points] (call_keywords values).
  (** [fit_models(X, y, points, X_test, y_test, points_test, ...)] as in square_strong_1000
      (410-422) and square_strong_5000. *)
  Definition call_with_test (defaults : string -> val) (X y points X_test y_test points_test : val) (values : string -> val) : result (bound obj) :=
    bind_call obj (fit_models_sig defaults) [X; y; points; X_test; y_test; points_test] (call_keywords values).
End Calls.
