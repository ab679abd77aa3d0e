(** Model of the constructors of WeightModel (weight_model.py:239-310),
    StackingWeightModel (stacking_model.py:167-228) and StackingEstimator
    (stacking_model.py:1127-1147), of Python's argument binding, and of the parts
    of scikit-learn 1.2's BaseEstimator, RegressorMixin and clone that read the
    signature of a constructor. *)
From Verif.Model Require Import Base.
Open Scope string_scope.
Open Scope nat_scope.
Open Scope list_scope.

(** Python values as far as the constructors look at them; [obj] are all other
    objects (estimators, lists, arrays, ...). *)
Inductive pyval (obj : Type) : Type :=
| VNone
| VBool (b : bool)
| VInt (z : Z)
| VFloat (r : R)
| VObj (o : obj)
| VTuple (l : list (pyval obj))
| VDict (d : list (string * pyval obj)).
Arguments VNone {obj}.
Arguments VBool {obj} b.
Arguments VInt {obj} z.
Arguments VFloat {obj} r.
Arguments VObj {obj} o.
Arguments VTuple {obj} l.
Arguments VDict {obj} d.

Section Constructor.
  Variable obj : Type.
  Notation val := (pyval obj).

  (** A [def]'s parameters after self: name and default; whether it has *args and
      **kwargs. *)
  Record signature : Type := Sig {
    s_params : list (string * option val);
    s_var_positional : bool;
    s_var_keyword : bool
  }.

  (** A dictionary; of several entries for a key the first counts. *)
  Definition dict := list (string * val).
  Fixpoint lookup (k : string) (d : dict) : option val :=
    match d with
    | [] => None
    | (k', v) :: d => if String.eqb k' k then Some v else lookup k d
    end.
  Definition has_key (k : string) (d : dict) : bool := match lookup k d with Some _ => true | None => false end.
  Definition param_names (s : signature) : list string := map fst (s_params s).
  Definition is_param (s : signature) (k : string) : bool := existsb (String.eqb k) (param_names s).

  (** Arguments received by the body. *)
  Record bound : Type := Bound {
    b_named : dict;
    b_args : list val;
    b_kwargs : dict
  }.

  (** Python's rules for a call with positional arguments [pos] and keyword
      arguments [kw]. *)
  Definition bind_call (s : signature) (pos : list val) (kw : dict) : result bound :=
    let n := List.length (s_params s) in
    let by_position := combine (param_names s) pos in
    let extra := skipn n pos in
    let unknown := filter (fun e => negb (is_param s (fst e))) kw in
    if negb (s_var_positional s) && (n <? List.length pos)%nat then Raise TypeError
    else if existsb (fun e => has_key (fst e) by_position) kw then Raise TypeError   (* multiple values *)
    else if negb (s_var_keyword s) && negb (List.length unknown =? 0)%nat then Raise TypeError
    else
      named <- mapM (fun p => match lookup (fst p) by_position with
                              | Some v => Ok (fst p, v)
                              | None => match lookup (fst p) kw with
                                        | Some v => Ok (fst p, v)
                                        | None => match snd p with
                                                  | Some d => Ok (fst p, d)
                                                  | None => Raise TypeError   (* missing *)
                                                  end
                                        end
                              end) (s_params s) ;;
      Ok (Bound named extra unknown).

  Definition arg (b : bound) (k : string) : val := match lookup k (b_named b) with Some v => v | None => VNone end.

  (** weight_model.py:244-259. *)
  Definition weight_model_sig : signature :=
    Sig [("local_estimator", None); ("distance_measure", Some VNone); ("kernel_type", Some VNone); ("distance_ratio", Some VNone);
         ("bandwidth", Some VNone); ("neighbour_count", Some VNone); ("distance_args", Some VNone);
         ("leave_local_out", Some (VBool true)); ("sample_local_rate", Some VNone); ("cache_data", Some (VBool false));
         ("cache_estimator", Some (VBool false)); ("n_jobs", Some VNone); ("n_patches", Some VNone)] true true.

  (** stacking_model.py:168-194. *)
  Definition stacking_sig : signature :=
    Sig [("local_estimator", None); ("distance_measure", Some VNone); ("kernel_type", Some VNone); ("distance_ratio", Some VNone);
         ("bandwidth", Some VNone); ("neighbour_count", Some VNone); ("midpoint", Some VNone); ("distance_args", Some VNone);
         ("leave_local_out", Some (VBool true)); ("sample_local_rate", Some VNone); ("cache_data", Some (VBool false));
         ("cache_estimator", Some (VBool false)); ("n_jobs", Some VNone); ("n_patches", Some VNone);
         ("alpha", Some (VFloat 10)); ("neighbour_leave_out_rate", Some VNone); ("neighbour_leave_out_shrink_rate", Some VNone);
         ("meta_fitting_shrink_rate", Some VNone); ("estimator_sample_rate", Some VNone); ("use_numba", Some (VBool false))] true true.

  (** stacking_model.py:1128. *)
  Definition stacking_estimator_sig : signature := Sig [("meta_estimator", None); ("base_estimators", None)] false false.
  (** stacking_model.py:1144: [def fit(X, y)], called on an instance. *)
  Definition stacking_estimator_fit_sig : signature := Sig [("X", None); ("y", None)] false false.

  Variable cpu_count : nat.

  (** weight_model.py:279-310: the attributes that start as None. *)
  Definition empty_attributes : list string :=
    ["is_fitted_"; "n_features_in_"; "X"; "y"; "N"; "coordinate_vector_list"; "coordinate_vector_dimension_"; "weight_matrix_";
     "neighbour_matrix_"; "local_indices_"; "y_sample_"; "local_estimator_list"; "local_predict_"; "llocv_score_"; "local_residual_";
     "permutation_score_decrease_"; "interaction_matrix_"; "local_partial_"; "feature_partial_"; "local_ice_"; "feature_ice_"].

  (** weight_model.py:244-310: the instance dictionary. *)
  Definition weight_model_init (pos : list val) (kw : dict) : result dict :=
    b <- bind_call weight_model_sig pos kw ;;
    let n_patches := match arg b "n_jobs", arg b "n_patches" with
                     | VNone, VNone => VInt (Z.of_nat cpu_count)
                     | _, p => p
                     end in
    Ok ([("local_estimator", arg b "local_estimator"); ("distance_measure", arg b "distance_measure"); ("kernel_type", arg b "kernel_type");
         ("distance_ratio", arg b "distance_ratio"); ("bandwidth", arg b "bandwidth"); ("neighbour_count", arg b "neighbour_count");
         ("distance_args", arg b "distance_args"); ("leave_local_out", arg b "leave_local_out");
         ("sample_local_rate", arg b "sample_local_rate"); ("cache_data", arg b "cache_data"); ("cache_estimator", arg b "cache_estimator");
         ("n_jobs", arg b "n_jobs"); ("n_patches", n_patches)]
        ++ map (fun a => (a, VNone)) empty_attributes
        ++ [("args", VTuple (b_args b)); ("kwargs", VDict (b_kwargs b))]).

  (** stacking_model.py:168-228. *)
  Definition stacking_init (pos : list val) (kw : dict) : result dict :=
    b <- bind_call stacking_sig pos kw ;;
    let forwarded := ["distance_measure"; "kernel_type"; "distance_ratio"; "bandwidth"; "neighbour_count"; "midpoint"; "distance_args";
                      "leave_local_out"; "sample_local_rate"; "cache_data"; "cache_estimator"; "n_jobs"; "n_patches"] in
    d <- weight_model_init (arg b "local_estimator" :: b_args b) (map (fun k => (k, arg b k)) forwarded ++ b_kwargs b) ;;
    Ok ([("alpha", arg b "alpha"); ("neighbour_leave_out_rate", arg b "neighbour_leave_out_rate");
         ("neighbour_leave_out_shrink_rate", arg b "neighbour_leave_out_shrink_rate"); ("meta_fitting_shrink_rate", arg b "meta_fitting_shrink_rate");
         ("estimator_sample_rate", arg b "estimator_sample_rate"); ("use_numba", arg b "use_numba");
         ("base_estimator_list", VNone); ("meta_estimator_list", VNone); ("stacking_predict_", VNone); ("stacking_scores_", VNone);
         ("llocv_stacking_", VNone)] ++ d).

  (** stacking_model.py:1128-1130. *)
  Definition stacking_estimator_init (pos : list val) (kw : dict) : result dict :=
    b <- bind_call stacking_estimator_sig pos kw ;;
    Ok [("meta_estimator", arg b "meta_estimator"); ("base_estimators", arg b "base_estimators")].

  (** Classes with an __init__ of their own, and the methods they have. *)
  Inductive cls : Type := CWeightModel | CStackingWeightModel | CStackingEstimator.
  Definition class_sig (c : cls) : signature :=
    match c with CWeightModel => weight_model_sig | CStackingWeightModel => stacking_sig | CStackingEstimator => stacking_estimator_sig end.
  Definition construct (c : cls) (pos : list val) (kw : dict) : result dict :=
    match c with
    | CWeightModel => weight_model_init pos kw
    | CStackingWeightModel => stacking_init pos kw
    | CStackingEstimator => stacking_estimator_init pos kw
    end.
  (** Methods defined in weight_model.py, stacking_model.py. *)
  Definition methods (c : cls) : list string :=
    match c with
    | CWeightModel | CStackingWeightModel =>
      (* log_stacking_before_fitting only in the second *)
      ["fit"; "predict_by_weight"; "predict_by_fit"; "importance_score_local"; "importance_score_global"; "interaction_score_global";
       "partial_dependence"; "local_ICE"; "local_ALE"; "global_ALE"; "log_before_fitting"; "log_stacking_before_fitting"]
    | CStackingEstimator => ["predict"; "score"; "fit"]
    end.

  (** ** scikit-learn 1.2 *)
  (** BaseEstimator._get_param_names (sorted in sklearn; the order is not modelled). *)
  Definition get_param_names (s : signature) : result (list string) :=
    if s_var_positional s then Raise RuntimeError else Ok (param_names s).

  (** BaseEstimator.get_params(deep=False). *)
  Definition get_params (c : cls) (self : dict) : result dict :=
    names <- get_param_names (class_sig c) ;;
    mapM (fun k => match lookup k self with Some v => Ok (k, v) | None => Raise AttributeError end) names.

  (** BaseEstimator.set_params; only its effect on an object whose parameters can
      be listed is left out ([None]). *)
  Definition set_params (c : cls) (self params : dict) : result (option dict) :=
    if (List.length params =? 0)%nat then Ok (Some self)
    else get_params c self ;;; Ok None.

  (** sklearn.base.clone on an estimator: get_params, clone the values
      ([clone_value]), construct, and compare the parameters ([same]). *)
  Variable clone_value : val -> result val.
  Variable same : val -> val -> bool.
  Definition clone (c : cls) (self : dict) : result dict :=
    ps <- get_params c self ;;
    ps' <- mapM (fun e => v <- clone_value (snd e) ;; Ok (fst e, v)) ps ;;
    d <- construct c [] ps' ;;
    qs <- get_params c d ;;
    if forallb (fun e => match lookup (fst e) qs with Some v => same (snd e) v | None => false end) ps'
    then Ok d else Raise RuntimeError.

  (** repr() of an estimator lists its parameters (sklearn.utils._pprint). *)
  Definition repr_params (c : cls) (self : dict) : result dict := get_params c self.

  (** RegressorMixin.score: [self.predict(X)] first. *)
  Definition regressor_score (c : cls) (rest : result R) : result R :=
    if existsb (String.eqb "predict") (methods c) then rest else Raise AttributeError.

  (** [instance.fit( *pos)] of a StackingEstimator: the function has no self. *)
  Definition stacking_estimator_fit (self : val) (pos : list val) : result val :=
    bind_call stacking_estimator_fit_sig (self :: pos) [] ;;; Ok VNone.
End Constructor.
