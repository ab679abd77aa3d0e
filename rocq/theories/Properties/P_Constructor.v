(** C129-C130: constructing the models and using them from scikit-learn. *)
From Verif.Model Require Import Base Ext Csr Distance WeightModel NumbaImpl Stacking Constructor FitCall.
From Verif.Spec Require Import ConstructorSpec.
From Verif.Proofs Require Import NeighbourProps FitExamples ConstructorProps FitCallProps.
From Coq Require Import Permutation.
Open Scope string_scope.
Open Scope nat_scope.
Open Scope list_scope.

(** A WeightModel call is rejected exactly when a parameter is given twice or the
    estimator is missing. *)
Theorem C129_weight_model_call_accepted : forall (obj : Type) cpu (pos : list (pyval obj)) kw,
  (clash weight_model_parameters pos kw \/ missing weight_model_parameters pos kw -> weight_model_init obj cpu pos kw = Raise TypeError) /\
  (~ clash weight_model_parameters pos kw -> ~ missing weight_model_parameters pos kw -> exists d, weight_model_init obj cpu pos kw = Ok d).
Proof. intros obj cpu pos kw. split; [exact (wm_rejects cpu pos kw)|exact (wm_accepts cpu pos kw)]. Qed.
Print Assumptions C129_weight_model_call_accepted.

(** Every argument is stored under its own name, whether given by position, by
    keyword or by default; the number of patches is replaced only when neither it
    nor the number of jobs is given; nothing is marked as fitted. *)
Theorem C129_weight_model_stores_arguments : forall (obj : Type) cpu (pos : list (pyval obj)) kw d,
  NoDup (map fst kw) -> weight_model_init obj cpu pos kw = Ok d ->
  (forall k v, has_value weight_model_parameters pos kw k v -> k <> "n_patches" -> attribute d k v) /\
  (forall jobs patches, has_value weight_model_parameters pos kw "n_jobs" jobs -> has_value weight_model_parameters pos kw "n_patches" patches ->
     attribute d "n_patches" (match jobs, patches with VNone, VNone => VInt (Z.of_nat cpu) | _, p => p end)) /\
  (forall k, In k results_of_weight_model -> attribute d k VNone) /\
  attribute d "args" (VTuple (skipn 13 pos)) /\
  attribute d "kwargs" (VDict (extra_keywords weight_model_parameters kw)).
Proof. intros obj cpu. exact (wm_stores cpu). Qed.
Print Assumptions C129_weight_model_stores_arguments.

(** The stacking model also rejects every positional argument beyond its twenty
    parameters, although its signature takes them. *)
Theorem C129_stacking_call_accepted : forall (obj : Type) cpu (pos : list (pyval obj)) kw, NoDup (map fst kw) ->
  (clash stacking_parameters pos kw \/ missing stacking_parameters pos kw \/ 20 < List.length pos -> stacking_init obj cpu pos kw = Raise TypeError) /\
  (~ clash stacking_parameters pos kw -> ~ missing stacking_parameters pos kw -> List.length pos <= 20 -> exists d, stacking_init obj cpu pos kw = Ok d).
Proof. intros obj cpu pos kw N. split; [exact (st_rejects cpu pos kw)|exact (st_accepts cpu pos kw N)]. Qed.
Print Assumptions C129_stacking_call_accepted.

Theorem C129_stacking_stores_arguments : forall (obj : Type) cpu (pos : list (pyval obj)) kw d,
  NoDup (map fst kw) -> stacking_init obj cpu pos kw = Ok d ->
  (forall k v, has_value stacking_parameters pos kw k v -> k <> "n_patches" -> k <> "midpoint" -> attribute d k v) /\
  (forall jobs patches, has_value stacking_parameters pos kw "n_jobs" jobs -> has_value stacking_parameters pos kw "n_patches" patches ->
     attribute d "n_patches" (match jobs, patches with VNone, VNone => VInt (Z.of_nat cpu) | _, p => p end)) /\
  (forall k, In k results_of_stacking -> attribute d k VNone) /\
  (forall v, has_value stacking_parameters pos kw "midpoint" v ->
     attribute d "kwargs" (VDict (("midpoint", v) :: extra_keywords stacking_parameters kw))) /\
  attribute d "args" (VTuple []).
Proof. intros obj cpu. exact (st_stores cpu). Qed.
Print Assumptions C129_stacking_stores_arguments.

(** "A misspelt keyword is reported" is false: any call that is accepted stays
    accepted with an unknown keyword added, and builds the same model. *)
Theorem C129_unknown_keyword_reported_refuted : forall (obj : Type) cpu (pos : list (pyval obj)) kw k v, NoDup (map fst kw) -> ~ In k (map fst kw) ->
  (forall d, weight_model_init obj cpu pos kw = Ok d -> ~ In k (map fst (@weight_model_parameters obj)) ->
     exists d', weight_model_init obj cpu pos (kw ++ [(k, v)]) = Ok d' /\ forall a w, a <> "kwargs" -> attribute d' a w <-> attribute d a w) /\
  (forall d, stacking_init obj cpu pos kw = Ok d -> ~ In k (map fst (@stacking_parameters obj)) ->
     exists d', stacking_init obj cpu pos (kw ++ [(k, v)]) = Ok d' /\ forall a w, a <> "kwargs" -> attribute d' a w <-> attribute d a w).
Proof.
  intros obj cpu pos kw k v N m. split; intros d H n.
  - destruct (wm_extra cpu pos kw d k v N H n m) as (d' & E & A). exists d'. split; [exact E|].
    intros a w x. unfold attribute. now rewrite (A a x).
  - destruct (st_extra cpu pos kw d k v N H n m) as (d' & E & A). exists d'. split; [exact E|].
    intros a w x. unfold attribute. now rewrite (A a x).
Qed.
Print Assumptions C129_unknown_keyword_reported_refuted.

(** "midpoint configures the stacking model" is false: models whose parameters
    agree apart from it are the same. *)
Theorem C129_midpoint_has_effect_refuted : forall (obj : Type) cpu (pos pos' : list (pyval obj)) kw kw' d d',
  NoDup (map fst kw) -> NoDup (map fst kw') -> stacking_init obj cpu pos kw = Ok d -> stacking_init obj cpu pos' kw' = Ok d' ->
  same_values stacking_parameters "midpoint" pos pos' kw kw' ->
  forall a v, a <> "kwargs" -> attribute d a v <-> attribute d' a v.
Proof.
  intros obj cpu pos pos' kw kw' d d' N N' H H' S a v n. unfold attribute.
  now rewrite (st_midpoint cpu pos kw d pos' kw' d' N N' H H' S a n).
Qed.
Print Assumptions C129_midpoint_has_effect_refuted.

(** WeightModel(tree, "euclidean", neighbour_count=7, leave_local_outt=False) on
    eight processors: the misspelt keyword leaves leave_local_out on. *)
Example C129_example :
  let pos := [VObj "tree"; VObj "euclidean"] in
  let kw := [("neighbour_count", VInt 7); ("leave_local_outt", VBool false)] in
  NoDup (map fst kw) /\
  exists d, weight_model_init string 8 pos kw = Ok d /\ has_value weight_model_parameters pos kw "neighbour_count" (VInt 7) /\
    attribute d "distance_measure" (VObj "euclidean") /\ attribute d "neighbour_count" (VInt 7) /\
    attribute d "leave_local_out" (VBool true) /\ attribute d "n_patches" (VInt 8) /\
    attribute d "kwargs" (VDict [("leave_local_outt", VBool false)]).
Proof.
  cbv zeta. split; [repeat (constructor; [cbn; intuition discriminate|]); constructor|].
  eexists. split; [reflexivity|]. split; [apply by_keyword with (i := 5) (dflt := Some VNone); cbn; auto|].
  repeat split; reflexivity.
Qed.
(** WeightModel(tree, local_estimator=tree) and WeightModel() *)
Example C129_example_rejected :
  weight_model_init string 8 [VObj "tree"] [("local_estimator", VObj "tree")] = Raise TypeError /\
  weight_model_init string 8 [] [] = Raise TypeError /\
  clash (@weight_model_parameters string) [VObj "tree"] [("local_estimator", VObj "tree")] /\
  missing (@weight_model_parameters string) [] [].
Proof.
  repeat split; try reflexivity.
  - exists 0, "local_estimator", None. cbn. repeat split; auto.
  - exists 0, "local_estimator". cbn. repeat split; auto.
Qed.
(** StackingWeightModel(tree, midpoint=True, n_jobs=2) *)
Example C129_example_stacking :
  exists d, stacking_init string 8 [VObj "tree"] [("midpoint", VBool true); ("n_jobs", VInt 2)] = Ok d /\
    attribute d "n_patches" VNone /\ attribute d "alpha" (VFloat 10) /\ ~ (exists v, attribute d "midpoint" v) /\
    stacking_init string 8 (repeat VNone 21) [] = Raise TypeError /\ (exists d', weight_model_init string 8 (repeat VNone 21) [] = Ok d').
Proof.
  let r := eval vm_compute in (stacking_init string 8 [VObj "tree"] [("midpoint", VBool true); ("n_jobs", VInt 2)]) in
  match r with Ok ?d => exists d end.
  split; [vm_compute; reflexivity|]. split; [reflexivity|]. split; [reflexivity|]. split; [intros (v & E); discriminate|].
  split; [vm_compute; reflexivity|].
  let r := eval vm_compute in (weight_model_init string 8 (repeat VNone 21) []) in match r with Ok ?d => exists d end. vm_compute; reflexivity.
Qed.

(** "Inherits from BaseEstimator to support the scikit-learn workflow" is false
    of both models: whatever they are built from, listing, setting or printing the
    parameters and cloning raise RuntimeError, and score raises AttributeError. *)
Theorem C130_sklearn_workflow_refuted : forall (obj : Type) cpu (clone_value : pyval obj -> result (pyval obj)) same c pos kw d,
  c <> CStackingEstimator -> construct obj cpu c pos kw = Ok d ->
  get_params obj c d = Raise RuntimeError /\
  repr_params obj c d = Raise RuntimeError /\
  clone obj cpu clone_value same c d = Raise RuntimeError /\
  (forall k v more, set_params obj c d ((k, v) :: more) = Raise RuntimeError) /\
  set_params obj c d [] = Ok (Some d) /\
  (forall rest, regressor_score c rest = Raise AttributeError).
Proof. intros obj. exact no_sklearn. Qed.
Print Assumptions C130_sklearn_workflow_refuted.

(** The blended estimator can be listed and cloned, but its fit, being written
    without self, raises TypeError for every number of arguments but one. *)
Theorem C130_stacking_estimator : forall (obj : Type) cpu (clone_value : pyval obj -> result (pyval obj)) same m bs,
  stacking_estimator_init obj [m; bs] [] = Ok [("meta_estimator", m); ("base_estimators", bs)] /\
  get_params obj CStackingEstimator [("meta_estimator", m); ("base_estimators", bs)] = Ok [("meta_estimator", m); ("base_estimators", bs)] /\
  (forall m' bs', clone_value m = Ok m' -> clone_value bs = Ok bs' -> same m' m' = true -> same bs' bs' = true ->
     clone obj cpu clone_value same CStackingEstimator [("meta_estimator", m); ("base_estimators", bs)]
     = Ok [("meta_estimator", m'); ("base_estimators", bs')]) /\
  (forall self pos, stacking_estimator_fit obj self pos = if (List.length pos =? 1)%nat then Ok VNone else Raise TypeError).
Proof.
  intros obj cpu cv same m bs. repeat split; auto.
  - intros m' bs'. exact (stacking_estimator_clone cpu cv same m bs m' bs').
  - exact stacking_estimator_fit_arity.
Qed.
Print Assumptions C130_stacking_estimator.

Example C130_example : exists d d',
  construct string 8 CWeightModel [VObj "tree"] [] = Ok d /\ get_params string CWeightModel d = Raise RuntimeError /\
  construct string 8 CStackingEstimator [VObj "ridge"; VObj "trees"] [] = Ok d' /\
  clone string 8 Ok (fun _ _ => true) CStackingEstimator d' = Ok d' /\
  stacking_estimator_fit string (VObj "self") [VObj "X"; VObj "y"] = Raise TypeError.
Proof. do 2 eexists. split; [reflexivity|]. split; [reflexivity|]. split; [reflexivity|]. split; reflexivity. Qed.

(** "fit takes array-likes, as scikit-learn does" is false of WeightModel: with X a
    nested list fit raises AttributeError before it has read anything or changed the
    object, the weights, the generator or the files, and predict_by_fit, for every
    model and all other arguments, raises (AttributeError if the weight matrix could be
    computed, and the files are then as that left them). *)
Theorem C131_fit_takes_array_likes_refuted :
  forall est fit_est predict_est G choice cpu wm c shown order (g : G) fs (s : state est) m y v W,
  fit_call est fit_est predict_est G choice cpu wm c shown order g fs s (NestedList m) y v W
  = Outcome est G s W g fs (Raise AttributeError) /\
  (forall r, snd (predict_by_fit_call est fit_est predict_est cpu wm c order fs s (NestedList m) v W) <> Ok r) /\
  (forall w, cache_data c = true -> v <> None \/ W = None -> W = Some w \/ W = None /\ (exists t v0 u, data_coords est s = Some t /\ v = Some v0 /\ snd (wm fs t v0) = Ok u) ->
     snd (predict_by_fit_call est fit_est predict_est cpu wm c order fs s (NestedList m) v W) = Raise AttributeError).
Proof. intros. split; [reflexivity|]. split; [apply list_predict_by_fit|apply list_predict_by_fit_error]. Qed.
Print Assumptions C131_fit_takes_array_likes_refuted.

(** With another WeightModel as local estimator fit raises RuntimeError, also before
    anything else: the log message formats it. *)
Theorem C131_nested_models_refuted :
  forall (obj : Type) cores c0 pos kw (d : list (string * pyval obj)) est fit_est predict_est G choice cpu wm c order (g : G) fs (s : state est) m y v W,
  c0 <> CStackingEstimator -> construct obj cores c0 pos kw = Ok d ->
  fit_call est fit_est predict_est G choice cpu wm c (repr_params obj c0 d ;;; Ok tt) order g fs s (NumpyArray m) y v W
  = Outcome est G s W g fs (Raise RuntimeError).
Proof. intros. eapply nested_fit; eauto. Qed.
Print Assumptions C131_nested_models_refuted.

(** An array and a printable estimator are not affected; and predict_by_weight and
    the stacking model's fit do take nested lists, with the same outcome as for the
    array of the same numbers. *)
Theorem C131_arrays_accepted :
  forall est fit_est predict_est G choice cpu wm c order (g : G) fs (s : state est) m y v W,
  fit_call est fit_est predict_est G choice cpu wm c (Ok tt) order g fs s (NumpyArray m) y v W
  = fit est fit_est predict_est G choice cpu wm c order g fs s m y v W /\
  predict_by_fit_call est fit_est predict_est cpu wm c order fs s (NumpyArray m) v W
  = predict_by_fit est fit_est predict_est cpu wm c order fs s m v W.
Proof. intros. split; [reflexivity|apply array_predict_by_fit]. Qed.
Print Assumptions C131_arrays_accepted.

Theorem C131_lists_accepted :
  (forall est (predict_est : est -> matrix R -> result (list R)) wm c fs (s : state est) m v W,
     predict_by_weight_call est predict_est wm c fs s (NestedList m) v W = predict_by_weight est predict_est wm c fs s m v W) /\
  (forall est fit_est predict_est meta fit_meta predict_meta solve G seed0 choice cpu wm r c (g : G) fs (s : sstate est meta) m y v W,
     sfit_call est fit_est predict_est meta fit_meta predict_meta solve G seed0 choice cpu wm r c g fs s (NestedList m) y v W
     = sfit est fit_est predict_est meta fit_meta predict_meta solve G seed0 choice cpu wm r c g fs s m y v W).
Proof. split; reflexivity. Qed.
Print Assumptions C131_lists_accepted.

(** The data of a fit that succeeds with the array; as a list they are rejected. *)
Example C131_example :
  o_result R nat (fit_call R wmean_fit wmean_predict nat first_choice 2 no_wm (cfg true None None None) (Ok tt) [0; 1]%nat 0%nat no_fs s_init
                    (NumpyArray fX) fy None (Some (WDense fW))) = Ok tt /\
  o_result R nat (fit_call R wmean_fit wmean_predict nat first_choice 2 no_wm (cfg true None None None) (Ok tt) [0; 1]%nat 0%nat no_fs s_init
                    (NestedList fX) fy None (Some (WDense fW))) = Raise AttributeError /\
  (exists d, construct string 8 CStackingWeightModel [VObj "tree"] [] = Ok d).
Proof.
  split; [apply fit_ex_ok; [reflexivity|apply fW_holds|apply Permutation_refl]|]. split; [reflexivity|]. eexists. reflexivity.
Qed.
