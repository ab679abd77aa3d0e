(** C183: the parameter search of the experiment scripts.  Fitting is an arbitrary
    function of the random state, the data (with or without the coordinates as features)
    and the parameters, and may raise. *)
From Coq Require Import Lra Lia.
From Verif.Model Require Import Base Ext GridSearch.
From Verif.Spec Require Import GridSearchSpec.
From Verif.Proofs Require Import KernelFacts GridSearchProps.
Open Scope nat_scope.
Open Scope list_scope.

(** A search that finishes appends one line per model and combination to
    simulation_params.jsonl, in the order of the grid, and the best line of each model to
    simulation_param_best.jsonl: the first of those with the highest score, unless the
    very first score is not a number; then that line. *)
Theorem C183_lines :
  forall (count rate tag G : Type) weight_fit stacking_fit (g : G) fs (stacking_counts : list count) (rates : list rate) grf_counts gwr_counts (t : tag) g' fs',
  test_models count rate tag G weight_fit stacking_fit data_as_labelled g fs stacking_counts rates grf_counts gwr_counts t = (g', fs', Ok tt) ->
  exists st gf gw b1 b2 b3,
    stacking_grid stacking_fit stacking_counts rates st /\ weight_grid weight_fit GRF grf_counts gf /\ weight_grid weight_fit GWR gwr_counts gw /\
    params_file _ _ _ fs' = params_file _ _ _ fs ++ map (fun e => (e, t)) (st ++ gf ++ gw) /\
    best_file _ _ _ fs' = best_file _ _ _ fs ++ map (fun e => (e, t)) [b1; b2; b3] /\
    forall es b, In (es, b) [(st, b1); (gf, b2); (gw, b3)] ->
      exists a l, es = a :: l /\ (e_score _ _ a <> NaN -> first_best es b) /\ (e_score _ _ a = NaN -> b = a).
Proof. exact @search_ok. Qed.
Print Assumptions C183_lines.

(** Relied on: what has been computed is in the files when a later fit fails.  False:
    then both files are as before the search. *)
Theorem C183_failure_refuted :
  forall (count rate tag G : Type) weight_fit stacking_fit data (g : G) fs (stacking_counts : list count) (rates : list rate) grf_counts gwr_counts (t : tag) g' fs' x,
  test_models count rate tag G weight_fit stacking_fit data g fs stacking_counts rates grf_counts gwr_counts t = (g', fs', Raise x) ->
  stacking_counts <> [] -> rates <> [] -> grf_counts <> [] -> gwr_counts <> [] -> fs' = fs.
Proof. exact @search_raises. Qed.
Print Assumptions C183_failure_refuted.

(** Relied on: an empty list of parameters leaves a model out of the search.  False: all
    other fits are done and listed, but no best line is written and ValueError raised. *)
Theorem C183_leaving_out_a_model_refuted :
  forall (count rate tag G : Type) weight_fit stacking_fit data (g : G) fs (stacking_counts : list count) (rates : list rate) grf_counts gwr_counts (t : tag),
  (forall f h p n, exists h' s, weight_fit f h p n = (h', Ok s)) -> (forall h p n q, exists h' s, stacking_fit h p n q = (h', Ok s)) ->
  stacking_counts = [] \/ rates = [] \/ grf_counts = [] \/ gwr_counts = [] ->
  exists g' fs' ls, test_models count rate tag G weight_fit stacking_fit data g fs stacking_counts rates grf_counts gwr_counts t = (g', fs', Raise ValueError) /\
    params_file _ _ _ fs' = params_file _ _ _ fs ++ ls /\
    List.length ls = 2 * List.length stacking_counts * List.length rates + 2 * List.length grf_counts + 2 * List.length gwr_counts /\
    best_file _ _ _ fs' = best_file _ _ _ fs.
Proof. exact @search_empty. Qed.
Print Assumptions C183_leaving_out_a_model_refuted.

(** Relied on: in simulation_for_data_size.py the lines labelled use_x_plus = False are
    of models without the coordinates among their features.  False for the two weight
    models: the result of the search does not depend on such fits ... *)
Theorem C183_label_refuted :
  forall (count rate tag G : Type) weight_fit weight_fit' stacking_fit g fs (stacking_counts : list count) (rates : list rate) grf_counts gwr_counts (t : tag),
  (forall f (h : G) (n : count), weight_fit f h true n = weight_fit' f h true n) ->
  test_models count rate tag G weight_fit stacking_fit data_always_plus g fs stacking_counts rates grf_counts gwr_counts t =
  test_models count rate tag G weight_fit' stacking_fit data_always_plus g fs stacking_counts rates grf_counts gwr_counts t.
Proof. exact @always_plus. Qed.
Print Assumptions C183_label_refuted.

(** ... and where fitting is deterministic each pair of labels has the same score. *)
Theorem C183_label_scores :
  forall (count rate G : Type) weight_fit (h : count -> ext) f (g : G) g' counts es,
  (forall (g : G) n g1 r, weight_fit f g true n = (g1, r) -> r = Ok (h n)) ->
  test_weight count rate G weight_fit f data_always_plus g counts = (g', Ok es) ->
  forall k, k < List.length counts -> exists e e', nth_error es k = Some e /\ nth_error es (List.length counts + k) = Some e' /\
    e_plus _ _ e = true /\ e_plus _ _ e' = false /\ e_score _ _ e = e_score _ _ e'.
Proof. exact @same_scores. Qed.
Print Assumptions C183_label_scores.

(** Searches that finish and that fail. *)
Example C183_example : let fs := {| params_file := []; best_file := [] |} in
  (exists g' fs', test_models nat nat unit nat g_weight g_stacking data_as_labelled 0 fs [1; 2] [3] [1; 2] [4] tt = (g', fs', Ok tt)) /\
  (exists g' fs', test_models nat nat unit nat g_weight g_stacking data_as_labelled 0 fs [1; 2] [3] [1; 2] [4; 0] tt = (g', fs', Raise ValueError)) /\
  (exists g' es, test_weight nat nat nat g_weight GWR data_always_plus 0 [1; 2] = (g', Ok es)) /\
  (forall h p n q, exists h' s, g_stacking h p n q = (h', Ok s)) /\
  (forall g n, n <> 0 -> exists g1, g_weight GWR g true n = (g1, Ok (Fin (INR n)))).
Proof.
  cbv zeta. split; [do 2 eexists; reflexivity|]. split; [do 2 eexists; reflexivity|]. split; [do 2 eexists; reflexivity|].
  split; [intros; do 2 eexists; reflexivity|]. intros g n Hn. eexists. unfold g_weight. destruct (n =? 0) eqn:E; [apply Nat.eqb_eq in E; lia|]. reflexivity.
Qed.
