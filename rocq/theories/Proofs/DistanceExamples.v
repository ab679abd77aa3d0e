From Coq Require Import Lra Psatz.
From Verif.Model Require Import Base Distance.
From Verif.Spec Require Import DistanceSpec.
From Verif.Proofs Require Import ListFacts SumFacts DistanceFacts.
Open Scope string_scope.
Open Scope nat_scope.
Open Scope R_scope.

Lemma condensed_upper_triangle mkw (sm : string -> option (mkw -> list R -> list R -> R)) kw points n d :
  rect points n d -> (0 < n)%nat ->
  distance_matrix (fun x => x) mkw sm points None "euclidean" kw =
  Ok (A1 (flat_map (fun i => map (fun j => sqrt (sq_dist d (nth i points []) (nth j points [])))
                                 (seq (S i) (n - S i))) (seq 0 n))).
Proof.
  intros HR Hn. unfold distance_matrix. cbn [bind]. simpl String.eqb. cbv iota. unfold metric_fn. simpl String.eqb. cbv iota.
  unfold astype32. rewrite mmap_id, map_id, pdist_flat. destruct HR as [HL HF] eqn:E. clear E. rewrite HL.
  do 2 f_equal. rewrite !flat_map_concat_map. f_equal. apply map_ext_in. intros i Hi. apply in_seq in Hi.
  apply map_ext_in. intros j Hj. apply in_seq in Hj. apply euclid_sq_dist; apply (rect_row points n d); auto; lia.
Qed.

Lemma overwrite_fresh mkw dmet sr fs (c : dask_call mkw) path t f :
  kw_filepath (dc_kw c) = Some path -> dc_target c = Some t -> ncols (dc_source c) = ncols t ->
  dmet (dc_metric c) = Some f -> kw_overwrite (dc_kw c) = true ->
  exists fs' r, perform mkw dmet sr fs c = (fs', Ok r) /\
    result_matrix r = cdist f (dc_source c) t /\ fs' (zarr_path path) = Some (cdist f (dc_source c) t).
Proof.
  intros H1 H2 H3 H4 H5. apply (perform_fresh mkw dmet sr fs c path t f); auto. apply sorted_path_differs.
Qed.

Definition ex_pts : coords := [[0; 0]; [3; 4]].
Lemma ex_pts_ok :
  rect ex_pts 2 2 /\
  distance_matrix (fun x => x) unit (fun _ => None) ex_pts (Some ex_pts) "euclidean" tt = Ok (A2 [[0; 5]; [5; 0]]).
Proof.
  split; [split; [reflexivity|repeat constructor]|].
  rewrite (distance_matrix_euclid _ unit (fun _ => None) ex_pts ex_pts tt 2); [|split; [reflexivity|repeat constructor]..|simpl; lia|simpl; lia].
  rewrite !mmap_id. unfold cdist, ex_pts, euclid; cbn [map map2]. unfold Rsum; cbn [fold_right].
  assert (H0 : forall x, x = 0 -> sqrt x = 0) by (intros x ->; apply sqrt_0).
  assert (H5 : forall x, x = 5 * 5 -> sqrt x = 5) by (intros x ->; apply sqrt_square; lra).
  assert (E : forall a b c d : R, a = 0 -> b = 5 -> c = 5 -> d = 0 -> Ok (A2 [[a; b]; [c; d]]) = Ok (A2 [[0; 5]; [5; 0]]))
    by (intros; subst; reflexivity).
  apply E; [apply H0; ring|apply H5; ring|apply H5; ring|apply H0; ring].
Qed.

Lemma ex_poles a b : great_circle (a, 90) (b, -90) = 6371 * PI.
Proof.
  rewrite great_circle_acos. f_equal. unfold dot3, sphere; cbn [fst snd].
  replace (degrees 90) with (PI / 2) by (unfold degrees; field).
  replace (degrees (-90)) with (- (PI / 2)) by (unfold degrees; field).
  rewrite cos_neg, sin_neg, cos_PI2, sin_PI2.
  match goal with |- acos ?x = _ => replace x with (Ropp 1) by ring end. rewrite acos_opp, acos_1. lra.
Qed.
Lemma ex_equator : great_circle (0, 0) (90, 0) = 6371 * (PI / 2).
Proof.
  rewrite great_circle_acos. f_equal. unfold dot3, sphere; cbn [fst snd].
  replace (degrees 90) with (PI / 2) by (unfold degrees; field).
  replace (degrees 0) with 0 by (unfold degrees; field).
  rewrite sin_0, cos_0, cos_PI2, sin_PI2.
  match goal with |- acos ?x = _ => replace x with 0 by ring end. apply acos_0.
Qed.

Lemma ex_two_dims :
  exists Ds, distance_matrices (fun x => x) unit tt (fun _ => None) [ex_pts; [[0]; [1]]]
     (Some [[[1; 1]]; [[2]]]) (Scalar "euclidean") None = Ok Ds.
Proof.
  apply dms_ok; auto. intros dim s t Hs Ht.
  destruct dim as [|[|dim]]; simpl in *; [inversion Hs; inversion Ht; reflexivity..|destruct dim; discriminate].
Qed.
Lemma ex_mismatch :
  raises (distance_matrices (fun x => x) unit tt (fun _ => None) [ex_pts] (Some [[[1]]]) (Scalar "euclidean") None).
Proof. apply (dms_dimension _ _ _ _ _ _ _ _ 0%nat ex_pts [[1]]); simpl; auto. unfold ncols; simpl; lia. Qed.

Definition ex_dmet (s : string) : option (list R -> list R -> R) :=
  if String.eqb s "euclidean" then Some euclid else None.
Definition ex_call (x : R) : dask_call unit :=
  DaskCall [[x]] (Some [[0]]) "euclidean" false (Kwargs (Some "d") false tt).
Lemma euclid_1 x : 0 <= x -> cdist euclid [[x]] [[0]] = [[x]].
Proof.
  intros H. unfold cdist, euclid; cbn [map map2]. unfold Rsum; cbn [fold_right].
  do 2 f_equal. replace ((x - 0) * (x - 0) + 0) with (x * x) by ring. apply sqrt_square; auto.
Qed.
Lemma ex_stale :
  snd (perform_all unit ex_dmet (fun r => r) (fun _ => None) [ex_call 1; ex_call 2]) =
    [Ok (DaskMatrix [[1]]); Ok (DaskMatrix [[1]])] /\
  cdist euclid (dc_source (ex_call 2)) [[0]] = [[2]].
Proof.
  split; [|apply euclid_1; lra].
  assert (HC : forall x, cacheable unit (ex_call x) "d").
  { intros x. split; [reflexivity|split; [reflexivity|]]. intros t Ht. inversion Ht. reflexivity. }
  destruct (perform_fresh unit ex_dmet (fun r => r) (fun _ => None) (ex_call 1) "d" [[0]] euclid) as (fs' & r & E & Er & Ef);
    try reflexivity; [apply sorted_path_differs|right; reflexivity|].
  cbn [perform_all]. rewrite E, (perform_cached _ _ _ _ _ _ _ (HC 2) Ef). cbn [snd].
  unfold perform, distance_matrix_dask in E. cbn in E. inversion E. subst r.
  change [[euclid [1] [0]]] with (cdist euclid [[1]] [[0]]).
  change (dc_source (ex_call 1)) with [[1]]. rewrite euclid_1 by lra. reflexivity.
Qed.
