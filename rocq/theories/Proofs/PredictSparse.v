From Coq Require Import Lra Psatz Sorting.Sorted.
From Verif.Model Require Import Base Ext Sort Kernel Distance WeightMatrix Csr Neighbour WeightModel.
From Verif.Spec Require Import KernelSpec WeightSpec NeighbourSpec WeightModelSpec.
From Verif.Proofs Require Import ListFacts SumFacts KernelFacts SortFacts WeightFacts WeightProps WeightRaises WeightExamples DistanceFacts CsrFacts NeighbourFacts ShrinkFacts SampleFacts WeightModelFacts WeightModelProps FitProps PredictProps StackingCsr NeighbourProps FitExamples.
Open Scope string_scope.
Open Scope nat_scope.
Open Scope R_scope.

Lemma mapi_filter_crow {A} (d : A) (isz : A -> bool) k row :
  filter (fun e => negb (isz (snd e))) (mapi_from k (fun j v => (j, v)) row) =
  map (fun j => (k + j, nth j row d)%nat) (filter (fun j => negb (isz (nth j row d))) (seq 0 (length row))).
Proof.
  revert k. induction row as [|x row IH]; intros k; [reflexivity|]. cbn [mapi_from filter length seq snd].
  change (nth 0 (x :: row) d) with x. rewrite IH. rewrite <- seq_shift.
  assert (E : filter (fun j => negb (isz (nth j (x :: row) d))) (map S (seq 0 (length row))) =
              map S (filter (fun j => negb (isz (nth j row d))) (seq 0 (length row)))).
  { rewrite filter_map_comm. reflexivity. }
  rewrite E. destruct (negb (isz x)); cbn [map]; rewrite ?map_map.
  - f_equal; [rewrite Nat.add_0_r; reflexivity|]. apply map_ext. intros j. cbn [nth]. f_equal. lia.
  - apply map_ext. intros j. cbn [nth]. f_equal. lia.
Qed.

Lemma csr_of_dense_form W n m : rect W n m -> (0 < n)%nat -> csr_form (Fin 0) eis_zero W m (csr_of_dense W).
Proof.
  intros HR Hn. apply csr_form_eq. unfold csr_of_dense. rewrite (ncols_rect W n m) by auto. f_equal.
  apply map_ext_in. intros row Hin. destruct HR as [_ HF]. rewrite Forall_forall in HF. specialize (HF row Hin).
  unfold mapi, ext_nonzero. rewrite (mapi_filter_crow (Fin 0) eis_zero 0 row). rewrite HF. reflexivity.
Qed.

Lemma form_toarray Wr n m c : rect Wr n m -> csr_form (Fin 0) eis_zero (mmap Fin Wr) m c ->
  c_nrows c = n /\ c_ncols c = m /\ csr_toarray c = mmap Fin Wr.
Proof.
  intros HR Hc. assert (HR' : rect (mmap Fin Wr) n m) by (apply rect_mmap; auto). assert (EL : length (mmap Fin Wr) = n) by apply HR'.
  pose proof (form_nrows _ _ _ _ _ Hc) as Hr. rewrite EL in Hr. split; auto.
  assert (Hcc : c_ncols c = m) by (rewrite csr_form_eq in Hc; subst c; reflexivity). split; auto.
  unfold csr_toarray. rewrite Hr, Hcc. apply (list_eq_nth []).
  { unfold mtab. rewrite tabulate_length. lia. }
  intros i Hi. unfold mtab in *. rewrite tabulate_length in Hi. rewrite tabulate_nth by auto.
  apply (list_eq_nth (Fin 0)).
  { rewrite tabulate_length. symmetry. apply (rect_row _ n m); auto. }
  intros j Hj. rewrite tabulate_length in Hj. rewrite tabulate_nth by auto.
  rewrite csr_form_eq in Hc. subst c. rewrite row_indices_of_rows, row_data_of_rows by (rewrite map_length; lia).
  rewrite combine_fst_snd. rewrite (nth_map_in _ _ _ []) by lia. rewrite crow_pick by auto.
  assert (Hg : nth j (nth i (mmap Fin Wr) []) (Fin 0) = Fin (mget 0 Wr i j)).
  { change (mget (Fin 0) (mmap Fin Wr) i j = Fin (mget 0 Wr i j)). apply (mmap_get Fin Wr 0 (Fin 0) n m); auto. }
  rewrite Hg. simpl. destruct (Reqb (mget 0 Wr i j) 0) eqn:E; simpl.
  - apply Reqb_true in E. rewrite E. reflexivity.
  - unfold esum. simpl. f_equal. lra.
Qed.

Section Predict.
  Variable est : Type.
  Variable fit_est : nat -> matrix R -> list R -> list ext -> result est.
  Variable predict_est : est -> matrix R -> result (list R).
  Variable cpu : nat.

  (** predict_by_weight with a weight matrix object of either kind. *)
  Lemma pbw_either wm c fs fs' s X v t es preds Wr m n w :
    cache_data c = true -> cache_estimator c = true ->
    local_estimators est s = Some (map Some es) -> data_coords est s = Some t ->
    wm fs v t = (fs', Ok w) -> rect Wr m n -> (0 < m)%nat -> (0 < n)%nat -> length es = n ->
    (w = WDense (mmap Fin Wr) \/ exists k, w = WSparse k /\ csr_form (Fin 0) eis_zero (mmap Fin Wr) n k) ->
    Forall2 (fun e p => predict_est e X = Ok p /\ length p = m) es preds ->
    predict_by_weight est predict_est wm c fs s X (Some v) None =
      (fs', Ok (map Fin (tabulate m (fun i => Rsum (tabulate n (fun j => mget 0 Wr i j * nth i (nth j preds []) 0)))))).
  Proof.
    intros H1 H2 Hes Ht Hwm HR Hm Hn Hl Hw Hp.
    set (wm' := fun (_ : filesystem) (_ _ : list coords) => (fs', @Ok weights (WDense (mmap Fin Wr)))).
    rewrite <- (pbw_sum est predict_est wm' c fs fs' s X v t es preds Wr m n); auto.
    unfold predict_by_weight. rewrite H1, H2. cbn [negb orb guard_weights]. destruct (match local_estimators est s with Some _ => _ | None => _ end); auto.
    destruct (_ || _); auto. rewrite Ht, Hwm. unfold wm'. destruct Hw as [->|(k & -> & Hk)]; auto. cbn [w_multiply].
    destruct (form_toarray Wr m n k HR Hk) as (-> & -> & ->).
    assert (HR' : rect (mmap Fin Wr) m n) by (apply rect_mmap; auto).
    rewrite (ncols_rect _ m n HR' Hm). destruct HR' as [-> _]. reflexivity.
  Qed.

  (** predict_by_fit with a CSR matrix of weights. *)
  Lemma pbf_csr wm c order fs fs' s X v t tX ty W m n k :
    cache_data c = true -> (0 < cpu)%nat -> schedule cpu order ->
    data_coords est s = Some t -> data_X est s = Some tX -> data_y est s = Some ty ->
    wm fs t v = (fs', Ok (WSparse k)) -> csr_form (Fin 0) eis_zero W m k -> rect W n m ->
    length tX = n -> length ty = n -> length X = m ->
    let T i := filter (fun j => negb (eis_zero (mget (Fin 0) W i j))) (seq 0 m) in
    forall out, snd (predict_by_fit est fit_est predict_est cpu wm c order fs s X (Some v) None) = Ok out <->
      (m <= n)%nat /\ length out = m /\ forall i, (i < m)%nat ->
        exists e, fit_est i (map (fun j => nth j tX []) (T i)) (map (fun j => nth j ty 0) (T i)) (map (fun j => mget (Fin 0) W i j) (T i)) = Ok e /\
          predict_est e [nth i X []] = Ok (nth i out []).
  Proof.
    intros H1 Hcpu HS Ht HX Hy Hwm Hk HR HlX Hly HlXn T out.
    assert (EL : length W = n) by apply HR.
    unfold predict_by_fit. rewrite H1. cbn [negb guard_weights]. rewrite Ht, Hwm. cbn [bind w_transpose]. rewrite HX, Hy. cbn [snd].
    assert (Hcc : c_ncols k = m) by (rewrite csr_form_eq in Hk; subst k; reflexivity).
    unfold fit_all. cbn [j_n_jobs j_n_patches]. rewrite Hcc, HlXn.
    set (tk := sparse_task est fit_est predict_est tX ty (seq 0 m) k X false).
    assert (Hip : length (c_indptr k) = S n) by (rewrite csr_form_eq in Hk; subst k; simpl; rewrite indptr_from_length, map_length; lia).
    assert (Hbad : forall i, (n <= i)%nat -> raises (tk i)).
    { intros i Hi. unfold tk, sparse_task. destruct (getitem (seq 0 m) i); cbn [bind]; [|eexists; reflexivity].
      assert (E : exists e, getitem (c_indptr k) (S i) = Raise e).
      { unfold getitem. rewrite (proj2 (nth_error_None (c_indptr k) (S i))) by lia. eexists; reflexivity. }
      destruct E as [e ->]. eexists; reflexivity. }
    assert (Etk : (m <= n)%nat -> forall i, (i < m)%nat -> forall p e0, tk i = Ok (p, e0) <-> e0 = None /\
        exists e, fit_est i (map (fun j => nth j tX []) (T i)) (map (fun j => nth j ty 0) (T i)) (map (fun j => mget (Fin 0) W i j) (T i)) = Ok e /\
          predict_est e [nth i X []] = Ok p).
    { intros Hmn i Hi p e0. unfold tk, sparse_task.
      rewrite (getitem_lt 0%nat) by (rewrite seq_length; auto). rewrite seq_nth by auto. cbn [bind].
      rewrite (getitem_lt 0%nat) by lia. cbn [bind]. rewrite (getitem_lt (@nil R)) by lia. cbn [bind plus].
      assert (E2 : row_indices (csr_where ext_nonzero k) i = T i).
      { rewrite csr_form_eq in Hk. subst k. unfold csr_where. rewrite csr_rows_of_rows. cbn [c_ncols csr_of_rows].
        rewrite row_indices_of_rows by (rewrite !map_length; lia). rewrite (nth_map_in _ _ _ []) by (rewrite map_length; lia).
        rewrite (nth_map_in _ _ _ []) by lia. unfold crow. rewrite filter_map_comm, map_map. cbn [fst snd].
        rewrite filter_filter, map_map. cbn [fst]. rewrite map_id. unfold T, mget. apply filter_ext. intros j. unfold ext_nonzero.
        destruct (negb (eis_zero (nth j (nth i W []) (Fin 0)))); reflexivity. }
      assert (E3 : row_data k i = map (fun j => mget (Fin 0) W i j) (T i)).
      { rewrite csr_form_eq in Hk. subst k. rewrite row_data_of_rows by (rewrite map_length; lia).
        rewrite (nth_map_in _ _ _ []) by lia. unfold crow, T. rewrite map_map. reflexivity. }
      rewrite E2, E3.
      assert (HTm : forall j, In j (T i) -> (j < m)%nat) by (intros j Hj; apply filter_In in Hj as [Hj _]; apply in_seq in Hj; lia).
      rewrite (take_checked_ok (@nil R)) by (intros j Hj; apply HTm in Hj; lia). cbn [bind].
      rewrite (take_checked_ok 0) by (intros j Hj; apply HTm in Hj; lia). cbn [bind].
      unfold fit_local_estimator, take. split.
      - intros H. apply bind_ok in H as [e [Ha H]]. apply bind_ok in H as [p' [Hb H]]. injection H as <- <-. split; auto. exists e. auto.
      - intros (-> & e & Ha & Hb). rewrite Ha. cbn [bind]. rewrite Hb. reflexivity. }
    assert (G : forall (l : list nat) rs', Forall2 (fun x y => tk x = Ok y) l rs' -> forall i, (i < length l)%nat -> tk (nth i l 0%nat) = Ok (nth i rs' ([], None))).
    { induction 1 as [|x y0 l l' Hxy HF IH]; simpl; intros i0 Hi0; [lia|]. destruct i0; auto. apply IH. lia. }
    split.
    - intros H. apply bind_ok in H as [[a b] [H Ho]]. injection Ho as <-. cbn [fst].
      apply (run_batches_iff order (seq 0 m) cpu tk a b Hcpu HS) in H as (rs & Hm & -> & ->).
      pose proof (mapM_length _ _ _ Hm) as Hlr. rewrite seq_length in Hlr. rewrite map_length. apply mapM_ok_iff in Hm.
      assert (Hti : forall i, (i < m)%nat -> tk i = Ok (nth i rs ([], None))).
      { intros i Hi. specialize (G _ _ Hm i). rewrite seq_length, seq_nth in G by auto. auto. }
      assert (Hmn : (m <= n)%nat).
      { destruct (Nat.le_gt_cases m n) as [|Hgt]; auto. destruct (Hbad n (le_n n)) as [e He]. rewrite (Hti n Hgt) in He. discriminate. }
      split; auto. split; auto. intros i Hi. specialize (Hti i Hi).
      rewrite (nth_map_in _ _ _ ([], None)) by lia.
      destruct (nth i rs ([], None)) as [p e0] eqn:En. apply Etk in Hti as [_ Hti]; auto.
    - intros (Hmn & Hlo & Hi).
      assert (Hm : mapM tk (seq 0 m) = Ok (map (fun p => (p, None)) out)).
      { apply mapM_ok_iff. apply (Forall2_nth_intro _ _ _ 0%nat ([], None)); [rewrite map_length, seq_length; auto|].
        intros i Hil. rewrite seq_length in Hil. rewrite seq_nth by auto. rewrite (nth_map_in _ _ _ []) by lia. simpl.
        apply Etk; auto. }
      rewrite (proj2 (run_batches_iff order (seq 0 m) cpu tk _ _ Hcpu HS) (ex_intro _ _ (conj Hm (conj eq_refl eq_refl)))).
      cbn [bind fst]. rewrite map_map. simpl. rewrite map_id. reflexivity.
  Qed.

  Section Points.
  Variable f32 : R -> R.
  Variable mkw : Type.
  Variable no_kw : mkw.
  Variable sm : string -> option (mkw -> list R -> list R -> R).
  Variable dm : string -> option (list R -> list R -> R).
  Variable sr : list R -> list R.
  Variable dargs : Type.
  Variable truthy : dargs -> bool.
  Variable a : wm_args.
  Notation wmfp fs src tgt o := (weight_matrix_from_points f32 mkw no_kw sm dm sr dargs truthy fs src (Some tgt)
                                  (a_measure a) (a_kernel a) (a_ratio a) (a_bandwidth a) (a_count a) o).
  Notation pw o := (points_weights f32 mkw no_kw sm dm sr dargs truthy a o).

  Lemma pbw_any_points o c fs fs' s X v t es preds Wr m n :
    cache_data c = true -> cache_estimator c = true ->
    local_estimators est s = Some (map Some es) -> data_coords est s = Some t ->
    wmfp fs v t o = (fs', Ok (mmap Fin Wr)) -> rect Wr m n -> (0 < m)%nat -> (0 < n)%nat -> length es = n ->
    Forall2 (fun e p => predict_est e X = Ok p /\ length p = m) es preds ->
    predict_by_weight est predict_est (pw o) c fs s X (Some v) None =
      (fs', Ok (map Fin (tabulate m (fun i => Rsum (tabulate n (fun j => mget 0 Wr i j * nth i (nth j preds []) 0)))))).
  Proof.
    intros H1 H2 Hes Ht HW HR Hm Hn Hl Hp.
    set (b := match o with Some d => truthy d | None => false end).
    apply (pbw_either (pw o) c fs fs' s X v t es preds Wr m n (if b then WSparse (csr_of_dense (mmap Fin Wr)) else WDense (mmap Fin Wr))); auto.
    - unfold points_weights. rewrite HW. cbn [bind]. reflexivity.
    - destruct b; auto. right. eexists. split; [reflexivity|]. apply (csr_of_dense_form _ m n); auto. apply rect_mmap; auto.
  Qed.

  Lemma pbf_dask d c order fs fs' s X v t tX ty W m n :
    truthy d = true ->
    cache_data c = true -> (0 < cpu)%nat -> schedule cpu order ->
    data_coords est s = Some t -> data_X est s = Some tX -> data_y est s = Some ty ->
    wmfp fs t v (Some d) = (fs', Ok W) -> rect W n m -> (0 < n)%nat ->
    length tX = n -> length ty = n -> length X = m ->
    forall out, snd (predict_by_fit est fit_est predict_est cpu (pw (Some d)) c order fs s X (Some v) None) = Ok out <->
      (m <= n)%nat /\ length out = m /\ forall i, (i < m)%nat ->
        exists e T, StronglySorted lt T /\ (forall j, In j T <-> (j < m)%nat /\ eis_zero (mget (Fin 0) W i j) = false) /\
          fit_est i (map (fun j => nth j tX []) T) (map (fun j => nth j ty 0) T) (map (fun j => mget (Fin 0) W i j) T) = Ok e /\
          predict_est e [nth i X []] = Ok (nth i out []).
  Proof.
    intros Hd H1 Hcpu HS Ht HX Hy HW HR Hn HlX Hly HlXn out.
    pose proof (pbf_csr (pw (Some d)) c order fs fs' s X v t tX ty W m n (csr_of_dense W)) as H. cbv zeta in H.
    rewrite H; auto.
    3:{ apply (csr_of_dense_form W n m); auto. }
    2:{ unfold points_weights. rewrite HW. cbn [bind]. rewrite Hd. reflexivity. }
    assert (HT : forall i j, In j (filter (fun j => negb (eis_zero (mget (Fin 0) W i j))) (seq 0 m)) <-> (j < m)%nat /\ eis_zero (mget (Fin 0) W i j) = false).
    { intros i j. rewrite filter_In, in_seq, Bool.negb_true_iff. split; intros [? ?]; split; auto; lia. }
    split; intros (Hmn & Hlo & Hi); (split; [exact Hmn|]); (split; [exact Hlo|]); intros i Him.
    - destruct (Hi i Him) as (e & He & Hpe). eexists e, _. split; [apply filter_sorted, seq_sorted|]. split; [apply (HT i)|]. split; auto.
    - destruct (Hi i Him) as (e & T & Hs & HTT & He & Hpe). exists e. split; auto.
      assert (ET : filter (fun j => negb (eis_zero (mget (Fin 0) W i j))) (seq 0 m) = T).
      { apply StronglySorted_lt_ext; [apply filter_sorted, seq_sorted|auto|]. intros j. rewrite (HT i). symmetry. apply HTT. }
      rewrite ET. exact He.
  Qed.

  Lemma pbf_dask_more d c order fs fs' s X v t tX ty W m n :
    truthy d = true -> (0 < cpu)%nat -> schedule cpu order ->
    data_coords est s = Some t -> data_X est s = Some tX -> data_y est s = Some ty ->
    wmfp fs t v (Some d) = (fs', Ok W) -> rect W n m -> (0 < n)%nat ->
    length tX = n -> length ty = n -> length X = m -> (n < m)%nat ->
    raises (snd (predict_by_fit est fit_est predict_est cpu (pw (Some d)) c order fs s X (Some v) None)).
  Proof.
    intros Hd Hcpu HS Ht HX Hy HW HR Hn HlX Hly HlXn Hmn.
    destruct (cache_data c) eqn:H1.
    - destruct (snd (predict_by_fit est fit_est predict_est cpu (pw (Some d)) c order fs s X (Some v) None)) as [out|e] eqn:E; [|exists e; reflexivity].
      apply (pbf_dask d c order fs fs' s X v t tX ty W m n) in E; auto. destruct E as [E _]. lia.
    - unfold predict_by_fit. rewrite H1. eexists; reflexivity.
  Qed.
  End Points.
End Predict.

(** ** The same weights, computed both ways *)
Definition cityblock_dask (m : string) : option (list R -> list R -> R) :=
  if String.eqb m "cityblock" then Some (fun p q => Rabs (nth 0 p 0 - nth 0 q 0)) else None.
Definition s_wm (o : option unit) :=
  points_weights (fun x => x) unit tt cityblock cityblock_dask (fun r => r) unit (fun _ => true) p_args o.
Definition s_wmfp src tgt (o : option unit) :=
  weight_matrix_from_points (fun x => x) unit tt cityblock cityblock_dask (fun r => r) unit (fun _ => true) no_fs src (Some tgt)
    (a_measure p_args) (a_kernel p_args) (a_ratio p_args) (a_bandwidth p_args) (a_count p_args) o.
Definition s_W : matrix ext := [[Fin 1; Fin 0]; [Fin (1 / 2); Fin (1 / 2)]].
Definition s_fs : filesystem := fs_write no_fs "distance_matrix.zarr" [[1; 3]; [1; 1]].

Lemma s_numpy : s_wmfp p_train p_new None = (no_fs, Ok s_W).
Proof.
  unfold s_wmfp, weight_matrix_from_points.
  change (distance_matrices _ _ _ _ p_train (Some p_new) _ _) with (p_dist p_train p_new). rewrite p_dist_train_new. cbn [bind].
  f_equal. exact box_train_new.
Qed.
Lemma s_dask : s_wmfp p_train p_new (Some tt) = (s_fs, Ok s_W).
Proof.
  unfold s_wmfp, weight_matrix_from_points.
  assert (E : distance_matrices_dask unit tt cityblock_dask (fun r => r) no_fs p_train (Some p_new) (a_measure p_args) = (s_fs, Ok [ [[1; 3]; [1; 1]] ])).
  { unfold distance_matrices_dask. cbn. rabs. unfold s_fs. repeat f_equal; lra. }
  rewrite E. f_equal. cbn [p_args a_kernel a_ratio a_bandwidth a_count].
  rewrite (dask_fixed_agrees [ [[1; 3]; [1; 1]] ] _ _ 2 2); [exact box_train_new|apply valid2; lra|lia| |intros; exact I].
  intros dim b Hb. simpl in Hb. injection Hb as <-. lra.
Qed.

Definition s_pbf (o : option unit) X v :=
  snd (predict_by_fit R wmean_fit wmean_predict 2 (s_wm o) p_cfg [0; 1]%nat no_fs p_state X (Some v) None).

Lemma s_pbf_numpy : s_pbf None [[7]; [8]] p_new = Ok [[1 / 3]; [1]].
Proof.
  unfold s_pbf. apply (pbf_spec R wmean_fit wmean_predict 2 (s_wm None) p_cfg [0; 1]%nat no_fs no_fs p_state [[7]; [8]] p_new p_train [[0]; [2]] [0; 1] s_W 2 2); auto; try lia.
  - apply Permutation_refl.
  - pose proof s_numpy as H. unfold s_wmfp in H. unfold s_wm, points_weights. rewrite H. reflexivity.
  - split; [reflexivity|repeat constructor].
  - split; [reflexivity|]. intros i Hi.
    assert (ET : filter (fun j => negb (eis_zero (mget NaN s_W j 0))) (seq 0 2) = [0; 1]%nat /\
                 filter (fun j => negb (eis_zero (mget NaN s_W j 1))) (seq 0 2) = [1]%nat).
    { unfold mget, eis_zero, s_W. cbn [seq filter nth]. rdec. split; reflexivity. }
    destruct ET as [E0 E1]. apply lt2 in Hi as [-> | ->]; [rewrite E0|rewrite E1].
    + exists (1 / 3). split; [|reflexivity]. unfold wmean_fit, mget. cbn. apply (f_equal Ok). field.
    + exists 1. split; [|reflexivity]. unfold wmean_fit, mget. cbn. apply (f_equal Ok). field.
Qed.

Lemma s_pbf_dask : s_pbf (Some tt) [[7]; [8]] p_new = Ok [[0]; [1 / 2]].
Proof.
  pose proof s_dask as HW. unfold s_wmfp in HW. unfold s_pbf, s_wm.
  pose proof (pbf_dask R wmean_fit wmean_predict 2 (fun x => x) unit tt cityblock cityblock_dask (fun r => r) unit (fun _ => true) p_args tt p_cfg [0; 1]%nat
     no_fs s_fs p_state [[7]; [8]] p_new p_train [[0]; [2]] [0; 1] s_W 2 2) as H.
  apply H; clear H; auto; try lia.
  - apply Permutation_refl.
  - split; [reflexivity|repeat constructor].
  - split; [lia|]. split; [reflexivity|]. intros i Hi. apply lt2 in Hi as [-> | ->].
    + exists 0, [0%nat]. split; [repeat constructor|]. split.
      * intros j. split.
        -- intros [<-|[]]. split; [lia|]. unfold mget, s_W, eis_zero. cbn [nth]. rdec. reflexivity.
        -- intros [Hj Hz]. apply lt2 in Hj as [-> | ->]; [left; reflexivity|]. revert Hz. unfold mget, s_W, eis_zero. cbn [nth]. rdec. discriminate.
      * split; [|reflexivity]. unfold wmean_fit, mget. cbn. apply (f_equal Ok). field.
    + exists (1 / 2), [0; 1]%nat. split; [repeat constructor; lia|]. split.
      * intros j. split.
        -- intros [<-|[<-|[]]]; (split; [lia|]); unfold mget, s_W, eis_zero; cbn [nth]; rdec; reflexivity.
        -- intros [Hj _]. apply lt2 in Hj as [-> | ->]; simpl; auto.
      * split; [|reflexivity]. unfold wmean_fit, mget. cbn. apply (f_equal Ok). field.
Qed.

Lemma dask_predicts_differently :
  exists W, snd (s_wmfp p_train p_new None) = Ok W /\ snd (s_wmfp p_train p_new (Some tt)) = Ok W /\
  exists out out', s_pbf None [[7]; [8]] p_new = Ok out /\ s_pbf (Some tt) [[7]; [8]] p_new = Ok out' /\ out <> out'.
Proof.
  exists s_W. rewrite s_numpy, s_dask. split; [reflexivity|]. split; [reflexivity|].
  exists [[1 / 3]; [1]], [[0]; [1 / 2]]. split; [apply s_pbf_numpy|]. split; [apply s_pbf_dask|].
  intros H. injection H as H _. lra.
Qed.

Lemma s_W_real : s_W = mmap Fin [[1; 0]; [1 / 2; 1 / 2]].
Proof. reflexivity. Qed.
