From Coq Require Import Lra Psatz Sorting.Sorted.
From Verif.Model Require Import Base Ext Sort Kernel Distance WeightMatrix Csr Neighbour WeightModel.
From Verif.Spec Require Import KernelSpec WeightSpec NeighbourSpec WeightModelSpec.
From Verif.Proofs Require Import ListFacts SumFacts KernelFacts SortFacts WeightFacts WeightProps WeightRaises DistanceFacts CsrFacts NeighbourFacts ShrinkFacts SampleFacts WeightModelFacts WeightModelProps FitProps.
Open Scope string_scope.
Open Scope nat_scope.
Open Scope R_scope.

Lemma esum_Fin_map (f : nat -> R) l : esum (map (fun j => Fin (f j)) l) = Fin (Rsum (map f l)).
Proof. rewrite <- esum_Fin, map_map. reflexivity. Qed.

Lemma mapM_Forall2 {A B} (f : A -> result B) l ys : Forall2 (fun x y => f x = Ok y) l ys -> mapM f l = Ok ys.
Proof. apply mapM_ok_iff. Qed.

Lemma convex_bounds (w v : nat -> R) n lo hi :
  (forall j, (j < n)%nat -> 0 <= w j) -> Rsum (tabulate n w) = 1 ->
  (forall j, (j < n)%nat -> w j <> 0 -> lo <= v j <= hi) ->
  lo <= Rsum (tabulate n (fun j => w j * v j)) <= hi.
Proof.
  intros Hw Hs Hv. unfold tabulate in *.
  assert (L : Rsum (map (fun j => w j * lo) (seq 0 n)) = lo) by (rewrite Rsum_map_scal_r, Hs; lra).
  assert (U : Rsum (map (fun j => w j * hi) (seq 0 n)) = hi) by (rewrite Rsum_map_scal_r, Hs; lra).
  split.
  - rewrite <- L at 1. apply Rsum_map_le. intros j Hj. apply in_seq in Hj. specialize (Hw j ltac:(lia)).
    destruct (Req_EM_T (w j) 0) as [E|E]; [rewrite E; lra|]. apply Rmult_le_compat_l; [auto|]. apply (Hv j); auto; lia.
  - rewrite <- U. apply Rsum_map_le. intros j Hj. apply in_seq in Hj. specialize (Hw j ltac:(lia)).
    destruct (Req_EM_T (w j) 0) as [E|E]; [rewrite E; lra|]. apply Rmult_le_compat_l; [auto|]. apply (Hv j); auto; lia.
Qed.

Lemma single_bandwidth p d b : (forall b', p <> FixedBandwidth b') -> row_bandwidth p [d] b -> b = d.
Proof.
  assert (K : forall k v, kth_smallest [d] k v -> v = d) by (intros k v [[H|[]] _]; auto).
  destruct p as [b0|z|q]; simpl; intros Hp H.
  - exfalso. apply (Hp b0); auto.
  - destruct H as (_ & _ & H). eauto.
  - destruct H as (_ & _ & H1 & H2 & _). simpl in *.
    destruct (Rlt_dec ((1 + 1 / 3) * q + 1 / 3) 1) as [H|H]; [apply K in H1; auto|]. apply (K 1%nat). apply H2. lra.
Qed.

Lemma filter_nil {A} (f : A -> bool) l : (forall x, In x l -> f x = false) -> filter f l = [].
Proof. induction l as [|x l IH]; simpl; intros H; auto. rewrite H by auto. apply IH. auto. Qed.

Section Predict.
  Variable est : Type.
  Variable fit_est : nat -> matrix R -> list R -> list ext -> result est.
  Variable predict_est : est -> matrix R -> result (list R).
  Variable cpu : nat.

  Notation pbw wm := (predict_by_weight est predict_est wm).
  Notation pbf wm := (predict_by_fit est fit_est predict_est cpu wm).

  Section Any.
  Variable wm : filesystem -> list coords -> list coords -> filesystem * result weights.

  (** ** C44 *)
  Lemma pbw_sum c fs fs' s X v t es preds Wr m n :
    cache_data c = true -> cache_estimator c = true ->
    local_estimators est s = Some (map Some es) -> data_coords est s = Some t ->
    wm fs v t = (fs', Ok (WDense (mmap Fin Wr))) -> rect Wr m n -> (0 < m)%nat -> (0 < n)%nat -> length es = n ->
    Forall2 (fun e p => predict_est e X = Ok p /\ length p = m) es preds ->
    pbw wm c fs s X (Some v) None =
      (fs', Ok (map Fin (tabulate m (fun i => Rsum (tabulate n (fun j => mget 0 Wr i j * nth i (nth j preds []) 0)))))).
  Proof.
    intros H1 H2 Hes Ht Hwm HR Hm Hn Hl Hp. unfold predict_by_weight. rewrite H1, H2. cbn [negb orb guard_weights].
    rewrite Hes, mapM_map.
    rewrite (mapM_Forall2 _ _ preds).
    2:{ clear -Hp. induction Hp as [|e p es' ps' [H _] _ IH]; constructor; auto. }
    pose proof (Forall2_len _ _ _ Hp) as HL.
    assert (HRp : rect preds n m).
    { split; [lia|]. clear -Hp. induction Hp as [|e p es' ps' [_ H] _ IH]; constructor; auto. }
    assert (Hnc : ncols preds = m).
    { apply (ncols_rect _ n m); auto. }
    rewrite Hnc. destruct (Nat.eqb_spec (length preds) 0) as [|_]; [lia|]. cbn [orb].
    assert (Hf : forallb (fun p : list R => (length p =? m)%nat) preds = true).
    { apply forallb_forall. intros p Hin. apply Nat.eqb_eq. destruct HRp as [_ HF]. rewrite Forall_forall in HF. auto. }
    rewrite Hf. cbn [negb]. rewrite Ht, Hwm. f_equal.
    assert (HR' : rect (mmap Fin Wr) m n) by (apply rect_mmap; auto).
    assert (EL : length (mmap Fin Wr) = m) by apply HR'.
    assert (EC : ncols (mmap Fin Wr) = n).
    { apply (ncols_rect _ m n); auto. }
    cbn [w_multiply]. rewrite EL, EC. assert (EP : length preds = n) by apply HRp. rewrite EP.
    unfold broadcast2, bc_dim. rewrite !Nat.eqb_refl. cbn [bind]. f_equal.
    unfold mtab. rewrite map_tabulate. rewrite map_tabulate. apply tabulate_ext. intros i Hi.
    rewrite <- esum_Fin. f_equal. rewrite map_tabulate. apply tabulate_ext. intros j Hj.
    assert (B1 : forall k i, (i < k)%nat -> bc_index k i = i).
    { intros k i0 Hk. unfold bc_index. destruct (Nat.eqb_spec k 1); auto. lia. }
    rewrite !B1 by auto. rewrite (mmap_get Fin Wr 0 NaN m n) by auto.
    rewrite (transpose_get 0 preds n m) by auto. reflexivity.
  Qed.

  (** Fewer local models than training coordinates. *)
  Lemma pbw_sampled_raises c fs s X v t es W m n :
    cache_data c = true -> cache_estimator c = true ->
    local_estimators est s = Some es -> data_coords est s = Some t ->
    snd (wm fs v t) = Ok (WDense W) -> rect W m n -> (0 < m)%nat -> (1 < n)%nat ->
    (1 < length es)%nat -> length es <> n ->
    raises (snd (pbw wm c fs s X (Some v) None)).
  Proof.
    intros H1 H2 Hes Ht Hwm HR Hm Hn He Hne. unfold predict_by_weight. rewrite H1, H2. cbn [negb orb guard_weights].
    rewrite Hes. destruct (mapM _ es) as [preds|e] eqn:Em; [|eexists; reflexivity].
    apply mapM_length in Em. rewrite Ht. destruct (wm fs v t) as [fs' r]. simpl in Hwm. subst r.
    destruct ((length preds =? 0)%nat || negb (forallb (fun p : list R => (length p =? ncols preds)%nat) preds)); [eexists; reflexivity|].
    assert (EL : length W = m) by apply HR.
    assert (EC : ncols W = n) by (apply (ncols_rect _ m n); auto).
    cbn [w_multiply]. rewrite EL, EC. unfold broadcast2, bc_dim.
    assert (E1 : (n =? length preds)%nat = false) by (apply Nat.eqb_neq; lia).
    assert (E2 : (n =? 1)%nat = false) by (apply Nat.eqb_neq; lia).
    assert (E3 : (length preds =? 1)%nat = false) by (apply Nat.eqb_neq; lia).
    rewrite E1, E2, E3. destruct (if (m =? ncols preds)%nat then _ else _); eexists; reflexivity.
  Qed.

  Lemma pbw_sampled_raises_sparse c fs s X v t es k :
    cache_data c = true -> cache_estimator c = true ->
    local_estimators est s = Some es -> data_coords est s = Some t ->
    snd (wm fs v t) = Ok (WSparse k) -> (1 < c_ncols k)%nat ->
    (1 < length es)%nat -> length es <> c_ncols k ->
    raises (snd (pbw wm c fs s X (Some v) None)).
  Proof.
    intros H1 H2 Hes Ht Hwm Hn He Hne. unfold predict_by_weight. rewrite H1, H2. cbn [negb orb guard_weights].
    rewrite Hes. destruct (mapM _ es) as [preds|e] eqn:Em; [|eexists; reflexivity].
    apply mapM_length in Em. rewrite Ht. destruct (wm fs v t) as [fs' r]. simpl in Hwm. subst r.
    destruct ((length preds =? 0)%nat || negb (forallb (fun p : list R => (length p =? ncols preds)%nat) preds)); [eexists; reflexivity|].
    cbn [w_multiply]. unfold broadcast2, bc_dim.
    assert (E1 : (c_ncols k =? length preds)%nat = false) by (apply Nat.eqb_neq; lia).
    assert (E2 : (c_ncols k =? 1)%nat = false) by (apply Nat.eqb_neq; lia).
    assert (E3 : (length preds =? 1)%nat = false) by (apply Nat.eqb_neq; lia).
    rewrite E1, E2, E3. destruct (if (c_nrows k =? ncols preds)%nat then _ else _); eexists; reflexivity.
  Qed.

  (** ** C45, C48 *)
  Definition more_than_one_element (w : weights) : Prop :=
    match w with
    | WDense m => (1 < length (concat m))%nat
    | WSparse m => (1 < c_nrows m * c_ncols m)%nat
    end.

  Lemma truth_value_raises w : more_than_one_element w -> raises (truth_value w).
  Proof.
    destruct w as [m|m]; simpl.
    - intros H. destruct m as [|[|x [|x2 l]] m].
      + simpl in H; lia.
      + simpl in *. destruct (Nat.eqb_spec (length (concat m)) 0); [lia|]. eexists; reflexivity.
      + destruct m as [|r m]; [simpl in H; lia|]. eexists; reflexivity.
      + eexists; reflexivity.
    - intros H. destruct (Nat.eqb_spec (c_nrows m) 1) as [E1|]; [|eexists; reflexivity].
      destruct (Nat.eqb_spec (c_ncols m) 1) as [E2|]; [rewrite E1, E2 in H; simpl in H; lia|]. eexists; reflexivity.
  Qed.

  Lemma weight_only_raises c order fs s X w : more_than_one_element w ->
    raises (snd (pbw wm c fs s X None (Some w))) /\ raises (snd (pbf wm c order fs s X None (Some w))).
  Proof.
    intros H. destruct (truth_value_raises w H) as [e He]. split.
    - unfold predict_by_weight. destruct (negb (cache_data c) || negb (cache_estimator c)); [eexists; reflexivity|].
      cbn [guard_weights]. rewrite He. eexists; reflexivity.
    - unfold predict_by_fit. destruct (negb (cache_data c)); [eexists; reflexivity|].
      cbn [guard_weights]. rewrite He. eexists; reflexivity.
  Qed.

  Lemma pbw_needs_caches c fs s X v w : cache_data c = false \/ cache_estimator c = false -> raises (snd (pbw wm c fs s X v w)).
  Proof.
    intros H. unfold predict_by_weight. destruct H as [-> | ->]; [|rewrite orb_true_r]; eexists; reflexivity.
  Qed.

  Lemma pbf_needs_cache c order fs s X v w : cache_data c = false -> raises (snd (pbf wm c order fs s X v w)).
  Proof. intros H. unfold predict_by_fit. rewrite H. eexists; reflexivity. Qed.

  (** ** predict_by_fit *)
  (** The model for new point [i], trained on observations with column [i] of
      the training-to-new weights. *)
  Lemma pbf_spec c order fs fs' s X v t tX ty W m n :
    cache_data c = true -> (0 < cpu)%nat -> schedule cpu order ->
    data_coords est s = Some t -> data_X est s = Some tX -> data_y est s = Some ty ->
    wm fs t v = (fs', Ok (WDense W)) -> rect W n m -> (0 < n)%nat -> length tX = n -> length ty = n -> length X = m ->
    let T i := filter (fun j => negb (eis_zero (mget NaN W j i))) (seq 0 n) in
    forall out, snd (pbf wm c order fs s X (Some v) None) = Ok out <->
      length out = m /\ forall i, (i < m)%nat ->
        exists e, fit_est i (map (fun j => nth j tX []) (T i)) (map (fun j => nth j ty 0) (T i)) (map (fun j => mget NaN W j i) (T i)) = Ok e /\
          predict_est e [nth i X []] = Ok (nth i out []).
  Proof.
    intros H1 Hcpu HS Ht HX Hy Hwm HR Hn HlX Hly HlXn T out.
    unfold predict_by_fit. rewrite H1. cbn [negb guard_weights]. rewrite Ht, Hwm. cbn [bind w_transpose]. rewrite HX, Hy. cbn [snd].
    assert (EC : ncols W = m) by (apply (ncols_rect _ n m); auto).
    rewrite EC. set (W' := transpose NaN m W). assert (HR' : rect W' m n) by (apply transpose_rect; auto).
    assert (EL : length W' = m) by apply HR'.
    unfold fit_all. cbn [j_n_jobs j_n_patches w_nrows]. rewrite EL, HlXn.
    set (tk := dense_task est fit_est predict_est tX ty (seq 0 m) W' X false).
    assert (Etk : forall i, (i < m)%nat -> forall p e0, tk i = Ok (p, e0) <-> e0 = None /\
        exists e, fit_est i (map (fun j => nth j tX []) (T i)) (map (fun j => nth j ty 0) (T i)) (map (fun j => mget NaN W j i) (T i)) = Ok e /\
          predict_est e [nth i X []] = Ok p).
    { intros i Hi p e0. unfold tk.
      change (dense_task est fit_est predict_est tX ty (seq 0 m) W' X false i) with (task est fit_est predict_est tX ty (seq 0 m) (WDense W') X false i).
      rewrite (task_simple est fit_est predict_est tX ty n W' (WDense W') n (seq 0 m) X false i i (nth i X []) m); auto;
        try (rewrite (getitem_lt 0%nat) by (rewrite seq_length; auto); rewrite seq_nth by auto; reflexivity);
        try (rewrite (getitem_lt (@nil R)) by lia; reflexivity).
      unfold simple_task.
      assert (Hrow : forall j, (j < n)%nat -> nth j (nth i W' []) (Fin 0) = mget NaN W j i).
      { intros j Hj. unfold W'. rewrite <- (transpose_get NaN W n m i j HR Hi Hj). fold W'. unfold mget.
        apply nth_indep. rewrite (rect_row W' m n); auto. }
      assert (ET : nz (nth i W' []) n = T i).
      { unfold nz, T. apply filter_ext_in. intros j Hj. apply in_seq in Hj. rewrite Hrow by lia. reflexivity. }
      rewrite ET.
      assert (EW : take (Fin 0) (nth i W' []) (T i) = map (fun j => mget NaN W j i) (T i)).
      { unfold take. apply map_ext_in. intros j Hj. apply filter_In in Hj as [Hj _]. apply in_seq in Hj. apply Hrow. lia. }
      rewrite EW. unfold fit_local_estimator, take. split.
      - intros H. apply bind_ok in H as [e [Ha H]]. apply bind_ok in H as [p' [Hb H]]. injection H as <- <-. split; auto. exists e. auto.
      - intros (-> & e & Ha & Hb). rewrite Ha. cbn [bind]. rewrite Hb. reflexivity. }
    split.
    - intros H. apply bind_ok in H as [[a b] [H Ho]]. injection Ho as <-. cbn [fst].
      apply (run_batches_iff order (seq 0 m) cpu tk a b Hcpu HS) in H as (rs & Hm & -> & ->).
      pose proof (mapM_length _ _ _ Hm) as Hlr. rewrite seq_length in Hlr. rewrite map_length. split; auto.
      intros i Hi. apply mapM_ok_iff in Hm.
      assert (Hti : tk i = Ok (nth i rs ([], None))).
      { assert (G : forall (l : list nat) rs', Forall2 (fun x y => tk x = Ok y) l rs' -> forall i, (i < length l)%nat -> tk (nth i l 0%nat) = Ok (nth i rs' ([], None))).
        { induction 1 as [|x y0 l l' Hxy HF IH]; simpl; intros i0 Hi0; [lia|]. destruct i0; auto. apply IH. lia. }
        specialize (G _ _ Hm i). rewrite seq_length, seq_nth in G by auto. auto. }
      rewrite (nth_map_in _ _ _ ([], None)) by lia.
      destruct (nth i rs ([], None)) as [p e0] eqn:En. apply Etk in Hti as [_ Hti]; auto.
    - intros [Hlo Hi].
      assert (Hm : mapM tk (seq 0 m) = Ok (map (fun p => (p, None)) out)).
      { apply mapM_ok_iff. apply (Forall2_nth_intro _ _ _ 0%nat ([], None)); [rewrite map_length, seq_length; auto|].
        intros i Hil. rewrite seq_length in Hil. rewrite seq_nth by auto. rewrite (nth_map_in _ _ _ []) by lia. simpl.
        apply Etk; auto. }
      rewrite (proj2 (run_batches_iff order (seq 0 m) cpu tk _ _ Hcpu HS) (ex_intro _ _ (conj Hm (conj eq_refl eq_refl)))).
      cbn [bind fst]. rewrite map_map. simpl. rewrite map_id. reflexivity.
  Qed.
  End Any.

  (** ** With weights computed from coordinates *)
  Section Points.
  Variable f32 : R -> R.
  Variable mkw : Type.
  Variable no_kw : mkw.
  Variable sm : string -> option (mkw -> list R -> list R -> R).
  Variable dm : string -> option (list R -> list R -> R).
  Variable sr : list R -> list R.
  Variable dargs : Type.
  Variable truthy : dargs -> bool.
  Variable a : wm_args.
  Variable o : option dargs.
  Hypothesis falsy : match o with Some d => truthy d = false | None => True end.
  Hypothesis no_ratio : a_ratio a = RNone.
  Notation pw := (points_weights f32 mkw no_kw sm dm sr dargs truthy a o).

  Lemma pw_eq fs src tgt Ds :
    distance_matrices f32 mkw no_kw sm src (Some tgt) (a_measure a) None = Ok (map A2 Ds) ->
    pw fs src tgt = (fs, w <- weight_matrix_from_distance (map A2 Ds) (a_kernel a) RNone (a_bandwidth a) (a_count a) ;; Ok (WDense w)).
  Proof.
    intros H. unfold points_weights, weight_matrix_from_points. rewrite no_ratio.
    assert (E : match o with Some d => truthy d | None => false end = false) by (destruct o; auto).
    rewrite E, H. cbn [bind]. reflexivity.
  Qed.

  Lemma pbw_points c fs s X v t es preds Ds m n W :
    cache_data c = true -> cache_estimator c = true ->
    local_estimators est s = Some (map Some es) -> data_coords est s = Some t ->
    distance_matrices f32 mkw no_kw sm v (Some t) (a_measure a) None = Ok (map A2 Ds) ->
    valid_distances Ds m n -> (0 < m)%nat -> (0 < n)%nat -> length es = n ->
    Forall2 (fun e p => predict_est e X = Ok p /\ length p = m) es preds ->
    weight_matrix_from_distance (map A2 Ds) (a_kernel a) RNone (a_bandwidth a) (a_count a) = Ok W ->
    exists out, predict_by_weight est predict_est pw c fs s X (Some v) None = (fs, Ok (map Fin out)) /\ length out = m /\
      forall i, (i < m)%nat ->
        (exists w, (forall j, (j < n)%nat -> mget NaN W i j = Fin (w j)) /\
                   nth i out 0 = Rsum (tabulate n (fun j => w j * nth i (nth j preds []) 0))) /\
        ((exists j, (j < n)%nat /\ mget NaN W i j <> Fin 0) ->
         forall lo hi, (forall j, (j < n)%nat -> mget NaN W i j <> Fin 0 -> lo <= nth i (nth j preds []) 0 <= hi) -> lo <= nth i out 0 <= hi) /\
        ((forall j, (j < n)%nat -> mget NaN W i j = Fin 0) -> nth i out 0 = 0).
  Proof.
    intros H1 H2 Hes Ht HD HV Hm Hn Hl Hp HW.
    destruct (wm_stochastic Ds _ _ _ m n W HV Hm HW) as (Wr & -> & HR & HF & _).
    assert (Hget : forall i j, (i < m)%nat -> (j < n)%nat -> mget NaN (mmap Fin Wr) i j = Fin (mget 0 Wr i j)) by (intros; apply (mmap_get Fin Wr 0 NaN m n); auto).
    eexists. split.
    { apply (pbw_sum pw c fs fs s X v t es preds Wr m n H1 H2 Hes Ht); auto. rewrite (pw_eq fs v t Ds HD), HW. reflexivity. }
    rewrite tabulate_length. split; auto. intros i Hi. rewrite tabulate_nth by auto.
    split; [exists (mget 0 Wr i); split; auto|].
    assert (Hrow : nth i Wr [] = tabulate n (mget 0 Wr i)).
    { rewrite (tabulate_of_list 0 (nth i Wr [])) at 1. rewrite (rect_row Wr m n) by auto. reflexivity. }
    assert (HN : normalised_row (nth i Wr [])) by (rewrite Forall_forall in HF; apply HF; apply nth_In; destruct HR; lia).
    destruct HN as [Hb Hsum]. rewrite Hrow in Hb, Hsum. rewrite Forall_forall in Hb.
    split.
    - intros (j & Hj & Hne) lo hi Hv. destruct Hsum as [Hsum|Hz].
      + apply convex_bounds; auto.
        * intros k Hk. apply Hb. apply in_tabulate. exists k. auto.
        * intros k Hk Hk0. apply Hv; auto. rewrite Hget by auto. intros E. injection E. auto.
      + exfalso. apply Hne. rewrite Hget by auto. rewrite Forall_forall in Hz. f_equal. apply Hz. apply in_tabulate. exists j. auto.
    - intros Hz. apply Rsum_zero. intros x Hx. apply in_tabulate in Hx as (j & Hj & <-).
      specialize (Hz j Hj). rewrite Hget in Hz by auto. injection Hz as ->. lra.
  Qed.

  (** C47 *)
  Lemma pbf_points c order fs s X v t tX ty Ds m n W :
    cache_data c = true -> (0 < cpu)%nat -> schedule cpu order ->
    data_coords est s = Some t -> data_X est s = Some tX -> data_y est s = Some ty ->
    distance_matrices f32 mkw no_kw sm t (Some v) (a_measure a) None = Ok (map A2 Ds) ->
    valid_distances Ds n m -> (0 < n)%nat -> length tX = n -> length ty = n -> length X = m ->
    weight_matrix_from_distance (map A2 Ds) (a_kernel a) RNone (a_bandwidth a) (a_count a) = Ok W ->
    exists raw : nat -> nat -> nat -> R,
      (forall dim j i, (dim < length Ds)%nat -> (j < n)%nat -> (i < m)%nat ->
         exists k p, requests (a_kernel a) (a_bandwidth a) (a_count a) dim k p /\ raw_weight k p (nth dim Ds []) j i (raw dim j i)) /\
      let product j i := Rprod (tabulate (length Ds) (fun dim => raw dim j i)) in
      let weight j i := product j i / Rsum (tabulate m (product j)) in
      forall out, snd (predict_by_fit est fit_est predict_est cpu pw c order fs s X (Some v) None) = Ok out <->
        length out = m /\ forall i, (i < m)%nat ->
          exists e T, StronglySorted lt T /\
            (forall j, In j T <-> (j < n)%nat /\ forall dim, (dim < length Ds)%nat -> raw dim j i <> 0) /\
            fit_est i (map (fun j => nth j tX []) T) (map (fun j => nth j ty 0) T) (map (fun j => Fin (weight j i)) T) = Ok e /\
            predict_est e [nth i X []] = Ok (nth i out []).
  Proof.
    intros H1 Hcpu HS Ht HX Hy HD HV Hn HlX Hly HlXn HW.
    destruct (wm_product Ds _ _ _ n m W HV Hn HW) as (HR & raw & Hraw & Hget). exists raw. split; auto.
    cbv zeta. intros out.
    pose proof (pbf_spec pw c order fs fs s X v t tX ty W m n H1 Hcpu HS Ht HX Hy) as HSp. cbv zeta in HSp.
    rewrite HSp; auto; [|rewrite (pw_eq fs t v Ds HD), HW; reflexivity]. clear HSp.
    assert (HT : forall i, (i < m)%nat -> forall j, In j (filter (fun j => negb (eis_zero (mget NaN W j i))) (seq 0 n)) <-> (j < n)%nat /\ forall dim, (dim < length Ds)%nat -> raw dim j i <> 0).
    { intros i Hi j. rewrite filter_In, in_seq. split.
      - intros [Hj Hz]. assert (Hj' : (j < n)%nat) by lia. split; auto. destruct (Hget j i Hj' Hi) as [Hv Hs]. apply Hs.
        intros E. rewrite E in Hz. pose proof eis_zero_0 as E0. rewrite E0 in Hz. discriminate.
      - intros [Hj Hz]. split; [lia|]. destruct (Hget j i Hj Hi) as [Hv Hs]. apply Hs in Hz.
        rewrite Hv in Hz |- *. simpl. destruct (Reqb _ 0) eqn:E; auto. apply Reqb_true in E. exfalso. apply Hz. f_equal. auto. }
    assert (HW' : forall i, (i < m)%nat -> map (fun j => mget NaN W j i) (filter (fun j => negb (eis_zero (mget NaN W j i))) (seq 0 n)) =
       map (fun j => Fin (Rprod (tabulate (length Ds) (fun dim => raw dim j i)) / Rsum (tabulate m (fun i => Rprod (tabulate (length Ds) (fun dim => raw dim j i))))))
           (filter (fun j => negb (eis_zero (mget NaN W j i))) (seq 0 n))).
    { intros i Hi. apply map_ext_in. intros j Hj. assert (Hj2 := Hj). apply HT in Hj as [Hj Hnz]; auto.
      destruct (Hget j i Hj Hi) as [Hv Hs]. apply Hs in Hnz. clear Hs. rewrite Hv in Hnz |- *.
      match goal with |- Fin (if ?d then _ else _) = _ => destruct d as [E|E] end; [exfalso; apply Hnz; reflexivity|reflexivity]. }
    split; intros [Hlo Hi]; (split; [exact Hlo|]); intros i Him.
    - destruct (Hi i Him) as (e & He & Hpe). exists e, (filter (fun j => negb (eis_zero (mget NaN W j i))) (seq 0 n)).
      split; [apply filter_sorted, seq_sorted|]. split; [apply HT; auto|]. split; auto. rewrite <- HW' by auto. exact He.
    - destruct (Hi i Him) as (e & T & Hs & HTT & He & Hpe). exists e. split; auto.
      assert (ET : filter (fun j => negb (eis_zero (mget NaN W j i))) (seq 0 n) = T).
      { apply StronglySorted_lt_ext; [apply filter_sorted, seq_sorted|auto|]. intros j. rewrite HT by auto. symmetry. apply HTT. }
      rewrite HW' by auto. rewrite ET. exact He.
  Qed.

  (** C46: one new point alone, a kernel that vanishes at its own bandwidth. *)
  Lemma pbf_alone c order fs s x v t tX ty Ds n W dim k p :
    cache_data c = true -> (0 < cpu)%nat -> schedule cpu order ->
    data_coords est s = Some t -> data_X est s = Some tX -> data_y est s = Some ty ->
    distance_matrices f32 mkw no_kw sm t (Some v) (a_measure a) None = Ok (map A2 Ds) ->
    valid_distances Ds n 1 -> (0 < n)%nat -> length tX = n -> length ty = n ->
    weight_matrix_from_distance (map A2 Ds) (a_kernel a) RNone (a_bandwidth a) (a_count a) = Ok W ->
    (dim < length Ds)%nat -> requests (a_kernel a) (a_bandwidth a) (a_count a) dim k p ->
    (forall b, p <> FixedBandwidth b) -> vanishing_kernel k ->
    (forall j, (j < n)%nat -> 0 < mget 0 (nth dim Ds []) j 0) ->
    forall out, snd (predict_by_fit est fit_est predict_est cpu pw c order fs s [x] (Some v) None) = Ok out <->
      exists e q, fit_est 0%nat [] [] [] = Ok e /\ predict_est e [x] = Ok q /\ out = [q].
  Proof.
    intros H1 Hcpu HS Ht HX Hy HD HV Hn HlX Hly HW Hdim Hreq Hfix Hvan Hpos out.
    destruct (wm_product Ds _ _ _ n 1 W HV Hn HW) as (HR & raw & Hraw & Hget).
    assert (Hz : forall j, (j < n)%nat -> mget NaN W j 0 = Fin 0).
    { intros j Hj. destruct (Hget j 0%nat Hj ltac:(lia)) as [Hv Hs].
      destruct (Hraw dim j 0%nat Hdim Hj ltac:(lia)) as (k' & p' & Hr' & b & Hb & Hw).
      destruct (requests_fun _ _ _ _ _ _ _ _ Hreq Hr') as [<- <-].
      destruct (valid_nth _ _ _ dim HV Hdim) as [HRd HEd].
      assert (Hrow : nth j (nth dim Ds []) [] = [mget 0 (nth dim Ds []) j 0]).
      { pose proof (rect_row _ _ _ j HRd Hj) as HL. unfold mget. destruct (nth j (nth dim Ds []) []) as [|d0 [|]]; simpl in *; try lia. reflexivity. }
      rewrite Hrow in Hb. assert (Eb : b = mget 0 (nth dim Ds []) j 0) by (apply (single_bandwidth p); auto).
      specialize (Hpos j Hj). destruct Hreq as (_ & Hkn & _).
      apply weighs_iff in Hw; auto; [|lra].
      assert (Hr0 : raw dim j 0%nat = 0).
      { rewrite Hw, Eb. apply kernel_value_support; auto; [lra|]. left. split; auto. lra. }
      match type of Hv with _ = Fin ?e => set (r := e) in Hv; clearbody r end.
      destruct (Req_EM_T r 0) as [->|E]; [exact Hv|]. exfalso. apply (proj1 Hs) in Hr0; auto. rewrite Hv. intros E'. injection E' as ->. auto. }
    pose proof (pbf_spec pw c order fs fs s [x] v t tX ty W 1 n H1 Hcpu HS Ht HX Hy) as HSp. cbv zeta in HSp.
    rewrite HSp; auto; [|rewrite (pw_eq fs t v Ds HD), HW; reflexivity]. clear HSp.
    assert (ET : filter (fun j => negb (eis_zero (mget NaN W j 0))) (seq 0 n) = []).
    { apply filter_nil. intros j Hj. apply in_seq in Hj. rewrite Hz by lia. pose proof eis_zero_0 as E0. rewrite E0. reflexivity. }
    split.
    - intros [Hl Hi]. destruct (Hi 0%nat ltac:(lia)) as (e & He & Hp). rewrite ET in He. simpl in He, Hp.
      destruct out as [|q [|]]; simpl in Hl; try lia. exists e, q. auto.
    - intros (e & q & He & Hq & ->). split; auto. intros i Hi. assert (i = 0%nat) as -> by lia. exists e. rewrite ET. auto.
  Qed.
  End Points.
End Predict.
