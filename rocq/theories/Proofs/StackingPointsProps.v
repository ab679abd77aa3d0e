From Coq Require Import Lra Psatz Sorting.Sorted.
From Verif.Model Require Import Base Ext Sort Kernel Distance WeightMatrix Csr Neighbour WeightModel NumbaImpl Stacking StackingPoints.
From Verif.Spec Require Import KernelSpec WeightSpec DistanceSpec NeighbourSpec WeightModelSpec StackingSpec StackingTotalSpec.
From Verif.Proofs Require Import ListFacts SumFacts KernelFacts CsrFacts NeighbourFacts NeighbourProps WeightFacts WeightProps DistanceFacts ShrinkFacts FitProps PredictSparse EndToEnd
  StackingClaims StackingClaims2 StackingClaims3 StackingTotal StackingUsual.
Open Scope nat_scope.
Open Scope R_scope.

Lemma csr_of_real_form W n m : rect W n m -> (0 < n)%nat -> csr_form 0 (fun x => Reqb x 0) W m (csr_of_real W).
Proof.
  intros HR Hn. apply csr_form_eq. unfold csr_of_real. rewrite (ncols_rect W n m) by auto. f_equal.
  apply map_ext_in. intros row Hin. destruct HR as [_ HF]. rewrite Forall_forall in HF. specialize (HF row Hin).
  unfold mapi, Rnonzero. rewrite (mapi_filter_crow 0 (fun x => Reqb x 0) 0 row). rewrite HF. reflexivity.
Qed.

Lemma finite_entries_fin (W : matrix R) : finite_entries (mmap Fin W) = Ok W.
Proof.
  unfold finite_entries, mmap. rewrite mapM_map. rewrite (mapM_all_ok _ (fun row => row)); [rewrite map_id; reflexivity|].
  intros row _. rewrite mapM_map, (mapM_all_ok _ (fun x => x)); [rewrite map_id; reflexivity|]. reflexivity.
Qed.

Lemma self_heaviest_shrunk q W W' n : rect W n n -> self_heaviest W n -> shrunk_weights q W W' -> self_heaviest W' n.
Proof.
  intros HR HW H. destruct q as [q|]; cbn in H; [|subst; auto]. destruct H as [Hq HF]. apply cut_rows in HF; auto. subst W'.
  intros i j Hi Hj. destruct HR as [HL HRr].
  assert (E : nth i (map (shrink_row q) W) [] = shrink_row q (nth i W [])) by (apply nth_map_in; lia).
  unfold mget. rewrite E. pose proof (shrink_row_spec q (nth i W []) Hq) as S.
  assert (Hmax : kept (nth i W []) (shrink_row q (nth i W [])) i).
  { apply (ss_max _ _ _ S). { pose proof (HW i i Hi Hi). unfold mget in *. lra. }
    intros k Hk. destruct (Nat.lt_ge_cases k n) as [Hkn|Hkn]; [apply (HW i k Hi Hkn)|]. rewrite nth_overflow in Hk by (rewrite (rect_row W n n); [lia|split; auto|auto]). congruence. }
  destruct Hmax as [Em _]. rewrite Em. pose proof (HW i j Hi Hj) as Hij. unfold mget in *.
  destruct (ss_kept_or_zero _ _ _ S j) as [-> | ->]; lra.
Qed.

Section Weights.
  Variable f32 : R -> R.
  Variable mkw : Type.
  Variable no_kw : mkw.
  Variable sm : string -> option (mkw -> list R -> list R -> R).
  Variable dm : string -> option (list R -> list R -> R).
  Variable sr : list R -> list R.
  Variable dargs : Type.
  Variable truthy : dargs -> bool.
  Notation sw a d := (stacking_weights f32 mkw no_kw sm dm sr dargs truthy a d).

  Lemma sw_real a d fs fs' v t W : weight_matrix_from_points f32 mkw no_kw sm dm sr dargs truthy fs v (Some t)
      (a_measure a) (a_kernel a) (a_ratio a) (a_bandwidth a) (a_count a) d = (fs', Ok (mmap Fin W)) ->
    sw a d fs v t = (fs', Ok (if (match d with Some d => truthy d | None => false end) then SSparse (csr_of_real W) else SDense W)).
  Proof. intros H. unfold stacking_weights. rewrite H. cbn [bind]. rewrite finite_entries_fin. reflexivity. Qed.

  (** NumPy weights from coordinates. *)
  Theorem numpy_weights a fs v Ds W N :
    (0 < N)%nat -> distance_matrices f32 mkw no_kw sm v (Some v) (a_measure a) None = Ok (map A2 Ds) -> valid_distances Ds N N -> a_ratio a = RNone ->
    (forall D i, In D Ds -> (i < N)%nat -> mget 0 D i i = 0) ->
    (forall dim b, arg_at (a_bandwidth a) dim = Some b -> 0 <= b) ->
    weight_matrix_from_distance (map A2 Ds) (a_kernel a) RNone (a_bandwidth a) (a_count a) = Ok W ->
    exists raw : nat -> nat -> nat -> R,
      (forall dim i j, (dim < length Ds)%nat -> (i < N)%nat -> (j < N)%nat ->
         exists k p, requests (a_kernel a) (a_bandwidth a) (a_count a) dim k p /\ raw_weight k p (nth dim Ds []) i j (raw dim i j)) /\
      let product i j := Rprod (tabulate (length Ds) (fun dim => raw dim i j)) in
      let total i := Rsum (tabulate N (product i)) in
      let Wr := mtab N N (fun i j => product i j / total i) in
      sw a None fs v v = (fs, Ok (SDense Wr)) /\ self_heaviest Wr N /\
      (forall i j, (i < N)%nat -> (j < N)%nat -> mget 0 Wr i j <> 0 <-> forall dim, (dim < length Ds)%nat -> raw dim i j <> 0) /\
      forall i, (i < N)%nat -> Rsum (nth i Wr []) = 1.
  Proof.
    intros HN HD HV Hr Hz Hb HW.
    destruct (wm_product _ _ _ _ _ _ _ HV HN HW) as [HR [raw [Hraw Hp]]]. exists raw. split; auto.
    intros product total Wr.
    destruct (wm_self_max _ _ _ _ _ _ HV HN Hz Hb HW) as (W1 & E1 & HR1 & Hm).
    assert (Ht : forall i, (i < N)%nat -> total i <> 0).
    { intros i Hi E. destruct (Hp i i Hi Hi) as [Hv _]. cbv zeta in Hv.
      change (Rsum (tabulate N (fun j' => Rprod (tabulate (length Ds) (fun dim => raw dim i j'))))) with (total i) in Hv.
      destruct (Req_EM_T (total i) 0); [|contradiction]. rewrite E1 in Hv. rewrite (mmap_get Fin W1 0 NaN N N) in Hv by auto.
      injection Hv as Hv. pose proof (proj1 (Hm i i Hi Hi)). lra. }
    assert (EW : forall i j, (i < N)%nat -> (j < N)%nat -> mget 0 W1 i j = product i j / total i).
    { intros i j Hi Hj. destruct (Hp i j Hi Hj) as [Hv _]. cbv zeta in Hv.
      change (Rsum (tabulate N (fun j' => Rprod (tabulate (length Ds) (fun dim => raw dim i j'))))) with (total i) in Hv.
      destruct (Req_EM_T (total i) 0) as [E|_]; [exfalso; apply (Ht i Hi E)|]. rewrite E1 in Hv. rewrite (mmap_get Fin W1 0 NaN N N) in Hv by auto.
      injection Hv as Hv. exact Hv. }
    assert (EWr : W1 = Wr).
    { rewrite (mtab_of 0 W1 N N HR1). apply mtab_ext. auto. }
    split.
    { rewrite (sw_real a None fs fs v v Wr); [reflexivity|]. unfold weight_matrix_from_points. rewrite HD, Hr. cbn. rewrite HW, E1, EWr. reflexivity. }
    destruct (wm_stochastic _ _ _ _ _ _ _ HV HN HW) as (W2 & E2 & HR2 & Hn & _).
    assert (E12 : W2 = W1).
    { rewrite (mtab_of 0 W2 N N HR2), (mtab_of 0 W1 N N HR1). apply mtab_ext. intros i j Hi Hj.
      assert (E : mget NaN (mmap Fin W2) i j = mget NaN (mmap Fin W1) i j) by congruence.
      rewrite (mmap_get Fin W2 0 NaN N N), (mmap_get Fin W1 0 NaN N N) in E by auto. injection E as E. exact E. }
    subst W2. rewrite <- EWr. rewrite Forall_forall in Hn.
    assert (Hrow : forall i, (i < N)%nat -> normalised_row (nth i W1 [])) by (intros i Hi; apply Hn, nth_In; rewrite (proj1 HR1); auto).
    split; [|split].
    - intros i j Hi Hj. destruct (Hm i j Hi Hj) as [H1 H2]. split; auto. split; auto. destruct (Hrow i Hi) as [H3 _]. rewrite Forall_forall in H3.
      apply (H3 (mget 0 W1 i j)). apply nth_In. rewrite (rect_row W1 N N); auto.
    - intros i j Hi Hj. destruct (Hp i j Hi Hj) as [_ H2]. rewrite <- H2. rewrite E1, (mmap_get Fin W1 0 NaN N N) by auto. split; intros H3 H4; apply H3; congruence.
    - intros i Hi. destruct (Hrow i Hi) as [_ [H|H]]; auto. exfalso. rewrite Forall_forall in H. pose proof (proj1 (Hm i i Hi Hi)) as Hpos.
      rewrite (H (mget 0 W1 i i)) in Hpos; [lra|]. apply nth_In. rewrite (rect_row W1 N N); auto.
  Qed.
End Weights.

Section Fits.
  Context {est meta G : Type}.
  Variable fit_est : nat -> matrix R -> list R -> list R -> result est.
  Variable predict_est : est -> matrix R -> result (list R).
  Variable fit_meta : R -> nat -> matrix R -> list R -> list R -> result meta.
  Variable predict_meta : meta -> matrix R -> result (list R).
  Variable solve : matrix R -> list R -> result (list R).
  Variable seed0 : G.
  Variable choice : G -> list nat -> nat -> G * list nat.
  Variable cpu : nat.
  Variable wm : filesystem -> list coords -> list coords -> filesystem * result swts.
  Notation sfit := (sfit est fit_est predict_est meta fit_meta predict_meta solve G seed0 choice cpu wm).

  Theorem heaviest_replay f r c g fs s0 X y coords given w W :
    let n := length X in
    let o := sfit r c g fs s0 X y coords given in
    valid_choice choice -> (forall e X, predict_est e X = Ok (map (f e) X)) ->
    valid_runtime r n (patches cpu c) -> valid_rates c -> real_weights wm fs coords given w -> holds_real w W n -> self_heaviest W n -> all_bases_used c w ->
    so_result est meta G o = Ok tt ->
    exists ps ses, ss_stacking_predict est meta (so_state est meta G o) = Some ps /\
      ss_local_list est meta (so_state est meta G o) = Some (LStacking est meta ses) /\ length ses = n /\
      forall i, (i < n)%nat -> exists se, nth_error ses i = Some se /\
        predict_stacking est predict_est meta predict_meta se [nth i X []] = Ok [Fin (nth i ps 0)].
  Proof.
    intros n o Hc Hf HR Hrates Hreal Hw HH Hall Ho.
    destruct (replay fit_est predict_est fit_meta predict_meta solve seed0 choice cpu wm f r c g fs s0 X y coords given w W Hc Hf HR Hrates Hreal Hw Hall) as (W' & ps & ses & HW' & H1 & H2 & H3 & H4); auto.
    { intros _ a b Ha Hb. apply (HH a b Ha Hb). }
    exists ps, ses. repeat split; auto. intros i Hi. apply H4; auto. destruct Hw as [HWr _]. apply (self_heaviest_shrunk _ W W' n HWr HH HW' i i Hi Hi).
  Qed.

  Theorem heaviest_storage r c g fs s0 X y coords cw W :
    let n := length X in
    valid_choice choice -> one_per_row predict_est ->
    valid_runtime r n (patches cpu c) -> valid_rates c -> rect W n n -> self_heaviest W n -> csr_form 0 (fun x => Reqb x 0) W n cw ->
    sc_use_numba c = false -> sc_estimator_rate c = None ->
    so_result est meta G (sfit r c g fs s0 X y coords (Some (SSparse cw))) = Ok tt <->
    so_result est meta G (sfit r c g fs s0 X y coords (Some (SDense W))) = Ok tt.
  Proof.
    intros n Hc Ho HR Hrates HW HH F Hnb Hr.
    assert (HS : exists W', shrunk_weights (sc_meta_shrink c) W W').
    { destruct (sc_meta_shrink c) as [q|] eqn:Eq; [|exists W; reflexivity]. exists (map (shrink_row q) W). destruct Hrates as (_ & _ & H3). split; [auto|]. apply cut_rows; auto. }
    destruct HS as [W' HW'].
    rewrite (sparse_iff_dense fit_est predict_est fit_meta predict_meta solve seed0 choice cpu wm r c g fs s0 X y coords cw W W' Hc Ho HR Hrates HW F Hnb Hr HW').
    split; [tauto|]. intros H. split; auto.
    assert (Hn : (0 < n)%nat).
    { destruct (sfit_conditions fit_est predict_est fit_meta predict_meta solve seed0 choice cpu wm Hc r c g fs s0 X y coords (Some (SDense W)) (SDense W) W W') as ((p & HR' & Hx & _) & _); auto.
      { left; reflexivity. } { split; auto. } destruct HR' as [HL _]. unfold n. lia. }
    exists (n - 1)%nat. split; [lia|]. apply (self_heaviest_shrunk _ W W' n HW HH HW' (n - 1)%nat (n - 1)%nat); lia.
  Qed.

  Theorem heaviest_iff r c g fs s0 X y coords given w W :
    let n := length X in
    valid_choice choice -> needs_data fit_est predict_est -> needs_design fit_meta predict_meta ->
    valid_runtime r n (patches cpu c) -> valid_rates c ->
    real_weights wm fs coords given w -> holds_real w W n -> self_heaviest W n -> sc_use_numba c = false ->
    so_result est meta G (sfit r c g fs s0 X y coords given) = Ok tt <->
    valid_data X y /\ keeps_all c n /\ has_batches cpu c /\
    (forall m q, w = SDense m -> sc_estimator_rate c = Some q -> 0 < q <= 1) /\
    exists L W', leave_outs seed0 choice c W L /\ shrunk_weights (sc_meta_shrink c) W W' /\
      forall i, (i < n)%nat -> base_training n W L i <> [] /\ meta_points n W' i <> [].
  Proof.
    intros n Hc He Hm HR Hrates Hreal Hw HH Hnb.
    rewrite (usual_iff fit_est predict_est fit_meta predict_meta solve seed0 choice cpu wm Hc He Hm r c g fs s0 X y coords given w W HR Hrates Hreal Hw Hnb).
    fold n. split.
    - intros (H1 & H2 & H3 & H4 & L & W' & H5 & H6 & H7 & H8). repeat (split; [assumption|]). split.
      + intros m q Ew Eq. split; [apply (H4 m q Ew Eq)|]. unfold storable in H7. rewrite Ew in H7. apply H7; auto.
      + exists L, W'. auto.
    - intros (H1 & H2 & H3 & H4 & L & W' & H5 & H6 & H8). repeat (split; [assumption|]). split.
      + intros m q Ew Eq. apply (H4 m q Ew Eq).
      + exists L, W'. split; auto. split; auto. split; auto. unfold storable. destruct w as [m|cw].
        * split; auto. intros q Eq. destruct (H4 m q eq_refl Eq). lra.
        * rewrite Hnb. assert (Hn : (0 < n)%nat) by (destruct H1 as (p & HR' & Hx & _); destruct HR' as [HL _]; unfold n; lia).
          exists (n - 1)%nat. split; [lia|]. destruct Hw as [HWr _]. apply (self_heaviest_shrunk _ W W' n HWr HH H6 (n - 1)%nat (n - 1)%nat); lia.
  Qed.
End Fits.

Section Points.
  Context {est meta G : Type}.
  Variable fit_est : nat -> matrix R -> list R -> list R -> result est.
  Variable predict_est : est -> matrix R -> result (list R).
  Variable fit_meta : R -> nat -> matrix R -> list R -> list R -> result meta.
  Variable predict_meta : meta -> matrix R -> result (list R).
  Variable solve : matrix R -> list R -> result (list R).
  Variable seed0 : G.
  Variable choice : G -> list nat -> nat -> G * list nat.
  Variable cpu : nat.
  Variable f32 : R -> R.
  Variable mkw : Type.
  Variable no_kw : mkw.
  Variable sm : string -> option (mkw -> list R -> list R -> R).
  Variable dm : string -> option (list R -> list R -> R).
  Variable sr : list R -> list R.
  Variable dargs : Type.
  Variable truthy : dargs -> bool.
  Notation sw a := (stacking_weights f32 mkw no_kw sm dm sr dargs truthy a None).
  Notation sfit a := (sfit est fit_est predict_est meta fit_meta predict_meta solve G seed0 choice cpu (sw a)).

  Theorem stacking_from_points a r c g fs s0 X y v Ds W :
    let N := length X in
    valid_choice choice -> needs_data fit_est predict_est -> needs_design fit_meta predict_meta ->
    (0 < N)%nat -> distance_matrices f32 mkw no_kw sm v (Some v) (a_measure a) None = Ok (map A2 Ds) -> valid_distances Ds N N -> a_ratio a = RNone ->
    (forall D i, In D Ds -> (i < N)%nat -> mget 0 D i i = 0) ->
    (forall dim b, arg_at (a_bandwidth a) dim = Some b -> 0 <= b) ->
    weight_matrix_from_distance (map A2 Ds) (a_kernel a) RNone (a_bandwidth a) (a_count a) = Ok W ->
    valid_runtime r N (patches cpu c) -> valid_rates c ->
    exists raw : nat -> nat -> nat -> R,
      (forall dim i j, (dim < length Ds)%nat -> (i < N)%nat -> (j < N)%nat ->
         exists k p, requests (a_kernel a) (a_bandwidth a) (a_count a) dim k p /\ raw_weight k p (nth dim Ds []) i j (raw dim i j)) /\
      let product i j := Rprod (tabulate (length Ds) (fun dim => raw dim i j)) in
      let total i := Rsum (tabulate N (product i)) in
      let Wr := mtab N N (fun i j => product i j / total i) in
      (forall i j, (i < N)%nat -> (j < N)%nat -> mget 0 Wr i j <> 0 <-> forall dim, (dim < length Ds)%nat -> raw dim i j <> 0) /\
      (so_result est meta G (sfit a r c g fs s0 X y (Some v) None) = Ok tt <->
       valid_data X y /\ keeps_all c N /\ has_batches cpu c /\ sc_use_numba c = false /\
       (forall q, sc_estimator_rate c = Some q -> 0 < q <= 1) /\
       exists L W', leave_outs seed0 choice c Wr L /\ shrunk_weights (sc_meta_shrink c) Wr W' /\
         forall i, (i < N)%nat -> base_training N Wr L i <> [] /\ meta_points N W' i <> []).
  Proof.
    intros N Hc He Hm HN HD HV Hr Hz Hb HW HR Hrates.
    destruct (numpy_weights f32 mkw no_kw sm dm sr dargs truthy a fs v Ds W N HN HD HV Hr Hz Hb HW) as (raw & Hraw & Hsw & HH & Hnz & _).
    exists raw. split; auto. intros product total Wr. split; [exact Hnz|].
    assert (Hreal : real_weights (sw a) fs (Some v) None (SDense Wr)).
    { right. split; auto. exists v. split; auto. rewrite Hsw. reflexivity. }
    assert (Hw : holds_real (SDense Wr) Wr N) by (split; [apply mtab_rect|left; reflexivity]).
    destruct (sc_use_numba c) eqn:Hnb.
    - split; [|intros (_ & _ & _ & E & _); discriminate]. intros Ho. exfalso.
      assert (HS : exists W', shrunk_weights (sc_meta_shrink c) Wr W').
      { destruct (sc_meta_shrink c) as [q|] eqn:Eq; [|exists Wr; reflexivity]. exists (map (shrink_row q) Wr). destruct Hrates as (_ & _ & H3). split; [auto|]. apply cut_rows; auto. }
      destruct HS as [W' HW'].
      destruct (sfit_conditions fit_est predict_est fit_meta predict_meta solve seed0 choice cpu (sw a) Hc r c g fs s0 X y (Some v) None (SDense Wr) Wr W') as (_ & _ & _ & Hst); auto.
      cbn in Hst. destruct Hst. congruence.
    - rewrite (heaviest_iff fit_est predict_est fit_meta predict_meta solve seed0 choice cpu (sw a) r c g fs s0 X y (Some v) None (SDense Wr) Wr Hc He Hm HR Hrates Hreal Hw HH Hnb).
      fold N. split.
      + intros (H1 & H2 & H3 & H4 & H5). repeat (split; [assumption|]). split; auto. split; [intros q; apply (H4 Wr); reflexivity|exact H5].
      + intros (H1 & H2 & H3 & _ & H4 & H5). repeat (split; [assumption|]). split; [intros m q _; apply H4|exact H5].
  Qed.
End Points.
