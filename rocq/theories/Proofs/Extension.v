(** Data sets extended by observations out of reach (C163). *)
From Coq Require Import Lra Sorting.Sorted.
From Verif.Model Require Import Base Ext Csr Kernel Distance WeightMatrix WeightModel.
From Verif.Spec Require Import KernelSpec WeightSpec NeighbourSpec WeightModelSpec DistanceSpec EndToEndSpec ExtensionSpec.
From Verif.Proofs Require Import ListFacts SumFacts KernelFacts SortFacts WeightFacts WeightProps DistanceFacts CsrFacts NeighbourFacts ShrinkFacts SampleFacts WeightModelFacts WeightModelProps FitProps EndToEnd.
Open Scope string_scope.
Open Scope nat_scope.
Open Scope R_scope.

Lemma leading_rect {A} (m : matrix A) n N : rect m n n -> (N <= n)%nat -> rect (leading N m) N N.
Proof.
  intros [HL HF] HN. unfold leading. split; [rewrite map_length, firstn_length; lia|].
  rewrite Forall_forall in *. intros row Hr. apply in_map_iff in Hr as [r [<- Hr]].
  assert (In r m) by (rewrite <- (firstn_skipn N m); apply in_or_app; auto).
  rewrite firstn_length, (HF _ H). lia.
Qed.

Lemma nth_firstn {A} (l : list A) N i d : (i < N)%nat -> nth i (firstn N l) d = nth i l d.
Proof. revert N i; induction l as [|x l IH]; intros [|N] [|i] H; simpl; auto; try lia. apply IH. lia. Qed.

Lemma leading_row {A} (m : matrix A) n N i : rect m n n -> (N <= n)%nat -> (i < N)%nat -> nth i (leading N m) [] = firstn N (nth i m []).
Proof.
  intros [HL HF] HN Hi. unfold leading. rewrite (nth_map_in _ _ _ (@nil A)) by (rewrite firstn_length; lia). rewrite nth_firstn by auto. reflexivity.
Qed.

Lemma leading_get {A} (d : A) (m : matrix A) n N i j : rect m n n -> (N <= n)%nat -> (i < N)%nat -> (j < N)%nat -> mget d (leading N m) i j = mget d m i j.
Proof. intros HR HN Hi Hj. unfold mget. rewrite (leading_row m n N) by auto. apply nth_firstn. auto. Qed.

Lemma count_app f l l' : count f (l ++ l')%list = (count f l + count f l')%nat.
Proof. unfold count. rewrite filter_app, app_length. reflexivity. Qed.
Lemma count_zero f l : (forall x, In x l -> f x = false) -> count f l = 0%nat.
Proof. unfold count. induction l as [|x l IH]; intros H; simpl; auto. rewrite (H x) by (left; auto). apply IH. intros; apply H; right; auto. Qed.

Lemma kth_smallest_extended row further k b : kth_smallest row k b -> Forall (Rle b) further -> kth_smallest (row ++ further)%list k b.
Proof.
  intros (H1 & H2 & H3) HF. split; [apply in_or_app; auto|]. rewrite !count_app. split; [lia|].
  rewrite (count_zero _ further); [lia|]. intros x Hx. rewrite Forall_forall in HF. specialize (HF x Hx).
  unfold Rltb. destruct (Rlt_dec x b); auto. lra.
Qed.

Lemma row_bandwidth_prefix p row N b : undisturbed p (firstn N row) (skipn N row) -> row_bandwidth p row b -> row_bandwidth p (firstn N row) b.
Proof.
  destruct p as [b0|z|q]; simpl; auto; [|tauto]. intros (b' & (Hz & Hle & Hk) & HF) (_ & _ & Hb).
  pose proof (kth_smallest_extended _ _ _ _ Hk HF) as Hk'. rewrite firstn_skipn in Hk'.
  rewrite (kth_smallest_unique _ _ _ _ Hb Hk'). auto.
Qed.

Lemma tabulate_plus {A} N M (f : nat -> A) : tabulate (N + M) f = (tabulate N f ++ tabulate M (fun j => f (N + j)%nat))%list.
Proof.
  unfold tabulate. rewrite seq_app, map_app. f_equal. simpl.
  rewrite <- (Nat.add_0_r N) at 1. generalize 0%nat. induction M as [|M IH]; intros k; simpl; auto. f_equal. rewrite <- IH. f_equal. f_equal. lia.
Qed.

Lemma extended_weights kt bw nc Ds N n W :
  valid_distances Ds n n -> (0 < N)%nat -> (N <= n)%nat -> far_away kt bw nc Ds N n ->
  weight_matrix_from_distance (map A2 Ds) kt RNone bw nc = Ok W ->
  exists W0, weight_matrix_from_distance (map A2 (map (leading N) Ds)) kt RNone bw nc = Ok W0 /\ rect W n n /\ rect W0 N N /\
    valid_distances (map (leading N) Ds) N N /\
    (forall i j, (i < N)%nat -> (j < N)%nat -> mget (Fin 0) W i j = mget (Fin 0) W0 i j) /\
    (forall i j, (i < N)%nat -> (N <= j < n)%nat -> mget (Fin 0) W i j = Fin 0).
Proof.
  intros HV HN Hn [Hfar Hund] H.
  assert (HV0 : valid_distances (map (leading N) Ds) N N).
  { destruct HV as [HV1 HV2]. split; [destruct Ds; simpl; congruence|]. rewrite Forall_map. eapply Forall_impl; [|exact HV2]. intros D [HR HE].
    split; [apply (leading_rect _ n); auto|]. apply (entries_mget _ _ N N); [apply (leading_rect _ n); auto|].
    intros i j Hi Hj. rewrite (leading_get 0 D n) by auto. apply (entry_nonneg D n n); auto; lia. }
  destruct (wm_sound2 _ _ _ _ _ _ _ HV ltac:(lia) H) as [Hnn [raw [Hraw EW]]].
  assert (HP0 : forall i j, (i < N)%nat -> (N <= j < n)%nat -> PR Ds raw i j = 0).
  { intros i j Hi Hj. apply PR_zero. destruct (Hfar i j Hi Hj) as (dim & k & p & Hd & Hk & b & Hb & Hw).
    exists dim. split; auto. destruct (Hraw dim Hd) as (k' & p' & bs & Hk' & Hbl & Hbs & E).
    destruct (requests_fun _ _ _ _ _ _ _ _ Hk Hk') as [<- <-]. rewrite E by lia.
    rewrite (row_bandwidth_unique p _ _ _ (Hbs i ltac:(lia)) Hb). symmetry.
    apply weighs_iff; auto; [apply Hk|]. destruct (valid_nth _ _ _ _ HV Hd) as [HR HE]. apply (entry_nonneg _ n n); auto; lia. }
  assert (HS : forall i, (i < N)%nat -> SR Ds n raw i = SR Ds N raw i).
  { intros i Hi. unfold SR. replace n with (N + (n - N))%nat at 1 by lia. rewrite tabulate_plus, Rsum_app.
    assert (E0 : Rsum (tabulate (n - N) (fun j => PR Ds raw i (N + j)%nat)) = 0); [|rewrite E0; lra].
    apply Rsum_zero. intros x Hx. apply in_tabulate in Hx as [j [Hj <-]]. apply HP0; auto; lia. }
  set (W0 := mmap Fin (mtab N N (fun i j => safe_div (PR Ds raw i j) (SR Ds N raw i)))).
  assert (HL : length (map (leading N) Ds) = length Ds) by apply map_length.
  exists W0. split; [|split; [|split; [|split; [|split]]]]; auto.
  - apply (wm_complete _ kt bw nc N N raw _ HV0 HN Hnn).
    + intros dim Hd. rewrite HL in Hd. destruct (Hraw dim Hd) as (k & p & bs & Hk & Hbl & Hbs & E).
      destruct (valid_nth _ _ _ _ HV Hd) as [HR HE].
      exists k, p, (firstn N bs). split; auto. split; [rewrite firstn_length; lia|].
      rewrite (nth_map_in _ _ _ (@nil (list R))) by auto. split.
      * intros i Hi. rewrite (leading_row _ n) by auto. rewrite nth_firstn by auto. apply row_bandwidth_prefix; [|apply Hbs; lia].
        apply (Hund dim k p i); auto.
      * intros i j Hi Hj. rewrite nth_firstn, (leading_get 0 _ n) by auto. apply E; lia.
    + rewrite HL. reflexivity.
  - rewrite EW. apply rect_mmap, mtab_rect.
  - apply rect_mmap, mtab_rect.
  - intros i j Hi Hj. unfold W0. rewrite EW. rewrite !(mmap_get Fin _ 0 (Fin 0) n n) by (auto; try lia; apply mtab_rect).
    rewrite (mmap_get Fin _ 0 (Fin 0) N N) by (auto; apply mtab_rect). rewrite !mtab_get by lia. rewrite HS by auto. reflexivity.
  - intros i j Hi Hj. rewrite EW. rewrite (mmap_get Fin _ 0 (Fin 0) n n) by (auto; try lia; apply mtab_rect). rewrite mtab_get by lia.
    rewrite HP0 by auto. f_equal. unfold safe_div. destruct (Req_EM_T (SR Ds n raw i) 0); unfold Rdiv; ring.
Qed.

Section Distances.
  Variable f32 : R -> R.
  Variable mkw : Type.
  Variable no_kw : mkw.
  Variable sm : string -> option (mkw -> list R -> list R -> R).
  Notation dm := (distance_matrix f32 mkw sm).
  Notation dms := (distance_matrices f32 mkw no_kw sm).

  Lemma map_firstn {A B} (f : A -> B) k l : map f (firstn k l) = firstn k (map f l).
  Proof. symmetry. apply firstn_map. Qed.

  Lemma dm_leading N n (p : coords) d m kw M :
    rect p n d -> (0 < N)%nat -> (N <= n)%nat -> dm p (Some p) m kw = Ok (A2 M) ->
    dm (firstn N p) (Some (firstn N p)) m kw = Ok (A2 (leading N M)).
  Proof.
    intros HR HN Hn.
    assert (Hc : ncols (firstn N p) = ncols p).
    { destruct p as [|r p]; destruct N; simpl in *; auto; lia. }
    assert (G : forall (mf : list R -> list R -> R) (q : coords),
       mmap f32 (map (fun x => map (fun y => mf x y) (firstn N q)) (firstn N q)) =
       leading N (mmap f32 (map (fun x => map (fun y => mf x y) q) q))).
    { intros mf q. unfold leading, mmap. rewrite !firstn_map, !map_map. apply map_ext. intros x. rewrite !firstn_map. reflexivity. }
    unfold distance_matrix. rewrite Hc, Nat.eqb_refl. cbn [bind]. destruct (String.eqb m "great-circle").
    - destruct (negb (ncols p =? 2)); [discriminate|]. intros H. injection H as <-. do 2 f_equal.
      apply (G (fun x y => great_circle (lonlat x) (lonlat y)) p).
    - destruct (metric_fn mkw sm m kw) as [mf|]; [|discriminate]. intros H. injection H as <-. do 2 f_equal.
      unfold cdist. rewrite <- (G mf (astype32 f32 p)). unfold astype32, mmap. rewrite !firstn_map. reflexivity.
  Qed.

  Lemma dms_leading N n (v : list coords) metrics Ds :
    (0 < N)%nat -> (N <= n)%nat -> Forall (fun p => exists d, rect p n d) v ->
    dms v (Some v) metrics None = Ok (map A2 Ds) ->
    dms (map (firstn N) v) (Some (map (firstn N) v)) metrics None = Ok (map A2 (map (leading N) Ds)).
  Proof.
    intros HN Hn HF H. apply dms_iff in H as (HL & Hm & H). apply dms_iff. rewrite map_length in HL. rewrite !map_length.
    split; auto. split; auto. intros dim Hd.
    rewrite !(nth_map_in _ _ _ (@nil (list R))) by (rewrite ?map_length; lia).
    rewrite Forall_forall in HF. destruct (HF (nth dim v []) (nth_In _ _ Hd)) as [d HR].
    rewrite map_map. rewrite (nth_map_in (fun D => A2 (leading N D)) Ds dim (@nil (list R))) by (rewrite HL; exact Hd).
    apply (dm_leading N n _ d); auto. etransitivity; [exact (H dim Hd)|]. f_equal. apply (nth_map_in A2 Ds dim (@nil (list R))). rewrite HL; exact Hd.
  Qed.
End Distances.

Section Fits.
  Variable est : Type.
  Variable fit_est : nat -> matrix R -> list R -> list ext -> result est.
  Variable predict_est : est -> matrix R -> result (list R).
  Variable G : Type.
  Variable choice : G -> list nat -> nat -> G * list nat.
  Variable cpu : nat.
  Notation FIT wm := (fit est fit_est predict_est G choice cpu wm).
  Notation st o := (o_state est G o).

  (** The first [N] rows of the larger matrix give no weight to the rest. *)
  Lemma extended_training lo (W W0 : matrix ext) N n i :
    (N <= n)%nat -> (i < N)%nat ->
    (forall j, (j < N)%nat -> mget (Fin 0) W i j = mget (Fin 0) W0 i j) ->
    (forall j, (N <= j < n)%nat -> mget (Fin 0) W i j = Fin 0) ->
    training_set lo W n i = training_set lo W0 N i /\
    (forall j, In j (training_set lo W0 N i) -> (j < N)%nat /\ used_weight lo W i j = used_weight lo W0 i j).
  Proof.
    intros HN Hi H1 H2. unfold training_set. split.
    - replace n with (N + (n - N))%nat by lia. rewrite seq_app, filter_app. cbn [plus].
      assert (E : filter (fun j => negb (eis_zero (used_weight lo W i j))) (seq N (n - N)) = []).
      { assert (HF : forall j, In j (seq N (n - N)) -> negb (eis_zero (used_weight lo W i j)) = false).
        { intros j Hj. apply in_seq in Hj. unfold used_weight. destruct (lo && (i =? j)%nat); [|rewrite H2 by lia]; cbn; unfold Reqb; destruct (Req_EM_T 0 0); auto; congruence. }
        induction (seq N (n - N)) as [|a l IH]; simpl; auto. rewrite HF by (left; auto). apply IH. intros; apply HF; right; auto. }
      rewrite E, app_nil_r. apply filter_ext_in. intros j Hj. apply in_seq in Hj. unfold used_weight. rewrite H1 by lia. reflexivity.
    - intros j Hj. apply filter_In in Hj as [Hj _]. apply in_seq in Hj. split; [lia|]. unfold used_weight. rewrite H1 by lia. reflexivity.
  Qed.

  Lemma extended_fit wm wm' c order order' g g' fs fs' s0 s0' X y coords coords' given given' w w' W W0 N n :
    valid_choice choice -> (0 < cpu)%nat -> (2 <= N)%nat -> (N <= n)%nat -> length X = n ->
    in_force wm fs coords given w -> holds w W n -> in_force wm' fs' coords' given' w' -> holds w' W0 N ->
    (forall i j, (i < N)%nat -> (j < N)%nat -> mget (Fin 0) W i j = mget (Fin 0) W0 i j) ->
    (forall i j, (i < N)%nat -> (N <= j < n)%nat -> mget (Fin 0) W i j = Fin 0) ->
    sample_local_rate c = None -> schedule (num_tasks cpu c n) order -> schedule (num_tasks cpu c N) order' ->
    let o := FIT wm c order g fs s0 X y coords given in
    let o' := FIT wm' c order' g' fs' s0' (firstn N X) (firstn N y) coords' given' in
    o_result est G o = Ok tt ->
    o_result est G o' = Ok tt /\ exists ps, local_predict_ est (st o) = Some ps /\ local_predict_ est (st o') = Some (firstn N ps).
  Proof.
    intros Hch Hcpu H2 HN HX Hf Hw Hf' Hw' HE HZ Hs HS HS' o o' Hok.
    assert (HX' : length (firstn N X) = N) by (rewrite firstn_length; lia).
    assert (Hps : exists ps, local_predict_ est (st o) = Some ps).
    { assert (HSn : schedule (num_tasks cpu c (num_locations c n)) order) by (unfold num_locations; rewrite Hs; exact HS).
      destruct (fit_results est fit_est predict_est G choice cpu wm c order g fs s0 X y coords given w W n Hch Hcpu HX Hf Hw HSn Hok) as (locs & es & ps & score & H).
      cbv zeta in H. exists ps. apply H. }
    destruct Hps as [ps Hps].
    pose proof (fit_all_locations est fit_est predict_est G choice cpu wm c order g fs s0 X y coords given w W n Hch Hcpu HX Hf Hw Hs HS ps) as F.
    cbv zeta in F. fold o in F. destruct (proj1 F (conj Hok Hps)) as (Hd & Hj & _ & Hlp & HM). clear F.
    assert (F : o_result est G o' = Ok tt /\ local_predict_ est (st o') = Some (firstn N ps)).
    { apply (fit_all_locations est fit_est predict_est G choice cpu wm' c order' g' fs' s0' (firstn N X) (firstn N y) coords' given' w' W0 N Hch Hcpu HX' Hf' Hw' Hs HS').
      destruct Hd as (p & HR & Hy & Hp). assert (Hly : length y = n) by (destruct HR as [HR _]; lia).
      split; [|split; [exact Hj|split; [exact H2|split; [rewrite firstn_length; lia|]]]].
      - exists p. rewrite firstn_length. replace (Nat.min N (length y)) with N by lia. split; [|lia].
        split; auto. destruct HR as [_ HR]. rewrite Forall_forall in *. intros r Hr. apply HR. rewrite <- (firstn_skipn N X). apply in_or_app; auto.
      - intros i Hi. destruct (HM i ltac:(lia)) as (e & He & Hpe). exists e. unfold local_model in *.
        destruct (extended_training (leave_local_out c) W W0 N n i HN Hi (fun j => HE i j Hi) (fun j => HZ i j Hi)) as [ET HU].
        rewrite ET in He. rewrite !nth_firstn by auto. split; [|exact Hpe]. rewrite <- He. f_equal.
        + apply map_ext_in. intros j Hj0. apply nth_firstn. apply HU, Hj0.
        + apply map_ext_in. intros j Hj0. apply nth_firstn. apply HU, Hj0.
        + apply map_ext_in. intros j Hj0. symmetry. apply HU, Hj0. }
    split; [apply F|]. exists ps. split; [exact Hps|apply F].
  Qed.

  Variable f32 : R -> R.
  Variable mkw : Type.
  Variable no_kw : mkw.
  Variable sm : string -> option (mkw -> list R -> list R -> R).
  Variable dm : string -> option (list R -> list R -> R).
  Variable sr : list R -> list R.
  Variable dargs : Type.
  Variable truthy : dargs -> bool.
  Notation dms := (distance_matrices f32 mkw no_kw sm).
  Notation pw a := (points_weights f32 mkw no_kw sm dm sr dargs truthy a None).

  Lemma extended_fit_points a c order order' g g' fs fs' s0 s0' X y v Ds N n :
    valid_choice choice -> (0 < cpu)%nat -> (2 <= N)%nat -> (N <= n)%nat -> length X = n ->
    Forall (fun p => exists d, rect p n d) v ->
    dms v (Some v) (a_measure a) None = Ok (map A2 Ds) -> valid_distances Ds n n -> a_ratio a = RNone ->
    far_away (a_kernel a) (a_bandwidth a) (a_count a) Ds N n ->
    sample_local_rate c = None -> schedule (num_tasks cpu c n) order -> schedule (num_tasks cpu c N) order' ->
    let o := FIT (pw a) c order g fs s0 X y (Some v) None in
    let o' := FIT (pw a) c order' g' fs' s0' (firstn N X) (firstn N y) (Some (map (firstn N) v)) None in
    o_result est G o = Ok tt ->
    o_result est G o' = Ok tt /\ exists ps, local_predict_ est (st o) = Some ps /\ local_predict_ est (st o') = Some (firstn N ps).
  Proof.
    intros Hch Hcpu H2 HN HX Hv HD HV Hr Hfar Hs HS HS' o o' Hok.
    destruct (weight_matrix_from_distance (map A2 Ds) (a_kernel a) RNone (a_bandwidth a) (a_count a)) as [W|e] eqn:EW.
    2:{ exfalso. destruct (fit_wm_raises est fit_est predict_est G choice cpu f32 mkw no_kw sm dm sr dargs truthy a c order g fs s0 X y v) as [e' He'].
        - rewrite (pw_ok f32 mkw no_kw sm dm sr dargs truthy a fs v Ds HD), Hr, EW. eexists. reflexivity.
        - pose proof (eq_trans (eq_sym Hok) He') as E. discriminate E. }
    assert (H0 : (0 < N)%nat) by lia.
    destruct (extended_weights _ _ _ _ _ _ _ HV H0 HN Hfar EW) as (W0 & EW0 & HR & HR0 & HV0 & HE & HZ).
    pose proof (dms_leading f32 mkw no_kw sm N n v (a_measure a) Ds H0 HN Hv HD) as HD0.
    apply (extended_fit (pw a) (pw a) c order order' g g' fs fs' s0 s0' X y (Some v) (Some (map (firstn N) v)) None None (WDense W) (WDense W0) W W0 N n); auto.
    - right. split; auto. exists v. split; auto. rewrite (pw_ok f32 mkw no_kw sm dm sr dargs truthy a fs v Ds HD), Hr, EW. reflexivity.
    - split; auto.
    - right. split; auto. eexists. split; [reflexivity|]. rewrite (pw_ok f32 mkw no_kw sm dm sr dargs truthy a fs' _ _ HD0), Hr, EW0. reflexivity.
    - split; auto.
  Qed.
End Fits.
