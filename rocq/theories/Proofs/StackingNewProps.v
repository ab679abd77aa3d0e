(** Stacking predictions of new points, from coordinates. *)
From Coq Require Import Lra Psatz.
From Verif.Model Require Import Base Ext Sort Kernel Distance WeightMatrix Csr Neighbour WeightModel NumbaImpl Stacking StackingPredict StackingPoints.
From Verif.Spec Require Import KernelSpec WeightSpec WeightFloatSpec DistanceSpec NeighbourSpec WeightModelSpec StackingSpec StackingTotalSpec StackingNewSpec.
From Verif.Proofs Require Import ListFacts SumFacts KernelFacts WeightFacts WeightProps DistanceFacts CsrFacts NeighbourFacts PredictProps StackingPointsProps StackingPredictTotal.
Open Scope string_scope.
Open Scope nat_scope.
Open Scope R_scope.

Lemma count_le (p q : R -> bool) l : (forall x, p x = true -> q x = true) -> (count p l <= count q l)%nat.
Proof.
  intros H. unfold count. induction l as [|x l IH]; [auto|]. cbn [filter]. destruct (p x) eqn:E; [rewrite (H x E); cbn; lia|].
  destruct (q x); cbn; lia.
Qed.

(** Where the weights of a fixed bandwidth are positive. *)
Lemma fixed_weights a Ds r c :
  valid_distances Ds r c -> (0 < r)%nat -> fixed_bandwidths a (length Ds) ->
  exists W, weight_matrix_from_distance (map A2 Ds) (a_kernel a) RNone (a_bandwidth a) (a_count a) = Ok (mmap Fin W) /\ rect W r c /\
    forall i j, (i < r)%nat -> (j < c)%nat -> 0 <= mget 0 W i j /\ (mget 0 W i j <> 0 <-> reached a Ds i j).
Proof.
  intros HV Hr HF.
  assert (HW : exists W, weight_matrix_from_distance (map A2 Ds) (a_kernel a) RNone (a_bandwidth a) (a_count a) = Ok W).
  { apply (wm_success Ds _ _ _ r c HV Hr). split.
    - intros [E1 E2]. destruct Ds as [|D Ds]; [destruct HV; congruence|].
      destruct (HF 0%nat) as (k & b & (_ & _ & _ & _ & H) & _); [simpl; lia|]. rewrite E1, E2 in H. discriminate.
    - intros dim Hd. destruct (HF dim Hd) as (k & b & H & _). exists k, (FixedBandwidth b). split; [exact H|exact I]. }
  destruct HW as [W HW]. destruct (wm_stochastic Ds _ _ _ r c W HV Hr HW) as (Wr & -> & HR & HN & _).
  exists Wr. split; [exact HW|]. split; [exact HR|]. intros i j Hi Hj.
  destruct (wm_product Ds _ _ _ r c _ HV Hr HW) as (_ & raw & Hraw & Hget).
  destruct (Hget i j Hi Hj) as [_ Hs].
  assert (EG : mget NaN (mmap Fin Wr) i j = Fin (mget 0 Wr i j)).
  { apply (mmap_get Fin Wr 0 NaN r c); auto. }
  split.
  - destruct HR as [L1 L2].
    assert (HIn : In (nth i Wr []) Wr) by (apply nth_In; lia).
    destruct (proj1 (Forall_forall _ _) HN _ HIn) as [HB _]. pose proof (proj1 (Forall_forall _ _) L2 _ HIn) as HL. cbv beta in HL.
    apply (proj1 (Forall_forall _ _) HB). unfold mget. apply nth_In. rewrite HL. exact Hj.
  - rewrite EG in Hs.
    assert (HS : mget 0 Wr i j <> 0 <-> forall dim, (dim < length Ds)%nat -> raw dim i j <> 0).
    { rewrite <- Hs. split; intros H E; apply H; congruence. }
    rewrite HS. unfold reached. split.
    + intros H dim k b Hd Hq Ho. apply (H dim Hd).
      destruct (HF dim Hd) as (k' & b' & Hq' & Hb). destruct (requests_fun _ _ _ _ _ _ _ _ Hq Hq') as [<- Eb]. injection Eb as <-.
      destruct (Hraw dim i j Hd Hi Hj) as (k2 & p2 & Hq2 & b2 & Hb2 & Hw). destruct (requests_fun _ _ _ _ _ _ _ _ Hq Hq2) as [<- <-].
      simpl in Hb2. subst b2. destruct (valid_nth _ _ _ dim HV Hd) as [HRd HEd]. destruct Hq as (_ & Hk & _).
      assert (Hd0 : 0 <= mget 0 (nth dim Ds []) i j) by (apply (entry_nonneg _ r c); auto).
      apply weighs_iff in Hw; auto. rewrite Hw. apply kernel_value_support; auto.
    + intros H dim Hd E0. destruct (HF dim Hd) as (k & b & Hq & Hb). apply (H dim k b Hd Hq).
      destruct (Hraw dim i j Hd Hi Hj) as (k2 & p2 & Hq2 & b2 & Hb2 & Hw). destruct (requests_fun _ _ _ _ _ _ _ _ Hq Hq2) as [<- <-].
      simpl in Hb2. subst b2. destruct (valid_nth _ _ _ dim HV Hd) as [HRd HEd]. destruct Hq as (_ & Hk & _).
      assert (Hd0 : 0 <= mget 0 (nth dim Ds []) i j) by (apply (entry_nonneg _ r c); auto).
      apply weighs_iff in Hw; auto. rewrite Hw in E0. apply kernel_value_support in E0; auto.
Qed.

Section NewPoints.
  Context {est meta : Type}.
  Variable fit_est : nat -> matrix R -> list R -> list R -> result est.
  Variable predict_est : est -> matrix R -> result (list R).
  Variable fit_meta : R -> nat -> matrix R -> list R -> list R -> result meta.
  Variable predict_meta : meta -> matrix R -> result (list R).
  Variable cpu : nat.
  Hypothesis Hest : needs_data fit_est predict_est.
  Hypothesis Hmeta : needs_design fit_meta predict_meta.
  Variable f32 : R -> R.
  Variable mkw : Type.
  Variable no_kw : mkw.
  Variable sm : string -> option (mkw -> list R -> list R -> R).
  Variable dm : string -> option (list R -> list R -> R).
  Variable sr : list R -> list R.
  Variable dargs : Type.
  Variable truthy : dargs -> bool.
  Notation sw a := (stacking_weights f32 mkw no_kw sm dm sr dargs truthy a None).
  Notation sp a := (spredict est fit_est predict_est meta fit_meta predict_meta cpu (sw a)).

  Lemma sw_points a fs v t Ds W : a_ratio a = RNone ->
    distance_matrices f32 mkw no_kw sm v (Some t) (a_measure a) None = Ok (map A2 Ds) ->
    weight_matrix_from_distance (map A2 Ds) (a_kernel a) RNone (a_bandwidth a) (a_count a) = Ok (mmap Fin W) ->
    sw a fs v t = (fs, Ok (SDense W)).
  Proof.
    intros Ha HD HW.
    assert (E : weight_matrix_from_points f32 mkw no_kw sm dm sr dargs truthy fs v (Some t)
      (a_measure a) (a_kernel a) (a_ratio a) (a_bandwidth a) (a_count a) None = (fs, Ok (mmap Fin W))).
    { unfold weight_matrix_from_points. rewrite Ha. rewrite HD. cbn. rewrite HW. reflexivity. }
    apply (sw_real f32 mkw no_kw sm dm sr dargs truthy a None) in E. exact E.
  Qed.

  Theorem fixed_iff a r c fs s0 X y v Xp vp Ds Es :
    let n := length X in
    let k := length Xp in
    a_ratio a = RNone -> (0 < n)%nat -> (0 < k)%nat ->
    distance_matrices f32 mkw no_kw sm v (Some v) (a_measure a) None = Ok (map A2 Ds) -> valid_distances Ds n n ->
    distance_matrices f32 mkw no_kw sm v (Some vp) (a_measure a) None = Ok (map A2 Es) -> valid_distances Es n k ->
    fixed_bandwidths a (length Ds) -> fixed_bandwidths a (length Es) ->
    schedule n (r_second r) -> length (r_buffer r) = n -> (forall k', patches cpu c = Some k' -> schedule k' (r_base r)) ->
    (exists out, snd (sp a r c fs s0 X y v Xp vp) = Ok out) <->
    valid_data X y /\ has_batches cpu c /\ sc_use_numba c = false /\
    (forall j, (j < n)%nat -> exists t, (t < n)%nat /\ reached a Ds j t /\ ~ (sc_leave_local_out c = true /\ t = j)) /\
    (forall j, (j < n)%nat -> exists i, (i < k)%nat /\ reached a Es j i) /\
    (forall i, (i < k)%nat -> exists j, (j < n)%nat /\ reached a Es j i).
  Proof.
    intros n k Ha Hn Hk HD VD HE VE FD FE HS HB HP.
    destruct (fixed_weights a Ds n n VD Hn FD) as (W & HW & RW & GW).
    destruct (fixed_weights a Es n k VE Hn FE) as (U & HU & RU & GU).
    rewrite (spredict_iff fit_est predict_est fit_meta predict_meta cpu (sw a) Hest Hmeta r c fs s0 X y v Xp vp W U fs fs);
      auto; try (apply (sw_points a fs _ _ Ds W Ha HD HW)); try (apply (sw_points a fs _ _ Es U Ha HE HU)).
    fold n k.
    assert (P1 : forall j i, (j < n)%nat -> (i < k)%nat -> (0 < mget 0 U j i <-> reached a Es j i)).
    { intros j i Hj Hi. destruct (GU j i Hj Hi) as [G1 G2]. rewrite <- G2. split; intros; [lra|destruct G1; [auto|congruence]]. }
    split; intros (H1 & H2 & H3 & H4 & H5 & H6); (split; [exact H1|]; split; [exact H2|]; split; [exact H3|]; split; [|split]).
    - intros j Hj. destruct (H4 j Hj) as (t & Ht & Hw & Hl). exists t. split; [auto|]. split; [apply (GW j t Hj Ht); auto|auto].
    - intros j Hj. destruct (H5 j Hj) as (i & Hi & Hw). exists i. split; [auto|]. apply P1; auto.
    - intros i Hi. destruct (H6 i Hi) as (j & Hj & Hw). exists j. split; [auto|]. apply P1; auto.
    - intros j Hj. destruct (H4 j Hj) as (t & Ht & Hw & Hl). exists t. split; [auto|]. split; [apply (GW j t Hj Ht); auto|auto].
    - intros j Hj. destruct (H5 j Hj) as (i & Hi & Hw). exists i. split; [auto|]. apply P1; auto.
    - intros i Hi. destruct (H6 i Hi) as (j & Hj & Hw). exists j. split; [auto|]. apply P1; auto.
  Qed.

  (** Kernels without a limited support. *)
  Theorem unlimited_returns a r c fs s0 X y v Xp vp Ds Es :
    let n := length X in
    let k := length Xp in
    a_ratio a = RNone -> (1 < n)%nat -> (0 < k)%nat ->
    distance_matrices f32 mkw no_kw sm v (Some v) (a_measure a) None = Ok (map A2 Ds) -> valid_distances Ds n n ->
    distance_matrices f32 mkw no_kw sm v (Some vp) (a_measure a) None = Ok (map A2 Es) -> valid_distances Es n k ->
    fixed_bandwidths a (length Ds) -> fixed_bandwidths a (length Es) -> unlimited a (length Ds) -> unlimited a (length Es) ->
    schedule n (r_second r) -> length (r_buffer r) = n -> (forall k', patches cpu c = Some k' -> schedule k' (r_base r)) ->
    valid_data X y -> has_batches cpu c -> sc_use_numba c = false ->
    exists out, snd (sp a r c fs s0 X y v Xp vp) = Ok out.
  Proof.
    intros n k Ha Hn Hk HD VD HE VE FD FE UD UE HS HB HP HX HC HN.
    assert (R0 : forall Ds i j, unlimited a (length Ds) -> reached a Ds i j).
    { intros Ds0 i j HU dim k0 b Hd (Hq & _) Ho. destruct (HU dim k0 Hd Hq) as [N1 N2]. destruct Ho as [[? _]|[? _]]; contradiction. }
    apply (fixed_iff a r c fs s0 X y v Xp vp Ds Es); auto; [fold n; lia|]. fold n k. split; [auto|]. split; [auto|]. split; [auto|]. split; [|split].
    - intros j Hj. exists (if (j =? 0)%nat then 1%nat else 0%nat). destruct (Nat.eqb_spec j 0); (split; [lia|]; split; [auto|]; intros [_ E]; lia).
    - intros j Hj. exists 0%nat. split; [lia|auto].
    - intros i Hi. exists 0%nat. split; [lia|auto].
  Qed.

  (** One new point alone, a kernel that vanishes at its own bandwidth. *)
  Theorem one_point a r c fs s0 X y v x vp Ds Es dim k p j :
    let n := length X in
    a_ratio a = RNone -> (0 < n)%nat ->
    distance_matrices f32 mkw no_kw sm v (Some v) (a_measure a) None = Ok (map A2 Ds) -> valid_distances Ds n n ->
    distance_matrices f32 mkw no_kw sm v (Some vp) (a_measure a) None = Ok (map A2 Es) -> valid_distances Es n 1 ->
    schedule n (r_second r) -> length (r_buffer r) = n -> (forall k', patches cpu c = Some k' -> schedule k' (r_base r)) ->
    (dim < length Es)%nat -> requests (a_kernel a) (a_bandwidth a) (a_count a) dim k p ->
    (forall b, p <> FixedBandwidth b) -> vanishing_kernel k ->
    (j < n)%nat -> 0 < mget 0 (nth dim Es []) j 0 ->
    raises (snd (sp a r c fs s0 X y v [x] vp)).
  Proof.
    intros n Ha Hn HD VD HE VE HS HB HP Hdim Hreq Hfix Hvan Hj Hpos.
    apply raises_not_ok. intros out H.
    assert (HW : exists W, weight_matrix_from_distance (map A2 Ds) (a_kernel a) RNone (a_bandwidth a) (a_count a) = Ok W /\
                 exists U, weight_matrix_from_distance (map A2 Es) (a_kernel a) RNone (a_bandwidth a) (a_count a) = Ok U).
    { unfold spredict in H. destruct (check_X_y X y) as [u|e]; [|discriminate H].
      unfold stacking_weights at 1 in H. unfold weight_matrix_from_points in H. rewrite Ha, HD in H. cbn [bind] in H.
      cbn in H.
      destruct (weight_matrix_from_distance (map A2 Ds) (a_kernel a) RNone (a_bandwidth a) (a_count a)) as [W|e] eqn:EW; [|discriminate H].
      exists W. split; [reflexivity|].
      destruct (wm_stochastic Ds _ _ _ n n W VD Hn EW) as (Wr & -> & _). cbn [bind] in H. rewrite finite_entries_fin in H. cbn [bind] in H.
      unfold stacking_weights in H. unfold weight_matrix_from_points in H. rewrite Ha, HE in H. cbn [bind] in H. cbn in H.
      destruct (weight_matrix_from_distance (map A2 Es) (a_kernel a) RNone (a_bandwidth a) (a_count a)) as [U|e] eqn:EU; [|discriminate H].
      exists U. reflexivity. }
    destruct HW as (W & HW & U & HU).
    destruct (wm_stochastic Ds _ _ _ n n W VD Hn HW) as (Wr & -> & RW & _).
    pose proof (wm_product Es _ _ _ n 1 U VE Hn HU) as (_ & raw & Hraw & Hget).
    destruct (wm_stochastic Es _ _ _ n 1 U VE Hn HU) as (Ur & -> & RU & _).
    assert (H' : exists out, snd (sp a r c fs s0 X y v [x] vp) = Ok out) by (eexists; exact H).
    apply (spredict_iff fit_est predict_est fit_meta predict_meta cpu (sw a) Hest Hmeta r c fs s0 X y v [x] vp Wr Ur fs fs) in H'; auto;
      try (apply (sw_points a fs _ _ Ds Wr Ha HD HW)); try (apply (sw_points a fs _ _ Es Ur Ha HE HU)).
    destruct H' as (_ & _ & _ & _ & H5 & _). destruct (H5 j Hj) as (i & Hi & Hp). cbn in Hi. assert (i = 0%nat) as -> by lia.
    destruct (Hget j 0%nat Hj ltac:(lia)) as [_ Hs]. rewrite (mmap_get Fin Ur 0 NaN n 1) in Hs by (auto; lia).
    assert (Hne : raw dim j 0%nat <> 0). { apply Hs; auto. intros E. injection E as E. lra. }
    destruct (Hraw dim j 0%nat Hdim Hj ltac:(lia)) as (k' & p' & Hr' & b & Hb & Hw).
    destruct (requests_fun _ _ _ _ _ _ _ _ Hreq Hr') as [<- <-].
    destruct (valid_nth _ _ _ dim VE Hdim) as [HRd HEd].
    assert (Hrow : nth j (nth dim Es []) [] = [mget 0 (nth dim Es []) j 0]).
    { pose proof (rect_row _ _ _ j HRd Hj) as HL. unfold mget. destruct (nth j (nth dim Es []) []) as [|d0 [|]]; simpl in *; try lia. reflexivity. }
    rewrite Hrow in Hb. assert (Eb : b = mget 0 (nth dim Es []) j 0) by (apply (single_bandwidth p); auto).
    destruct Hreq as (_ & Hkn & _).
    apply weighs_iff in Hw; auto; [|lra].
    apply Hne. rewrite Hw, Eb. apply kernel_value_support; auto; [lra|]. left. split; auto. lra.
  Qed.

  (** A new point that is not among the nearest of any training point. *)
  Theorem far_point a r c fs s0 X y v Xp vp Ds Es dim kn z i :
    let n := length X in
    let k := length Xp in
    a_ratio a = RNone -> (0 < n)%nat ->
    distance_matrices f32 mkw no_kw sm v (Some v) (a_measure a) None = Ok (map A2 Ds) -> valid_distances Ds n n ->
    distance_matrices f32 mkw no_kw sm v (Some vp) (a_measure a) None = Ok (map A2 Es) -> valid_distances Es n k ->
    schedule n (r_second r) -> length (r_buffer r) = n -> (forall k', patches cpu c = Some k' -> schedule k' (r_base r)) ->
    (dim < length Es)%nat -> requests (a_kernel a) (a_bandwidth a) (a_count a) dim kn (NearestCount z) -> vanishing_kernel kn ->
    (i < k)%nat ->
    (forall j, (j < n)%nat -> let d := mget 0 (nth dim Es []) j i in
       0 < d /\ (Z.to_nat z <= count (fun x => Rleb x d) (nth j (nth dim Es []) []))%nat) ->
    raises (snd (sp a r c fs s0 X y v Xp vp)).
  Proof.
    intros n k Ha Hn HD VD HE VE HS HB HP Hdim Hreq Hvan Hi Hfar.
    apply raises_not_ok. intros out H.
    assert (HW : exists W, weight_matrix_from_distance (map A2 Ds) (a_kernel a) RNone (a_bandwidth a) (a_count a) = Ok W /\
                 exists U, weight_matrix_from_distance (map A2 Es) (a_kernel a) RNone (a_bandwidth a) (a_count a) = Ok U).
    { unfold spredict in H. destruct (check_X_y X y) as [u|e]; [|discriminate H].
      unfold stacking_weights at 1 in H. unfold weight_matrix_from_points in H. rewrite Ha, HD in H. cbn [bind] in H.
      cbn in H.
      destruct (weight_matrix_from_distance (map A2 Ds) (a_kernel a) RNone (a_bandwidth a) (a_count a)) as [W|e] eqn:EW; [|discriminate H].
      exists W. split; [reflexivity|].
      destruct (wm_stochastic Ds _ _ _ n n W VD Hn EW) as (Wr & -> & _). cbn [bind] in H. rewrite finite_entries_fin in H. cbn [bind] in H.
      unfold stacking_weights in H. unfold weight_matrix_from_points in H. rewrite Ha, HE in H. cbn [bind] in H. cbn in H.
      destruct (weight_matrix_from_distance (map A2 Es) (a_kernel a) RNone (a_bandwidth a) (a_count a)) as [U|e] eqn:EU; [|discriminate H].
      exists U. reflexivity. }
    destruct HW as (W & HW & U & HU).
    destruct (wm_stochastic Ds _ _ _ n n W VD Hn HW) as (Wr & -> & RW & _).
    pose proof (wm_product Es _ _ _ n k U VE Hn HU) as (_ & raw & Hraw & Hget).
    destruct (wm_stochastic Es _ _ _ n k U VE Hn HU) as (Ur & -> & RU & _).
    assert (H' : exists out, snd (sp a r c fs s0 X y v Xp vp) = Ok out) by (eexists; exact H).
    apply (spredict_iff fit_est predict_est fit_meta predict_meta cpu (sw a) Hest Hmeta r c fs s0 X y v Xp vp Wr Ur fs fs) in H'; auto;
      try (apply (sw_points a fs _ _ Ds Wr Ha HD HW)); try (apply (sw_points a fs _ _ Es Ur Ha HE HU)); try (fold k; lia).
    destruct H' as (_ & _ & _ & _ & _ & H6). destruct (H6 i Hi) as (j & Hj & Hp). fold n in Hj.
    destruct (Hget j i Hj Hi) as [_ Hs]. rewrite (mmap_get Fin Ur 0 NaN n k) in Hs by auto.
    assert (Hne : raw dim j i <> 0). { apply Hs; auto. intros E. injection E as E. lra. }
    destruct (Hraw dim j i Hdim Hj Hi) as (k' & p' & Hr' & b & Hb & Hw).
    destruct (requests_fun _ _ _ _ _ _ _ _ Hreq Hr') as [<- <-].
    destruct (Hfar j Hj) as [Hd Hc]. cbv zeta in *. set (d := mget 0 (nth dim Es []) j i) in *.
    destruct Hb as (Hz & _ & Hk). destruct Hreq as (_ & Hkn & _).
    apply weighs_iff in Hw; auto; [|lra]. apply Hne. rewrite Hw. clear Hne Hw Hs.
    assert (Hbd : b <= d).
    { destruct (Rle_lt_dec b d) as [|Hlt]; [auto|exfalso]. destruct Hk as (_ & _ & Hk).
      assert (L : (count (fun x => Rleb x d) (nth j (nth dim Es []) []) <= count (fun x => Rltb x b) (nth j (nth dim Es []) []))%nat); [|lia].
      apply count_le. intros x Hx. apply Rleb_true in Hx. apply Rltb_true. lra. }
    destruct (Req_EM_T b 0) as [->|Nb].
    - unfold kernel_value. destruct Hvan as [->|[->| ->]]; cbn; (destruct (Req_EM_T 0 0); [|lra]); (destruct (Req_EM_T d 0); [lra|reflexivity]).
    - assert (0 < b).
      { destruct Hk as (Hin & _). destruct (valid_nth _ _ _ dim VE Hdim) as [HRd HEd].
        apply (In_nth _ _ 0) in Hin. destruct Hin as (l & Hl & El). rewrite (rect_row _ _ _ j HRd Hj) in Hl.
        pose proof (entry_nonneg _ n k j l HRd HEd Hj Hl) as H0. unfold mget in H0. rewrite El in H0. lra. }
      apply kernel_value_support; auto. lra.
  Qed.
End NewPoints.
