(** Proofs for C185: one dimension given several times. *)
From Coq Require Import Lra Lia Psatz.
From Verif.Model Require Import Base Ext Csr Kernel Distance WeightMatrix.
From Verif.Spec Require Import KernelSpec WeightSpec CopiesSpec.
From Verif.Proofs Require Import ListFacts SumFacts KernelFacts KernelProps WeightFacts WeightProps WeightFloatThms.
Open Scope string_scope.
Open Scope nat_scope.
Open Scope R_scope.

Lemma copies_valid D m r c : valid_distances [D] r c -> (1 <= m)%nat -> valid_distances (repeat D m) r c.
Proof.
  intros [_ H] Hm. split; [destruct m; [lia|discriminate]|]. apply Forall_forall. intros x Hx. apply repeat_spec in Hx as ->.
  inversion H; auto.
Qed.
Lemma nth_copies {A} (D d : A) m dim : (dim < m)%nat -> nth dim (repeat D m) d = D.
Proof. intros H. apply (repeat_spec m D). apply nth_In. rewrite repeat_length; auto. Qed.

Lemma requests_any kt bw nc dim dim' k p : for_all_dimensions kt -> for_all_dimensions bw -> for_all_dimensions nc ->
  requests kt bw nc dim k p -> requests kt bw nc dim' k p.
Proof. destruct kt, bw, nc; simpl; try tauto; intros _ _ _ H; exact H. Qed.

Lemma success_copies D kt bw nc r c m : valid_distances [D] r c -> (0 < r)%nat -> (1 <= m)%nat ->
  for_all_dimensions kt -> for_all_dimensions bw -> for_all_dimensions nc ->
  ((exists W, weight_matrix_from_distance (map A2 [D]) kt RNone bw nc = Ok W) <->
   (exists W, weight_matrix_from_distance (map A2 (repeat D m)) kt RNone bw nc = Ok W)).
Proof.
  intros HV Hr Hm Hk Hb Hc. rewrite (wm_success _ _ _ _ r c HV Hr), (wm_success _ _ _ _ r c (copies_valid D m r c HV Hm) Hr).
  rewrite repeat_length. simpl length. split; intros [H1 H2]; (split; [exact H1|]).
  - intros dim _. destruct (H2 0%nat ltac:(lia)) as (k & p & HR & HP). exists k, p. split; auto. eapply requests_any; eauto.
  - intros dim _. destruct (H2 0%nat ltac:(lia)) as (k & p & HR & HP). exists k, p. split; auto. eapply requests_any; eauto.
Qed.

Lemma raw_unique k p D i j w w' : raw_weight k p D i j w -> raw_weight k p D i j w' -> w = w'.
Proof.
  intros (b & Hb & Hw) (b' & Hb' & Hw'). rewrite (row_bandwidth_unique _ _ _ _ Hb' Hb) in Hw'. unfold weighs in *. congruence.
Qed.
Lemma raw_range k p D r c i j w : rect D r c -> entries (Rle 0) D -> known_kernel k -> (i < r)%nat -> (j < c)%nat -> raw_weight k p D i j w -> 0 <= w <= 1.
Proof.
  intros HR HE Hk Hi Hj (b & _ & Hw). assert (Hd : 0 <= mget 0 D i j).
  { destruct HR as [HR1 HR2]. unfold mget. unfold entries in HE. rewrite Forall_forall in HE, HR2.
    assert (In (nth i D []) D) by (apply nth_In; lia). specialize (HE _ H). rewrite Forall_forall in HE. apply HE, nth_In. rewrite (HR2 _ H); auto. }
  apply weighs_iff in Hw; auto. subst. apply kernel_value_range; auto.
Qed.

Lemma Rprod_const n x : Rprod (tabulate n (fun _ => x)) = x ^ n.
Proof. unfold tabulate. generalize 0%nat. induction n; intros s; simpl; auto. rewrite IHn. auto. Qed.

(** The common form of both matrices. *)
Definition shares (raw : nat -> R) (c m j : nat) : R :=
  let t := Rsum (tabulate c (fun l => raw l ^ m)) in if Req_EM_T t 0 then 0 else raw j ^ m / t.

Lemma copies_form D kt bw nc r c m W : valid_distances [D] r c -> (0 < r)%nat -> (1 <= m)%nat ->
  for_all_dimensions kt -> for_all_dimensions bw -> for_all_dimensions nc ->
  weight_matrix_from_distance (map A2 (repeat D m)) kt RNone bw nc = Ok W ->
  rect W r c /\ exists raw, (forall i j, (i < r)%nat -> (j < c)%nat -> exists k p, requests kt bw nc 0 k p /\ raw_weight k p D i j (raw i j)) /\
    forall i j, (i < r)%nat -> (j < c)%nat -> mget NaN W i j = Fin (shares (raw i) c m j).
Proof.
  intros HV Hr Hm Hk Hb Hc H. pose proof (copies_valid D m r c HV Hm) as HV'. destruct (wm_product _ _ _ _ r c W HV' Hr H) as (HR & raw & H1 & H2).
  rewrite repeat_length in H1, H2.
  split; auto. exists (fun i j => raw 0%nat i j).
  assert (Q : forall i j, (i < r)%nat -> (j < c)%nat -> exists k p, requests kt bw nc 0 k p /\ raw_weight k p D i j (raw 0%nat i j)).
  { intros i j Hi Hj. destruct (H1 0%nat i j ltac:(lia) Hi Hj) as (k & p & A & B). rewrite nth_copies in B by lia. eauto. }
  split; auto.
  assert (E : forall dim i j, (dim < m)%nat -> (i < r)%nat -> (j < c)%nat -> raw dim i j = raw 0%nat i j).
  { intros dim i j Hd Hi Hj. destruct (Q i j Hi Hj) as (k & p & A & B). destruct (H1 dim i j Hd Hi Hj) as (k' & p' & A' & B').
    rewrite nth_copies in B' by auto. apply (requests_any kt bw nc dim 0) in A'; auto.
    destruct (requests_unique _ _ _ _ _ _ _ _ A A') as [<- <-]. eapply raw_unique; eauto. }
  intros i j Hi Hj. destruct (H2 i j Hi Hj) as [-> _]. unfold shares.
  assert (EP : forall l, (l < c)%nat -> Rprod (tabulate m (fun dim => raw dim i l)) = raw 0%nat i l ^ m).
  { intros l Hl. rewrite <- Rprod_const. f_equal. unfold tabulate. apply map_ext_in. intros dim Hd. apply in_seq in Hd. apply E; auto; lia. }
  assert (ES : Rsum (tabulate c (fun l => Rprod (tabulate m (fun dim => raw dim i l)))) = Rsum (tabulate c (fun l => raw 0%nat i l ^ m))).
  { unfold tabulate at 1 3. apply Rsum_map_ext. intros l Hl. apply in_seq in Hl. apply EP. lia. }
  cbv zeta. rewrite ES, (EP j Hj). reflexivity.
Qed.

(** Both matrices from one table of weights. *)
Lemma both_forms D kt bw nc r c m W W' : valid_distances [D] r c -> (0 < r)%nat -> (1 <= m)%nat ->
  for_all_dimensions kt -> for_all_dimensions bw -> for_all_dimensions nc ->
  weight_matrix_from_distance (map A2 [D]) kt RNone bw nc = Ok W ->
  weight_matrix_from_distance (map A2 (repeat D m)) kt RNone bw nc = Ok W' ->
  exists raw, (forall i j, (i < r)%nat -> (j < c)%nat -> 0 <= raw i j <= 1 /\ exists k p, requests kt bw nc 0 k p /\ raw_weight k p D i j (raw i j)) /\
    W = mmap Fin (mtab r c (fun i j => shares (raw i) c 1 j)) /\ W' = mmap Fin (mtab r c (fun i j => shares (raw i) c m j)).
Proof.
  intros HV Hr Hm Hk Hb Hc H H'.
  destruct (copies_form D kt bw nc r c 1 W HV Hr ltac:(lia) Hk Hb Hc H) as (HR & raw & A & B).
  destruct (copies_form D kt bw nc r c m W' HV Hr Hm Hk Hb Hc H') as (HR' & raw' & A' & B').
  exists raw. split.
  { intros i j Hi Hj. destruct (A i j Hi Hj) as (k & p & X & Y). split; [|eauto]. destruct HV as [_ HV]. inversion HV as [|? ? [HD1 HD2] _].
    eapply raw_range; eauto. apply X. }
  assert (E : forall i j, (i < r)%nat -> (j < c)%nat -> raw' i j = raw i j).
  { intros i j Hi Hj. destruct (A i j Hi Hj) as (k & p & X & Y). destruct (A' i j Hi Hj) as (k' & p' & X' & Y').
    destruct (requests_unique _ _ _ _ _ _ _ _ X X') as [<- <-]. eapply raw_unique; eauto. }
  rewrite !mmap_mtab. split; [rewrite (mtab_of NaN W r c HR)|rewrite (mtab_of NaN W' r c HR')]; apply mtab_ext; intros i j Hi Hj; [auto|].
  rewrite B' by auto. f_equal. unfold shares. rewrite E by auto.
  replace (Rsum (tabulate c (fun l => raw' i l ^ m))) with (Rsum (tabulate c (fun l => raw i l ^ m))); auto.
  unfold tabulate. apply Rsum_map_ext. intros l Hl. apply in_seq in Hl. rewrite E by (auto; lia). reflexivity.
Qed.

Section Shares.
  Variables (raw : nat -> R) (c : nat).
  Hypothesis Hraw : forall j, (j < c)%nat -> 0 <= raw j.

  Lemma pow_sum_zero m : (1 <= m)%nat -> Rsum (tabulate c (fun l => raw l ^ m)) = 0 -> forall j, (j < c)%nat -> raw j = 0.
  Proof.
    intros Hm HS j Hj. assert (E : raw j ^ m = 0).
    { apply (Rsum_zero_elem (tabulate c (fun l => raw l ^ m))); auto.
      - intros y Hy. apply in_map_iff in Hy as (l & <- & Hl). apply in_seq in Hl. apply pow_le, Hraw. lia.
      - apply in_map_iff. exists j. split; auto. apply in_seq. lia. }
    destruct (Req_dec (raw j) 0); auto. exfalso. revert E. apply pow_nonzero. auto.
  Qed.

  Lemma shares_sharpened m : (1 <= m)%nat -> tabulate c (shares raw c m) = sharpened m (tabulate c (shares raw c 1)).
  Proof.
    intros Hm. unfold sharpened. set (S1 := Rsum (map (fun v => v ^ m) (tabulate c (shares raw c 1)))). unfold tabulate. rewrite map_map. apply map_ext_in. intros j Hj. apply in_seq in Hj.
    set (t := Rsum (tabulate c (fun l => raw l ^ 1))).
    destruct (Req_EM_T t 0) as [E|E].
    - assert (Z0 : forall l, (l < c)%nat -> raw l = 0) by (apply (pow_sum_zero 1); auto).
      unfold shares. fold t. destruct (Req_EM_T t 0); [|contradiction].
      rewrite (Z0 j) by lia. rewrite !pow_i by lia. destruct (Req_EM_T _ 0); unfold Rdiv; ring.
    - assert (E' : Rsum (tabulate c (fun l => raw l ^ m)) <> 0).
      { intros H. apply E. apply Rsum_zero. intros x Hx. apply in_map_iff in Hx as (l & <- & Hl). apply in_seq in Hl.
        rewrite (pow_sum_zero m) by (auto; lia). ring. }
      assert (ES : S1 = Rsum (tabulate c (fun l => raw l ^ m)) * (/ t) ^ m).
      { unfold S1, tabulate. rewrite map_map, <- Rsum_map_scal_r. apply Rsum_map_ext. intros l _. unfold shares. fold t. destruct (Req_EM_T t 0); [contradiction|].
        unfold Rdiv. rewrite Rpow_mult_distr, pow_1. reflexivity. }
      rewrite ES. unfold shares. fold t. destruct (Req_EM_T t 0); [contradiction|].
      destruct (Req_EM_T (Rsum (tabulate c (fun l => raw l ^ m))) 0); [contradiction|].
      assert (t ^ m <> 0) by (apply pow_nonzero; auto). assert (((/ t) ^ m) <> 0) by (apply pow_nonzero, Rinv_neq_0_compat; auto).
      unfold Rdiv. rewrite Rpow_mult_distr, pow_1. field. auto.
  Qed.
End Shares.

Lemma sharpened_rows D kt bw nc r c m W W' : valid_distances [D] r c -> (0 < r)%nat -> (1 <= m)%nat ->
  for_all_dimensions kt -> for_all_dimensions bw -> for_all_dimensions nc ->
  weight_matrix_from_distance (map A2 [D]) kt RNone bw nc = Ok W ->
  weight_matrix_from_distance (map A2 (repeat D m)) kt RNone bw nc = Ok W' ->
  exists Wr, W = mmap Fin Wr /\ rect Wr r c /\ Forall normalised_row Wr /\ W' = mmap Fin (map (sharpened m) Wr).
Proof.
  intros HV Hr Hm Hk Hb Hc H H'. destruct (both_forms D kt bw nc r c m W W' HV Hr Hm Hk Hb Hc H H') as (raw & HR & EW & EW').
  exists (mtab r c (fun i j => shares (raw i) c 1 j)). split; auto. split; [apply mtab_rect|]. split.
  - destruct (wm_stochastic _ _ _ _ r c W HV Hr H) as (Wr & E & _ & HN & _). rewrite EW in E.
    assert (EE : mtab r c (fun i j => shares (raw i) c 1 j) = Wr).
    { clear -E. revert E. generalize (mtab r c (fun i j => shares (raw i) c 1 j)). intros M. revert Wr. induction M as [|a M IH]; intros [|b Wr] E; try discriminate; auto.
      simpl in E. inversion E as [[E1 E2]]. rewrite (IH Wr E2). f_equal. clear -E1. revert b E1. induction a; intros [|y b] E; try discriminate; auto.
      inversion E. f_equal; auto. }
    rewrite EE. exact HN.
  - rewrite EW'. f_equal. unfold mtab, tabulate at 1 3. rewrite map_map. apply map_ext_in. intros i Hi. apply in_seq in Hi.
    apply (shares_sharpened (raw i) c); auto. intros j Hj. apply HR; auto; lia.
Qed.

(** What sharpening does to a row of shares. *)
Lemma pow_mono x y n : 0 <= x <= y -> x ^ n <= y ^ n.
Proof. intros. apply pow_incr. auto. Qed.
Lemma pow_strict x y n : (1 <= n)%nat -> 0 <= x < y -> x ^ n < y ^ n.
Proof.
  intros Hn Hxy. induction n as [|[|n] IH]; [lia|simpl; lra|]. assert (x ^ S n < y ^ S n) by (apply IH; lia).
  change (x * x ^ S n < y * y ^ S n). assert (0 <= x ^ S n) by (apply pow_le; lra). nra.
Qed.

Section Row.
  Variables (row : list R) (m : nat).
  Hypothesis Hm : (1 <= m)%nat.
  Hypothesis HN : normalised_row row.
  Notation T := (Rsum (map (fun v => v ^ m) row)).

  Lemma row_nonneg x : In x row -> 0 <= x.
  Proof. destruct HN as [H _]. rewrite Forall_forall in H. intros Hx. apply H in Hx. lra. Qed.
  Lemma T_ge x : In x row -> x ^ m <= T.
  Proof.
    intros Hx. apply Rsum_ge_elem.
    - intros y Hy. apply in_map_iff in Hy as (v & <- & Hv). apply pow_le, row_nonneg; auto.
    - apply in_map_iff. exists x; auto.
  Qed.
  Lemma T_pos x : In x row -> x <> 0 -> 0 < T.
  Proof. intros Hx H0. pose proof (T_ge x Hx). assert (0 < x ^ m) by (apply pow_lt; pose proof (row_nonneg x Hx); lra). lra. Qed.
  Lemma sharp_nth j : (j < length row)%nat -> nth j (sharpened m row) 0 = nth j row 0 ^ m / T.
  Proof. intros Hj. unfold sharpened. rewrite (nth_indep _ 0 ((fun w => w ^ m / T) 0)) by (rewrite map_length; auto). rewrite (map_nth (fun w => w ^ m / T)). reflexivity. Qed.

  Lemma sharp_zero j : (j < length row)%nat -> (nth j (sharpened m row) 0 = 0 <-> nth j row 0 = 0).
  Proof.
    intros Hj. rewrite sharp_nth by auto. pose proof (nth_In row 0 Hj) as HI. split; intros H.
    - destruct (Req_dec (nth j row 0) 0) as [|H0]; auto. exfalso. pose proof (T_pos _ HI H0).
      apply (pow_nonzero _ m) in H0. unfold Rdiv in H. apply Rmult_integral in H as [H|H]; [contradiction|]. apply Rinv_neq_0_compat in H; auto. lra.
    - rewrite H, pow_i by lia. unfold Rdiv. ring.
  Qed.
  Lemma sharp_order j l : (j < length row)%nat -> (l < length row)%nat -> nth j row 0 <= nth l row 0 -> nth j (sharpened m row) 0 <= nth l (sharpened m row) 0.
  Proof.
    intros Hj Hl H. rewrite !sharp_nth by auto. pose proof (row_nonneg _ (nth_In row 0 Hj)). pose proof (row_nonneg _ (nth_In row 0 Hl)).
    destruct (Req_dec (nth l row 0) 0) as [E|E].
    - assert (E' : nth j row 0 = 0) by lra. rewrite E, E'. lra.
    - pose proof (T_pos _ (nth_In row 0 Hl) E). unfold Rdiv. apply Rmult_le_compat_r; [apply Rlt_le, Rinv_0_lt_compat; auto|]. apply pow_mono; lra.
  Qed.
  Lemma row_sum j : (j < length row)%nat -> nth j row 0 <> 0 -> Rsum row = 1.
  Proof. intros Hj H0. destruct HN as [_ [H|H]]; auto. exfalso. rewrite Forall_forall in H. apply H0, H, nth_In; auto. Qed.

  Lemma T_split : T = Rsum (map (fun v => v * v ^ (m - 1)) row).
  Proof. apply Rsum_map_ext. intros x _. replace m with (S (m - 1)) at 1 by lia. reflexivity. Qed.

  (** The largest share does not fall, the smallest does not rise. *)
  Lemma sharp_top j : (j < length row)%nat -> (forall l, (l < length row)%nat -> nth l row 0 <= nth j row 0) -> nth j row 0 <= nth j (sharpened m row) 0.
  Proof.
    intros Hj Hmax. rewrite sharp_nth by auto. destruct (Req_dec (nth j row 0) 0) as [E|E].
    { rewrite E, pow_i by lia. unfold Rdiv. lra. }
    pose proof (nth_In row 0 Hj) as HI. pose proof (T_pos _ HI E) as HT. pose proof (row_nonneg _ HI) as Hx. set (x := nth j row 0) in *.
    assert (T <= x ^ (m - 1)).
    { rewrite T_split. replace (x ^ (m - 1)) with (x ^ (m - 1) * Rsum (map (fun v => v) row)) by (rewrite map_id, (row_sum j Hj E); ring).
      rewrite <- Rsum_map_scal. apply Rsum_map_le. intros v Hv. rewrite Rmult_comm. apply Rmult_le_compat_r; [apply row_nonneg; auto|].
      apply pow_mono. split; [apply row_nonneg; auto|]. destruct (In_nth _ _ 0 Hv) as (l & Hl & <-). apply Hmax; auto. }
    apply (Rmult_le_reg_r T); auto. unfold Rdiv. rewrite Rmult_assoc, Rinv_l, Rmult_1_r by lra.
    replace (x ^ m) with (x * x ^ (m - 1)) by (replace m with (S (m - 1)) at 2 by lia; reflexivity). apply Rmult_le_compat_l; auto.
  Qed.
  Lemma sharp_bottom j : (j < length row)%nat -> nth j row 0 <> 0 -> (forall l, (l < length row)%nat -> nth l row 0 <> 0 -> nth j row 0 <= nth l row 0) ->
    nth j (sharpened m row) 0 <= nth j row 0.
  Proof.
    intros Hj E Hmin. rewrite sharp_nth by auto.
    pose proof (nth_In row 0 Hj) as HI. pose proof (T_pos _ HI E) as HT. pose proof (row_nonneg _ HI) as Hx. set (x := nth j row 0) in *.
    assert (x ^ (m - 1) <= T).
    { rewrite T_split. replace (x ^ (m - 1)) with (x ^ (m - 1) * Rsum (map (fun v => v) row)) by (rewrite map_id, (row_sum j Hj E); ring).
      rewrite <- Rsum_map_scal. apply Rsum_map_le. intros v Hv. destruct (Req_dec v 0) as [->|Hv0]; [lra|].
      rewrite (Rmult_comm v). apply Rmult_le_compat_r; [apply row_nonneg; auto|]. apply pow_mono. split; auto.
      destruct (In_nth _ _ 0 Hv) as (l & Hl & <-). apply Hmin; auto. }
    apply (Rmult_le_reg_r T); auto. unfold Rdiv. rewrite Rmult_assoc, Rinv_l, Rmult_1_r by lra.
    replace (x ^ m) with (x * x ^ (m - 1)) by (replace m with (S (m - 1)) at 2 by lia; reflexivity). apply Rmult_le_compat_l; auto.
  Qed.
  (** Different shares do change. *)
  Lemma sharp_changes j l : (2 <= m)%nat -> (j < length row)%nat -> (l < length row)%nat -> nth j row 0 <> 0 -> nth l row 0 <> 0 -> nth j row 0 <> nth l row 0 ->
    sharpened m row <> row.
  Proof.
    intros H2 Hj Hl Ej El Hne EQ. 
    assert (K : forall i, (i < length row)%nat -> nth i row 0 <> 0 -> nth i row 0 ^ (m - 1) = T).
    { intros i Hi Ei. pose proof (sharp_nth i Hi) as E. rewrite EQ in E. pose proof (T_pos _ (nth_In row 0 Hi) Ei).
      assert (E2 : nth i row 0 * T = nth i row 0 * nth i row 0 ^ (m - 1)).
      { rewrite E at 1. unfold Rdiv. rewrite Rmult_assoc, Rinv_l, Rmult_1_r by lra. replace m with (S (m - 1)) at 1 by lia. reflexivity. }
      apply Rmult_eq_reg_l in E2; auto. }
    pose proof (row_nonneg _ (nth_In row 0 Hj)). pose proof (row_nonneg _ (nth_In row 0 Hl)).
    assert (E : nth j row 0 ^ (m - 1) = nth l row 0 ^ (m - 1)) by (rewrite (K j), (K l); auto).
    destruct (Rlt_le_dec (nth j row 0) (nth l row 0)).
    - assert (nth j row 0 ^ (m - 1) < nth l row 0 ^ (m - 1)) by (apply pow_strict; [lia|lra]). lra.
    - assert (nth l row 0 ^ (m - 1) < nth j row 0 ^ (m - 1)) by (apply pow_strict; [lia|lra]). lra.
  Qed.
End Row.

(** Kernels with weights 0 and 1 only. *)
Lemma flat_copies D k bw nc r c m W : valid_distances [D] r c -> (0 < r)%nat -> (1 <= m)%nat -> k = "uniform" \/ k = "boxcar" ->
  for_all_dimensions bw -> for_all_dimensions nc ->
  weight_matrix_from_distance (map A2 [D]) (DScal k) RNone bw nc = Ok W ->
  weight_matrix_from_distance (map A2 (repeat D m)) (DScal k) RNone bw nc = Ok W.
Proof.
  intros HV Hr Hm Hk Hb Hc H.
  destruct (proj1 (success_copies D (DScal k) bw nc r c m HV Hr Hm I Hb Hc) (ex_intro _ W H)) as [W' H']. rewrite H'. f_equal.
  destruct (both_forms D (DScal k) bw nc r c m W W' HV Hr Hm I Hb Hc H H') as (raw & HR & -> & ->). f_equal. apply mtab_ext. intros i j Hi Hj.
  assert (E : forall l, (l < c)%nat -> raw i l ^ m = raw i l ^ 1).
  { intros l Hl. destruct (HR i l Hi Hl) as (_ & k' & p & (EK & HK & _) & b & _ & Hw). simpl in EK. injection EK as <-.
    assert (Hd : 0 <= mget 0 D i l).
    { destruct HV as [_ HV]. inversion HV as [|? ? [[HD1 HD2] HE] _]. unfold mget. unfold entries in HE. rewrite Forall_forall in HE, HD2.
      assert (HI : In (nth i D []) D) by (apply nth_In; lia). specialize (HE _ HI). rewrite Forall_forall in HE. apply HE, nth_In. rewrite (HD2 _ HI); auto. }
    apply weighs_iff in Hw; auto.
    assert (raw i l = 0 \/ raw i l = 1).
    { rewrite Hw. destruct Hk as [->| ->]; unfold kernel_value; simpl; auto. destruct (Req_EM_T b 0); [destruct (Req_EM_T _ 0); auto|]. destruct (Rle_dec _ b); auto. }
    destruct H0 as [->| ->]; [rewrite !pow_i by lia; auto|rewrite !pow1; auto]. }
  unfold shares. rewrite (E j Hj).
  replace (Rsum (tabulate c (fun l => raw i l ^ m))) with (Rsum (tabulate c (fun l => raw i l ^ 1))); auto.
  unfold tabulate. apply Rsum_map_ext. intros l Hl. apply in_seq in Hl. rewrite E by lia. reflexivity.
Qed.

Lemma exp_pow x n : exp x ^ n = exp (INR n * x).
Proof. induction n; [simpl; rewrite Rmult_0_l, exp_0; auto|]. rewrite S_INR. simpl pow. rewrite IHn, <- exp_plus. f_equal. ring. Qed.

Lemma narrower_copies D k b b' r c m : valid_distances [D] r c -> (0 < r)%nat -> (1 <= m)%nat -> known_kernel k ->
  (forall d, 0 <= d -> kernel_value k b d ^ m = kernel_value k b' d) ->
  weight_matrix_from_distance (map A2 (repeat D m)) (DScal k) RNone (DScal b) DNone =
  weight_matrix_from_distance (map A2 [D]) (DScal k) RNone (DScal b') DNone.
Proof.
  intros HV Hr Hm Hk HE.
  assert (S1 : forall x, exists W, weight_matrix_from_distance (map A2 [D]) (DScal k) RNone (DScal x) DNone = Ok W).
  { intros x. apply (wm_success _ _ _ _ r c HV Hr). split; [intros [? _]; discriminate|]. intros dim _. exists k, (FixedBandwidth x). split; [|exact I].
    repeat split; simpl; auto. }
  destruct (proj1 (success_copies D (DScal k) (DScal b) DNone r c m HV Hr Hm I I I) (S1 b)) as [W' H']. destruct (S1 b') as [W H]. rewrite H, H'. f_equal.
  destruct (copies_form D (DScal k) (DScal b) DNone r c m W' HV Hr Hm I I I H') as (R1 & raw' & A' & B').
  destruct (copies_form D (DScal k) (DScal b') DNone r c 1 W HV Hr ltac:(lia) I I I H) as (R2 & raw & A & B).
  rewrite (mtab_of NaN W r c R2), (mtab_of NaN W' r c R1). apply mtab_ext. intros i j Hi Hj. rewrite B, B' by auto. f_equal.
  assert (Hd : forall l, (l < c)%nat -> 0 <= mget 0 D i l).
  { intros l Hl. destruct HV as [_ HV]. inversion HV as [|? ? [[HD1 HD2] HE'] _]. unfold mget. unfold entries in HE'. rewrite Forall_forall in HE', HD2.
    assert (HI : In (nth i D []) D) by (apply nth_In; lia). specialize (HE' _ HI). rewrite Forall_forall in HE'. apply HE', nth_In. rewrite (HD2 _ HI); auto. }
  assert (E : forall l, (l < c)%nat -> raw' i l ^ m = raw i l ^ 1).
  { intros l Hl. destruct (A' i l Hi Hl) as (k1 & p1 & (K1 & _ & _ & _ & P1) & x1 & X1 & Y1). destruct (A i l Hi Hl) as (k2 & p2 & (K2 & _ & _ & _ & P2) & x2 & X2 & Y2).
    simpl in K1, K2, P1, P2. injection K1 as <-. injection K2 as <-. injection P1 as <-. injection P2 as <-. simpl in X1, X2. subst x1 x2.
    apply weighs_iff in Y1; auto. apply weighs_iff in Y2; auto. rewrite Y1, Y2, pow_1. apply HE. auto. }
  unfold shares. rewrite (E j Hj).
  replace (Rsum (tabulate c (fun l => raw' i l ^ m))) with (Rsum (tabulate c (fun l => raw i l ^ 1))); auto.
  unfold tabulate. apply Rsum_map_ext. intros l Hl. apply in_seq in Hl. rewrite E by lia. reflexivity.
Qed.

Lemma gaussian_copies D b r c m : valid_distances [D] r c -> (0 < r)%nat -> (1 <= m)%nat -> 0 < b ->
  weight_matrix_from_distance (map A2 (repeat D m)) (DScal "gaussian") RNone (DScal b) DNone =
  weight_matrix_from_distance (map A2 [D]) (DScal "gaussian") RNone (DScal (b / sqrt (INR m))) DNone.
Proof.
  intros HV Hr Hm Hb. assert (HI : 0 < INR m) by (apply lt_0_INR; lia). pose proof (sqrt_lt_R0 _ HI) as HQ. pose proof (sqrt_sqrt (INR m) ltac:(lra)) as HS.
  apply (narrower_copies D _ _ _ r c); auto; [unfold known_kernel; tauto|].
  intros d Hd. assert (0 < b / sqrt (INR m)) by (apply Rdiv_lt_0_compat; auto).
  unfold kernel_value; simpl. destruct (Req_EM_T b 0); [lra|]. destruct (Req_EM_T (b / sqrt (INR m)) 0); [lra|].
  rewrite exp_pow. f_equal. replace (d / (b / sqrt (INR m))) with (d / b * sqrt (INR m)) by (field; lra).
  replace (d / b * sqrt (INR m) * (d / b * sqrt (INR m) * 1)) with (d / b * (d / b) * (sqrt (INR m) * sqrt (INR m))) by ring. rewrite HS. field. lra.
Qed.
Lemma exponential_copies D b r c m : valid_distances [D] r c -> (0 < r)%nat -> (1 <= m)%nat -> 0 < b ->
  weight_matrix_from_distance (map A2 (repeat D m)) (DScal "exponential") RNone (DScal b) DNone =
  weight_matrix_from_distance (map A2 [D]) (DScal "exponential") RNone (DScal (b / INR m)) DNone.
Proof.
  intros HV Hr Hm Hb. assert (HI : 0 < INR m) by (apply lt_0_INR; lia).
  apply (narrower_copies D _ _ _ r c); auto; [unfold known_kernel; tauto|].
  intros d Hd. assert (0 < b / INR m) by (apply Rdiv_lt_0_compat; auto).
  unfold kernel_value; simpl. destruct (Req_EM_T b 0); [lra|]. destruct (Req_EM_T (b / INR m) 0); [lra|].
  rewrite exp_pow. f_equal. replace (d / (b / INR m)) with (INR m * (d / b)) by (field; lra).
  rewrite Rabs_mult, (Rabs_right (INR m)) by lra. field.
Qed.
