From Coq Require Import Lra Psatz Sorting.Sorted.
From Verif.Model Require Import Base Ext Sort Kernel Distance WeightMatrix.
From Verif.Spec Require Import KernelSpec WeightSpec.
From Verif.Proofs Require Import ListFacts KernelFacts SortFacts AdaptiveFacts KernelProps KernelExamples SumFacts WeightFacts.
Open Scope string_scope.
Open Scope nat_scope.
Open Scope R_scope.

Lemma raw_matrix_get k D bs r c i j :
  rect D r c -> length bs = r -> (i < r)%nat -> (j < c)%nat ->
  mget 0 (raw_matrix k D bs) i j = kernel_value k (nth i bs 0) (mget 0 D i j).
Proof.
  intros HR Hb Hi Hj. unfold mget, raw_matrix.
  rewrite (map2_nth _ D bs i [] 0) by (try lia; destruct HR as [H _]; rewrite H; auto).
  rewrite (nth_indep _ 0 (kernel_value k (nth i bs 0) 0)).
  - apply (map_nth (fun d => kernel_value k (nth i bs 0) d)).
  - rewrite map_length, (rect_row D r c); auto.
Qed.

Lemma entry_nonneg D r c i j : rect D r c -> entries (Rle 0) D -> (i < r)%nat -> (j < c)%nat -> 0 <= mget 0 D i j.
Proof.
  intros HR HE Hi Hj. unfold entries in HE. rewrite Forall_forall in HE.
  assert (Hin : In (nth i D []) D) by (apply nth_In; destruct HR as [H _]; rewrite H; auto).
  specialize (HE _ Hin). rewrite Forall_forall in HE. apply HE, nth_In.
  rewrite (rect_row D r c); auto.
Qed.

(** Everything a successful call says, in terms of raw kernel weights. *)
Record wm_facts (Ds : list (matrix R)) kt bw nc r c (W : matrix ext) (raw : nat -> nat -> nat -> R) : Prop := {
  wf_raw : forall dim i j, (dim < length Ds)%nat -> (i < r)%nat -> (j < c)%nat ->
     exists k p b, requests kt bw nc dim k p /\ row_bandwidth p (nth i (nth dim Ds []) []) b /\
       raw dim i j = kernel_value k b (mget 0 (nth dim Ds []) i j);
  wf_W : W = mmap Fin (mtab r c (fun i j =>
     safe_div (Rprod (tabulate (length Ds) (fun dim => raw dim i j)))
              (Rsum (tabulate c (fun j => Rprod (tabulate (length Ds) (fun dim => raw dim i j)))))))
}.

Lemma valid_nth Ds r c dim : valid_distances Ds r c -> (dim < length Ds)%nat ->
  rect (nth dim Ds []) r c /\ entries (Rle 0) (nth dim Ds []).
Proof. intros [_ HF] Hd. exact (proj1 (Forall_nth_lt _ _ _) HF dim Hd). Qed.

Lemma wm_sound Ds kt bw nc r c W :
  valid_distances Ds r c -> (0 < r)%nat ->
  weight_matrix_from_distance (map A2 Ds) kt RNone bw nc = Ok W ->
  exists raw, wm_facts Ds kt bw nc r c W raw.
Proof.
  intros HV Hr H. apply (wmfd_ok_iff Ds kt bw nc r c W HV Hr) in H as [_ [Ms [HL [HM ->]]]].
  exists (fun dim i j => mget 0 (nth dim Ms []) i j). constructor.
  - intros dim i j Hd Hi Hj. destruct (HM dim Hd) as [k [p [bs [[Hk HB] E]]]].
    destruct (valid_nth _ _ _ _ HV Hd) as [HR HE].
    assert (Hbl : length bs = r) by (apply Forall2_len in HB; destruct HR as [HR1 _]; rewrite <- HR1; symmetry; exact HB).
    exists k, p, (nth i bs 0). split; auto. split.
    + apply (Forall2_nth _ _ _ [] 0 i HB). destruct HR as [HR1 _]; rewrite HR1; auto.
    + rewrite E. apply (raw_matrix_get k _ bs r c); auto.
  - assert (Ep : forall i j, prod_at Ms i j = Rprod (tabulate (length Ds) (fun dim => mget 0 (nth dim Ms []) i j))).
    { intros i j. unfold prod_at. f_equal.
      rewrite (tabulate_of_list ([]: matrix R) Ms) at 1. rewrite map_tabulate, HL. reflexivity. }
    apply (f_equal (mmap Fin)). apply mtab_ext. intros i j _ _. rewrite Ep. f_equal. f_equal.
    apply tabulate_ext. intros; apply Ep.
Qed.

Lemma wm_complete Ds kt bw nc r c raw W :
  valid_distances Ds r c -> (0 < r)%nat ->
  (is_none bw && is_none nc = false) ->
  (forall dim, (dim < length Ds)%nat -> exists k p bs, requests kt bw nc dim k p /\
     length bs = r /\ (forall i, (i < r)%nat -> row_bandwidth p (nth i (nth dim Ds []) []) (nth i bs 0)) /\
     forall i j, (i < r)%nat -> (j < c)%nat -> raw dim i j = kernel_value k (nth i bs 0) (mget 0 (nth dim Ds []) i j)) ->
  W = mmap Fin (mtab r c (fun i j =>
     safe_div (Rprod (tabulate (length Ds) (fun dim => raw dim i j)))
              (Rsum (tabulate c (fun j => Rprod (tabulate (length Ds) (fun dim => raw dim i j))))))) ->
  weight_matrix_from_distance (map A2 Ds) kt RNone bw nc = Ok W.
Proof.
  intros HV Hr Hn H ->. apply (wmfd_ok_iff Ds kt bw nc r c _ HV Hr). split; auto.
  exists (tabulate (length Ds) (fun dim => mtab r c (fun i j => raw dim i j))).
  split; [apply tabulate_length|]. split.
  - intros dim Hd. destruct (H dim Hd) as [k [p [bs [Hk [Hbl [Hb Hw]]]]]].
    destruct (valid_nth _ _ _ _ HV Hd) as [HR HE].
    exists k, p, bs. split.
    + split; auto. apply (Forall2_nth_intro _ _ _ [] 0).
      * destruct HR as [HR1 _]. rewrite HR1; auto.
      * destruct HR as [HR1 _]. rewrite HR1; auto.
    + rewrite tabulate_nth by auto.
      apply (matrix_eq 0 _ _ r c); [apply mtab_rect|apply raw_matrix_rect; auto|].
      intros i j Hi Hj. rewrite mtab_get by auto.
      rewrite (raw_matrix_get k _ bs r c) by auto. auto.
  - apply (f_equal (mmap Fin)). apply mtab_ext. intros i j Hi Hj.
    assert (Ep : forall j, (j < c)%nat -> prod_at (tabulate (length Ds) (fun dim => mtab r c (fun i j => raw dim i j))) i j
        = Rprod (tabulate (length Ds) (fun dim => raw dim i j))).
    { intros j' Hj'. unfold prod_at. rewrite map_tabulate. f_equal. apply tabulate_ext. intros; apply mtab_get; auto. }
    rewrite Ep by auto. f_equal. f_equal. apply tabulate_ext. intros; symmetry; apply Ep; auto.
Qed.

Lemma requests_fun kt bw nc dim k p k' p' :
  requests kt bw nc dim k p -> requests kt bw nc dim k' p' -> k = k' /\ p = p'.
Proof. intros [A [_ [_ [_ B]]]] [C [_ [_ [_ D]]]]. split; congruence. Qed.

Lemma tabulate_in_bounds n (f : nat -> R) (P : R -> Prop) : (forall i, (i < n)%nat -> P (f i)) -> forall x, In x (tabulate n f) -> P x.
Proof. intros H x Hx. apply in_tabulate in Hx as [i [Hi <-]]; auto. Qed.

Section Facts.
  Context (Ds : list (matrix R)) (kt : dim_arg string) (bw : dim_arg R) (nc : dim_arg count_arg)
          (r c : nat) (W : matrix ext) (raw : nat -> nat -> nat -> R).
  Context (HV : valid_distances Ds r c) (HF : wm_facts Ds kt bw nc r c W raw).

  Definition PR (i j : nat) : R := Rprod (tabulate (length Ds) (fun dim => raw dim i j)).
  Definition SR (i : nat) : R := Rsum (tabulate c (PR i)).

  Lemma raw_range dim i j : (dim < length Ds)%nat -> (i < r)%nat -> (j < c)%nat -> 0 <= raw dim i j <= 1.
  Proof.
    intros Hd Hi Hj. destruct (wf_raw _ _ _ _ _ _ _ _ HF dim i j Hd Hi Hj) as [k [p [b [[_ [Hk _]] [_ ->]]]]].
    destruct (valid_nth _ _ _ _ HV Hd) as [HR HE].
    apply kernel_value_range; auto. apply (entry_nonneg _ r c); auto.
  Qed.

  Lemma PR_range i j : (i < r)%nat -> (j < c)%nat -> 0 <= PR i j <= 1.
  Proof.
    intros Hi Hj. apply Rprod_bounds. apply tabulate_in_bounds. intros; apply raw_range; auto.
  Qed.

  Lemma SR_nonneg i : (i < r)%nat -> 0 <= SR i.
  Proof.
    intros Hi. apply Rsum_nonneg. apply (tabulate_in_bounds c (PR i) (fun x => 0 <= x)).
    intros; apply PR_range; auto.
  Qed.

  Lemma PR_le_SR i j : (i < r)%nat -> (j < c)%nat -> PR i j <= SR i.
  Proof.
    intros Hi Hj. apply Rsum_ge_elem.
    - apply (tabulate_in_bounds c (PR i) (fun x => 0 <= x)). intros; apply PR_range; auto.
    - apply in_tabulate. exists j; auto.
  Qed.

  Lemma W_eq : W = mmap Fin (mtab r c (fun i j => safe_div (PR i j) (SR i))).
  Proof. exact (wf_W _ _ _ _ _ _ _ _ HF). Qed.

  Lemma safe_div_range i j : (i < r)%nat -> (j < c)%nat -> 0 <= safe_div (PR i j) (SR i) <= 1.
  Proof.
    intros Hi Hj. pose proof (PR_range i j Hi Hj). pose proof (PR_le_SR i j Hi Hj). pose proof (SR_nonneg i Hi).
    unfold safe_div. destruct (Req_EM_T (SR i) 0); [lra|].
    apply div_range; lra.
  Qed.

  Lemma safe_div_zero i j : (i < r)%nat -> (j < c)%nat -> safe_div (PR i j) (SR i) = 0 <-> PR i j = 0.
  Proof.
    intros Hi Hj. unfold safe_div. destruct (Req_EM_T (SR i) 0); [split; lra|].
    split; intros H.
    - replace (PR i j) with (PR i j / SR i * SR i) by (field; auto). rewrite H; lra.
    - rewrite H. unfold Rdiv. lra.
  Qed.

  Lemma PR_zero i j : PR i j = 0 <-> exists dim, (dim < length Ds)%nat /\ raw dim i j = 0.
  Proof. unfold PR. rewrite Rprod_zero_iff. apply in_tabulate. Qed.

  Lemma SR_zero i : (i < r)%nat -> SR i = 0 <-> forall j, (j < c)%nat -> PR i j = 0.
  Proof.
    intros Hi. split.
    - intros H j Hj. pose proof (PR_range i j Hi Hj). pose proof (PR_le_SR i j Hi Hj). lra.
    - intros H. apply Rsum_zero. apply (tabulate_in_bounds c (PR i) (fun x => x = 0)). auto.
  Qed.

  Lemma W_row_sum i : (i < r)%nat -> SR i <> 0 ->
    Rsum (tabulate c (fun j => safe_div (PR i j) (SR i))) = 1.
  Proof.
    intros Hi Hs. unfold safe_div. destruct (Req_EM_T (SR i) 0); [contradiction|].
    unfold tabulate. unfold Rdiv. rewrite Rsum_map_scal_r. fold (tabulate c (PR i)).
    change (Rsum (tabulate c (PR i))) with (SR i). field; auto.
  Qed.
End Facts.

Lemma weighs_row k p kt bw nc Ds r c dim i j w :
  valid_distances Ds r c -> (dim < length Ds)%nat -> (i < r)%nat -> (j < c)%nat ->
  requests kt bw nc dim k p ->
  (raw_weight k p (nth dim Ds []) i j w <->
   exists b, row_bandwidth p (nth i (nth dim Ds []) []) b /\ w = kernel_value k b (mget 0 (nth dim Ds []) i j)).
Proof.
  intros HV Hd Hi Hj [_ [Hk _]]. destruct (valid_nth _ _ _ _ HV Hd) as [HR HE].
  pose proof (entry_nonneg _ r c i j HR HE Hi Hj) as H0.
  unfold raw_weight. split; intros [b [Hb Hw]]; exists b; split; auto.
  - apply weighs_iff in Hw; auto.
  - apply weighs_iff; auto.
Qed.

(** C13 *)
Lemma wm_stochastic Ds kt bw nc r c W :
  valid_distances Ds r c -> (0 < r)%nat ->
  weight_matrix_from_distance (map A2 Ds) kt RNone bw nc = Ok W ->
  exists Wr, W = mmap Fin Wr /\ rect Wr r c /\ Forall normalised_row Wr /\
    forall i, (i < r)%nat ->
      (Forall (fun w => w = 0) (nth i Wr []) <->
       forall j, (j < c)%nat -> exists dim k p, (dim < length Ds)%nat /\ requests kt bw nc dim k p /\
         raw_weight k p (nth dim Ds []) i j 0).
Proof.
  intros HV Hr H. destruct (wm_sound _ _ _ _ _ _ _ HV Hr H) as [raw HF].
  exists (mtab r c (fun i j => safe_div (PR Ds raw i j) (SR Ds c raw i))).
  split; [apply (W_eq _ _ _ _ _ _ _ _ HF)|]. split; [apply mtab_rect|]. split.
  - unfold mtab. apply Forall_forall. intros row Hrow. apply in_tabulate in Hrow as [i [Hi <-]]. split.
    + apply Forall_forall. intros x Hx. apply in_tabulate in Hx as [j [Hj <-]].
      eapply safe_div_range; eauto.
    + destruct (Req_EM_T (SR Ds c raw i) 0) as [E|E].
      * right. apply Forall_forall. intros x Hx. apply in_tabulate in Hx as [j [Hj <-]].
        eapply safe_div_zero; eauto. eapply SR_zero in E; eauto.
      * left. eapply W_row_sum; eauto.
  - intros i Hi. unfold mtab. rewrite tabulate_nth by auto. rewrite Forall_forall. split.
    + intros Hz j Hj. specialize (Hz (safe_div (PR Ds raw i j) (SR Ds c raw i))).
      rewrite in_tabulate in Hz. specialize (Hz (ex_intro _ j (conj Hj eq_refl))).
      eapply safe_div_zero in Hz; eauto. apply PR_zero in Hz as [dim [Hd Hz]].
      destruct (wf_raw _ _ _ _ _ _ _ _ HF dim i j Hd Hi Hj) as [k [p [b [Hk [Hb E]]]]].
      exists dim, k, p. repeat (split; auto). apply (weighs_row k p kt bw nc Ds r c dim i j); auto.
      exists b. split; auto. lra.
    + intros Hz x Hx. apply in_tabulate in Hx as [j [Hj <-]]. eapply safe_div_zero; eauto.
      apply PR_zero. destruct (Hz j Hj) as [dim [k [p [Hd [Hk Hw]]]]]. exists dim. split; auto.
      apply (weighs_row k p kt bw nc Ds r c dim i j) in Hw as [b [Hb Hw]]; auto.
      destruct (wf_raw _ _ _ _ _ _ _ _ HF dim i j Hd Hi Hj) as [k' [p' [b' [Hk' [Hb' E]]]]].
      destruct (requests_fun _ _ _ _ _ _ _ _ Hk Hk'); subst k' p'.
      rewrite (row_bandwidth_unique _ _ _ _ Hb' Hb) in E. lra.
Qed.

(** C14 *)
Lemma wm_product Ds kt bw nc r c W :
  valid_distances Ds r c -> (0 < r)%nat ->
  weight_matrix_from_distance (map A2 Ds) kt RNone bw nc = Ok W ->
  rect W r c /\
  exists raw,
    (forall dim i j, (dim < length Ds)%nat -> (i < r)%nat -> (j < c)%nat ->
       exists k p, requests kt bw nc dim k p /\ raw_weight k p (nth dim Ds []) i j (raw dim i j)) /\
    forall i j, (i < r)%nat -> (j < c)%nat ->
      let product j' := Rprod (tabulate (length Ds) (fun dim => raw dim i j')) in
      let total := Rsum (tabulate c product) in
      mget NaN W i j = Fin (if Req_EM_T total 0 then 0 else product j / total) /\
      (mget NaN W i j <> Fin 0 <-> forall dim, (dim < length Ds)%nat -> raw dim i j <> 0).
Proof.
  intros HV Hr H. destruct (wm_sound _ _ _ _ _ _ _ HV Hr H) as [raw HF].
  pose proof (W_eq _ _ _ _ _ _ _ _ HF) as EW.
  split; [rewrite EW; apply rect_mmap, mtab_rect|].
  exists raw. split.
  - intros dim i j Hd Hi Hj. destruct (wf_raw _ _ _ _ _ _ _ _ HF dim i j Hd Hi Hj) as [k [p [b [Hk [Hb E]]]]].
    exists k, p. split; auto. apply (weighs_row k p kt bw nc Ds r c dim i j); auto. exists b; auto.
  - intros i j Hi Hj product total.
    assert (E : mget NaN W i j = Fin (safe_div (PR Ds raw i j) (SR Ds c raw i))).
    { rewrite EW. rewrite (mmap_get Fin _ 0 NaN r c) by (auto; apply mtab_rect). rewrite mtab_get; auto. }
    rewrite E. split.
    + f_equal. unfold safe_div. change (SR Ds c raw i) with total. change (PR Ds raw i j) with (product j).
      destruct (Req_EM_T total 0) as [E0|E0]; auto.
      assert (product j = 0) by (apply (SR_zero Ds kt bw nc r c W raw HV HF i Hi); auto). lra.
    + split.
      * intros Hn dim Hd Hz. apply Hn. f_equal. eapply safe_div_zero; eauto. apply PR_zero. exists dim; auto.
      * intros Hn Hz. inversion Hz as [Hz']. eapply safe_div_zero in Hz'; eauto.
        apply PR_zero in Hz' as [dim [Hd Hz']]. eapply Hn; eauto.
Qed.

(** C15 *)
Lemma wm_self_max Ds kt bw nc n W :
  valid_distances Ds n n -> (0 < n)%nat ->
  (forall D i, In D Ds -> (i < n)%nat -> mget 0 D i i = 0) ->
  (forall dim b, arg_at bw dim = Some b -> 0 <= b) ->
  weight_matrix_from_distance (map A2 Ds) kt RNone bw nc = Ok W ->
  exists Wr, W = mmap Fin Wr /\ rect Wr n n /\
    forall i j, (i < n)%nat -> (j < n)%nat -> 0 < mget 0 Wr i i /\ mget 0 Wr i j <= mget 0 Wr i i.
Proof.
  intros HV Hr Hz Hb H. destruct (wm_sound _ _ _ _ _ _ _ HV Hr H) as [raw HF].
  exists (mtab n n (fun i j => safe_div (PR Ds raw i j) (SR Ds n raw i))).
  split; [apply (W_eq _ _ _ _ _ _ _ _ HF)|]. split; [apply mtab_rect|].
  intros i j Hi Hj. rewrite !mtab_get by auto.
  assert (E1 : PR Ds raw i i = 1).
  { apply Rprod_ones. apply (tabulate_in_bounds _ _ (fun x => x = 1)). intros dim Hd.
    destruct (wf_raw _ _ _ _ _ _ _ _ HF dim i i Hd Hi Hi) as [k [p [b [Hk [Hb' ->]]]]].
    rewrite Hz by (auto; apply nth_In; auto).
    apply kernel_value_0; [apply Hk|].
    destruct (valid_nth _ _ _ _ HV Hd) as [HR HE].
    apply (row_bandwidth_nonneg p (nth i (nth dim Ds []) []) b); auto.
    - unfold entries in HE. rewrite Forall_forall in HE. apply HE, nth_In. destruct HR as [HR1 _]; rewrite HR1; auto.
    - intros b' ->. destruct Hk as [_ [_ [_ [_ Hk]]]]. unfold rule_of in Hk.
      destruct (arg_at bw dim) eqn:Ea, (arg_at nc dim) as [[| |]|]; inversion Hk; subst. eapply Hb; eauto. }
  pose proof (PR_le_SR Ds kt bw nc n n W raw HV HF i i Hi Hi) as HS.
  pose proof (PR_range Ds kt bw nc n n W raw HV HF i j Hi Hj) as HP.
  unfold safe_div. destruct (Req_EM_T (SR Ds n raw i) 0); [lra|]. rewrite E1 in *. split.
  - unfold Rdiv. rewrite Rmult_1_l. apply Rinv_0_lt_compat. lra.
  - apply div_le; lra.
Qed.

(** success *)
Lemma wm_success Ds kt bw nc r c :
  valid_distances Ds r c -> (0 < r)%nat ->
  ((exists W, weight_matrix_from_distance (map A2 Ds) kt RNone bw nc = Ok W) <->
   (~ (bw = DNone /\ nc = DNone)) /\
   forall dim, (dim < length Ds)%nat -> exists k p, requests kt bw nc dim k p /\
     match p with
     | FixedBandwidth _ => True
     | NearestCount z => (1 <= z <= Z.of_nat c)%Z
     | Fraction q => 0 < q <= 1 /\ (0 < c)%nat
     end).
Proof.
  intros HV Hr.
  assert (Hnn : is_none bw && is_none nc = false <-> ~ (bw = DNone /\ nc = DNone)).
  { destruct bw, nc; simpl; split; intros; try discriminate; auto; try (intros [? ?]; discriminate).
    exfalso; auto. }
  assert (Hrow : forall dim i, (dim < length Ds)%nat -> (i < r)%nat -> length (nth i (nth dim Ds []) []) = c).
  { intros dim i Hd Hi. destruct (valid_nth _ _ _ _ HV Hd) as [HR HE]. apply (rect_row _ r c); auto. }
  assert (Hex : forall dim i p, (dim < length Ds)%nat -> (i < r)%nat ->
     (exists b, row_bandwidth p (nth i (nth dim Ds []) []) b) <->
     match p with
     | FixedBandwidth _ => True
     | NearestCount z => (1 <= z <= Z.of_nat c)%Z
     | Fraction q => 0 < q <= 1 /\ (0 < c)%nat
     end).
  { intros dim i p Hd Hi. rewrite row_bandwidth_exists. destruct p; [tauto| |].
    - rewrite Hrow by auto. lia.
    - specialize (Hrow dim i Hd Hi). destruct (nth i (nth dim Ds []) []); simpl in Hrow; split; intros [? ?]; split; auto; try lia; try contradiction. discriminate. }
  split.
  - intros [W H]. apply (wmfd_ok_iff Ds kt bw nc r c W HV Hr) in H as [Hn [Ms [HL [HM _]]]].
    split; [apply Hnn; auto|]. intros dim Hd. destruct (HM dim Hd) as [k [p [bs [[Hk HB] _]]]].
    exists k, p. split; auto. apply (Hex dim 0%nat p Hd Hr).
    exists (nth 0 bs 0). apply (Forall2_nth _ _ _ [] 0 0 HB).
    destruct (valid_nth _ _ _ _ HV Hd) as [[HR1 _] HE]. rewrite HR1; auto.
  - intros [Hn H].
    assert (HB : forall dim, (dim < length Ds)%nat -> exists k p bs, dim_ok kt bw nc (nth dim Ds []) dim k p bs).
    { intros dim Hd. destruct (H dim Hd) as [k [p [Hk Hp]]].
      assert (G : exists bs, Forall2 (row_bandwidth p) (nth dim Ds []) bs).
      { assert (Hall : forall row, In row (nth dim Ds []) -> exists b, row_bandwidth p row b).
        { intros row Hrow'. destruct (In_nth _ _ [] Hrow') as [i [Hi <-]].
          apply (Hex dim i p Hd); auto. destruct (valid_nth _ _ _ _ HV Hd) as [[HR1 _] HE]. rewrite <- HR1; auto. }
        clear -Hall. induction (nth dim Ds []) as [|row m IH].
        - exists []; constructor.
        - destruct (Hall row (or_introl eq_refl)) as [b Hb].
          destruct IH as [bs Hbs]; [intros; apply Hall; right; auto|]. exists (b :: bs); constructor; auto. }
      destruct G as [bs Hbs]. exists k, p, bs. split; auto. }
    assert (G : exists Ms : list (matrix R), length Ms = length Ds /\
       (forall dim, (dim < length Ds)%nat -> exists k p bs, dim_ok kt bw nc (nth dim Ds []) dim k p bs /\
        nth dim Ms [] = raw_matrix k (nth dim Ds []) bs)).
    { assert (G : forall n, (n <= length Ds)%nat -> exists Ms : list (matrix R), length Ms = n /\
        (forall dim, (dim < n)%nat -> exists k p bs, dim_ok kt bw nc (nth dim Ds []) dim k p bs /\
          nth dim Ms [] = raw_matrix k (nth dim Ds []) bs)).
      { induction n; intros Hle; [exists []; split; auto; intros; lia|].
        destruct IHn as [Ms [HL HM]]; [lia|]. destruct (HB n ltac:(lia)) as [k [p [bs Hok]]].
        exists (Ms ++ [raw_matrix k (nth n Ds []) bs])%list. split; [rewrite app_length; simpl; lia|].
        intros dim Hd. destruct (Nat.eq_dec dim n) as [->|Hne].
        - exists k, p, bs. split; auto. rewrite app_nth2 by lia. rewrite HL, Nat.sub_diag. reflexivity.
        - rewrite app_nth1 by lia. apply HM; lia. }
      apply G; auto. }
    destruct G as [Ms [HL HM]]. exists (mmap Fin (norm_of Ms r c)).
    apply (wmfd_ok_iff Ds kt bw nc r c _ HV Hr). split; [apply Hnn; auto|]. exists Ms; auto.
Qed.

Lemma wm_sound2 Ds kt bw nc r c W :
  valid_distances Ds r c -> (0 < r)%nat ->
  weight_matrix_from_distance (map A2 Ds) kt RNone bw nc = Ok W ->
  (is_none bw && is_none nc = false) /\ exists raw,
  (forall dim, (dim < length Ds)%nat -> exists k p bs, requests kt bw nc dim k p /\
     length bs = r /\ (forall i, (i < r)%nat -> row_bandwidth p (nth i (nth dim Ds []) []) (nth i bs 0)) /\
     forall i j, (i < r)%nat -> (j < c)%nat -> raw dim i j = kernel_value k (nth i bs 0) (mget 0 (nth dim Ds []) i j)) /\
  W = mmap Fin (mtab r c (fun i j => safe_div (PR Ds raw i j) (SR Ds c raw i))).
Proof.
  intros HV Hr H. apply (wmfd_ok_iff Ds kt bw nc r c W HV Hr) in H as [Hn [Ms [HL [HM ->]]]].
  split; auto. exists (fun dim i j => mget 0 (nth dim Ms []) i j). split.
  - intros dim Hd. destruct (HM dim Hd) as [k [p [bs [[Hk HB] E]]]].
    destruct (valid_nth _ _ _ _ HV Hd) as [HR HE].
    assert (Hbl : length bs = r) by (apply Forall2_len in HB; destruct HR as [HR1 _]; rewrite <- HR1; symmetry; exact HB).
    exists k, p, bs. split; auto. split; auto. split.
    + intros i Hi. apply (Forall2_nth _ _ _ [] 0 i HB). destruct HR as [HR1 _]; rewrite HR1; auto.
    + intros i j Hi Hj. rewrite E. apply (raw_matrix_get k _ bs r c); auto.
  - assert (Ep : forall i j, prod_at Ms i j = Rprod (tabulate (length Ds) (fun dim => mget 0 (nth dim Ms []) i j))).
    { intros i j. unfold prod_at. f_equal.
      rewrite (tabulate_of_list ([]: matrix R) Ms) at 1. rewrite map_tabulate, HL. reflexivity. }
    apply (f_equal (mmap Fin)). apply mtab_ext. intros i j _ _. rewrite Ep. unfold PR, SR. f_equal. f_equal.
    apply tabulate_ext. intros; apply Ep.
Qed.

Lemma hf8_perm row row' q b : Permutation row row' -> hyndman_fan_8 row q b -> hyndman_fan_8 row' q b.
Proof.
  intros HP. unfold hyndman_fan_8. rewrite <- (Permutation_length HP).
  assert (K : forall k v, kth_smallest row k v <-> kth_smallest row' k v).
  { intros k v. unfold kth_smallest. rewrite !(count_perm _ _ _ HP).
    split; intros [H1 H2]; split; auto; [apply (Permutation_in v HP)|apply (Permutation_in v (Permutation_sym HP))]; auto. }
  intros [A1 [A2 A3]]. split; [|split].
  - intros; apply K; auto.
  - intros; apply K; auto.
  - intros j v w Hj Hh Hv Hw. apply A3; auto; apply K; auto.
Qed.

Lemma row_bandwidth_perm p row row' b : Permutation row row' -> row_bandwidth p row b -> row_bandwidth p row' b.
Proof.
  intros HP. destruct p as [b0|z|q]; simpl; auto.
  - rewrite <- (Permutation_length HP). intros [H1 [H2 [H3 H4]]]. split; auto. split; auto.
    split; [eapply Permutation_in; eauto|]. rewrite <- !(count_perm _ _ _ HP). auto.
  - intros [H1 [H2 H3]]. split; auto. split.
    + intros ->. apply Permutation_sym, Permutation_nil in HP. contradiction.
    + eapply hf8_perm; eauto.
Qed.

Lemma reorder_perm {A} (d : A) f l : index_permutation f (length l) -> Permutation l (reorder d f l).
Proof.
  intros H. unfold reorder. rewrite (tabulate_of_list d l) at 1. unfold tabulate.
  apply Permutation_map, Permutation_sym, H.
Qed.

Lemma reorder_length {A} (d : A) f l n : index_permutation f n -> length (reorder d f l) = n.
Proof. intros H. unfold reorder. rewrite map_length, (Permutation_length H), seq_length. auto. Qed.

Lemma index_perm_lt f n j : index_permutation f n -> (j < n)%nat -> (nth j f 0 < n)%nat.
Proof.
  intros H Hj. assert (Hin : In (nth j f 0%nat) (seq 0 n)).
  { eapply Permutation_in; eauto. apply nth_In. rewrite (Permutation_length H), seq_length; auto. }
  apply in_seq in Hin; lia.
Qed.

Lemma reorder_nth {A} (d : A) f l n j : index_permutation f n -> (j < n)%nat ->
  nth j (reorder d f l) d = nth (nth j f 0%nat) l d.
Proof.
  intros H Hj. unfold reorder.
  assert (HL : (j < length f)%nat) by (rewrite (Permutation_length H), seq_length; auto).
  rewrite (nth_indep _ d (nth 0 l d)) by (rewrite map_length; auto).
  apply (map_nth (fun i => nth i l d)).
Qed.

Lemma Rsum_reindex f n g : index_permutation f n -> Rsum (tabulate n (fun j => g (nth j f 0%nat))) = Rsum (tabulate n g).
Proof.
  intros H. assert (E : tabulate n (fun j => g (nth j f 0%nat)) = map g f).
  { transitivity (map g (tabulate (length f) (fun j => nth j f 0%nat))).
    - rewrite map_tabulate, (Permutation_length H), seq_length. reflexivity.
    - f_equal. symmetry. apply tabulate_of_list. }
  rewrite E. apply Rsum_perm. unfold tabulate. apply Permutation_map, H.
Qed.

Lemma reorder_cols_rect {A} (d : A) f m r c : rect m r c -> index_permutation f c -> rect (reorder_cols d f m) r c.
Proof.
  intros [H1 H2] Hf. split; [unfold reorder_cols; rewrite map_length; auto|].
  unfold reorder_cols. rewrite Forall_forall in *. intros x Hx. apply in_map_iff in Hx as [y [<- Hy]].
  apply (reorder_length d f y c Hf).
Qed.
Lemma reorder_cols_row {A} (d : A) f m r c i : rect m r c -> (i < r)%nat ->
  nth i (reorder_cols d f m) [] = reorder d f (nth i m []).
Proof.
  intros [H1 H2] Hi. unfold reorder_cols.
  rewrite (nth_indep _ [] (reorder d f [])) by (rewrite map_length, H1; auto).
  apply (map_nth (reorder d f)).
Qed.
Lemma reorder_cols_get {A} (d : A) f m r c i j : rect m r c -> index_permutation f c -> (i < r)%nat -> (j < c)%nat ->
  mget d (reorder_cols d f m) i j = mget d m i (nth j f 0%nat).
Proof.
  intros HR Hf Hi Hj. unfold mget. rewrite (reorder_cols_row d f m r c) by auto.
  apply (reorder_nth d f _ c); auto.
Qed.
Lemma reorder_rows_rect {A} f (m : matrix A) r c : rect m r c -> index_permutation f r -> rect (reorder_rows f m) r c.
Proof.
  intros HR Hf. split; [apply (reorder_length [] f m r Hf)|].
  unfold reorder_rows, reorder. rewrite Forall_forall. intros x Hx. apply in_map_iff in Hx as [i [<- Hi]].
  apply (rect_row m r c); auto. eapply Permutation_in in Hi; [|exact Hf]. apply in_seq in Hi; lia.
Qed.
Lemma reorder_rows_row {A} f (m : matrix A) r i : index_permutation f r -> (i < r)%nat ->
  nth i (reorder_rows f m) [] = nth (nth i f 0%nat) m [].
Proof. intros Hf Hi. apply (reorder_nth [] f m r); auto. Qed.

Lemma entries_mget (P : R -> Prop) D r c : rect D r c -> (entries P D <-> forall i j, (i < r)%nat -> (j < c)%nat -> P (mget 0 D i j)).
Proof.
  intros HR. unfold entries. split.
  - intros H i j Hi Hj. rewrite Forall_forall in H.
    assert (Hin : In (nth i D []) D) by (apply nth_In; destruct HR as [E _]; rewrite E; auto).
    specialize (H _ Hin). rewrite Forall_forall in H. apply H, nth_In. rewrite (rect_row D r c); auto.
  - intros H. apply Forall_forall. intros row Hrow. apply Forall_forall. intros x Hx.
    destruct (In_nth _ _ [] Hrow) as [i [Hi <-]]. destruct (In_nth _ _ 0 Hx) as [j [Hj <-]].
    destruct HR as [E1 E2]. apply H; [rewrite <- E1; auto|]. rewrite <- (rect_row D r c i); auto. split; auto. rewrite <- E1; auto.
Qed.

Lemma nth_map_default {A B} (f : A -> B) l d d' i : (i < length l)%nat -> nth i (map f l) d' = f (nth i l d).
Proof. intros H. rewrite (nth_indep _ d' (f d)) by (rewrite map_length; auto). apply map_nth. Qed.

Lemma valid_map (g : matrix R -> matrix R) Ds r c :
  valid_distances Ds r c ->
  (forall D, rect D r c -> entries (Rle 0) D -> rect (g D) r c /\ entries (Rle 0) (g D)) ->
  valid_distances (map g Ds) r c.
Proof.
  intros [H1 H2] Hg. split; [destruct Ds; simpl; [contradiction|discriminate]|].
  rewrite Forall_forall in *. intros x Hx. apply in_map_iff in Hx as [D [<- HD]].
  destruct (H2 D HD). auto.
Qed.

(** A transformation of the distance matrices that keeps every row bandwidth
    question solvable transforms the result. *)
Lemma wm_transform (g : matrix R -> matrix R) (fi fj : nat -> nat) kt bw bw' nc Ds r c W W' :
  valid_distances Ds r c -> (0 < r)%nat -> valid_distances (map g Ds) r c ->
  (forall i, (i < r)%nat -> (fi i < r)%nat) -> (forall j, (j < c)%nat -> (fj j < c)%nat) ->
  (is_none bw' = is_none bw) ->
  (forall h, Rsum (tabulate c (fun j => h (fj j))) = Rsum (tabulate c h)) ->
  (forall dim D k p, (dim < length Ds)%nat -> rect D r c -> entries (Rle 0) D -> requests kt bw nc dim k p ->
     exists p' s, 0 < s /\ requests kt bw' nc dim k p' /\
     (forall i b, (i < r)%nat -> row_bandwidth p (nth (fi i) D []) b -> row_bandwidth p' (nth i (g D) []) (s * b)) /\
     (forall i j, (i < r)%nat -> (j < c)%nat -> mget 0 (g D) i j = s * mget 0 D (fi i) (fj j))) ->
  W' = mtab r c (fun i j => mget NaN W (fi i) (fj j)) ->
  weight_matrix_from_distance (map A2 Ds) kt RNone bw nc = Ok W ->
  weight_matrix_from_distance (map A2 (map g Ds)) kt RNone bw' nc = Ok W'.
Proof.
  intros HV Hr HV' Hfi Hfj Hnb Hsum Hg -> H.
  destruct (wm_sound2 _ _ _ _ _ _ _ HV Hr H) as [Hn [raw [HD EW]]].
  apply (wm_complete _ kt bw' nc r c (fun dim i j => raw dim (fi i) (fj j)) _ HV' Hr).
  - rewrite Hnb; auto.
  - rewrite map_length. intros dim Hd. destruct (HD dim Hd) as [k [p [bs [Hk [Hbl [Hb Hraw]]]]]].
    destruct (valid_nth _ _ _ _ HV Hd) as [HR HE].
    destruct (Hg dim (nth dim Ds []) k p Hd HR HE Hk) as [p' [s [Hs [Hk' [Hb' Hm]]]]].
    exists k, p', (tabulate r (fun i => s * nth (fi i) bs 0)).
    rewrite (nth_map_default g Ds []) by auto.
    split; auto. split; [apply tabulate_length|]. split.
    + intros i Hi. rewrite tabulate_nth by auto. apply Hb'; auto.
    + intros i j Hi Hj. rewrite tabulate_nth by auto. rewrite Hm by auto.
      rewrite kernel_value_scale; [apply Hraw; auto|auto|].
      apply (entry_nonneg _ r c); auto.
  - rewrite EW, map_length. transitivity (mtab r c (fun i j => Fin (safe_div (PR Ds raw (fi i) (fj j)) (SR Ds c raw (fi i))))).
    2: { rewrite mmap_mtab. apply mtab_ext. intros i j Hi Hj. f_equal. unfold PR, SR. f_equal. symmetry.
         apply (Hsum (fun j0 => Rprod (tabulate (length Ds) (fun dim => raw dim (fi i) j0)))). }
    apply mtab_ext. intros i j Hi Hj.
    rewrite (mmap_get Fin _ 0 NaN r c) by (auto; apply mtab_rect). rewrite mtab_get by auto. reflexivity.
Qed.

(** C16 *)
Lemma wm_perm_cols f kt bw nc Ds r c W :
  valid_distances Ds r c -> (0 < r)%nat -> index_permutation f c ->
  weight_matrix_from_distance (map A2 Ds) kt RNone bw nc = Ok W ->
  weight_matrix_from_distance (map A2 (map (reorder_cols 0 f) Ds)) kt RNone bw nc = Ok (reorder_cols NaN f W).
Proof.
  intros HV Hr Hf H.
  apply (wm_transform (reorder_cols 0 f) (fun i => i) (fun j => nth j f 0%nat) kt bw bw nc Ds r c W); auto.
  - apply valid_map; auto. intros D HR HE. split; [apply reorder_cols_rect; auto|].
    apply (entries_mget _ _ r c); [apply reorder_cols_rect; auto|]. intros i j Hi Hj.
    rewrite (reorder_cols_get 0 f D r c) by auto. apply (entry_nonneg _ r c); auto. apply (index_perm_lt f c); auto.
  - intros j Hj. apply (index_perm_lt f c); auto.
  - intros h. apply (Rsum_reindex f c h Hf).
  - intros dim D k p Hd HR HE Hk. exists p, 1. split; [lra|]. split; auto. split.
    + intros i b Hi Hb. rewrite Rmult_1_l. rewrite (reorder_cols_row 0 f D r c) by auto.
      apply (row_bandwidth_perm p (nth i D [])); auto. apply reorder_perm. rewrite (rect_row D r c); auto.
    + intros i j Hi Hj. rewrite Rmult_1_l. apply (reorder_cols_get 0 f D r c); auto.
  - destruct (wm_product _ _ _ _ _ _ _ HV Hr H) as [HRW _].
    apply (matrix_eq NaN _ _ r c); [apply reorder_cols_rect; auto|apply mtab_rect|].
    intros i j Hi Hj. rewrite mtab_get by auto. apply (reorder_cols_get NaN f W r c); auto.
Qed.

Lemma tabulate_id_sum c (h : nat -> R) : Rsum (tabulate c (fun j => h ((fun j => j) j))) = Rsum (tabulate c h).
Proof. reflexivity. Qed.

Lemma wm_perm_rows f kt bw nc Ds r c W :
  valid_distances Ds r c -> (0 < r)%nat -> index_permutation f r ->
  weight_matrix_from_distance (map A2 Ds) kt RNone bw nc = Ok W ->
  weight_matrix_from_distance (map A2 (map (reorder_rows f) Ds)) kt RNone bw nc = Ok (reorder_rows f W).
Proof.
  intros HV Hr Hf H.
  apply (wm_transform (reorder_rows f) (fun i => nth i f 0%nat) (fun j => j) kt bw bw nc Ds r c W); auto.
  - apply valid_map; auto. intros D HR HE. split; [apply reorder_rows_rect; auto|].
    apply (entries_mget _ _ r c); [apply reorder_rows_rect; auto|]. intros i j Hi Hj.
    unfold mget. rewrite (reorder_rows_row f D r) by auto. apply (entry_nonneg _ r c); auto. apply (index_perm_lt f r); auto.
  - intros i Hi. apply (index_perm_lt f r); auto.
  - intros dim D k p Hd HR HE Hk. exists p, 1. split; [lra|]. split; auto. split.
    + intros i b Hi Hb. rewrite Rmult_1_l. rewrite (reorder_rows_row f D r) by auto. auto.
    + intros i j Hi Hj. rewrite Rmult_1_l. unfold mget. rewrite (reorder_rows_row f D r) by auto. auto.
  - destruct (wm_product _ _ _ _ _ _ _ HV Hr H) as [HRW _].
    apply (matrix_eq NaN _ _ r c); [apply reorder_rows_rect; auto|apply mtab_rect|].
    intros i j Hi Hj. rewrite mtab_get by auto. unfold mget. rewrite (reorder_rows_row f W r) by auto. auto.
Qed.

Lemma wm_ok_or_raises Ds kt ra bw nc :
  (exists W, weight_matrix_from_distance Ds kt ra bw nc = Ok W) \/ raises (weight_matrix_from_distance Ds kt ra bw nc).
Proof. destruct (weight_matrix_from_distance Ds kt ra bw nc); [left|right]; eexists; eauto. Qed.

(** Success depends only on the shape. *)
Lemma wm_success_shape Ds Ds' kt bw nc r c :
  valid_distances Ds r c -> valid_distances Ds' r c -> (0 < r)%nat -> length Ds = length Ds' ->
  raises (weight_matrix_from_distance (map A2 Ds) kt RNone bw nc) ->
  raises (weight_matrix_from_distance (map A2 Ds') kt RNone bw nc).
Proof.
  intros HV HV' Hr HL H. destruct (wm_ok_or_raises (map A2 Ds') kt RNone bw nc) as [Hok|]; auto.
  exfalso. apply (wm_success Ds' kt bw nc r c HV' Hr) in Hok. rewrite <- HL in Hok.
  apply (wm_success Ds kt bw nc r c HV Hr) in Hok as [W HW]. destruct H as [e He]. congruence.
Qed.

(** C21 *)
Lemma Rltb_scale s x y : 0 < s -> Rltb (s * x) (s * y) = Rltb x y.
Proof.
  intros Hs. destruct (Rltb x y) eqn:E.
  - apply Rltb_true in E. apply Rltb_true. apply Rmult_lt_compat_l; auto.
  - apply Rltb_false in E. apply Rltb_false. apply Rmult_le_compat_l; lra.
Qed.
Lemma Rleb_scale s x y : 0 < s -> Rleb (s * x) (s * y) = Rleb x y.
Proof.
  intros Hs. destruct (Rleb x y) eqn:E.
  - apply Rleb_true in E. apply Rleb_true. apply Rmult_le_compat_l; lra.
  - apply Rleb_false in E. apply Rleb_false. apply Rmult_lt_compat_l; auto.
Qed.
Lemma count_map (g : R -> R) p l : count p (map g l) = count (fun x => p (g x)) l.
Proof. unfold count. induction l; simpl; auto. destruct (p (g a)); simpl; auto. Qed.

Lemma kth_smallest_scale s l k v : 0 < s -> kth_smallest l k v -> kth_smallest (map (Rmult s) l) k (s * v).
Proof.
  intros Hs [H1 [H2 H3]]. unfold kth_smallest. rewrite !count_map. split; [apply in_map; auto|].
  rewrite (count_ext _ (fun x => Rleb x v)) by (intros; apply Rleb_scale; auto).
  rewrite (count_ext (fun x => Rltb (s * x) (s * v)) (fun x => Rltb x v)) by (intros; apply Rltb_scale; auto). auto.
Qed.

Lemma row_bandwidth_scale p s row b :
  0 < s -> row_bandwidth p row b ->
  row_bandwidth (match p with FixedBandwidth b' => FixedBandwidth (s * b') | _ => p end) (map (Rmult s) row) (s * b).
Proof.
  intros Hs. destruct p as [b0|z|q]; simpl.
  - intros ->; auto.
  - rewrite map_length. intros [H1 [H2 H3]]. split; auto. split; auto. apply kth_smallest_scale; auto.
  - intros [H1 [H2 H3]]. split; auto. split; [destruct row; simpl; [contradiction|discriminate]|].
    assert (Hback : forall k v, kth_smallest (map (Rmult s) row) k v -> kth_smallest row k (/ s * v)).
    { intros k v Hv. replace row with (map (Rmult (/ s)) (map (Rmult s) row)).
      - apply kth_smallest_scale; auto. apply Rinv_0_lt_compat; auto.
      - rewrite map_map. rewrite <- (map_id row) at 2. apply map_ext. intros; field; lra. }
    unfold hyndman_fan_8 in *. rewrite map_length. destruct H3 as [A1 [A2 A3]]. split; [|split].
    + intros Hh. apply kth_smallest_scale; auto.
    + intros Hh. apply kth_smallest_scale; auto.
    + intros j v w Hj Hh Hv Hw. apply Hback in Hv. apply Hback in Hw.
      rewrite (A3 j _ _ Hj Hh Hv Hw). field. lra.
Qed.

Lemma wm_scale s kt bw nc Ds r c W :
  0 < s -> valid_distances Ds r c -> (0 < r)%nat ->
  weight_matrix_from_distance (map A2 Ds) kt RNone bw nc = Ok W ->
  weight_matrix_from_distance (map A2 (map (mmap (Rmult s)) Ds)) kt RNone (scale_arg s bw) nc = Ok W.
Proof.
  intros Hs HV Hr H.
  apply (wm_transform (mmap (Rmult s)) (fun i => i) (fun j => j) kt bw (scale_arg s bw) nc Ds r c W); auto.
  - apply valid_map; auto. intros D HR HE. split; [apply rect_mmap; auto|].
    unfold entries, mmap in *. rewrite Forall_forall in *. intros x Hx. apply in_map_iff in Hx as [row [<- Hrow]].
    specialize (HE _ Hrow). rewrite Forall_forall in *. intros x Hx. apply in_map_iff in Hx as [y [<- Hy]].
    specialize (HE _ Hy). nra.
  - destruct bw; auto.
  - intros dim D k p Hd HR HE Hk.
    exists (match p with FixedBandwidth b' => FixedBandwidth (s * b') | _ => p end), s.
    split; auto. split; [|split].
    + destruct Hk as [H1 [H2 [H3 [H4 H5]]]]. split; auto. split; auto. split; [|split; auto].
      * destruct bw; simpl in *; auto. rewrite map_length; auto.
      * assert (E : arg_at (scale_arg s bw) dim = option_map (Rmult s) (arg_at bw dim)).
        { destruct bw; simpl in *; auto. apply (nth_map_default _ l None None); auto. }
        rewrite E. destruct (arg_at bw dim), (arg_at nc dim) as [[| |]|]; simpl in *; inversion H5; auto.
    + intros i b Hi Hb. unfold mmap. rewrite (nth_map_default _ D []) by (destruct HR as [HR1 _]; rewrite HR1; auto).
      apply row_bandwidth_scale; auto.
    + intros i j Hi Hj. apply (mmap_get (Rmult s) D 0 0 r c); auto.
  - destruct (wm_product _ _ _ _ _ _ _ HV Hr H) as [HRW _]. apply mtab_of; auto.
Qed.
