From Coq Require Import Lra Psatz.
From Verif.Model Require Import Base Ext Sort Csr Neighbour.
From Verif.Spec Require Import KernelSpec NeighbourSpec.
From Verif.Proofs Require Import ListFacts KernelFacts SortFacts CsrFacts NeighbourFacts.
Require Import Sorting.Sorted.
Open Scope nat_scope.
Open Scope R_scope.

Lemma Rnonzero_true x : Rnonzero x = true <-> x <> 0.
Proof. unfold Rnonzero, Reqb. destruct (Req_EM_T x 0); simpl; split; intros; try congruence; tauto. Qed.
Lemma Rnonzero_false x : Rnonzero x = false <-> x = 0.
Proof. unfold Rnonzero, Reqb. destruct (Req_EM_T x 0); simpl; split; intros; congruence. Qed.

Lemma select_filter {A} (p : A -> bool) l : select (map p l) l = filter p l.
Proof. induction l as [|x l IH]; simpl; auto. destruct (p x); rewrite IH; auto. Qed.

Lemma put_map {A} (g : nat -> A) d idx : forall row j, NoDup idx ->
  (forall i, In i idx -> (i < length row)%nat) ->
  nth j (put row idx (map g idx)) d = if in_dec Nat.eq_dec j idx then g j else nth j row d.
Proof.
  unfold put. induction idx as [|i idx IH]; intros row j Hnd Hlt; [reflexivity|].
  inversion Hnd as [|x y Hni Hnd']; subst. simpl map. cbn [combine fold_left fst snd].
  rewrite IH; auto; [|intros k Hk; rewrite list_set_length; apply Hlt; right; auto].
  destruct (Nat.eq_dec i j) as [->|Hne].
  - destruct (in_dec Nat.eq_dec j idx) as [H|_]; [contradiction|].
    destruct (in_dec Nat.eq_dec j (j :: idx)) as [_|H]; [|exfalso; apply H; left; auto].
    apply list_set_nth_eq. apply Hlt; left; auto.
  - rewrite list_set_nth_neq by auto.
    destruct (in_dec Nat.eq_dec j idx) as [H|H], (in_dec Nat.eq_dec j (i :: idx)) as [H'|H']; auto.
    + exfalso; apply H'; right; auto.
    + exfalso. destruct H'; auto.
Qed.
Lemma put_length {A} (row : list A) idx vals : length (put row idx vals) = length row.
Proof.
  unfold put. generalize (combine idx vals) as e. intros e. revert row. induction e as [|[i v] e IH]; intros row; auto.
  cbn [fold_left]. rewrite IH. apply list_set_length.
Qed.

Definition keep_fn (values : list R) (q x : R) : R := if Rnonzero x && below_quantile values q x then 0 else x.

Lemma take_nonzero row : take 0 row (nonzero (map Rnonzero row)) = filter Rnonzero row.
Proof. rewrite <- select_take by (rewrite map_length; auto). apply select_filter. Qed.

Lemma shrink_row_map q row : shrink_row q row = map (keep_fn (filter Rnonzero row) q) row.
Proof.
  unfold shrink_row. rewrite take_nonzero. set (vals := filter Rnonzero row).
  apply (list_eq_nth 0).
  - rewrite put_length, map_length. reflexivity.
  - intros j Hj. rewrite put_length in Hj. rewrite (nth_map_in _ _ _ 0) by auto.
    unfold vals at 2. rewrite <- take_nonzero. unfold take. rewrite map_map.
    rewrite (put_map (fun i => if below_quantile vals q (nth i row 0) then 0 else nth i row 0)).
    + unfold keep_fn. destruct (in_dec Nat.eq_dec j (nonzero (map Rnonzero row))) as [H|H].
      * apply in_nonzero_nth in H. rewrite (nth_map_in _ _ _ 0) in H by auto. rewrite H. reflexivity.
      * destruct (Rnonzero (nth j row 0)) eqn:E; auto. exfalso. apply H. apply in_nonzero_nth.
        rewrite (nth_map_in _ _ _ 0) by auto. auto.
    + apply nonzero_NoDup.
    + intros i Hi. apply in_nonzero_lt in Hi. rewrite map_length in Hi. auto.
Qed.

Section Quantile.
  Variable values : list R.
  Variable q : R.
  Hypothesis Hq : 0 <= q <= 1.
  Hypothesis Hne : values <> [].
  Let n := length values.
  Let v := at_virtual_index (sortR values) (virtual_linear n q).
  Let c := Z.to_nat (Rceil (q * INR (n - 1))).

  Lemma below_quantile_v x : below_quantile values q x = Rltb x v.
  Proof. unfold below_quantile, v, n. destruct values; [contradiction|reflexivity]. Qed.

  Lemma n_pos : (0 < n)%nat.
  Proof. unfold n. destruct values; [contradiction|simpl; lia]. Qed.

  Lemma vl : virtual_linear n q = q * INR (n - 1).
  Proof. unfold virtual_linear. ring. Qed.

  Lemma c_INR : q * INR (n - 1) <= INR c < q * INR (n - 1) + 1.
  Proof.
    unfold c. pose proof (Rceil_spec (q * INR (n - 1))) as H. pose proof (pos_INR (n - 1)).
    assert (0 <= q * INR (n - 1)) by nra.
    assert (0 <= Rceil (q * INR (n - 1)))%Z by (apply le_IZR; simpl; lra).
    rewrite (INR_IZR_INZ (Z.to_nat _)), Z2Nat.id by auto. lra.
  Qed.
  Lemma c_lt : (c < n)%nat.
  Proof.
    pose proof c_INR as H. pose proof n_pos as Hn. pose proof (pos_INR (n - 1)).
    assert (q * INR (n - 1) <= INR (n - 1)) by nra.
    assert (H2 : INR c < INR (S (n - 1))) by (rewrite S_INR; lra). apply INR_lt in H2. lia.
  Qed.

  Lemma s_sorted : StronglySorted Rle (sortR values).
  Proof. apply sortR_sorted. Qed.
  Lemma s_ne : sortR values <> [].
  Proof. intros H. apply (proj1 (sortR_nil _)) in H. contradiction. Qed.

  Lemma v_le_c : v <= nth c (sortR values) 0.
  Proof.
    unfold v. rewrite vl. rewrite <- (avi_INR (sortR values) c) by (rewrite sortR_length; apply c_lt).
    apply avi_mono; [apply s_sorted|apply s_ne|]. apply c_INR.
  Qed.

  Lemma count_below : (count (fun x => Rltb x v) values <= c)%nat.
  Proof.
    destruct (sorted_kth values c c_lt) as [_ [_ H]].
    assert (count (fun x => Rltb x v) values <= count (fun x => Rltb x (nth c (sortR values) 0%R)) values)%nat; [|lia].
    apply count_impl. intros x _ Hx. apply Rltb_true in Hx. apply Rltb_true. pose proof v_le_c. lra.
  Qed.

  Lemma max_not_below x : (forall y, In y values -> y <= x) -> Rltb x v = false.
  Proof.
    intros H. apply Rltb_false. pose proof (avi_bounds (sortR values) (virtual_linear n q) s_sorted s_ne) as [_ B].
    rewrite sortR_length in B. fold n in B.
    pose proof (H _ (sortR_in values (n - 1) ltac:(pose proof n_pos; fold n; lia))). fold v in B. lra.
  Qed.

  Lemma distinct_sorted i j : NoDup values -> (i < j)%nat -> (j < n)%nat ->
    nth i (sortR values) 0 < nth j (sortR values) 0.
  Proof.
    intros Hnd Hij Hj.
    assert (Hle : nth i (sortR values) 0 <= nth j (sortR values) 0)
      by (apply sorted_nth_le; [apply s_sorted|lia|rewrite sortR_length; auto]).
    destruct (Req_dec (nth i (sortR values) 0) (nth j (sortR values) 0)) as [E|]; [|lra].
    exfalso. assert (Hnds : NoDup (sortR values)) by (eapply Permutation_NoDup; [apply sortR_perm|auto]).
    rewrite (NoDup_nth _ 0) in Hnds. assert (i = j); [|lia].
    apply (Hnds i j); [rewrite sortR_length; fold n; lia|rewrite sortR_length; fold n; lia|exact E].
  Qed.

  Lemma count_below_distinct : NoDup values -> count (fun x => Rltb x v) values = c.
  Proof.
    intros Hnd. pose proof count_below as Hub. pose proof c_lt as Hc. pose proof c_INR as HcI.
    destruct c as [|k] eqn:Ec; [lia|].
    assert (Hk : (k < n)%nat) by lia.
    destruct (sorted_kth values k Hk) as [_ [H _]].
    assert (Hlt : nth k (sortR values) 0 < v).
    { pose proof (distinct_sorted k (S k) Hnd ltac:(lia) Hc) as Hd.
      assert (HcI' : q * INR (n - 1) <= INR k + 1 < q * INR (n - 1) + 1) by (rewrite <- S_INR; exact HcI).
      destruct (Req_dec (q * INR (n - 1)) (INR k + 1)) as [E|E].
      - assert (Ev : v = nth (S k) (sortR values) 0).
        { unfold v. rewrite vl, E, <- S_INR. apply avi_INR. rewrite sortR_length. auto. }
        lra.
      - unfold v. rewrite vl. destruct (avi_cases (sortR values) (q * INR (n - 1)) s_ne) as [[H1 _]|[[_ [H1 _]]|[i [Hi [H1 H2]]]]].
        + pose proof (pos_INR k). lra.
        + exfalso. rewrite sortR_length in H1. fold n in H1.
          assert (INR (S k) <= INR (n - 1)) by (apply le_INR; lia). rewrite S_INR in H0. lra.
        + assert (i = k).
          { assert (INR i < INR (S k)) by (rewrite S_INR; lra). assert (INR k < INR (S i)) by (rewrite S_INR; lra).
            apply INR_lt in H0, H3. lia. }
          subst i. rewrite H2. assert (0 < q * INR (n - 1) - INR k) by lra.
          assert (0 < (nth (S k) (sortR values) 0 - nth k (sortR values) 0) * (q * INR (n - 1) - INR k))
            by (apply Rmult_lt_0_compat; lra). lra. }
    assert (count (fun x => Rleb x (nth k (sortR values) 0%R)) values <= count (fun x => Rltb x v) values)%nat; [|lia].
    apply count_impl. intros x _ Hx. apply Rleb_true in Hx. apply Rltb_true. lra.
  Qed.
End Quantile.

Lemma below_nil q x : below_quantile [] q x = false.
Proof. reflexivity. Qed.

Lemma filter_map_comm {A B} (p : B -> bool) (f : A -> B) l : filter p (map f l) = map f (filter (fun x => p (f x)) l).
Proof. induction l as [|x l IH]; simpl; auto. destruct (p (f x)); simpl; rewrite IH; auto. Qed.

Lemma filter_filter {A} (p r : A -> bool) l : filter p (filter r l) = filter (fun x => r x && p x) l.
Proof. induction l as [|x l IH]; simpl; auto. destruct (r x); simpl; [destruct (p x)|]; rewrite IH; auto. Qed.

Lemma num_nonzero_keep values q row :
  (num_nonzero (map (keep_fn values q) row) =
   num_nonzero row - count (below_quantile values q) (filter Rnonzero row))%nat.
Proof.
  unfold num_nonzero, count. rewrite filter_map_comm, map_length.
  change (fun x => negb (Reqb x 0)) with Rnonzero.
  assert (H : (length (filter (fun x => negb (Reqb (keep_fn values q x) 0)) row) +
    length (filter (below_quantile values q) (filter Rnonzero row)) = length (filter Rnonzero row))%nat).
  { induction row as [|x row IH]; auto. unfold Rnonzero. simpl.
    fold (Rnonzero (keep_fn values q x)). fold (Rnonzero x).
    change (fun x => negb (Reqb x 0)) with Rnonzero in *.
    unfold keep_fn at 1. destruct (Rnonzero x) eqn:E; simpl.
    - destruct (below_quantile values q x); simpl.
      + replace (Rnonzero 0) with false by (symmetry; apply Rnonzero_false; auto). simpl. lia.
      + rewrite E. simpl. lia.
    - rewrite E. auto. }
  lia.
Qed.

Lemma keep_cases values q x : keep_fn values q x = x \/ keep_fn values q x = 0.
Proof. unfold keep_fn. destruct (_ && _); auto. Qed.

Lemma nth_nonzero_in row j : nth j row 0 <> 0 -> In (nth j row 0) (filter Rnonzero row) /\ (j < length row)%nat.
Proof.
  intros H. assert (Hj : (j < length row)%nat).
  { destruct (Nat.lt_ge_cases j (length row)); auto. rewrite nth_overflow in H; auto. contradiction. }
  split; auto. apply filter_In. split; [apply nth_In; auto|]. apply Rnonzero_true; auto.
Qed.

Lemma shrink_row_spec q row : 0 <= q <= 1 -> shrink_spec q row (shrink_row q row).
Proof.
  intros Hq. rewrite shrink_row_map. set (vals := filter Rnonzero row).
  assert (Hn : forall j, nth j (map (keep_fn vals q) row) 0 = keep_fn vals q (nth j row 0)).
  { intros j. destruct (Nat.lt_ge_cases j (length row)) as [H|H].
    - apply nth_map_in; auto.
    - rewrite !nth_overflow by (rewrite ?map_length; auto). unfold keep_fn.
      replace (Rnonzero 0) with false by (symmetry; apply Rnonzero_false; auto). reflexivity. }
  constructor.
  - apply map_length.
  - intros j. rewrite Hn. apply keep_cases.
  - intros j k [D1 D2] [K1 K2]. rewrite Hn in D1, K1. unfold keep_fn in D1, K1.
    apply Rnonzero_true in D2 as D3. apply Rnonzero_true in K2 as K3. rewrite D3 in D1. rewrite K3 in K1. simpl in *.
    assert (Hne : vals <> []).
    { intros E. apply nth_nonzero_in in D2 as [H _]. fold vals in H. rewrite E in H. destruct H. }
    rewrite !(below_quantile_v vals q Hne) in *.
    destruct (Rltb (nth j row 0) _) eqn:E1; [|congruence].
    destruct (Rltb (nth k row 0) _) eqn:E2; [congruence|].
    apply Rltb_true in E1. apply Rltb_false in E2. lra.
  - intros j Hj Hmax. split; auto. rewrite Hn. unfold keep_fn.
    assert (Hne : vals <> []).
    { intros E. apply nth_nonzero_in in Hj as [H _]. fold vals in H. rewrite E in H. destruct H. }
    rewrite (below_quantile_v vals q Hne), (max_not_below vals q Hne), Bool.andb_false_r; auto.
    intros y Hy. apply filter_In in Hy as [Hy1 Hy2]. apply Rnonzero_true in Hy2.
    apply (In_nth _ _ 0) in Hy1 as [k [_ <-]]. auto.
  - intros Hpos. rewrite num_nonzero_keep. fold vals.
    assert (Hne : vals <> []) by (intros E; unfold num_nonzero in Hpos; change (fun x => negb (Reqb x 0)) with Rnonzero in Hpos; fold vals in Hpos; rewrite E in Hpos; simpl in Hpos; lia).
    pose proof (count_below vals q Hq Hne) as H.
    change (num_nonzero row) with (length vals).
    replace (count (below_quantile vals q) vals) with (count (fun x => Rltb x (at_virtual_index (sortR vals) (virtual_linear (length vals) q))) vals); [lia|].
    unfold count. f_equal. apply filter_ext. intros; symmetry; apply below_quantile_v; auto.
  - intros Hpos Hnd. rewrite num_nonzero_keep. fold vals.
    assert (Hne : vals <> []) by (intros E; unfold num_nonzero in Hpos; change (fun x => negb (Reqb x 0)) with Rnonzero in Hpos; fold vals in Hpos; rewrite E in Hpos; simpl in Hpos; lia).
    pose proof (count_below_distinct vals q Hq Hne Hnd) as H.
    change (num_nonzero row) with (length vals).
    replace (count (below_quantile vals q) vals) with (count (fun x => Rltb x (at_virtual_index (sortR vals) (virtual_linear (length vals) q))) vals); [lia|].
    unfold count. f_equal. apply filter_ext. intros; symmetry; apply below_quantile_v; auto.
  - intros ->. rewrite <- (map_id row) at 2. apply map_ext_in. intros x Hx. unfold keep_fn.
    destruct (Rnonzero x) eqn:E; auto. simpl.
    assert (Hin : In x vals) by (apply filter_In; auto).
    assert (Hne : vals <> []) by (intros E'; rewrite E' in Hin; destruct Hin).
    rewrite (below_quantile_v vals 0 Hne).
    replace (virtual_linear (length vals) 0) with (INR 0) by (unfold virtual_linear; simpl; ring).
    rewrite avi_INR by (rewrite sortR_length; destruct vals; [contradiction|simpl; lia]).
    replace (Rltb x _) with false; auto. symmetry. apply Rltb_false. apply sortR_min; auto.
Qed.

Lemma rate_ok_true q : rate_ok q = true <-> 0 <= q <= 1.
Proof.
  unfold rate_ok. rewrite Bool.andb_true_iff. split; intros [H1 H2].
  - apply Rleb_true in H1, H2. auto.
  - split; apply Rleb_true; auto.
Qed.

Lemma shrink_dense_ok order q W : 0 <= q <= 1 -> schedule (length W) order ->
  shrink_dense order q W = (map (shrink_row q) W, Ok (map (shrink_row q) W)).
Proof.
  intros Hq HS. unfold shrink_dense. destruct W as [|r rs] eqn:E; [reflexivity|]. rewrite <- E in *.
  rewrite (proj2 (rate_ok_true q) Hq). rewrite (prange_schedule (length W)) by auto.
  replace (tabulate (length W) (fun i => shrink_row q (nth i W []))) with (map (shrink_row q) W); [reflexivity|].
  rewrite (tabulate_of_list [] W) at 1. apply map_tabulate.
Qed.

Lemma neighbour_shrink_ok order q W ret inplace : 0 <= q <= 1 -> schedule (length W) order ->
  neighbour_shrink order W q ret inplace =
  (if inplace then map (shrink_row q) W else W,
   Ok (if ret then ShrunkWeights (map (shrink_row q) W) else ShrunkMask (mmap positive (map (shrink_row q) W)))).
Proof. intros Hq HS. unfold neighbour_shrink. rewrite shrink_dense_ok by auto. reflexivity. Qed.

Lemma neighbour_shrink_bad order q W ret inplace : ~ (0 <= q <= 1) -> W <> [] ->
  neighbour_shrink order W q ret inplace = (W, Raise ValueError).
Proof.
  intros Hq HW. unfold neighbour_shrink, shrink_dense. destruct W; [contradiction|].
  destruct (rate_ok q) eqn:E; [apply rate_ok_true in E; contradiction|]. destruct inplace; reflexivity.
Qed.

(** ** Element-wise interleavings *)
Lemma iter_succ_r {A} k (f : A -> A) x : Nat.iter (S k) f x = Nat.iter k f (f x).
Proof. induction k; simpl in *; auto. rewrite <- IHk. reflexivity. Qed.

Lemma prange_iter {A} sched (step : A -> A) d buf j : (j < length buf)%nat ->
  nth j (prange_rows sched (fun _ s => step s) d buf) d = Nat.iter (count_occ Nat.eq_dec sched j) step (nth j buf d).
Proof.
  unfold prange_rows. revert buf. induction sched as [|i sched IH]; intros buf Hj; [reflexivity|].
  cbn [fold_left]. rewrite IH by (rewrite list_set_length; auto). cbn [count_occ].
  destruct (Nat.eq_dec i j) as [->|Hne].
  - rewrite list_set_nth_eq by auto. rewrite <- (iter_succ_r). reflexivity.
  - rewrite list_set_nth_neq by auto. reflexivity.
Qed.

Lemma shrink_steps_done q row k : Nat.iter k (shrink_step q) (row, Some []) = (row, Some []).
Proof. induction k; simpl; auto. rewrite IHk. reflexivity. Qed.

Lemma shrink_steps_put q e : forall row k, (length e <= k)%nat ->
  Nat.iter k (shrink_step q) (row, Some e) = (fold_left (fun row e => list_set row (fst e) (snd e)) e row, Some []).
Proof.
  induction e as [|[j v] e IH]; intros row k Hk.
  - apply shrink_steps_done.
  - destruct k as [|k]; simpl in Hk; [lia|]. rewrite iter_succ_r. cbn [shrink_step fold_left fst snd]. apply IH. lia.
Qed.

Lemma shrink_steps q row k : (num_nonzero row < k)%nat ->
  Nat.iter k (shrink_step q) (row, None) = (shrink_row q row, Some []).
Proof.
  intros Hk. destruct k as [|k]; [lia|]. rewrite iter_succ_r. cbn [shrink_step].
  rewrite shrink_steps_put; [reflexivity|]. rewrite combine_length, map_length, take_nonzero.
  unfold num_nonzero in Hk. change (fun x => negb (Reqb x 0)) with Rnonzero in Hk. lia.
Qed.

Lemma shrink_interleaved_ok q sched W :
  (forall i, (i < length W)%nat -> (num_nonzero (nth i W []) < count_occ Nat.eq_dec sched i)%nat) ->
  map fst (shrink_interleaved q sched W) = map (shrink_row q) W.
Proof.
  intros H. unfold shrink_interleaved.
  apply (list_eq_nth []).
  - rewrite !map_length, prange_rows_length, map_length. reflexivity.
  - intros i Hi. rewrite map_length, prange_rows_length, map_length in Hi.
    rewrite (nth_map_in _ _ _ ([], None)) by (rewrite prange_rows_length, map_length; auto).
    rewrite prange_iter by (rewrite map_length; auto).
    rewrite (nth_map_in _ _ _ []) by auto. rewrite shrink_steps by auto.
    rewrite (nth_map_in _ _ _ []) by auto. reflexivity.
Qed.

(** ** Sparse *)
Lemma put_slice_concat {A} (rows : list (list A)) i v : (i < length rows)%nat -> length v = length (nth i rows []) ->
  put_slice (concat rows) (nth i (indptr_from 0 rows) 0%nat) (nth (S i) (indptr_from 0 rows) 0%nat) v =
  concat (list_set rows i v).
Proof.
  intros Hi Hv. unfold put_slice. rewrite !indptr_from_nth by lia. rewrite !Nat.add_0_l.
  assert (E : firstn (S i) rows = (firstn i rows ++ [nth i rows []])%list).
  { clear -Hi. revert i Hi; induction rows as [|r rows IH]; intros [|i] H; simpl in *; try lia; auto. f_equal. apply IH; lia. }
  assert (E2 : list_set rows i v = (firstn i rows ++ v :: skipn (S i) rows)%list).
  { clear -Hi. revert i Hi; induction rows as [|r rows IH]; intros [|i] H; simpl in *; try lia; auto. f_equal. apply IH; lia. }
  rewrite E2, E, !concat_app, app_length. cbn [concat]. rewrite app_nil_r, (concat_split rows i Hi).
  set (a := concat (firstn i rows)). set (b := nth i rows []). set (c := concat (skipn (S i) rows)).
  rewrite firstn_app, Nat.sub_diag, firstn_all. simpl firstn. rewrite app_nil_r. f_equal.
  rewrite app_assoc, skipn_app. replace (length a + length b)%nat with (length (a ++ b)) by apply app_length.
  rewrite skipn_all, Nat.sub_diag. reflexivity.
Qed.

Lemma shrink_values_length q l : length (shrink_values q l) = length l.
Proof. apply map_length. Qed.

Lemma map_length_list_set {A} (rows : list (list A)) i v : length v = length (nth i rows []) ->
  map (@length A) (list_set rows i v) = map (@length A) rows.
Proof.
  revert i; induction rows as [|r rows IH]; intros [|i] H; simpl in *; auto; [rewrite H; auto|rewrite IH; auto].
Qed.

Lemma shrink_sparse_fold q order ptr : forall rows : list (list R),
  (forall i, In i order -> (i < length rows)%nat) -> ptr = indptr_from 0 rows ->
  fold_left (fun data i =>
    let a := nth i ptr 0%nat in let b := nth (S i) ptr 0%nat in
    put_slice data a b (shrink_values q (slice data a b))) order (concat rows) =
  concat (prange_rows order (fun _ r => shrink_values q r) [] rows).
Proof.
  unfold prange_rows. induction order as [|i order IH]; intros rows Hlt Hp; [reflexivity|].
  cbn [fold_left]. cbv zeta. rewrite Hp at 1 2 3 4. 
  rewrite slice_concat by (apply Hlt; left; auto).
  rewrite put_slice_concat by (try (apply Hlt; left; auto); apply shrink_values_length).
  rewrite <- IH.
  - reflexivity.
  - intros k Hk. rewrite list_set_length. apply Hlt; right; auto.
  - rewrite Hp. apply indptr_from_lengths. symmetry. apply map_length_list_set, shrink_values_length.
Qed.

Definition shrink_csr_row (q : R) (r : list (nat * R)) : list (nat * R) :=
  combine (map fst r) (shrink_values q (map snd r)).

Lemma map_fst_combine {A B} (l : list A) (l' : list B) : length l = length l' -> map fst (combine l l') = l.
Proof. revert l'; induction l; intros [|b l'] H; simpl in *; try lia; auto. f_equal; auto. Qed.
Lemma map_snd_combine {A B} (l : list A) (l' : list B) : length l = length l' -> map snd (combine l l') = l'.
Proof. revert l'; induction l; intros [|b l'] H; simpl in *; try lia; auto. f_equal; auto. Qed.

Lemma shrink_csr_of_rows q order n rows : 0 <= q <= 1 -> schedule (length rows) order ->
  let m' := csr_of_rows n (map (fun r => filter (fun e => negb (Reqb (snd e) 0)) (shrink_csr_row q r)) rows) in
  shrink_csr order q (csr_of_rows n rows) = (m', Ok m').
Proof.
  intros Hq HS. cbv zeta. unfold shrink_csr. rewrite c_nrows_of_rows.
  destruct (Nat.eqb_spec (length rows) 0) as [E|E].
  { apply length_zero_iff_nil in E. subst rows. reflexivity. }
  rewrite (proj2 (rate_ok_true q) Hq).
  assert (E1 : shrink_sparse_data order q (csr_of_rows n rows) = concat (map (fun r => shrink_values q (map snd r)) rows)).
  { unfold shrink_sparse_data, csr_of_rows. cbn [c_data c_indptr]. rewrite concat_map.
    rewrite (shrink_sparse_fold q order).
    - rewrite (prange_schedule (length rows)) by (auto; apply map_length). f_equal.
      rewrite <- (map_map (map snd) (shrink_values q)).
      symmetry. etransitivity; [apply (f_equal (map (shrink_values q))), (tabulate_of_list [] (map (map snd) rows))|].
      rewrite map_tabulate, map_length. reflexivity.
    - intros i Hi. rewrite map_length. apply (Permutation_in _ HS) in Hi. apply in_seq in Hi. lia.
    - apply indptr_from_lengths. rewrite map_map. apply map_ext. intros; rewrite map_length; auto. }
  assert (E2 : Csr (shrink_sparse_data order q (csr_of_rows n rows)) (c_indices (csr_of_rows n rows))
             (c_indptr (csr_of_rows n rows)) (c_ncols (csr_of_rows n rows)) = csr_of_rows n (map (shrink_csr_row q) rows)).
  { rewrite E1. unfold csr_of_rows. cbn [c_indices c_indptr c_ncols]. f_equal.
    - rewrite concat_map, map_map. f_equal. apply map_ext. intros r. unfold shrink_csr_row.
      rewrite map_snd_combine; auto. rewrite shrink_values_length, !map_length. auto.
    - rewrite !concat_map, map_map. f_equal. apply map_ext. intros r. unfold shrink_csr_row.
      rewrite map_fst_combine; auto. rewrite shrink_values_length, !map_length. auto.
    - apply indptr_from_lengths. rewrite map_map. apply map_ext. intros r. unfold shrink_csr_row.
      rewrite combine_length, shrink_values_length, !map_length. lia. }
  rewrite E2. unfold eliminate_zeros. rewrite csr_rows_of_rows, map_map. reflexivity.
Qed.

Lemma map_nth_seq {A} (d : A) l : map (fun j => nth j l d) (seq 0 (length l)) = l.
Proof. symmetry. apply (tabulate_of_list d l). Qed.

Lemma filter_nth_seq {A} (d : A) (p : A -> bool) l :
  map (fun j => nth j l d) (filter (fun j => p (nth j l d)) (seq 0 (length l))) = filter p l.
Proof.
  rewrite <- (filter_map_comm p (fun j => nth j l d)), map_nth_seq. reflexivity.
Qed.

Definition zeroR (x : R) : bool := Reqb x 0.
Lemma crow_snd n row : length row = n -> map snd (crow 0 zeroR n row) = filter Rnonzero row.
Proof.
  intros <-. unfold crow. rewrite map_map. simpl. apply (filter_nth_seq 0 Rnonzero).
Qed.

Lemma combine_map_map {A B C} (f : A -> B) (g : A -> C) l : combine (map f l) (map g l) = map (fun x => (f x, g x)) l.
Proof. induction l; simpl; auto. rewrite IHl. auto. Qed.

Lemma shrink_crow q n row : length row = n ->
  filter (fun e => negb (Reqb (snd e) 0)) (shrink_csr_row q (crow 0 zeroR n row)) = crow 0 zeroR n (shrink_row q row).
Proof.
  intros HL. unfold shrink_csr_row, shrink_values. rewrite crow_snd, crow_fst by auto.
  set (J := filter (fun j => negb (zeroR (nth j row 0))) (seq 0 n)).
  set (vals := filter Rnonzero row).
  set (f := fun x => if below_quantile vals q x then 0 else x).
  assert (Ev : map f vals = map (fun j => f (nth j row 0)) J).
  { unfold vals. rewrite <- (crow_snd n row HL). unfold crow. rewrite !map_map. reflexivity. }
  rewrite Ev. rewrite <- (map_id J) at 1. rewrite combine_map_map, filter_map_comm. cbn [snd]. unfold J.
  rewrite filter_filter. unfold crow. rewrite shrink_row_map. fold vals. unfold f.
  assert (Hs : forall j, In j (seq 0 n) -> nth j (map (keep_fn vals q) row) 0 = keep_fn vals q (nth j row 0)).
  { intros j Hj. apply in_seq in Hj. apply nth_map_in. lia. }
  rewrite (filter_ext_in (fun j => negb (zeroR (nth j (map (keep_fn vals q) row) 0)))
     (fun j => negb (zeroR (nth j row 0)) && negb (Reqb (if below_quantile vals q (nth j row 0) then 0 else nth j row 0) 0))).
  - apply map_ext_in. intros j Hj. apply filter_In in Hj as [Hj1 Hj2]. rewrite Hs by auto. f_equal. unfold keep_fn.
    apply Bool.andb_true_iff in Hj2 as [Hj2 _]. change (negb (zeroR (nth j row 0))) with (Rnonzero (nth j row 0)) in Hj2.
    rewrite Hj2. reflexivity.
  - intros j Hj. rewrite Hs by auto. unfold keep_fn.
    change (negb (zeroR (nth j row 0))) with (Rnonzero (nth j row 0)).
    destruct (Rnonzero (nth j row 0)) eqn:E; simpl; auto.
Qed.

Lemma shrink_csr_form q order (W : matrix R) r n c :
  0 <= q <= 1 -> rect W r n -> csr_form 0 zeroR W n c -> schedule r order ->
  exists c', shrink_csr order q c = (c', Ok c') /\ csr_form 0 zeroR (map (shrink_row q) W) n c'.
Proof.
  intros Hq HR HF HS. rewrite csr_form_eq in HF. subst c.
  eexists. split.
  - apply shrink_csr_of_rows; auto. rewrite map_length. assert (length W = r) by apply HR. congruence.
  - rewrite csr_form_eq, !map_map. f_equal. apply map_ext_in. intros row Hin. apply shrink_crow.
    destruct HR as [_ HF]. rewrite Forall_forall in HF. auto.
Qed.

Lemma csr_where_form (W : matrix R) r n c : rect W r n -> csr_form 0 zeroR W n c ->
  csr_mask (mmap positive W) n (csr_where positive c).
Proof.
  intros HR HF. rewrite csr_form_eq in HF. subst c. unfold csr_mask. rewrite csr_form_eq.
  unfold csr_where. rewrite csr_rows_of_rows. unfold mmap. rewrite !map_map. cbn [c_ncols csr_of_rows]. f_equal.
  apply map_ext_in. intros row Hin.
  assert (HL : length row = n) by (destruct HR as [_ H]; rewrite Forall_forall in H; auto).
  unfold crow. rewrite filter_map_comm, map_map. cbn [fst snd]. rewrite filter_filter.
  rewrite (filter_ext_in (fun j => negb (negb (nth j (map positive row) false)))
      (fun j => negb (zeroR (nth j row 0)) && positive (nth j row 0))).
  - apply map_ext_in. intros j Hj. apply filter_In in Hj as [Hj1 Hj2]. apply in_seq in Hj1.
    rewrite (nth_map_in _ _ _ 0) by lia. apply Bool.andb_true_iff in Hj2 as [_ Hj2]. rewrite Hj2. reflexivity.
  - intros j Hj. apply in_seq in Hj. rewrite (nth_map_in _ _ _ 0) by lia. rewrite Bool.negb_involutive.
    unfold positive, Rltb, zeroR, Reqb. destruct (Rlt_dec 0 (nth j row 0)), (Req_EM_T (nth j row 0) 0); simpl; auto. lra.
Qed.
