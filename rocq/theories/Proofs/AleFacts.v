From Coq Require Import Lra Psatz Sorting.Sorted.
From Verif.Model Require Import Base Ext Sort Csr Neighbour Distance WeightModel Inspect Ale.
From Verif.Spec Require Import KernelSpec AleSpec.
From Verif.Proofs Require Import ListFacts SumFacts KernelFacts SortFacts AdaptiveFacts.
Open Scope nat_scope.
Open Scope R_scope.

(** ** bisection *)
Lemma bisect_loop_spec fuel fun_ target : forall lo hi,
  (lo <= hi)%Z -> (Z.to_nat (hi - lo) <= fuel)%nat ->
  (forall x, (lo <= x < hi)%Z -> exists v, fun_ x = Ok v) ->
  exists v, bisect_loop fuel fun_ target lo hi = Some (Ok v) /\ (lo <= v <= hi)%Z /\
    (v = lo \/ exists a, fun_ (v - 1)%Z = Ok a /\ a < target) /\
    (v = hi \/ exists a, fun_ v = Ok a /\ target <= a).
Proof.
  induction fuel as [|fuel IH]; intros lo hi Hle Hf Hok; simpl.
  - destruct (Z.ltb_spec lo hi); [lia|]. exists lo. split; auto. split; [lia|]. split; [auto|]. left. lia.
  - destruct (Z.ltb_spec lo hi).
    + assert (Hm : (lo <= (lo + hi) / 2 < hi)%Z) by (split; [apply Z.div_le_lower_bound; lia|apply Z.div_lt_upper_bound; lia]).
      set (mid := ((lo + hi) / 2)%Z) in *. destruct (Hok mid Hm) as [a Ha]. rewrite Ha.
      destruct (Rltb a target) eqn:E.
      * apply Rltb_true in E. destruct (IH (mid + 1)%Z hi ltac:(lia) ltac:(lia)) as (v & Hv & Hb & Hl & Hh).
        { intros x Hx. apply Hok. lia. }
        exists v. split; auto. split; [lia|]. split; auto. destruct Hl as [-> | Hl]; auto. right. exists a.
        replace (mid + 1 - 1)%Z with mid by lia. auto.
      * apply Rltb_false in E. destruct (IH lo mid ltac:(lia) ltac:(lia)) as (v & Hv & Hb & Hl & Hh).
        { intros x Hx. apply Hok. lia. }
        exists v. split; auto. split; [lia|]. split; auto. destruct Hh as [-> | Hh]; auto. right. exists a. auto.
    + exists lo. split; auto. split; [lia|]. split; [auto|]. left. lia.
Qed.

Lemma bisect_loop_inside fuel f g target : forall lo hi,
  (forall x, (lo <= x < hi)%Z -> f x = g x) -> bisect_loop fuel f target lo hi = bisect_loop fuel g target lo hi.
Proof.
  induction fuel as [|fuel IH]; intros lo hi H; simpl; auto.
  destruct (Z.ltb_spec lo hi); auto.
  assert (Hm : (lo <= (lo + hi) / 2 < hi)%Z) by (split; [apply Z.div_le_lower_bound; lia|apply Z.div_lt_upper_bound; lia]).
  rewrite (H _ Hm). destruct (g _); auto. destruct (Rltb _ _); apply IH; intros x Hx; apply H; lia.
Qed.

(** Termination even when [fun_] raises, and for every interval. *)
Lemma bisect_loop_terminates fuel fun_ target : forall lo hi, (Z.to_nat (hi - lo) <= fuel)%nat ->
  bisect_loop fuel fun_ target lo hi <> None.
Proof.
  induction fuel as [|fuel IH]; intros lo hi Hf; simpl; destruct (Z.ltb_spec lo hi); try discriminate; try lia.
  assert (Hm : (lo <= (lo + hi) / 2 < hi)%Z) by (split; [apply Z.div_le_lower_bound; lia|apply Z.div_lt_upper_bound; lia]).
  destruct (fun_ _); [|discriminate]. destruct (Rltb _ _); apply IH; lia.
Qed.

(** ** np.unique *)
Lemma dedup_in l x : In x (dedup l) <-> In x l.
Proof.
  induction l as [|a l IH]; [reflexivity|]. cbn [dedup]. destruct l as [|b l]; [reflexivity|].
  destruct (Reqb a b) eqn:E.
  - apply Reqb_true in E. subst b. rewrite IH. simpl. tauto.
  - cbn [In] in *. rewrite IH. reflexivity.
Qed.

Lemma dedup_sorted l : StronglySorted Rle l -> StronglySorted Rlt (dedup l).
Proof.
  induction l as [|a l IH]; intros H; [constructor|]. inversion H as [|? ? Hs Hf]; subst. cbn [dedup]. destruct l as [|b l]; [repeat constructor|].
  destruct (Reqb a b) eqn:E; [apply IH; auto|]. apply Reqb_false in E. constructor; [apply IH; auto|].
  apply Forall_forall. intros x Hx. rewrite dedup_in in Hx. rewrite Forall_forall in Hf. inversion Hs as [|? ? _ Hb]; subst. rewrite Forall_forall in Hb.
  assert (a <= b) by (apply Hf; left; auto). destruct Hx as [<- | Hx]; [lra|]. specialize (Hb x Hx). lra.
Qed.

Lemma unique_in l x : In x (unique l) <-> In x l.
Proof. unfold unique. rewrite dedup_in. split; apply Permutation_in; [apply Permutation_sym|]; apply sortR_perm. Qed.
Lemma unique_sorted l : StronglySorted Rlt (unique l).
Proof. apply dedup_sorted, sortR_sorted. Qed.

Lemma SSlt_ext l l' : StronglySorted Rlt l -> StronglySorted Rlt l' -> (forall x, In x l <-> In x l') -> l = l'.
Proof.
  revert l'. induction l as [|a l IH]; intros l' H H' E.
  - destruct l' as [|b l']; auto. exfalso. apply (proj2 (E b)). left; auto.
  - destruct l' as [|b l']; [exfalso; apply (proj1 (E a)); left; auto|].
    inversion H as [|? ? Hs Hf]; subst. inversion H' as [|? ? Hs' Hf']; subst. rewrite Forall_forall in Hf, Hf'.
    assert (a = b).
    { destruct (proj1 (E a) (or_introl eq_refl)) as [<- | Ha]; auto. destruct (proj2 (E b) (or_introl eq_refl)) as [<- | Hb]; auto.
      specialize (Hf b Hb). specialize (Hf' a Ha). lra. }
    subst b. f_equal. apply IH; auto. intros x. split; intros Hx.
    + destruct (proj1 (E x) (or_intror Hx)) as [<- | H0]; auto. specialize (Hf a Hx). lra.
    + destruct (proj2 (E x) (or_intror Hx)) as [<- | H0]; auto. specialize (Hf' a Hx). lra.
Qed.

Lemma SSlt_nth q i j : StronglySorted Rlt q -> (i < j < length q)%nat -> nth i q 0 < nth j q 0.
Proof.
  intros H. revert i j. induction H as [|a q Hs IH Hf]; intros i j Hij; simpl in Hij; [lia|].
  destruct i as [|i], j as [|j]; try lia; simpl.
  - rewrite Forall_forall in Hf. apply Hf. apply nth_In. lia.
  - apply IH. lia.
Qed.

(** ** searchsorted *)
Lemma filter_none_in {A} (p : A -> bool) l : (forall x, In x l -> p x = false) -> filter p l = [].
Proof. induction l as [|a l IH]; simpl; intros H; auto. rewrite (H a) by auto. apply IH. auto. Qed.

Lemma searchsorted_spec q x : StronglySorted Rlt q ->
  (searchsorted q x <= length q)%nat /\ (forall j, (j < searchsorted q x)%nat -> nth j q 0 < x) /\
  (forall j, (searchsorted q x <= j < length q)%nat -> x <= nth j q 0).
Proof.
  intros H. unfold searchsorted. induction H as [|a q Hs IH Hf]; simpl; [repeat split; intros; lia|].
  destruct (Rltb a x) eqn:E.
  - apply Rltb_true in E. simpl. destruct IH as (I1 & I2 & I3). split; [lia|]. split.
    + intros [|j] Hj; auto. apply I2. lia.
    + intros [|j] Hj; [lia|]. apply I3. lia.
  - apply Rltb_false in E. rewrite Forall_forall in Hf. rewrite filter_none_in.
    + simpl. split; [lia|]. split; [intros; lia|]. intros [|j] Hj; [lra|]. assert (a < nth j q 0) by (apply Hf, nth_In; lia). lra.
    + intros b Hb. apply Rltb_false. specialize (Hf b Hb). lra.
Qed.

Lemma searchsorted_unique q x i : StronglySorted Rlt q -> (i <= length q)%nat -> (forall j, (j < i)%nat -> nth j q 0 < x) ->
  (forall j, (i <= j < length q)%nat -> x <= nth j q 0) -> searchsorted q x = i.
Proof.
  intros H Hi H1 H2. destruct (searchsorted_spec q x H) as (I1 & I2 & I3).
  destruct (Nat.lt_trichotomy (searchsorted q x) i) as [L | [E | L]]; auto.
  - specialize (H1 _ L). specialize (I3 (searchsorted q x) ltac:(lia)). lra.
  - specialize (I2 _ L). specialize (H2 i ltac:(lia)). lra.
Qed.

Definition bin_of (q : list R) (x : R) : nat := let i := searchsorted q x in if (i =? 0)%nat then 1%nat else i.

Lemma in_bin_true q k v : in_bin q k v = true <-> (nth (k - 1) q 0 < v <= nth k q 0) \/ (k = 1%nat /\ v = nth 0 q 0).
Proof.
  unfold in_bin. rewrite orb_true_iff, !andb_true_iff, Rltb_true, Rleb_true, Nat.eqb_eq, Reqb_true. tauto.
Qed.

Lemma bin_of_spec q x : StronglySorted Rlt q -> (2 <= length q)%nat -> nth 0 q 0 <= x <= nth (length q - 1) q 0 ->
  (1 <= bin_of q x < length q)%nat /\ forall k, (1 <= k < length q)%nat -> in_bin q k x = (bin_of q x =? k)%nat.
Proof.
  intros H HL Hx. destruct (searchsorted_spec q x H) as (I1 & I2 & I3). unfold bin_of.
  set (i := searchsorted q x) in *. cbv zeta.
  assert (Hi : (i < length q)%nat).
  { destruct (Nat.lt_ge_cases i (length q)); auto. specialize (I2 (length q - 1)%nat ltac:(lia)). lra. }
  split; [destruct (Nat.eqb_spec i 0); lia|]. intros k Hk.
  apply Bool.eq_iff_eq_true. rewrite in_bin_true, Nat.eqb_eq. split.
  - intros [[A B] | [-> ->]].
    + destruct (Nat.eqb_spec i 0) as [E | E].
      * destruct (Nat.eq_dec k 1); [auto|]. exfalso. specialize (I3 (k - 1)%nat ltac:(lia)). lra.
      * destruct (Nat.lt_trichotomy i k) as [L | [L | L]]; auto.
        -- specialize (I3 (k - 1)%nat ltac:(lia)). lra.
        -- specialize (I2 k L). lra.
    + destruct (Nat.eqb_spec i 0) as [E | E]; auto. exfalso. specialize (I2 0%nat ltac:(lia)). lra.
  - destruct (Nat.eqb_spec i 0) as [E | E]; intros <-.
    + right. split; auto. specialize (I3 0%nat ltac:(lia)). lra.
    + left. split; [apply I2; lia|apply I3; lia].
Qed.

Lemma bin_indices_map q values : bin_indices q values = map (bin_of q) values.
Proof. reflexivity. Qed.

Lemma count_bins q values k : StronglySorted Rlt q -> (2 <= length q)%nat ->
  (forall x, In x values -> nth 0 q 0 <= x <= nth (length q - 1) q 0) -> (1 <= k < length q)%nat ->
  count_occ Nat.eq_dec (bin_indices q values) k = bin_count q k values.
Proof.
  intros H HL Hv Hk. rewrite bin_indices_map. unfold bin_count. induction values as [|x l IH]; auto. cbn [map count_occ filter].
  destruct (bin_of_spec q x H HL (Hv x (or_introl eq_refl))) as [_ Hb]. rewrite (Hb k Hk).
  rewrite IH by (intros z Hz; apply Hv; right; auto).
  destruct (Nat.eq_dec (bin_of q x) k) as [E | E]; [rewrite (proj2 (Nat.eqb_eq _ _) E)|rewrite (proj2 (Nat.eqb_neq _ _) E)]; reflexivity.
Qed.

Lemma bincount_tl l : l <> [] -> tl (bincount l) = map (count_occ Nat.eq_dec l) (seq 1 (list_max l)).
Proof. unfold bincount. destruct l as [|a l]; [congruence|]. intros _. unfold tabulate. cbn [seq map tl]. reflexivity. Qed.

Lemma list_max_in l : l <> [] -> In (list_max l) l.
Proof.
  induction l as [|a l IH]; [congruence|]. intros _. destruct l as [|b l]; [left; unfold list_max; simpl; lia|].
  assert (H : In (list_max (b :: l)) (b :: l)) by (apply IH; discriminate).
  change (list_max (a :: b :: l)) with (Nat.max a (list_max (b :: l))).
  destruct (Nat.max_spec a (list_max (b :: l))) as [[_ ->] | [_ ->]]; [right; auto|left; auto].
Qed.

Lemma list_max_ge l x : In x l -> (x <= list_max l)%nat.
Proof.
  intros H. pose proof (proj1 (list_max_le l (list_max l)) ltac:(lia)) as F. rewrite Forall_forall in F. auto.
Qed.

Lemma list_max_bins q values x : StronglySorted Rlt q -> (2 <= length q)%nat ->
  (forall v, In v values -> nth 0 q 0 <= v <= nth (length q - 1) q 0) -> In x values -> x = nth (length q - 1) q 0 ->
  list_max (bin_indices q values) = (length q - 1)%nat.
Proof.
  intros H HL Hv Hx Ex. rewrite bin_indices_map.
  assert (Hne : map (bin_of q) values <> []) by (destruct values; [contradiction|discriminate]).
  apply Nat.le_antisymm.
  - apply list_max_le. apply Forall_forall. intros k Hk. apply in_map_iff in Hk as (v & <- & Hin).
    destruct (bin_of_spec q v H HL (Hv v Hin)) as [? _]. lia.
  - apply list_max_ge. apply in_map_iff. exists x. split; auto.
    destruct (bin_of_spec q x H HL (Hv x Hx)) as [Hr Hb].
    specialize (Hb (length q - 1)%nat ltac:(lia)). symmetry in Hb.
    assert (E : in_bin q (length q - 1) x = true) by (apply in_bin_true; left; subst x; split; [apply SSlt_nth; auto; lia|lra]).
    rewrite E in Hb. apply Nat.eqb_eq in Hb. auto.
Qed.

(** ** quantiles *)
Lemma avi_hf7 row p : row <> [] -> 0 <= p <= 1 -> hyndman_fan_7 row p (at_virtual_index (sortR row) (virtual_linear (length row) p)).
Proof.
  intros Hne Hq. set (n := length row). set (v := virtual_linear n p).
  assert (Hn : (0 < n)%nat) by (unfold n; destruct row; [contradiction|simpl; lia]).
  assert (Hls : length (sortR row) = n) by apply sortR_length.
  assert (Hsne : sortR row <> []) by (rewrite sortR_nil; auto).
  assert (Hn1 : INR (n - 1) = INR n - 1) by (rewrite minus_INR by lia; simpl; lra).
  assert (Hv : v = (INR n - 1) * p + 1 - 1) by (unfold v, virtual_linear; rewrite Hn1; ring).
  unfold hyndman_fan_7. fold n. set (h := (INR n - 1) * p + 1) in *. split; [auto|]. split.
  - intros Hh. destruct (avi_cases (sortR row) v Hsne) as [[Hc E]|[[Hc [Hc' E]]|[i [Hi [Hc E]]]]]; rewrite E.
    + exfalso. pose proof (le_INR 1 n ltac:(lia)) as H1. simpl in H1. lra.
    + rewrite Hls. replace n with (S (n - 1)) at 1 by lia. apply sorted_kth. unfold n in *; lia.
    + exfalso. rewrite Hls in Hi. assert (INR i + 1 <= INR (n - 1)) by (rewrite <- S_INR; apply le_INR; lia). lra.
  - intros j x y Hj Hh Hx Hy.
    destruct (avi_cases (sortR row) v Hsne) as [[Hc E]|[[Hc [Hc' E]]|[i [Hi [Hc E]]]]]; rewrite E.
    + exfalso. pose proof (le_INR 1 j ltac:(lia)). simpl in H. lra.
    + exfalso. rewrite Hls, Hn1 in Hc'. assert (INR j + 1 <= INR n) by (rewrite <- S_INR; apply le_INR; lia). lra.
    + rewrite Hls in Hi.
      assert (Eij : j = S i).
      { assert (INR j < INR (S (S i))) by (rewrite !S_INR; lra). assert (INR (S i) < INR (S j)) by (rewrite !S_INR; lra). apply INR_lt in H, H0. lia. }
      subst j.
      assert (Ex : x = nth i (sortR row) 0) by (eapply kth_smallest_unique; [exact Hx|apply sorted_kth; unfold n in *; lia]).
      assert (Ey : y = nth (S i) (sortR row) 0) by (eapply kth_smallest_unique; [exact Hy|apply sorted_kth; unfold n in *; lia]).
      subst x y. rewrite S_INR in *. replace (v - INR i) with (h - (INR i + 1)) by lra. ring.
Qed.

Lemma hf7_unique row p a b : 0 <= p <= 1 -> hyndman_fan_7 row p a -> hyndman_fan_7 row p b -> a = b.
Proof.
  intros Hp (Hne & A1 & A2) (_ & B1 & B2). set (n := length row) in *. set (h := (INR n - 1) * p + 1) in *.
  assert (Hn : (0 < n)%nat) by (unfold n; destruct row; [contradiction|simpl; lia]).
  pose proof (le_INR 1 n ltac:(lia)) as H1. simpl in H1.
  assert (Hh : 1 <= h <= INR n) by (unfold h; split; nra).
  destruct (Rle_dec (INR n) h) as [Hc | Hc]; [apply (kth_smallest_unique row n); auto|].
  pose proof (Rfloor_spec h) as Hf. assert (Hz : (1 <= Rfloor h)%Z) by (apply (Z.le_trans _ (Rfloor 1)); [rewrite (Rfloor_IZR 1); lia|apply Rfloor_mono; lra]).
  set (j := Z.to_nat (Rfloor h)). assert (Ej : INR j = IZR (Rfloor h)) by (unfold j; rewrite INR_IZR_INZ, Z2Nat.id by lia; reflexivity).
  assert (Hj : (1 <= j < n)%nat) by (split; [unfold j; lia|]; apply INR_lt; lra).
  rewrite (A2 j (nth (j - 1) (sortR row) 0) (nth j (sortR row) 0)), (B2 j (nth (j - 1) (sortR row) 0) (nth j (sortR row) 0)); auto; try lra;
    try (replace j with (S (j - 1)) at 1 by lia; apply sorted_kth; unfold n in *; lia); apply sorted_kth; unfold n in *; lia.
Qed.

Lemma percentile_eq n k : percentile n k / 100 = INR k / INR (n - 1) \/ (n = 1%nat /\ percentile n k / 100 = 0).
Proof.
  unfold percentile. destruct (Nat.eqb_spec n 1) as [-> | Hn]; [right; split; auto; lra|].
  left. destruct (Nat.eq_dec n 0) as [-> | H0].
  - simpl. unfold Rdiv. rewrite Rinv_0. ring.
  - field. apply not_0_INR. lia.
Qed.

Lemma percentile_prob n k : (k < n)%nat -> percentile n k / 100 = INR k / INR (n - 1) /\ 0 <= INR k / INR (n - 1) <= 1.
Proof.
  intros H. destruct (Nat.eq_dec n 1) as [-> | Hn].
  - assert (k = 0%nat) by lia. subst. unfold percentile. simpl. unfold Rdiv. rewrite Rinv_0. split; lra.
  - destruct (percentile_eq n k) as [E | [E _]]; [|lia]. split; auto.
    assert (0 < INR (n - 1)) by (apply lt_0_INR; lia). pose proof (pos_INR k). pose proof (le_INR k (n - 1) ltac:(lia)).
    split; [apply Rmult_le_pos; [auto|left; apply Rinv_0_lt_compat; auto]|apply Rmult_le_reg_r with (INR (n - 1)); auto; unfold Rdiv; rewrite Rmult_assoc, Rinv_l; lra].
Qed.

Lemma get_quantiles_ok values n : values <> [] -> exists qs, get_quantiles values (Z.of_nat n) = Ok qs /\
  quantile_grid values n (unique qs) /\
  forall x, In x qs <-> exists k, (k < n)%nat /\ x = at_virtual_index (sortR values) (virtual_linear (length values) (INR k / INR (n - 1))).
Proof.
  intros Hne. unfold get_quantiles. destruct (Z.ltb_spec (Z.of_nat n) 0); [lia|]. rewrite Nat2Z.id.
  rewrite (mapM_all_ok _ (fun k => at_virtual_index (sortR values) (virtual_linear (length values) (INR k / INR (n - 1))))).
  2:{ intros k Hk. apply in_seq in Hk. destruct (percentile_prob n k ltac:(lia)) as [E Hp]. rewrite E. apply quantile_with_ok. auto. }
  eexists. split; [reflexivity|].
  assert (HI : forall x, In x (map (fun k => at_virtual_index (sortR values) (virtual_linear (length values) (INR k / INR (n - 1)))) (seq 0 n)) <->
    exists k, (k < n)%nat /\ x = at_virtual_index (sortR values) (virtual_linear (length values) (INR k / INR (n - 1)))).
  { intros x. rewrite in_map_iff. split.
    - intros (k & <- & Hk). apply in_seq in Hk. exists k. split; [lia|auto].
    - intros (k & Hk & ->). exists k. split; auto. apply in_seq. lia. }
  split; auto. split; [apply unique_sorted|]. intros x. rewrite unique_in, HI. split; intros (k & Hk & E); exists k; split; auto.
  - subst x. apply avi_hf7; auto. apply percentile_prob; auto.
  - eapply hf7_unique; [|exact E|apply avi_hf7; auto]; apply percentile_prob; auto.
Qed.

Lemma quantile_grid_fun values n q q' : quantile_grid values n q -> quantile_grid values n q' -> q = q'.
Proof. intros [A B] [A' B']. apply SSlt_ext; auto. intros x. rewrite B, B'. reflexivity. Qed.

Lemma min_of values : values <> [] -> is_minimum values (nth 0 (sortR values) 0).
Proof. intros H. split; [apply sortR_in; destruct values; [congruence|simpl; lia]|]. intros v Hv. apply sortR_min; auto. Qed.
Lemma max_of values : values <> [] -> is_maximum values (nth (length values - 1) (sortR values) 0).
Proof. intros H. split; [apply sortR_in; destruct values; [congruence|simpl; lia]|]. intros v Hv. apply sortR_max; auto. Qed.

(** The quantiles lie between the minimum and the maximum; the first is the
    minimum and, with at least two, the last is the maximum. *)
Lemma grid_range values n q : values <> [] -> (1 <= n)%nat -> quantile_grid values n q ->
  q <> [] /\ nth 0 q 0 = nth 0 (sortR values) 0 /\
  (forall x, In x q -> nth 0 (sortR values) 0 <= x <= nth (length values - 1) (sortR values) 0) /\
  (n = 1%nat -> length q = 1%nat) /\
  ((2 <= n)%nat -> nth (length q - 1) q 0 = nth (length values - 1) (sortR values) 0).
Proof.
  intros Hne Hn Hq. destruct (get_quantiles_ok values n Hne) as (qs & _ & Hg & HI).
  rewrite (quantile_grid_fun _ _ _ _ Hq Hg). clear Hq q. set (q := unique qs) in *.
  assert (Hs : StronglySorted Rlt q) by apply unique_sorted.
  assert (Hsne : sortR values <> []) by (rewrite sortR_nil; auto).
  assert (HB : forall x, In x q -> nth 0 (sortR values) 0 <= x <= nth (length values - 1) (sortR values) 0).
  { intros x Hx. unfold q in Hx. rewrite unique_in, HI in Hx. destruct Hx as (k & _ & ->). rewrite <- (sortR_length values). apply avi_bounds; auto. apply sortR_sorted. }
  assert (Hmin : In (nth 0 (sortR values) 0) q).
  { unfold q. rewrite unique_in, HI. exists 0%nat. split; [lia|]. unfold virtual_linear, Rdiv. simpl. rewrite Rmult_0_l, Rmult_0_r.
    symmetry. apply (avi_INR _ 0). rewrite sortR_length. destruct values; [congruence|simpl; lia]. }
  assert (Hqne : q <> []) by (intros E; rewrite E in Hmin; contradiction).
  assert (Hlen : (0 < length q)%nat) by (destruct q; [congruence|simpl; lia]).
  assert (F : forall x, In x q -> nth 0 q 0 <= x).
  { intros x Hx. destruct (In_nth _ _ 0 Hx) as (i & Hi & <-). destruct i; [lra|]. left. apply SSlt_nth; auto. lia. }
  assert (L : forall x, In x q -> x <= nth (length q - 1) q 0).
  { intros x Hx. destruct (In_nth _ _ 0 Hx) as (i & Hi & <-). destruct (Nat.eq_dec i (length q - 1)); [subst; lra|]. left. apply SSlt_nth; auto. lia. }
  split; auto. split; [apply Rle_antisym; [apply F; auto|apply HB, nth_In; auto]|]. split; auto. split.
  - intros ->. assert (HA : forall x, In x q -> x = nth 0 (sortR values) 0).
    { intros x Hx. unfold q in Hx. rewrite unique_in, HI in Hx. destruct Hx as (k & Hk & ->). assert (k = 0%nat) by lia. subst.
      unfold virtual_linear, Rdiv. simpl. rewrite Rmult_0_l, Rmult_0_r. apply (avi_INR _ 0). rewrite sortR_length. destruct values; [congruence|simpl; lia]. }
    destruct (Nat.eq_dec (length q) 1); auto. exfalso. assert (nth 0 q 0 < nth 1 q 0) by (apply SSlt_nth; auto; lia).
    rewrite (HA (nth 0 q 0)), (HA (nth 1 q 0)) in H by (apply nth_In; lia). lra.
  - intros H2. apply Rle_antisym; [apply HB, nth_In; lia|]. apply L. unfold q. rewrite unique_in, HI. exists (n - 1)%nat. split; [lia|].
    unfold Rdiv. rewrite Rinv_r by (apply not_0_INR; lia). unfold virtual_linear. rewrite Rmult_1_r. symmetry. apply avi_INR. rewrite sortR_length. destruct values; [congruence|simpl; lia].
Qed.

(** ** Further facts about bisect_fun *)
Lemma bisect_threshold fuel fun_ target lo hi v :
  (lo <= hi)%Z -> (Z.to_nat (hi - lo) <= fuel)%nat ->
  (forall x, (lo <= x < hi)%Z -> exists a, fun_ x = Ok a) ->
  (forall x y a b, (lo <= x <= y)%Z -> (y < hi)%Z -> fun_ x = Ok a -> fun_ y = Ok b -> a <= b) ->
  bisect_loop fuel fun_ target lo hi = Some (Ok v) ->
  forall x a, (lo <= x < hi)%Z -> fun_ x = Ok a -> (a < target <-> (x < v)%Z).
Proof.
  intros Hle Hf Hok Hmono E x a Hx Ha. destruct (bisect_loop_spec fuel fun_ target lo hi Hle Hf Hok) as (v' & E' & Hv & A & B).
  rewrite E in E'. injection E' as <-. split.
  - intros Hlt. destruct B as [-> | (b & Hb & Lb)]; [lia|]. destruct (Z.lt_ge_cases x v); auto. destruct (Z.lt_ge_cases v hi) as [Hvh | Hvh]; [|lia].
    pose proof (Hmono v x b a ltac:(lia) ltac:(lia) Hb Ha). lra.
  - intros Hlt. destruct A as [-> | (b & Hb & Lb)]; [lia|]. pose proof (Hmono x (v - 1)%Z a b ltac:(lia) ltac:(lia) Ha Hb). lra.
Qed.

Lemma bisect_more_fuel fuel fun_ target : forall fuel' lo hi r, (fuel <= fuel')%nat ->
  bisect_loop fuel fun_ target lo hi = Some r -> bisect_loop fuel' fun_ target lo hi = Some r.
Proof.
  induction fuel as [|fuel IH]; intros fuel' lo hi r Hf; simpl.
  - destruct (Z.ltb_spec lo hi) as [Hlt | Hge]; [discriminate|]. intros <-. destruct fuel'; simpl; destruct (Z.ltb_spec lo hi); auto; lia.
  - destruct fuel' as [|fuel']; [lia|]. simpl. destruct (lo <? hi)%Z; auto. destruct (fun_ _); auto. destruct (Rltb _ _); apply IH; lia.
Qed.
