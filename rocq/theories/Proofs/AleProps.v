From Coq Require Import Lra Psatz Sorting.Sorted.
From Verif.Model Require Import Base Ext Sort Csr Neighbour Distance WeightModel Inspect Ale.
From Verif.Spec Require Import KernelSpec InspectSpec AleSpec.
From Verif.Proofs Require Import ListFacts SumFacts KernelFacts SortFacts CsrFacts WeightFacts NeighbourFacts WeightModelFacts InspectProps3 AleFacts AleGrid.
Open Scope nat_scope.
Open Scope R_scope.

(** ** cumsum and the trapezoid *)
Lemma cumsum_from_length a l : length (cumsum_from a l) = length l.
Proof. revert a. induction l; intros; simpl; auto. Qed.

Lemma cumsum_from_step l : forall a k, (k < length l)%nat ->
  nth (S k) (a :: cumsum_from a l) 0 = nth k (a :: cumsum_from a l) 0 + nth k l 0.
Proof.
  induction l as [|x l IH]; intros a k Hk; simpl in Hk; [lia|]. destruct k as [|k]; [reflexivity|].
  cbn [cumsum_from nth]. specialize (IH (a + x) k ltac:(lia)). cbn [nth] in IH. rewrite IH. destruct k; reflexivity.
Qed.

Lemma removelast_length {A} (l : list A) : length (removelast l) = (length l - 1)%nat.
Proof.
  induction l as [|a l IH]; auto. cbn [removelast]. destruct l as [|b l]; auto. cbn [length] in *. rewrite IH. lia.
Qed.

Lemma removelast_nth {A} (d : A) l k : (k < length l - 1)%nat -> nth k (removelast l) d = nth k l d.
Proof.
  revert k. induction l as [|a l IH]; intros k Hk; simpl in Hk; [lia|]. cbn [removelast]. destruct l as [|b l]; [simpl in Hk; lia|].
  destruct k as [|k]; auto. cbn [nth]. apply IH. simpl in *. lia.
Qed.

Lemma tl_nth {A} (d : A) l k : nth k (tl l) d = nth (S k) l d.
Proof. destruct l; auto. destruct k; reflexivity. Qed.

Lemma count_occ_sum l n : (forall x, In x l -> (x < n)%nat) -> list_sum (map (count_occ Nat.eq_dec l) (seq 0 n)) = length l.
Proof.
  induction l as [|a l IH]; intros H.
  - simpl. induction (seq 0 n); simpl; auto.
  - assert (Ha : (a < n)%nat) by (apply H; left; auto).
    assert (E : forall m k, list_sum (map (count_occ Nat.eq_dec (a :: l)) (seq k m)) =
       (list_sum (map (count_occ Nat.eq_dec l) (seq k m)) + (if ((k <=? a) && (a <? k + m))%nat then 1 else 0))%nat).
    { induction m as [|m IHm]; intros k.
      - simpl. destruct (Nat.leb_spec k a), (Nat.ltb_spec a (k + 0)); simpl; lia.
      - cbn [seq map list_sum fold_right]. fold (list_sum (map (count_occ Nat.eq_dec (a :: l)) (seq (S k) m))). fold (list_sum (map (count_occ Nat.eq_dec l) (seq (S k) m))).
        rewrite IHm. cbn [count_occ]. destruct (Nat.eq_dec a k) as [-> | Hk];
        repeat match goal with |- context[(?x <=? ?y)%nat] => destruct (Nat.leb_spec x y) | |- context[(?x <? ?y)%nat] => destruct (Nat.ltb_spec x y) end; cbn [andb]; lia. }
    rewrite E. rewrite IH by (intros x Hx; apply H; right; auto). destruct (Nat.leb_spec 0 a), (Nat.ltb_spec a (0 + n)); simpl; lia.
Qed.

Lemma bincount_sum l : list_sum (bincount l) = length l.
Proof.
  unfold bincount. destruct l as [|a l]; auto. unfold tabulate. apply count_occ_sum. intros x Hx. apply list_max_ge in Hx. lia.
Qed.

(** ** bins *)
Section Bins.
  Variables (values q : list R) (m : Z).
  Hypothesis Hm : (0 <= m)%Z.
  Hypothesis Hg : proper_grid m values q.
  Let idx := bin_indices q values.
  Let K := (length q - 1)%nat.

  Lemma pg_range x : In x values -> nth 0 q 0 <= x <= nth (length q - 1) q 0.
  Proof. destruct Hg as (_ & _ & [_ A] & [_ B] & _). intros Hx. split; auto. Qed.

  Lemma pg_ne : values <> [].
  Proof. destruct Hg as (_ & _ & [A _] & _). intros E. rewrite E in A. contradiction. Qed.

  Lemma idx_range k : In k idx -> (1 <= k < length q)%nat.
  Proof.
    intros Hk. unfold idx in Hk. rewrite bin_indices_map in Hk. apply in_map_iff in Hk as (x & <- & Hx). destruct Hg as (Hs & HL & _).
    destruct (bin_of_spec q x Hs HL (pg_range x Hx)) as [H _]. exact H.
  Qed.

  Lemma idx_length : length idx = length values. Proof. unfold idx, bin_indices. apply map_length. Qed.

  Lemma idx_nth i : (i < length values)%nat -> nth i idx 0%nat = bin_of q (nth i values 0).
  Proof. intros Hi. unfold idx. rewrite bin_indices_map. apply (nth_map_in _ _ _ 0); auto. Qed.

  Lemma idx_bin i k : (i < length values)%nat -> (1 <= k < length q)%nat -> (nth i idx 0 =? k)%nat = in_bin q k (nth i values 0).
  Proof.
    intros Hi Hk. rewrite (idx_nth i Hi). destruct Hg as (Hs & HL & _).
    destruct (bin_of_spec q (nth i values 0) Hs HL (pg_range _ (nth_In _ _ Hi))) as [_ H]. rewrite H; auto.
  Qed.

  Lemma idx_max : list_max idx = K.
  Proof. destruct Hg as (Hs & HL & _ & [Hi _] & _). apply (list_max_bins q values (nth (length q - 1) q 0)); auto. apply pg_range. Qed.

  Lemma idx_count k : (1 <= k < length q)%nat -> count_occ Nat.eq_dec idx k = bin_count q k values.
  Proof. intros Hk. destruct Hg as (Hs & HL & _). apply count_bins; auto. apply pg_range. Qed.

  Lemma keys : group_keys idx = seq 1 K.
  Proof.
    unfold group_keys. rewrite idx_max. change (seq 0 (S K)) with (0%nat :: seq 1 K). cbn [filter].
    destruct (existsb (Nat.eqb 0) idx) eqn:E0.
    - apply existsb_exists in E0 as (x & Hx & Ex). apply Nat.eqb_eq in Ex. subst x. apply idx_range in Hx. lia.
    - assert (H : forall l, (forall k, In k l -> (1 <= k < length q)%nat) -> filter (fun k => existsb (Nat.eqb k) idx) l = l).
      { induction l as [|k l IH]; intros H; auto. cbn [filter]. rewrite IH by (intros; apply H; right; auto).
        destruct (existsb (Nat.eqb k) idx) eqn:E; auto. exfalso.
        assert (Hk : (1 <= k < length q)%nat) by (apply H; left; auto). destruct Hg as (_ & _ & _ & _ & Hf). specialize (Hf k Hk). rewrite <- idx_count in Hf by auto.
        assert (Hin : In k idx) by (apply (count_occ_In Nat.eq_dec); lia). 
        assert (existsb (Nat.eqb k) idx = true) by (apply existsb_exists; exists k; split; auto; apply Nat.eqb_refl). congruence. }
      apply H. intros k Hk. apply in_seq in Hk. unfold K in Hk. lia.
  Qed.

  Lemma mask_members {A} (d : A) (v : list A) k : (1 <= k < length q)%nat -> length v = length values ->
    mask_index (map (fun i => (i =? k)%nat) idx) v = Ok (map (fun i => nth i v d) (members q k values)).
  Proof.
    intros Hk Hv. apply (mask_index_filter d _ v (length values)); auto; [rewrite map_length; apply idx_length|].
    intros j Hj. rewrite (nth_map_in _ _ _ 0%nat) by (rewrite idx_length; auto). apply idx_bin; auto.
  Qed.

  Lemma mask_members_len {A} (v : list A) k : mask_index (map (fun i => (i =? k)%nat) idx) v = Raise IndexError \/ length v = length values.
  Proof. unfold mask_index. rewrite map_length, idx_length. destruct (Nat.eqb_spec (length values) (length v)); auto. Qed.

  Lemma pg_counts : tl (bincount idx) = map (fun k => bin_count q k values) (seq 1 K).
  Proof.
    rewrite bincount_tl.
    - rewrite idx_max. apply map_ext_in. intros k Hk. apply in_seq in Hk. apply idx_count. unfold K in Hk. lia.
    - intros E. pose proof idx_length as H. rewrite E in H. pose proof pg_ne. destruct values; [auto|discriminate].
  Qed.

  Lemma pg_total : list_sum (bincount idx) = length values.
  Proof. rewrite bincount_sum. apply idx_length. Qed.

  Lemma counts_sum : Rsum (map (fun k => INR (bin_count q k values)) (seq 1 K)) = INR (length values).
  Proof.
    assert (E : list_sum (map (count_occ Nat.eq_dec idx) (seq 0 (S K))) = length idx).
    { apply count_occ_sum. intros x Hx. apply idx_range in Hx. unfold K. lia. }
    change (seq 0 (S K)) with (0%nat :: seq 1 K) in E. cbn [map list_sum fold_right] in E.
    assert (E0 : count_occ Nat.eq_dec idx 0%nat = 0%nat) by (apply count_occ_not_In; intros H; apply idx_range in H; lia).
    rewrite E0, idx_length in E. simpl in E. rewrite <- E. clear E E0.
    assert (H : forall l, (forall k, In k l -> (1 <= k < length q)%nat) -> Rsum (map (fun k => INR (bin_count q k values)) l) = INR (fold_right Nat.add 0%nat (map (count_occ Nat.eq_dec idx) l))).
    { induction l as [|k l IH]; intros H; [reflexivity|]. cbn [map fold_right]. rewrite Rsum_cons, plus_INR, IH by (intros; apply H; right; auto).
      rewrite idx_count by (apply H; left; auto). reflexivity. }
    apply H. intros k Hk. apply in_seq in Hk. unfold K in Hk. lia.
  Qed.

  (** The trapezoidal mean centres the curve. *)
  Lemma centre acc ale0 : length acc = length q -> trapezoid_mean acc (bincount idx) = Ok ale0 -> centred q values (map (fun a => a - ale0) acc).
  Proof.
    intros HL. unfold trapezoid_mean. rewrite pg_counts, pg_total.
    destruct (_ =? _)%nat eqn:E; [|discriminate]. clear E. intros H. injection H as <-.
    set (mids := map2 _ (removelast acc) _). assert (Hml : length mids = K).
    { unfold mids. rewrite map2_length, removelast_length. destruct acc as [|a acc]; [|simpl in *; unfold K; lia]. unfold K. simpl in *. lia. }
    set (S0 := Rsum _ / _).
    unfold centred. fold K.
    assert (HN : INR (length values) <> 0) by (apply not_0_INR; pose proof pg_ne; destruct values; [congruence|discriminate]).
    rewrite (Rsum_map_ext _ (fun k => nth (k - 1) mids 0 * INR (bin_count q k values) - INR (bin_count q k values) * S0)).
    - rewrite Rsum_map_minus, Rsum_map_scal_r, counts_sum.
      assert (E : Rsum (map (fun k => nth (k - 1) mids 0 * INR (bin_count q k values)) (seq 1 K)) =
                  Rsum (map2 (fun m0 n => m0 * INR n) mids (map (fun k => bin_count q k values) (seq 1 K)))).
      { f_equal. apply (list_eq_nth 0); [rewrite map_length, map2_length, map_length, seq_length; lia|].
        rewrite map_length, seq_length. intros i Hi. rewrite (nth_map_in _ _ _ 0%nat) by (rewrite seq_length; auto).
        rewrite (map2_nth _ _ _ _ 0 0%nat) by (rewrite ?map_length, ?seq_length; lia).
        rewrite (nth_map_in _ _ _ 0%nat) by (rewrite seq_length; auto). rewrite !seq_nth by auto. replace (1 + i - 1)%nat with i by lia. reflexivity. }
      rewrite E. unfold S0. field. auto.
    - intros k Hk. apply in_seq in Hk. unfold mids. rewrite (map2_nth _ _ _ _ 0 0); [|rewrite removelast_length; unfold K in Hk; lia|].
      2:{ destruct acc; simpl in *; unfold K in Hk; lia. }
      rewrite removelast_nth by (unfold K in Hk; lia). rewrite tl_nth. replace (S (k - 1)) with k by lia.
      rewrite !(nth_map_in _ _ _ 0) by (unfold K in Hk; lia). field.
  Qed.

  Lemma trapezoid_ok acc : length acc = length q -> exists a, trapezoid_mean acc (bincount idx) = Ok a.
  Proof.
    intros HL. unfold trapezoid_mean. rewrite pg_counts. rewrite map2_length, removelast_length, map_length, seq_length.
    assert (E : length (tl acc) = K) by (destruct acc; simpl in *; unfold K; lia). rewrite E, HL. fold K. rewrite Nat.min_id, Nat.eqb_refl. eauto.
  Qed.
End Bins.

Lemma average_ok v w a : length v = length w -> average v w = Ok a <-> average_of w v a.
Proof.
  intros HL. unfold average, average_of.
  assert (E : Rsum (map2 Rmult v w) = Rsum (map2 Rmult w v)).
  { f_equal. revert w HL. induction v as [|x v IH]; intros [|y w] HL; simpl in *; try lia; auto. f_equal; [ring|apply IH; lia]. }
  rewrite E. destruct (Reqb (Rsum w) 0) eqn:E0.
  - apply Reqb_true in E0. split; [discriminate|]. intros [H _]. contradiction.
  - apply Reqb_false in E0. split.
    + intros H. injection H as <-. split; auto. field; auto.
    + intros [_ H]. f_equal. rewrite <- H. field; auto.
Qed.

Lemma mapM_getitem {A} (d : A) l idx ys : mapM (fun i => getitem l i) idx = Ok ys -> ys = map (fun i => nth i l d) idx /\ forall i, In i idx -> (i < length l)%nat.
Proof.
  revert ys. induction idx as [|i idx IH]; intros ys H; simpl in H.
  - injection H as <-. split; auto. intros i [].
  - apply bind_ok in H as (x & Hx & H). apply bind_ok in H as (xs & Hxs & H). injection H as <-. destruct (IH _ Hxs) as [-> Hi].
    apply getitem_ok in Hx. simpl. rewrite (nth_error_nth _ _ d Hx). split; auto. intros j [<- | Hj]; auto. apply nth_error_Some. congruence.
Qed.

Lemma column_ok X f v N F : rect X N F -> (0 < N)%nat -> column X f = Ok v -> (f < F)%nat /\ v = feature_values X f.
Proof.
  intros HX HN. unfold column. rewrite (rect_ncols X N F) by auto. destruct (Nat.ltb_spec f F); [|discriminate].
  intros E. injection E as <-. auto.
Qed.
