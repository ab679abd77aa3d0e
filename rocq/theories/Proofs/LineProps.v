From Coq Require Import Lra Psatz Sorting.Sorted.
From Verif.Model Require Import Base Ext Sort Csr Neighbour Distance WeightModel Ale Visualize.
From Verif.Spec Require Import NeighbourSpec VisualizeSpec.
From Verif.Proofs Require Import ListFacts SumFacts SortFacts KernelFacts NeighbourFacts CsrFacts AleFacts VisualizeFacts.
Open Scope nat_scope.
Open Scope R_scope.

(** ** shifted distances *)
Lemma sum_k_ext n f g : (forall k, (k < n)%nat -> f k = g k) -> sum_k n f = sum_k n g.
Proof. intros H. unfold sum_k. apply Rsum_map_ext. intros k Hk. apply in_seq in Hk. apply H. lia. Qed.

Lemma mean_swap pts f1 f2 : mean_difference pts f2 f1 = - mean_difference pts f1 f2.
Proof.
  unfold mean_difference. set (n := length pts). assert (E : sum_k n (fun k => f2 (nth k pts 0) - f1 (nth k pts 0)) = sum_k n (fun k => f1 (nth k pts 0) - f2 (nth k pts 0)) * (-1)).
  { unfold sum_k. rewrite <- Rsum_map_scal_r. apply Rsum_map_ext. intros. ring. }
  rewrite E. unfold Rdiv. ring.
Qed.

Lemma line_distance_sym l1 l2 d : is_line_distance l1 l2 d -> is_line_distance l2 l1 d.
Proof.
  intros (pts & f1 & f2 & Hp & H1 & H2 & ->). exists pts, f2, f1. split; [apply common_sym; auto|]. split; auto. split; auto.
  rewrite mean_swap. unfold shifted_distance. f_equal. apply sum_k_ext. intros k Hk. ring.
Qed.

Lemma shifted_nonneg pts f1 f2 c : StronglySorted Rlt pts -> (2 <= length pts)%nat -> 0 <= shifted_distance pts f1 f2 c.
Proof.
  intros Hs Hn. unfold shifted_distance. apply Rmult_le_pos; [|left; apply Rinv_0_lt_compat, sum_gap_pos; auto].
  unfold sum_k. apply Rsum_nonneg. intros y Hy. apply in_map_iff in Hy as (k & <- & Hk). apply in_seq in Hk. apply Rmult_le_pos; [left; apply gap_pos; auto; lia|apply pow2_ge_0].
Qed.

(** Parallel axis: moving the shift away from the weighted mean costs its square. *)
Lemma shifted_parallel pts f1 f2 c : StronglySorted Rlt pts -> (2 <= length pts)%nat ->
  shifted_distance pts f1 f2 c = shifted_distance pts f1 f2 (weighted_mean_difference pts f1 f2) + (c - weighted_mean_difference pts f1 f2) ^ 2.
Proof.
  intros Hs Hn. pose proof (sum_gap_pos pts Hs Hn) as HW. unfold shifted_distance, weighted_mean_difference. set (n := length pts) in *. set (W := sum_k n (gap_weight pts)) in *.
  set (d := fun k => f1 (nth k pts 0) - f2 (nth k pts 0)). set (w := gap_weight pts) in *. set (A := sum_k n (fun k => w k * d k)).
  assert (E : forall c, sum_k n (fun k => w k * (d k - c) ^ 2) = sum_k n (fun k => w k * d k ^ 2) - 2 * c * A + c ^ 2 * W).
  { intros t. unfold A, W, sum_k. rewrite <- !Rsum_map_scal, <- Rsum_map_minus, <- Rsum_map_plus. apply Rsum_map_ext. intros. ring. }
  change (sum_k n (fun k => w k * (d k - c) ^ 2) / W = sum_k n (fun k => w k * (d k - A / W) ^ 2) / W + (c - A / W) ^ 2).
  rewrite !E. field. lra.
Qed.

Lemma shifted_zero pts f1 f2 c : StronglySorted Rlt pts -> (2 <= length pts)%nat ->
  (shifted_distance pts f1 f2 c = 0 <-> forall x, In x pts -> f1 x - f2 x = c).
Proof.
  intros Hs Hn. pose proof (sum_gap_pos pts Hs Hn) as HW. unfold shifted_distance. set (n := length pts) in *. split.
  - intros H x Hx. apply (In_nth _ _ 0) in Hx as (k & Hk & <-). fold n in Hk.
    assert (HS : sum_k n (fun k => gap_weight pts k * (f1 (nth k pts 0) - f2 (nth k pts 0) - c) ^ 2) = 0).
    { unfold Rdiv in H. apply Rmult_integral in H as [H | H]; auto. exfalso. revert H. apply Rinv_neq_0_compat. lra. }
    unfold sum_k in HS. assert (Hk0 : gap_weight pts k * (f1 (nth k pts 0) - f2 (nth k pts 0) - c) ^ 2 = 0).
    { apply (Rsum_zero_elem (map (fun k => gap_weight pts k * (f1 (nth k pts 0) - f2 (nth k pts 0) - c) ^ 2) (seq 0 n))); auto.
      - intros y Hy. apply in_map_iff in Hy as (j & <- & Hj). apply in_seq in Hj. apply Rmult_le_pos; [left; apply gap_pos; auto; lia|apply pow2_ge_0].
      - apply in_map_iff. exists k. split; auto. apply in_seq. lia. }
    apply Rmult_integral in Hk0 as [Hk0 | Hk0]; [pose proof (gap_pos pts k Hs Hn Hk); lra|]. simpl in Hk0. apply Rmult_integral in Hk0 as [Hk0 | Hk0]; [lra|]. apply Rmult_integral in Hk0 as [|]; lra.
  - intros H. unfold sum_k at 1. rewrite (Rsum_map_ext _ (fun _ => 0)).
    + rewrite Rsum_map_const. unfold Rdiv. ring.
    + intros k Hk. apply in_seq in Hk. rewrite (H (nth k pts 0)) by (apply nth_In; unfold n in *; lia). ring.
Qed.

(** ** determinacy of the specification *)
Lemma interpolates_agree l f g x : wf_line l -> interpolates l f -> interpolates l g -> hd 0 (fst l) <= x <= last (fst l) 0 -> f x = g x.
Proof.
  intros (Hs & _ & Hne) [F1 F2] [G1 G2] Hx.
  assert (H : (exists k, (k < length (fst l))%nat /\ x = nth k (fst l) 0) \/ exists k, (S k < length (fst l))%nat /\ nth k (fst l) 0 <= x <= nth (S k) (fst l) 0).
  { clear F1 F2 G1 G2. destruct l as [xs ys]. cbn [fst] in *. induction xs as [|a xs IH]; [congruence|]. destruct xs as [|b xs].
    - simpl in Hx. left. exists 0%nat. simpl. split; [lia|lra].
    - destruct (Rle_dec x b) as [Hb | Hb].
      + right. exists 0%nat. simpl in *. split; [lia|lra].
      + destruct IH as [(k & Hk & E) | (k & Hk & E)].
        * inversion Hs; auto.
        * discriminate.
        * change (last (a :: b :: xs) 0) with (last (b :: xs) 0) in Hx. simpl hd. lra.
        * left. exists (S k). split; [simpl in *; lia|exact E].
        * right. exists (S k). split; [simpl in *; lia|exact E]. }
  destruct H as [(k & Hk & ->) | (k & Hk & E)].
  - rewrite F1, G1; auto.
  - rewrite (F2 k), (G2 k); auto.
Qed.

Lemma hd_le l x : wf_line l -> In x (fst l) -> hd 0 (fst l) <= x <= last (fst l) 0.
Proof.
  intros (Hs & _ & Hne) Hx. destruct l as [xs ys]. cbn [fst] in *. apply (In_nth _ _ 0) in Hx as (k & Hk & <-). split.
  - replace (hd 0 xs) with (nth 0 xs 0) by (destruct xs; reflexivity). apply SS_nth_le; auto. lia.
  - replace (last xs 0) with (nth (length xs - 1) xs 0).
    + apply SS_nth_le; auto; lia.
    + clear. induction xs as [|a xs IH]; auto. destruct xs as [|b xs]; auto. change (last (a :: b :: xs) 0) with (last (b :: xs) 0). rewrite <- IH. simpl. rewrite Nat.sub_0_r. reflexivity.
Qed.

Lemma shifted_ext pts f1 f2 g1 g2 c : (forall x, In x pts -> f1 x = g1 x) -> (forall x, In x pts -> f2 x = g2 x) -> shifted_distance pts f1 f2 c = shifted_distance pts g1 g2 c.
Proof. intros H1 H2. unfold shifted_distance. f_equal. apply sum_k_ext. intros k Hk. rewrite H1, H2 by (apply nth_In; auto). reflexivity. Qed.
Lemma mean_ext pts f1 f2 g1 g2 : (forall x, In x pts -> f1 x = g1 x) -> (forall x, In x pts -> f2 x = g2 x) -> mean_difference pts f1 f2 = mean_difference pts g1 g2.
Proof. intros H1 H2. unfold mean_difference. f_equal. apply sum_k_ext. intros k Hk. rewrite H1, H2 by (apply nth_In; auto). reflexivity. Qed.

Lemma common_in_range l1 l2 pts x : common_points l1 l2 pts -> In x pts -> (hd 0 (fst l1) <= x <= last (fst l1) 0) /\ (hd 0 (fst l2) <= x <= last (fst l2) 0).
Proof.
  intros [_ H] Hx. apply H in Hx as [_ [A B]]. unfold range_start, range_end in *. pose proof (Rmax_l (hd 0 (fst l1)) (hd 0 (fst l2))). pose proof (Rmax_r (hd 0 (fst l1)) (hd 0 (fst l2))).
  pose proof (Rmin_l (last (fst l1) 0) (last (fst l2) 0)). pose proof (Rmin_r (last (fst l1) 0) (last (fst l2) 0)). lra.
Qed.

(** The distance does not depend on the choice of points and interpolants. *)
Lemma is_line_distance_any l1 l2 d pts f1 f2 : wf_line l1 -> wf_line l2 -> is_line_distance l1 l2 d -> common_points l1 l2 pts -> interpolates l1 f1 -> interpolates l2 f2 ->
  d = shifted_distance pts f1 f2 (mean_difference pts f1 f2).
Proof.
  intros W1 W2 (pts' & g1 & g2 & Hp' & G1 & G2 & ->) Hp F1 F2.
  assert (pts' = pts) as ->.
  { destruct Hp as [S1 I1], Hp' as [S2 I2]. apply SS_same; auto. intros x. rewrite I1, I2. reflexivity. }
  assert (E1 : forall x, In x pts -> g1 x = f1 x) by (intros x Hx; apply (interpolates_agree l1); auto; apply (common_in_range l1 l2 pts x Hp Hx)).
  assert (E2 : forall x, In x pts -> g2 x = f2 x) by (intros x Hx; apply (interpolates_agree l2); auto; apply (common_in_range l1 l2 pts x Hp Hx)).
  rewrite (mean_ext pts g1 g2 f1 f2) by auto. apply shifted_ext; auto.
Qed.

(** ** the matrix *)
Lemma self_overlap l : wf_line l -> (overlaps l l <-> (2 <= length (fst l))%nat).
Proof.
  intros (Hs & _ & Hne). unfold overlaps, range_start, range_end. rewrite Rmax_left, Rmin_left by lra.
  destruct (fst l) as [|a [|b xs]] eqn:E; [congruence|simpl; split; [lra|lia]|]. split; [simpl; lia|]. intros _.
  pose proof (SS_nth (a :: b :: xs) 0 1 Hs ltac:(lia) ltac:(simpl; lia)) as H. cbn [nth] in H. simpl hd.
  assert (In b (fst l)) as Hb by (rewrite E; right; left; auto). rewrite <- E in *.
  assert (b <= last (fst l) 0); [|lra].
  apply (In_nth _ _ 0) in Hb as (k & Hk & <-). replace (last (fst l) 0) with (nth (length (fst l) - 1) (fst l) 0).
  - apply SS_nth_le; auto; lia.
  - clear. induction (fst l) as [|a' xs' IH]; auto. destruct xs' as [|b' xs']; auto. change (last (a' :: b' :: xs') 0) with (last (b' :: xs') 0). rewrite <- IH. simpl. rewrite Nat.sub_0_r. reflexivity.
Qed.

Lemma self_distance l : wf_line l -> (2 <= length (fst l))%nat -> line_distance l l = Ok (Some 0).
Proof.
  intros W H. destruct l as [x y]. destruct (line_distance_value x y x y W W) as [A _]. pose proof W as W'. apply self_overlap in H; auto. rewrite A by auto. f_equal. f_equal.
  pose proof (merge_points x y x y) as HP. pose proof (points_two (x, y) (x, y) _ ltac:(apply W) ltac:(apply W) H HP) as Hn. destruct HP as [Hs _].
  apply shifted_zero; auto. intros t Ht.
  assert (E : mean_difference (x_merge x x) (interp x y) (interp x y) = 0).
  { unfold mean_difference. unfold sum_k. rewrite (Rsum_map_ext _ (fun _ => 0)) by (intros; ring). rewrite Rsum_map_const. unfold Rdiv. ring. }
  rewrite E. ring.
Qed.

Definition ln (ls : list (list R * list R)) (i : nat) : list R * list R := nth i ls ([], []).

Lemma raw_cases ls k j : Forall wf_line ls -> (k < length ls)%nat -> (j < length ls)%nat -> (k <= j)%nat ->
  (overlaps (ln ls k) (ln ls j) /\ exists d, raw ls k j = Some d /\ is_line_distance (ln ls k) (ln ls j) d) \/
  (~ overlaps (ln ls k) (ln ls j) /\ raw ls k j = None).
Proof.
  intros HF Hk Hj Hkj. rewrite Forall_forall in HF. assert (W1 : wf_line (ln ls k)) by (apply HF, nth_In; auto). assert (W2 : wf_line (ln ls j)) by (apply HF, nth_In; auto).
  destruct (line_distance_spec _ _ W1 W2) as [A B]. unfold raw. destruct (Nat.ltb_spec j k); [lia|]. unfold line in *. unfold ln in *.
  destruct (Rlt_dec (range_start (nth k ls ([], [])) (nth j ls ([], []))) (range_end (nth k ls ([], [])) (nth j ls ([], [])))) as [Ho | Ho].
  - left. split; auto. destruct (A Ho) as (d & E & Hd). exists d. rewrite E. auto.
  - right. split; auto. rewrite (B Ho). reflexivity.
Qed.

Lemma raw_lower ls k j : (j < k)%nat -> raw ls k j = Some 0.
Proof. intros H. unfold raw. apply Nat.ltb_lt in H. rewrite H. reflexivity. Qed.

Lemma is_line_distance_nonneg l1 l2 d : fst l1 <> [] -> fst l2 <> [] -> overlaps l1 l2 -> is_line_distance l1 l2 d -> 0 <= d.
Proof. intros N1 N2 Ho (pts & f1 & f2 & Hp & _ & _ & ->). apply shifted_nonneg; [apply Hp|exact (points_two l1 l2 pts N1 N2 Ho Hp)]. Qed.

Lemma overlaps_sym l1 l2 : overlaps l1 l2 <-> overlaps l2 l1.
Proof. unfold overlaps, range_start, range_end. rewrite (Rmax_comm (hd 0 (fst l2))), (Rmin_comm (last (fst l2) 0)). tauto. Qed.

Theorem partial_distance_spec : forall ls m, Forall wf_line ls -> partial_distance ls = Ok m ->
  let n := length ls in
  rect m n n /\ (forall i j, (i < n)%nat -> (j < n)%nat -> mget 0 m i j = mget 0 m j i) /\
  exists top, 0 <= top /\
    (forall i j, (i < n)%nat -> (j < n)%nat -> i <> j -> overlaps (ln ls i) (ln ls j) -> is_line_distance (ln ls i) (ln ls j) (mget 0 m i j) /\ 0 <= mget 0 m i j <= top) /\
    (forall i j, (i < n)%nat -> (j < n)%nat -> i <> j -> ~ overlaps (ln ls i) (ln ls j) -> mget 0 m i j = 2 * top) /\
    (top = 0 \/ exists i j, (i < n)%nat /\ (j < n)%nat /\ i <> j /\ overlaps (ln ls i) (ln ls j) /\ mget 0 m i j = top) /\
    (forall i, (i < n)%nat -> (2 <= length (fst (ln ls i)))%nat -> mget 0 m i i = 0) /\
    (forall i, (i < n)%nat -> length (fst (ln ls i)) = 1%nat -> mget 0 m i i = 4 * top).
Proof.
  intros ls m HF H n. assert (Hn : n = length ls) by reflexivity. destruct (partial_inv ls m H) as (top & HR & (k0 & j0 & Hk0 & Hj0 & Etop) & Hmax & Hget & Hok). unfold line in *. fold n in HR, Hk0, Hj0, Hmax, Hget, Hok.
  split; auto. split; [intros i j Hi Hj; rewrite !Hget by auto; ring|].
  assert (Wf : forall i, (i < n)%nat -> wf_line (ln ls i)) by (intros i Hi; rewrite Forall_forall in HF; apply HF, nth_In; auto).
  assert (Hup : forall i j, (i < j)%nat -> (j < n)%nat -> mget 0 m i j = fill top (raw ls i j)).
  { intros i j Hij Hj. rewrite Hget by lia. rewrite (raw_lower ls j i) by auto. simpl. ring. }
  assert (Hself : forall i, (i < n)%nat -> (2 <= length (fst (ln ls i)))%nat -> raw ls i i = Some 0).
  { intros i Hi H2. unfold raw. rewrite Nat.ltb_irrefl. pose proof (self_distance (ln ls i) (Wf i Hi) H2) as E. unfold ln, line in *. rewrite E. reflexivity. }
  assert (Hup2 : forall i j, (i < j)%nat -> (j < n)%nat -> (overlaps (ln ls i) (ln ls j) -> raw ls i j = Some (mget 0 m i j) /\ is_line_distance (ln ls i) (ln ls j) (mget 0 m i j)) /\ (~ overlaps (ln ls i) (ln ls j) -> mget 0 m i j = 2 * top)).
  { intros i j Hij Hj. rewrite Hup by auto. destruct (raw_cases ls i j HF ltac:(lia) ltac:(lia) ltac:(lia)) as [(Ho & d & E & Hd) | (Ho & E)]; rewrite E; simpl; split; intros Ho'; try (exfalso; tauto).
    - auto.
    - ring. }
  assert (Hsym : forall i j, (i < n)%nat -> (j < n)%nat -> mget 0 m i j = mget 0 m j i) by (intros i j Hi Hj; rewrite !Hget by auto; ring).
  assert (Htop : 0 <= top).
  { destruct (Nat.lt_total j0 k0) as [Hlt | [-> | Hlt]].
    - rewrite raw_lower in Etop by auto. injection Etop as <-. lra.
    - destruct (raw_cases ls k0 k0 HF Hk0 Hk0 (le_n _)) as [(Ho & d & E & Hd) | (Ho & E)]; rewrite E in Etop; [|discriminate]. injection Etop as ->.
      apply (is_line_distance_nonneg _ _ _ (proj2 (proj2 (Wf k0 Hk0))) (proj2 (proj2 (Wf k0 Hk0))) Ho Hd).
    - destruct (raw_cases ls k0 j0 HF Hk0 Hj0 ltac:(lia)) as [(Ho & d & E & Hd) | (Ho & E)]; rewrite E in Etop; [|discriminate]. injection Etop as ->.
      apply (is_line_distance_nonneg _ _ _ (proj2 (proj2 (Wf k0 Hk0))) (proj2 (proj2 (Wf j0 Hj0))) Ho Hd). }
  exists top. split; auto. split; [|split; [|split; [|split]]].
  - assert (Hlt : forall i j, (i < j)%nat -> (j < n)%nat -> overlaps (ln ls i) (ln ls j) -> is_line_distance (ln ls i) (ln ls j) (mget 0 m i j) /\ 0 <= mget 0 m i j <= top).
    { intros i j Hij Hj Ho. destruct (proj1 (Hup2 i j Hij Hj) Ho) as [E Hd]. split; auto. split; [apply (is_line_distance_nonneg _ _ _ (proj2 (proj2 (Wf i ltac:(lia)))) (proj2 (proj2 (Wf j Hj))) Ho Hd)|apply (Hmax i j); auto; lia]. }
    intros i j Hi Hj Hne Ho. destruct (Nat.lt_total i j) as [Hij | [Hij | Hij]]; [auto|congruence|]. rewrite (Hsym i j) by auto. destruct (Hlt j i Hij Hi ltac:(apply overlaps_sym; auto)) as [A B]. split; auto. apply line_distance_sym. auto.
  - intros i j Hi Hj Hne Ho. destruct (Nat.lt_total i j) as [Hij | [Hij | Hij]]; [apply Hup2; auto|congruence|]. rewrite (Hsym i j) by auto. apply Hup2; auto. rewrite overlaps_sym. auto.
  - destruct (Nat.lt_total j0 k0) as [Hlt | [-> | Hlt]].
    + rewrite raw_lower in Etop by auto. injection Etop as <-. auto.
    + left. destruct (raw_cases ls k0 k0 HF Hk0 Hk0 (le_n _)) as [(Ho & d & E & Hd) | (Ho & E)]; [|rewrite E in Etop; discriminate]. apply self_overlap in Ho; [|apply Wf; auto]. rewrite (Hself k0 Hk0 Ho) in Etop. injection Etop as <-. auto.
    + right. exists k0, j0. destruct (raw_cases ls k0 j0 HF Hk0 Hj0 ltac:(lia)) as [(Ho & d & E & Hd) | (Ho & E)]; [|rewrite E in Etop; discriminate].
      repeat split; auto; [lia|]. rewrite Hup by auto. rewrite Etop. reflexivity.
  - intros i Hi H2. rewrite Hget by auto. rewrite (Hself i Hi H2). simpl. ring.
  - intros i Hi H1. rewrite Hget by auto. destruct (raw_cases ls i i HF Hi Hi (le_n _)) as [(Ho & _) | (Ho & E)]; [apply self_overlap in Ho; [unfold ln in *; lia|apply Wf; auto]|]. rewrite E. simpl. ring.
Qed.

Theorem partial_distance_total : forall ls, Forall wf_line ls ->
  ((2 <= length ls)%nat \/ (exists l, ls = [l] /\ (2 <= length (fst l))%nat) -> exists m, partial_distance ls = Ok m) /\
  (ls = [] \/ (exists l, ls = [l] /\ length (fst l) = 1%nat) -> partial_distance ls = Raise ValueError).
Proof.
  intros ls HF. split.
  - intros Hc. assert (HU : exists rows, upper_rows 0 ls = Ok rows).
    { apply upper_ok. intros l l' Hl Hl'. rewrite Forall_forall in HF. destruct (line_distance_spec l l' (HF _ Hl) (HF _ Hl')) as [A B].
      destruct (Rlt_dec (range_start l l') (range_end l l')) as [Ho | Ho]; [destruct (A Ho) as (d & E & _); eauto|eauto]. }
    destruct HU as [rows HU]. unfold partial_distance. rewrite HU. cbn [bind]. destruct (max_finite (concat rows)) as [top | ] eqn:E; [eauto|]. exfalso.
    rewrite max_finite_none in E. destruct (upper_entries ls rows HU) as [HR HE]. assert (HL : length rows = length ls) by apply HR.
    assert (HC : exists k j, (k < length ls)%nat /\ (j < length ls)%nat /\ raw ls k j = Some 0).
    { destruct Hc as [Hc | (l & -> & Hc)]; [exists 1%nat, 0%nat; repeat split; auto; lia|]. exists 0%nat, 0%nat. simpl. repeat split; auto. unfold raw. simpl. inversion HF; subst. rewrite (self_distance l) by auto. reflexivity. }
    destruct HC as (k & j & Hk & Hj & Er). apply (E 0). apply in_concat. exists (nth k rows []). split; [apply nth_In; lia|]. rewrite <- Er, <- HE by auto. apply nth_In. rewrite (rect_row rows (length ls) (length ls) k HR) by auto. auto.
  - intros [-> | (l & -> & H1)]; [reflexivity|]. inversion HF as [|? ? W _]; subst. unfold partial_distance. cbn [upper_rows mapM].
    assert (E : line_distance l l = Ok None). { apply line_distance_spec; auto. rewrite self_overlap by auto. lia. }
    rewrite E. reflexivity.
Qed.

(** ** vertical shifts *)
Lemma mean_lift pts f1 f2 c1 c2 : pts <> [] -> mean_difference pts (fun x => f1 x + c1) (fun x => f2 x + c2) = mean_difference pts f1 f2 + (c1 - c2).
Proof.
  intros Hne. unfold mean_difference, sum_k. set (n := length pts). assert (Hn : INR n <> 0) by (apply not_0_INR; unfold n; destruct pts; [congruence|simpl; lia]).
  rewrite (Rsum_map_ext _ (fun k => (f1 (nth k pts 0) - f2 (nth k pts 0)) + (c1 - c2))) by (intros; ring). rewrite Rsum_map_plus, Rsum_map_const, seq_length. field. auto.
Qed.

Lemma line_distance_lift c1 c2 l1 l2 : wf_line l1 -> wf_line l2 -> line_distance (lift c1 l1) (lift c2 l2) = line_distance l1 l2.
Proof.
  intros W1 W2. destruct l1 as [x1 y1], l2 as [x2 y2]. unfold lift. cbn [fst snd].
  assert (W1' : wf_line (x1, map (fun y => y + c1) y1)) by (destruct W1 as (A & B & C); cbn [fst snd] in *; repeat split; cbn [fst snd]; auto; rewrite map_length; auto).
  assert (W2' : wf_line (x2, map (fun y => y + c2) y2)) by (destruct W2 as (A & B & C); cbn [fst snd] in *; repeat split; cbn [fst snd]; auto; rewrite map_length; auto).
  destruct (line_distance_value _ _ _ _ W1 W2) as [A B]. destruct (line_distance_value _ _ _ _ W1' W2') as [A' B'].
  destruct (Rlt_dec (range_start (x1, y1) (x2, y2)) (range_end (x1, y1) (x2, y2))) as [Ho | Ho]; [|rewrite B by exact Ho; apply B'; exact Ho].
  rewrite A by exact Ho. rewrite A' by exact Ho. f_equal. f_equal.
  pose proof (merge_points x1 y1 x2 y2) as HP. pose proof (points_two (x1, y1) (x2, y2) _ ltac:(apply W1) ltac:(apply W2) Ho HP) as Hn. set (pts := x_merge x1 x2) in *.
  assert (E1 : forall x, In x pts -> interp x1 (map (fun y => y + c1) y1) x = interp x1 y1 x + c1) by (intros; apply interp_lift; apply W1).
  assert (E2 : forall x, In x pts -> interp x2 (map (fun y => y + c2) y2) x = interp x2 y2 x + c2) by (intros; apply interp_lift; apply W2).
  rewrite (mean_ext pts _ _ _ _ E1 E2), (shifted_ext pts _ _ _ _ _ E1 E2), mean_lift by (destruct pts; [simpl in Hn; lia|discriminate]).
  unfold shifted_distance. f_equal. apply sum_k_ext. intros. ring.
Qed.

Theorem partial_distance_lift : forall cs ls, Forall wf_line ls -> length cs = length ls -> partial_distance (map2 lift cs ls) = partial_distance ls.
Proof.
  intros cs ls HF HL. assert (HLm : length (map2 lift cs ls) = length ls) by (rewrite map2_length; lia).
  unfold partial_distance. unfold line in *. rewrite HLm. clear HLm.
  assert (E : forall i, upper_rows i (map2 lift cs ls) = upper_rows i ls); [|rewrite E; reflexivity].
  revert cs HL. induction HF as [|l ls Wl HF IH]; intros cs HL i; destruct cs as [|c cs]; simpl in HL; try lia; [reflexivity|]. cbn [map2 upper_rows].
  assert (Em : forall cs' ls', Forall wf_line ls' -> length cs' = length ls' -> mapM (line_distance (lift c l)) (map2 lift cs' ls') = mapM (line_distance l) ls').
  { intros cs' ls' HF'. revert cs'. induction HF' as [|l' ls' Wl' HF' IH']; intros cs' HL'; destruct cs' as [|c' cs']; simpl in HL'; try lia; [reflexivity|]. cbn [map2 mapM]. rewrite line_distance_lift, IH' by (auto; lia). reflexivity. }
  pose proof (Em (c :: cs) (l :: ls) ltac:(constructor; auto) ltac:(simpl; lia)) as E. cbn [map2] in E. rewrite E, IH by lia. reflexivity.
Qed.

(** ** consequences *)
Theorem line_distance_zero : forall l1 l2 d pts f1 f2, wf_line l1 -> wf_line l2 -> overlaps l1 l2 -> is_line_distance l1 l2 d ->
  common_points l1 l2 pts -> interpolates l1 f1 -> interpolates l2 f2 -> (d = 0 <-> exists c, forall x, In x pts -> f1 x = f2 x + c).
Proof.
  intros l1 l2 d pts f1 f2 W1 W2 Ho Hd Hp F1 F2. rewrite (is_line_distance_any l1 l2 d pts f1 f2) by auto. pose proof (points_two l1 l2 pts ltac:(apply W1) ltac:(apply W2) Ho Hp) as Hn. destruct Hp as [Hs _].
  rewrite shifted_zero by auto. split.
  - intros H. exists (mean_difference pts f1 f2). intros x Hx. rewrite <- (H x Hx). ring.
  - intros [c Hc] x Hx. rewrite (Hc x Hx). unfold mean_difference. unfold sum_k. rewrite (Rsum_map_ext _ (fun _ => c)).
    + rewrite Rsum_map_const, seq_length. field. apply not_0_INR. lia.
    + intros k Hk. apply in_seq in Hk. rewrite (Hc (nth k pts 0)) by (apply nth_In; lia). ring.
Qed.

Theorem line_distance_decomposition : forall l1 l2 d pts f1 f2, wf_line l1 -> wf_line l2 -> overlaps l1 l2 -> is_line_distance l1 l2 d ->
  common_points l1 l2 pts -> interpolates l1 f1 -> interpolates l2 f2 ->
  let best := weighted_mean_difference pts f1 f2 in
  (forall c, shifted_distance pts f1 f2 best <= shifted_distance pts f1 f2 c) /\
  d = shifted_distance pts f1 f2 best + (mean_difference pts f1 f2 - best) ^ 2.
Proof.
  intros l1 l2 d pts f1 f2 W1 W2 Ho Hd Hp F1 F2 best. pose proof (points_two l1 l2 pts ltac:(apply W1) ltac:(apply W2) Ho Hp) as Hn. pose proof (proj1 Hp) as Hs. split.
  - intros c. rewrite (shifted_parallel pts f1 f2 c) by auto. fold best. pose proof (pow2_ge_0 (c - best)). lra.
  - rewrite (is_line_distance_any l1 l2 d pts f1 f2) by auto. apply shifted_parallel; auto.
Qed.

Theorem two_disjoint_lines : forall l1 l2, wf_line l1 -> wf_line l2 -> ~ overlaps l1 l2 -> partial_distance [l1; l2] = Ok [[0; 0]; [0; 0]].
Proof.
  intros l1 l2 W1 W2 Ho. assert (HF : Forall wf_line [l1; l2]) by (apply Forall_cons; [auto|apply Forall_cons; [auto|apply Forall_nil]]).
  destruct (proj1 (partial_distance_total _ HF)) as [m Hm]; [left; simpl; lia|]. destruct (partial_distance_spec _ _ HF Hm) as (HR & _ & top & Htop & HA & HB & HC & HD & HE). cbn [length] in *.
  assert (top = 0) as ->.
  { destruct HC as [-> | (i & j & Hi & Hj & Hne & Hov & _)]; auto. exfalso. destruct i as [|[|]], j as [|[|]]; try lia; unfold ln in Hov; simpl in Hov; [tauto|]. apply overlaps_sym in Hov. tauto. }
  rewrite Hm. f_equal. apply (matrix_eq 0 _ _ 2 2 HR); [repeat constructor|]. intros i j Hi Hj.
  assert (HDD : forall i, (i < 2)%nat -> mget 0 m i i = 0).
  { intros t Ht. assert (Wt : wf_line (ln [l1; l2] t)) by (rewrite Forall_forall in HF; apply HF, nth_In; simpl; lia). destruct Wt as (_ & _ & Hne).
    destruct (Nat.eq_dec (length (fst (ln [l1; l2] t))) 1) as [E | E]; [rewrite HE by auto; ring|apply HD; auto; destruct (fst (ln [l1; l2] t)); [congruence|simpl in *; lia]]. }
  destruct i as [|[|]], j as [|[|]]; try lia; try (rewrite HDD by lia; reflexivity).
  - rewrite (HB 0%nat 1%nat) by (try lia; exact Ho). unfold mget. simpl. ring.
  - rewrite (HB 1%nat 0%nat) by (try lia; unfold ln; simpl; rewrite overlaps_sym; exact Ho). unfold mget. simpl. ring.
Qed.

(** ** examples *)
Definition lineA : list R * list R := ([0; 1; 3], [0; 0; 1]).
Definition lineB : list R * list R := ([0; 1; 3], [5; 5; 5]).
Definition lineC : list R * list R := ([4; 5], [1; 2]).
Definition lineD : list R * list R := ([2; 9], [7; 8]).
Ltac ss := repeat (constructor; [|repeat constructor; lra]); constructor.
Lemma lineA_wf : wf_line lineA. Proof. split; [simpl; ss|split; [reflexivity|discriminate]]. Qed.
Lemma lineB_wf : wf_line lineB. Proof. split; [simpl; ss|split; [reflexivity|discriminate]]. Qed.
Lemma lineC_wf : wf_line lineC. Proof. split; [simpl; ss|split; [reflexivity|discriminate]]. Qed.
Lemma lineD_wf : wf_line lineD. Proof. split; [simpl; ss|split; [reflexivity|discriminate]]. Qed.
Lemma AB_overlap : overlaps lineA lineB. Proof. unfold overlaps, range_start, range_end; simpl. rewrite Rmax_left, Rmin_left; lra. Qed.
Lemma AC_disjoint : ~ overlaps lineA lineC. Proof. unfold overlaps, range_start, range_end; simpl. rewrite Rmax_right, Rmin_left; lra. Qed.
Lemma AD_overlap : overlaps lineA lineD. Proof. unfold overlaps, range_start, range_end; simpl. rewrite Rmax_right, Rmin_left; lra. Qed.
Lemma AB_points : common_points lineA lineB [0; 1; 3].
Proof.
  split; [ss|]. intros x. unfold range_start, range_end; simpl. rewrite Rmax_left, Rmin_left by lra. split.
  - intros [<- | [<- | [<- | []]]]; (split; [tauto|lra]).
  - tauto.
Qed.

Theorem not_minimal : exists l1 l2 d pts f1 f2 c, wf_line l1 /\ wf_line l2 /\ overlaps l1 l2 /\ partial_distance [l1; l2] = Ok [[0; d]; [d; 0]] /\
  common_points l1 l2 pts /\ interpolates l1 f1 /\ interpolates l2 f2 /\ shifted_distance pts f1 f2 c < d.
Proof.
  set (f1 := interp (fst lineA) (snd lineA)). set (f2 := interp (fst lineB) (snd lineB)).
  assert (HF : Forall wf_line [lineA; lineB]) by (apply Forall_cons; [exact lineA_wf|apply Forall_cons; [exact lineB_wf|apply Forall_nil]]).
  destruct (proj1 (partial_distance_total _ HF)) as [m Hm]; [left; simpl; lia|]. destruct (partial_distance_spec _ _ HF Hm) as (HR & HS & top & Htop & HA & HB & HC & HD & HE). cbn [length] in *.
  destruct (HA 0%nat 1%nat ltac:(lia) ltac:(lia) ltac:(lia) AB_overlap) as [Hd _]. set (d := mget 0 m 0 1) in *.
  assert (F1 : interpolates lineA f1) by apply interp_interpolates, lineA_wf. assert (F2 : interpolates lineB f2) by apply interp_interpolates, lineB_wf.
  exists lineA, lineB, d, [0; 1; 3], f1, f2, (weighted_mean_difference [0; 1; 3] f1 f2).
  split; [exact lineA_wf|]. split; [exact lineB_wf|]. split; [exact AB_overlap|]. split; [|split; [exact AB_points|split; [exact F1|split; [exact F2|]]]].
  - rewrite Hm. f_equal. apply (matrix_eq 0 _ _ 2 2 HR); [repeat constructor|]. intros i j Hi Hj. destruct i as [|[|]], j as [|[|]]; try lia; try reflexivity.
    + rewrite HD by (simpl; lia). reflexivity.
    + rewrite HS by lia. reflexivity.
    + rewrite HD by (simpl; lia). reflexivity.
  - destruct (line_distance_decomposition lineA lineB d [0; 1; 3] f1 f2 lineA_wf lineB_wf AB_overlap Hd AB_points F1 F2) as [_ E]. rewrite E.
    assert (V : mean_difference [0; 1; 3] f1 f2 = -5 + 1 / 3 /\ weighted_mean_difference [0; 1; 3] f1 f2 = -5 + 4 / 9).
    { destruct F1 as [F1 _], F2 as [F2 _]. pose proof (F1 0%nat ltac:(simpl; lia)) as A0. pose proof (F1 1%nat ltac:(simpl; lia)) as A1. pose proof (F1 2%nat ltac:(simpl; lia)) as A2.
      pose proof (F2 0%nat ltac:(simpl; lia)) as B0. pose proof (F2 1%nat ltac:(simpl; lia)) as B1. pose proof (F2 2%nat ltac:(simpl; lia)) as B2. cbn [nth fst snd lineA lineB] in *.
      unfold mean_difference, weighted_mean_difference, sum_k. cbn [length seq map nth]. unfold gap_weight. cbn [Nat.eqb length Nat.add Nat.sub nth]. rewrite A0, A1, A2, B0, B1, B2. rewrite !Rsum_cons. unfold Rsum. simpl fold_right. replace (INR 3) with 3 by (simpl; ring). split; lra. }
    destruct V as [-> ->]. assert (0 < (-5 + 1 / 3 - (-5 + 4 / 9)) ^ 2) by nra. lra.
Qed.
