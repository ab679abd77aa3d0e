(** The grid of partial dependence and ICE curves (C173). *)
From Coq Require Import Lra Lia Sorting.Sorted.
From Verif.Model Require Import Base Sort Ale PartialDependence.
From Verif.Spec Require Import KernelSpec InspectSpec AleSpec PartialSpec.
From Verif.Proofs Require Import ListFacts KernelFacts SortFacts CsrFacts AleFacts InspectProps.
Open Scope nat_scope.
Open Scope R_scope.

Lemma avi_rank row h : row <> [] -> at_rank row h (at_virtual_index (sortR row) (h - 1)).
Proof.
  intros Hne. set (n := length row). assert (Hn : (0 < n)%nat) by (unfold n; destruct row; [contradiction|simpl; lia]).
  assert (Hls : length (sortR row) = n) by apply sortR_length. assert (Hsne : sortR row <> []) by (rewrite sortR_nil; auto).
  assert (Hn1 : INR (n - 1) = INR n - 1) by (rewrite minus_INR by lia; simpl; lra).
  unfold at_rank. fold n. split; [exact Hne|]. split; [|split].
  - intros Hh. assert (E : at_virtual_index (sortR row) (h - 1) = nth 0 (sortR row) 0).
    { unfold at_virtual_index. assert (E1 : Rltb (h - 1) 0 = true) by (apply Rltb_true; lra). rewrite E1; auto. }
    rewrite E. apply sorted_kth; auto.
  - intros Hh. destruct (avi_cases (sortR row) (h - 1) Hsne) as [[Hc E]|[[Hc [Hc' E]]|[i [Hi [Hc E]]]]]; rewrite E.
    + exfalso. pose proof (le_INR 1 n ltac:(lia)) as H1. simpl in H1. lra.
    + rewrite Hls. replace n with (S (n - 1)) at 1 by lia. apply sorted_kth. unfold n in *; lia.
    + exfalso. rewrite Hls in Hi. assert (INR i + 1 <= INR (n - 1)) by (rewrite <- S_INR; apply le_INR; lia). lra.
  - intros j x y Hj Hh Hx Hy.
    destruct (avi_cases (sortR row) (h - 1) Hsne) as [[Hc E]|[[Hc [Hc' E]]|[i [Hi [Hc E]]]]]; rewrite E.
    + exfalso. pose proof (le_INR 1 j ltac:(lia)) as H1. simpl in H1. lra.
    + exfalso. rewrite Hls, Hn1 in Hc'. assert (INR j + 1 <= INR n) by (rewrite <- S_INR; apply le_INR; lia). lra.
    + rewrite Hls in Hi. assert (Eij : j = S i).
      { assert (INR j < INR (S (S i))) by (rewrite !S_INR; lra). assert (INR (S i) < INR (S j)) by (rewrite !S_INR; lra).
        apply INR_lt in H, H0. lia. }
      subst j. rewrite (kth_smallest_unique _ _ _ _ Hx (sorted_kth row i ltac:(fold n; lia))).
      rewrite (kth_smallest_unique _ _ _ _ Hy (sorted_kth row (S i) ltac:(fold n; lia))). rewrite S_INR. ring.
Qed.

Lemma rank_unique row h b c : at_rank row h b -> at_rank row h c -> b = c.
Proof.
  intros (Hne & A1 & A2 & A3) (_ & B1 & B2 & B3). set (n := length row) in *.
  assert (Hn : (0 < n)%nat) by (unfold n; destruct row; [contradiction|simpl; lia]).
  destruct (Rlt_dec h 1) as [H|H]; [apply (kth_smallest_unique _ _ _ _ (A1 H) (B1 H))|].
  destruct (Rle_dec (INR n) h) as [H'|H']; [apply (kth_smallest_unique _ _ _ _ (A2 H') (B2 H'))|].
  assert (Hj : exists j, (1 <= j < n)%nat /\ INR j <= h < INR j + 1).
  { pose proof (Rfloor_spec h) as Hf. assert (Hz : (0 <= Rfloor h)%Z) by (apply Rfloor_nonneg; lra).
    exists (Z.to_nat (Rfloor h)). assert (Ei : INR (Z.to_nat (Rfloor h)) = IZR (Rfloor h)) by (rewrite INR_IZR_INZ, Z2Nat.id; auto).
    rewrite Ei. split; [|lra]. split; apply INR_lt || apply INR_le; rewrite ?Ei; simpl; try lra. }
  destruct Hj as (j & Hj & Hh). destruct j as [|i]; [lia|].
  pose proof (sorted_kth row i ltac:(fold n; lia)) as K1. pose proof (sorted_kth row (S i) ltac:(fold n; lia)) as K2.
  rewrite (A3 _ _ _ Hj Hh K1 K2). apply eq_sym, (B3 _ _ _ Hj Hh K1 K2).
Qed.

Lemma mquantiles_ok values p v : 0 <= p <= 1 ->
  (quantile_with virtual_mquantiles values p = Ok v <-> cunnane values p v).
Proof.
  intros Hp. rewrite quantile_with_ok. unfold cunnane.
  assert (E : virtual_mquantiles (length values) p = INR (length values) * p + 2 / 5 + p / 5 - 1) by (unfold virtual_mquantiles; field).
  split.
  - intros (_ & Hne & ->). rewrite E. apply avi_rank, Hne.
  - intros H. pose proof H as (Hne & _). split; [exact Hp|]. split; [exact Hne|]. rewrite E. apply (rank_unique _ _ _ _ H). apply avi_rank, Hne.
Qed.

Lemma unique_length values : length (unique values) = length (nodup Req_EM_T values).
Proof.
  apply Permutation_length. apply NoDup_Permutation; [|apply NoDup_nodup|].
  - pose proof (unique_sorted values) as H. clear -H. induction H as [|a l Hl IH Ha]; constructor; auto.
    intros Hin. rewrite Forall_forall in Ha. specialize (Ha a Hin). lra.
  - intros x. rewrite unique_in, nodup_In. tauto.
Qed.

Lemma values_ok (X : matrix R) N F f : rect X N F -> (f < F)%nat -> mapM (fun row => getitem row f) X = Ok (values_of X f).
Proof.
  intros [_ HX] Hf. unfold values_of. apply mapM_all_ok. intros x Hx. rewrite Forall_forall in HX. specialize (HX x Hx).
  unfold getitem. rewrite (nth_error_nth' x 0) by (cbv beta in HX; lia). reflexivity.
Qed.

Lemma allclose_spec a b : allclose a b = true <-> too_close a b.
Proof. unfold allclose, too_close. apply Rleb_true. Qed.

Lemma linspace_nth a b n k : (k < n)%nat -> nth k (linspace a b n) 0 = a + INR k / INR (n - 1) * (b - a).
Proof.
  intros Hk. unfold linspace, tabulate. rewrite (nth_map_in _ _ _ 0%nat) by (rewrite seq_length; lia). rewrite seq_nth by lia. rewrite Nat.add_0_l. unfold Rdiv. ring.
Qed.
Lemma linspace_length a b n : length (linspace a b n) = n.
Proof. unfold linspace, tabulate. rewrite map_length, seq_length. reflexivity. Qed.

Theorem grid_ok resolution X N F f q : rect X N F -> (f < F)%nat -> (1 <= resolution)%nat ->
  (grid_from_X_sk resolution X f = Ok q <-> is_grid resolution (values_of X f) q).
Proof.
  intros HR Hf Hres. unfold grid_from_X_sk. rewrite (values_ok X N F f HR Hf). cbn [bind]. cbv zeta. set (values := values_of X f).
  rewrite unique_length. unfold is_grid. destruct (Nat.ltb_spec (length (nodup Req_EM_T values)) resolution) as [L|L].
  - split.
    + intros H. injection H as <-. split; [intros _; split; [apply unique_sorted|apply unique_in]|lia].
    + intros [H _]. specialize (H L) as [H1 H2]. apply (f_equal (@Ok _)). apply SSlt_ext; [apply unique_sorted|exact H1|]. intros x. rewrite H2. apply unique_in.
  - split.
    + intros H. apply bind_ok in H as (lo & Hlo & H). apply bind_ok in H as (hi & Hhi & H). apply mquantiles_ok in Hlo; [|lra]. apply mquantiles_ok in Hhi; [|lra].
      destruct (allclose lo hi) eqn:E; [discriminate|]. injection H as <-. split; [lia|]. intros _. exists lo, hi.
      split; [exact Hlo|]. split; [exact Hhi|]. split; [rewrite <- allclose_spec, E; discriminate|]. split; [apply linspace_length|]. intros k Hk. apply linspace_nth, Hk.
    + intros [_ H]. destruct (H L) as (lo & hi & H1 & H2 & H3 & H4 & H5).
      apply mquantiles_ok in H1; [|lra]. apply mquantiles_ok in H2; [|lra]. rewrite H1. cbn [bind]. rewrite H2. cbn [bind].
      destruct (allclose lo hi) eqn:E; [apply allclose_spec in E; contradiction|]. apply (f_equal (@Ok _)).
      apply (list_eq_nth 0); [rewrite linspace_length; auto|]. intros k Hk. rewrite linspace_length in Hk. rewrite H5 by auto. apply linspace_nth, Hk.
Qed.

Lemma rank_mono row h h' b c : h <= h' -> at_rank row h b -> at_rank row h' c -> b <= c.
Proof.
  intros Hh Hb Hc. pose proof Hb as (Hne & _). rewrite (rank_unique _ _ _ _ Hb (avi_rank row h Hne)), (rank_unique _ _ _ _ Hc (avi_rank row h' Hne)).
  apply avi_mono; [apply sortR_sorted|rewrite sortR_nil; auto|lra].
Qed.
Lemma rank_range row h b : at_rank row h b -> exists lo hi, In lo row /\ In hi row /\ (forall x, In x row -> lo <= x <= hi) /\ lo <= b <= hi.
Proof.
  intros Hb. pose proof Hb as (Hne & _). assert (Hn : (0 < length row)%nat) by (destruct row; [contradiction|simpl; lia]).
  exists (nth 0 (sortR row) 0), (nth (length row - 1) (sortR row) 0). split; [apply sortR_in; lia|]. split; [apply sortR_in; lia|].
  split; [intros x Hx; split; [apply sortR_min, Hx|apply sortR_max, Hx]|].
  rewrite (rank_unique _ _ _ _ Hb (avi_rank row h Hne)). rewrite <- (sortR_length row). apply avi_bounds; [apply sortR_sorted|rewrite sortR_nil; auto].
Qed.

Lemma cunnane_order values lo hi : cunnane values (5 / 100) lo -> cunnane values (95 / 100) hi -> lo <= hi.
Proof. intros H1 H2. refine (rank_mono _ _ _ _ _ _ H1 H2). pose proof (pos_INR (length values)). lra. Qed.

Lemma not_close lo hi : lo <= hi -> ~ too_close lo hi -> lo < hi.
Proof.
  intros H1 H2. destruct H1 as [H1| ->]; auto. exfalso. apply H2. unfold too_close. rewrite Rminus_diag_eq by reflexivity. rewrite Rabs_R0.
  pose proof (Rabs_pos hi). assert (0 < 1 / 10 ^ 8) by (apply Rdiv_lt_0_compat; [lra|apply pow_lt; lra]). assert (0 <= 1 / 10 ^ 5 * Rabs hi); [|lra].
  apply Rmult_le_pos; [|auto]. left. apply Rdiv_lt_0_compat; [lra|apply pow_lt; lra].
Qed.

(** The grid is increasing, within the range of the values, and covers the range
    if there are few. *)
Theorem grid_shape resolution values q : (2 <= resolution)%nat -> values <> [] -> is_grid resolution values q ->
  length q = Nat.min resolution (length (nodup Req_EM_T values)) /\
  (forall k l, (k < l < length q)%nat -> nth k q 0 < nth l q 0) /\
  (forall x, In x q -> exists u v, In u values /\ In v values /\ u <= x <= v).
Proof.
  intros Hres Hne [G1 G2]. destruct (le_lt_dec resolution (length (nodup Req_EM_T values))) as [L|L].
  - destruct (G2 L) as (lo & hi & H1 & H2 & H3 & H4 & H5). pose proof (cunnane_order _ _ _ H1 H2) as Hle. pose proof (not_close _ _ Hle H3) as Hlt.
    assert (Hpos : 0 < INR (resolution - 1)) by (apply lt_0_INR; lia).
    split; [lia|]. split.
    + intros k l Hk. rewrite !H5 by lia. assert (INR k < INR l) by (apply lt_INR; lia).
      apply Rplus_lt_compat_l, Rmult_lt_compat_r; [lra|]. apply Rmult_lt_compat_r; [apply Rinv_0_lt_compat; auto|auto].
    + intros x Hx. apply (In_nth _ _ 0) in Hx as (k & Hk & <-). rewrite H5 by lia.
      destruct (rank_range _ _ _ H1) as (u & _ & Hu & _ & _ & Hu' & _). destruct (rank_range _ _ _ H2) as (_ & v & _ & Hv & _ & _ & Hv').
      exists u, v. split; [auto|]. split; [auto|].
      assert (T : 0 <= INR k / INR (resolution - 1) <= 1).
      { split; [apply Rmult_le_pos; [apply pos_INR|left; apply Rinv_0_lt_compat; auto]|]. apply (Rmult_le_reg_r (INR (resolution - 1))); auto.
        unfold Rdiv. rewrite Rmult_assoc, Rinv_l, Rmult_1_r, Rmult_1_l by lra. apply le_INR. lia. }
      split; nra.
  - destruct (G1 L) as [H1 H2]. split; [|split].
    + rewrite <- unique_length, Nat.min_r by (rewrite unique_length; lia). f_equal. apply SSlt_ext; [exact H1|apply unique_sorted|]. intros x. rewrite H2, unique_in. tauto.
    + intros k l Hk. apply SSlt_nth; auto.
    + intros x Hx. exists x, x. rewrite <- H2. repeat split; auto; lra.
Qed.

Lemma NoDup_sorted_lt l : NoDup l -> StronglySorted Rlt (sortR l).
Proof.
  intros H. assert (HN : NoDup (sortR l)) by (apply (Permutation_NoDup (sortR_perm l)); auto). pose proof (sortR_sorted l) as HS.
  induction HS as [|a s Hs IH Ha]; constructor; inversion HN; subst; auto. rewrite Forall_forall in *. intros x Hx.
  destruct (Ha x Hx) as [L| ->]; auto. contradiction.
Qed.

(** Many different values: the grid leaves out the ends. *)
Theorem grid_trims resolution values q : (12 <= resolution)%nat -> (resolution <= length values)%nat -> NoDup values -> is_grid resolution values q ->
  exists least greatest, In least values /\ In greatest values /\ forall x, In x q -> least < x < greatest.
Proof.
  intros Hres Hl Hnd [_ G]. assert (En : nodup Req_EM_T values = values) by (apply nodup_fixed_point; auto). rewrite En in G.
  destruct (G Hl) as (lo & hi & H1 & H2 & H3 & H4 & H5). pose proof (cunnane_order _ _ _ H1 H2) as Hle. pose proof (not_close _ _ Hle H3) as Hlt.
  pose proof H1 as (Hne & _). set (n := length values) in *. pose proof (NoDup_sorted_lt _ Hnd) as HS.
  assert (HLn : length (sortR values) = n) by apply sortR_length.
  exists (nth 0 (sortR values) 0), (nth (n - 1) (sortR values) 0). split; [apply sortR_in; fold n; lia|]. split; [apply sortR_in; fold n; lia|].
  assert (Hn12 : 12 <= INR n) by (replace 12 with (INR 12) by (simpl; lra); apply le_INR; lia).
  assert (A : nth 0 (sortR values) 0 < lo).
  { rewrite (rank_unique _ _ _ _ H1 (avi_rank values _ Hne)). set (v := _ - 1).
    assert (Hv : 0 < v) by (unfold v; fold n; lra).
    destruct (avi_cases (sortR values) v ltac:(rewrite sortR_nil; auto)) as [[Hc _]|[[_ [_ ->]]|(i & Hi & Hc & ->)]]; [lra| |].
    - apply SSlt_nth; auto. rewrite HLn. lia.
    - destruct i as [|i].
      + assert (nth 0 (sortR values) 0 < nth 1 (sortR values) 0) by (apply SSlt_nth; auto; lia). simpl INR in *. nra.
      + assert (nth 0 (sortR values) 0 < nth (S i) (sortR values) 0) by (apply SSlt_nth; auto; lia).
        assert (nth (S i) (sortR values) 0 < nth (S (S i)) (sortR values) 0) by (apply SSlt_nth; auto; lia). nra. }
  assert (B : hi < nth (n - 1) (sortR values) 0).
  { rewrite (rank_unique _ _ _ _ H2 (avi_rank values _ Hne)). set (v := _ - 1).
    assert (Hv : v < INR (n - 1)) by (unfold v; fold n; rewrite minus_INR by lia; simpl; lra).
    destruct (avi_cases (sortR values) v ltac:(rewrite sortR_nil; auto)) as [[_ ->]|[[_ [Hc _]]|(i & Hi & Hc & ->)]].
    - apply SSlt_nth; auto. rewrite HLn. lia.
    - exfalso. rewrite HLn in Hc. lra.
    - rewrite HLn in Hi. assert (nth i (sortR values) 0 < nth (S i) (sortR values) 0) by (apply SSlt_nth; auto; lia).
      assert (nth (S i) (sortR values) 0 <= nth (n - 1) (sortR values) 0).
      { destruct (Nat.eq_dec (S i) (n - 1)) as [->|]; [lra|]. left. apply SSlt_nth; auto. lia. }
      nra. }
  intros x Hx. apply (In_nth _ _ 0) in Hx as (k & Hk & <-). rewrite H5 by lia.
  assert (Hpos : 0 < INR (resolution - 1)) by (apply lt_0_INR; lia).
  assert (T : 0 <= INR k / INR (resolution - 1) <= 1).
  { split; [apply Rmult_le_pos; [apply pos_INR|left; apply Rinv_0_lt_compat; auto]|]. apply (Rmult_le_reg_r (INR (resolution - 1))); auto.
    unfold Rdiv. rewrite Rmult_assoc, Rinv_l, Rmult_1_r, Rmult_1_l by lra. apply le_INR. lia. }
  split; nra.
Qed.

(** ** Values that hardly vary *)
Lemma sorted_above l v i : (count (fun x => Rltb x v) l <= i < length l)%nat -> v <= nth i (sortR l) 0.
Proof.
  intros [H1 H2]. apply Rnot_lt_le. intros H. destruct (sorted_kth l i H2) as (_ & K & _).
  assert (count (fun x => Rleb x (nth i (sortR l) 0%R)) l <= count (fun x => Rltb x v) l)%nat; [|lia].
  apply count_impl. intros x _ Hx. apply Rleb_true in Hx. apply Rltb_true. lra.
Qed.
Lemma count_split p l : (count p l + count (fun x => negb (p x)) l = length l)%nat.
Proof. unfold count. induction l as [|a l IH]; simpl; auto. destruct (p a); simpl; lia. Qed.
Lemma sorted_below l v i : (i + count (fun x => Rltb v x) l < length l)%nat -> nth i (sortR l) 0 <= v.
Proof.
  intros H1. apply Rnot_lt_le. intros H. destruct (sorted_kth l i ltac:(lia)) as (_ & _ & K). pose proof (count_split (fun x => Rltb x (nth i (sortR l) 0)) l) as S.
  assert (count (fun x => negb (Rltb x (nth i (sortR l) 0%R))) l <= count (fun x => Rltb v x) l)%nat; [|lia].
  apply count_impl. intros x _ Hx. apply Bool.negb_true_iff, Rltb_false in Hx. apply Rltb_true. lra.
Qed.

Lemma rank_above l v h b k : at_rank l h b -> INR k + 1 <= h -> (count (fun x => Rltb x v) l <= k)%nat -> (k < length l)%nat -> v <= b.
Proof.
  intros Hb Hh Hc Hk. pose proof Hb as (Hne & _). rewrite (rank_unique _ _ _ _ Hb (avi_rank l h Hne)).
  apply (Rle_trans _ (at_virtual_index (sortR l) (INR k))).
  - rewrite avi_INR by (rewrite sortR_length; auto). apply sorted_above. auto.
  - apply avi_mono; [apply sortR_sorted|rewrite sortR_nil; auto|lra].
Qed.
Lemma rank_below l v h b k : at_rank l h b -> h <= INR k + 1 -> (k + count (fun x => Rltb v x) l < length l)%nat -> b <= v.
Proof.
  intros Hb Hh Hc. pose proof Hb as (Hne & _). rewrite (rank_unique _ _ _ _ Hb (avi_rank l h Hne)).
  apply (Rle_trans _ (at_virtual_index (sortR l) (INR k))).
  - apply avi_mono; [apply sortR_sorted|rewrite sortR_nil; auto|lra].
  - rewrite avi_INR by (rewrite sortR_length; lia). apply sorted_below. auto.
Qed.

Theorem grid_skewed resolution values v q : (resolution <= length (nodup Req_EM_T values))%nat ->
  (20 * count (fun x => Rltb x v) values + 20 <= length values)%nat -> (20 * count (fun x => Rltb v x) values + 40 <= length values)%nat ->
  ~ is_grid resolution values q.
Proof.
  intros L B A [_ G]. destruct (G L) as (lo & hi & H1 & H2 & H3 & _). apply H3.
  set (n := length values) in *. set (b := count (fun x => Rltb x v) values) in *. set (a := count (fun x => Rltb v x) values) in *.
  assert (HB : 20 * INR b + 20 <= INR n) by (apply le_INR in B; rewrite plus_INR, mult_INR in B; simpl in B; lra).
  assert (HA : 20 * INR a + 40 <= INR n) by (apply le_INR in A; rewrite plus_INR, mult_INR in A; simpl in A; lra).
  assert (v <= lo). { apply (rank_above values v _ lo b H1); fold n; fold b; [|lia|lia]. lra. }
  assert (hi <= v).
  { apply (rank_below values v _ hi (n - 1 - a) H2); [|fold n; fold a; lia]. fold n. rewrite !minus_INR by lia. simpl. lra. }
  pose proof (cunnane_order _ _ _ H1 H2). assert (lo = hi) by lra. subst hi.
  unfold too_close. rewrite Rminus_diag_eq by reflexivity. rewrite Rabs_R0.
  assert (0 < 1 / 10 ^ 8) by (apply Rdiv_lt_0_compat; [lra|apply pow_lt; lra]). assert (0 <= 1 / 10 ^ 5 * Rabs lo); [|lra].
  apply Rmult_le_pos; [|apply Rabs_pos]. left. apply Rdiv_lt_0_compat; [lra|apply pow_lt; lra].
Qed.
