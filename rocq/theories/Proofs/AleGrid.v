From Coq Require Import Lra Psatz Sorting.Sorted.
From Verif.Model Require Import Base Ext Sort Csr Neighbour Distance WeightModel Inspect Ale.
From Verif.Spec Require Import KernelSpec AleSpec.
From Verif.Proofs Require Import ListFacts SumFacts KernelFacts SortFacts AleFacts.
Open Scope nat_scope.
Open Scope R_scope.

Lemma filter_length_le {A} (f : A -> bool) l : (length (filter f l) <= length l)%nat.
Proof. induction l; simpl; auto. destruct (f a); simpl; lia. Qed.
Lemma filter_length_all {A} (f : A -> bool) l : (forall x, In x l -> f x = true) -> length (filter f l) = length l.
Proof. induction l; simpl; intros H; auto. rewrite (H a) by auto. simpl. rewrite IHl; auto. Qed.

Lemma grid_bounds values n q : values <> [] -> quantile_grid values n q -> (2 <= length q)%nat ->
  (2 <= n)%nat /\ is_minimum values (nth 0 q 0) /\ is_maximum values (nth (length q - 1) q 0) /\
  (forall x, In x values -> nth 0 q 0 <= x <= nth (length q - 1) q 0).
Proof.
  intros Hne Hq HL.
  assert (Hn : (2 <= n)%nat).
  { destruct n as [|[|n]]; [|destruct (grid_range values 1 q Hne ltac:(lia) Hq) as (_ & _ & _ & H1 & _); specialize (H1 eq_refl); lia|lia].
    destruct q as [|x q]; [simpl in HL; lia|]. destruct (proj1 (proj2 Hq x) (or_introl eq_refl)) as (k & Hk & _). lia. }
  destruct (grid_range values n q Hne ltac:(lia) Hq) as (_ & E0 & _ & _ & E1). specialize (E1 Hn).
  rewrite E0, E1. split; auto. split; [apply min_of; auto|]. split; [apply max_of; auto|].
  intros x Hx. split; [apply sortR_min; auto|apply sortR_max; auto].
Qed.

Lemma ones_max l : l <> [] -> (forall k, In k l -> k = 1%nat) -> list_max l = 1%nat /\ count_occ Nat.eq_dec l 1%nat = length l.
Proof.
  intros Hne H. split; [apply H, list_max_in; auto|]. clear Hne. induction l as [|a l IH]; auto. cbn [count_occ length].
  rewrite (H a) by (left; auto). destruct (Nat.eq_dec 1%nat 1%nat); [|congruence]. rewrite IH; auto. intros k Hk. apply H. right; auto.
Qed.

Lemma msat values m n : values <> [] -> exists b q, minimum_satisfied values m (Z.of_nat n) = Ok b /\ quantile_grid values n q /\
  ((length q <= 1)%nat -> (b = true <-> (m < Z.of_nat (length values))%Z)) /\
  ((2 <= length q)%nat -> (b = true <-> filled m q values)).
Proof.
  intros Hne. destruct (get_quantiles_ok values n Hne) as (qs & E & Hg & _).
  unfold minimum_satisfied. rewrite E. cbn [bind]. eexists _, (unique qs). split; [reflexivity|]. split; auto.
  set (q := unique qs) in *. pose proof (proj1 Hg) as Hs.
  assert (Hbne : bin_indices q values <> []) by (destruct values; [congruence|discriminate]).
  rewrite (bincount_tl _ Hbne). split; intros HL.
  - assert (H1 : forall k, In k (bin_indices q values) -> k = 1%nat).
    { intros k Hk. rewrite bin_indices_map in Hk. apply in_map_iff in Hk as (x & <- & _). unfold bin_of.
      destruct (searchsorted_spec q x Hs) as (Hle & _). cbv zeta. destruct (Nat.eqb_spec (searchsorted q x) 0); lia. }
    destruct (ones_max _ Hbne H1) as [-> Hc]. cbn [seq map forallb]. rewrite Hc, andb_true_r. unfold bin_indices. rewrite map_length. apply Z.ltb_lt.
  - destruct (grid_bounds values n q Hne Hg HL) as (Hn & Hmin & Hmax & Hr).
    rewrite (list_max_bins q values (nth (length q - 1) q 0)); auto; [|apply Hmax].
    rewrite forallb_forall. split.
    + intros H k Hk. specialize (H (count_occ Nat.eq_dec (bin_indices q values) k)). rewrite count_bins in H by auto.
      apply Z.ltb_lt, H. apply in_map_iff. exists k. split; [apply count_bins; auto|]. apply in_seq. lia.
    + intros H c Hc. apply in_map_iff in Hc as (k & <- & Hk). apply in_seq in Hk. rewrite count_bins by (auto; lia). apply Z.ltb_lt, H. lia.
Qed.

Lemma grid_first_bin values q m : values <> [] -> filled m q values -> (2 <= length q)%nat -> (m < Z.of_nat (length values))%Z.
Proof.
  intros Hne Hf HL. specialize (Hf 1%nat ltac:(lia)). unfold bin_count in Hf. pose proof (filter_length_le (in_bin q 1) values). lia.
Qed.

(** Grids of at most two quantiles have one bin. *)
Lemma small_grid values n q : values <> [] -> (n <= 2)%nat -> quantile_grid values n q -> (length q <= 2)%nat /\
  ((2 <= length q)%nat -> bin_count q 1 values = length values).
Proof.
  intros Hne Hn Hq. destruct (get_quantiles_ok values n Hne) as (qs & E & Hg & HI).
  assert (HL : (length q <= 2)%nat).
  { assert (Hnd : NoDup q).
    { destruct Hq as [Hs _]. clear -Hs. induction Hs as [|a l Hs IH Hf]; constructor; auto. intros Hin. rewrite Forall_forall in Hf. specialize (Hf a Hin). lra. }
    assert (Hincl : incl q (map (fun k => at_virtual_index (sortR values) (virtual_linear (length values) (INR k / INR (n - 1)))) (seq 0 n))).
    { intros x Hx. rewrite (quantile_grid_fun _ _ _ _ Hq Hg), unique_in, HI in Hx. destruct Hx as (k & Hk & ->). apply in_map_iff. exists k. split; auto. apply in_seq. lia. }
    pose proof (NoDup_incl_length Hnd Hincl) as Hc. rewrite map_length, seq_length in Hc. lia. }
  split; auto. intros H2. destruct (grid_bounds values n q Hne Hq H2) as (_ & _ & _ & Hr). unfold bin_count.
  apply filter_length_all. intros x Hx. destruct (bin_of_spec q x (proj1 Hq) H2 (Hr x Hx)) as [Hb1 Hb2]. rewrite Hb2 by lia. apply Nat.eqb_eq. lia.
Qed.

Lemma mns values m n : values <> [] -> exists a q, minimum_not_satisfied values m (Z.of_nat n) = Ok a /\ quantile_grid values n q /\
  (a < 1 / 2 -> ((length q <= 1)%nat -> (m < Z.of_nat (length values))%Z) /\ ((2 <= length q)%nat -> filled m q values)) /\
  (1 / 2 <= a -> ((length q <= 1)%nat -> (Z.of_nat (length values) <= m)%Z) /\ ((2 <= length q)%nat -> ~ filled m q values)).
Proof.
  intros Hne. destruct (msat values m n Hne) as (b & q & E & Hg & H1 & H2). unfold minimum_not_satisfied. rewrite E. cbn [bind].
  eexists _, q. split; [reflexivity|]. split; auto. destruct b; split; intros Ha; try lra; split; intros HL.
  - apply (H1 HL); auto.
  - apply (H2 HL); auto.
  - specialize (H1 HL). destruct (Z.lt_ge_cases m (Z.of_nat (length values))) as [C|C]; [|lia]. apply H1 in C. discriminate.
  - intros C. apply (H2 HL) in C. discriminate.
Qed.

Lemma adaptive_core values m : values <> [] ->
  exists v, (v <= length values)%nat /\
    (adaptive_grid values m = match v with
                              | O => Raise ValueError
                              | S n => match get_quantiles values (Z.of_nat n) with Ok qs => Ok (unique qs, Z.of_nat n) | Raise e => Raise e end
                              end) /\
    (v = 0%nat \/ exists q, quantile_grid values (v - 1) q /\ ((length q <= 1)%nat -> (m < Z.of_nat (length values))%Z) /\ ((2 <= length q)%nat -> filled m q values)) /\
    (v = length values \/ exists q, quantile_grid values v q /\ ((length q <= 1)%nat -> (Z.of_nat (length values) <= m)%Z) /\ ((2 <= length q)%nat -> ~ filled m q values)).
Proof.
  intros Hne. unfold adaptive_grid, bisect_fun.
  destruct (bisect_loop_spec (length values) (minimum_not_satisfied values m) (1 / 2) 0 (Z.of_nat (length values))) as (v & E & Hb & Hl & Hh); try lia.
  { intros x Hx. destruct (mns values m (Z.to_nat x) Hne) as (a & q & Ha & _). rewrite Z2Nat.id in Ha by lia. eauto. }
  exists (Z.to_nat v). split; [lia|]. rewrite E. cbn [bind]. split; [|split].
  - destruct (Z.to_nat v) as [|n] eqn:Ev.
    + assert (v = 0%Z) by lia. subst. reflexivity.
    + replace (v - 1)%Z with (Z.of_nat n) by lia. destruct (get_quantiles values (Z.of_nat n)); reflexivity.
  - destruct Hl as [Hl | (a & Ha & Hlt)]; [left; lia|].
    destruct (Z.eq_dec v 0) as [-> | Hv0]; [left; auto|]. right.
    destruct (mns values m (Z.to_nat v - 1) Hne) as (a' & q & Ha' & Hq & H1 & _). replace (Z.of_nat (Z.to_nat v - 1)) with (v - 1)%Z in Ha' by lia.
    rewrite Ha in Ha'. injection Ha' as <-. exists q. split; auto.
  - destruct Hh as [-> | (a & Ha & Hle)]; [left; lia|]. right.
    destruct (mns values m (Z.to_nat v) Hne) as (a' & q & Ha' & Hq & _ & H1). rewrite Z2Nat.id in Ha' by lia.
    rewrite Ha in Ha'. injection Ha' as <-. exists q. split; auto.
Qed.

(** [adaptive_grid] raises exactly when there are at most [m] values. *)
Lemma adaptive_raises values m : (0 <= m)%Z -> raises (adaptive_grid values m) <-> (Z.of_nat (length values) <= m)%Z.
Proof.
  intros Hm. destruct values as [|x0 rest] eqn:Ev.
  - split; [simpl; lia|]. intros _. eexists. reflexivity.
  - rewrite <- Ev. assert (Hne : values <> []) by congruence. clear Ev.
    destruct (adaptive_core values m Hne) as (v & Hv & E & Hl & Hh). rewrite E. destruct v as [|n].
    + split; [|intros _; eexists; reflexivity]. intros _. destruct Hh as [Hh | (q & Hq & H1 & H2)]; [rewrite <- Hh; simpl; lia|].
      apply H1. destruct q as [|y q]; [simpl; lia|]. destruct (proj1 (proj2 Hq y) (or_introl eq_refl)) as (k & Hk & _). lia.
    + destruct (get_quantiles_ok values n Hne) as (qs & Eq & _). rewrite Eq. split; [intros [e He]; discriminate|].
      intros Hle. exfalso. destruct Hl as [Hl | (q & _ & H1 & H2)]; [lia|].
      destruct (Nat.le_gt_cases (length q) 1) as [L | L]; [specialize (H1 L); lia|].
      pose proof (grid_first_bin values q m Hne (H2 L) L). lia.
Qed.

(** The grid it returns for at least three values. *)
Lemma adaptive_ok values m q nq : (3 <= length values)%nat -> adaptive_grid values m = Ok (q, nq) ->
  exists n, nq = Z.of_nat n /\ (2 <= n < length values)%nat /\ quantile_grid values n q /\
    is_minimum values (nth 0 q 0) /\ is_maximum values (nth (length q - 1) q 0) /\ filled m q values /\
    ((n + 1 < length values)%nat -> exists q', quantile_grid values (n + 1) q' /\ ~ filled m q' values).
Proof.
  intros HL E. assert (Hne : values <> []) by (intros ->; simpl in HL; lia).
  destruct (adaptive_core values m Hne) as (v & Hv & E' & Hl & Hh). rewrite E in E'. destruct v as [|n]; [discriminate|].
  destruct (get_quantiles_ok values n Hne) as (qs & Eq & Hg & _). rewrite Eq in E'. injection E' as -> ->.
  destruct Hl as [Hl | (q & Hq & L1 & L2)]; [lia|]. replace (S n - 1)%nat with n in Hq by lia.
  rewrite (quantile_grid_fun _ _ _ _ Hq Hg) in *. clear q Hq. set (q := unique qs) in *.
  assert (Hm : (m < Z.of_nat (length values))%Z).
  { destruct (Nat.le_gt_cases (length q) 1) as [L | L]; [auto|apply (grid_first_bin values q m Hne (L2 L) L)]. }
  assert (Hn : (2 <= n)%nat).
  { destruct (Nat.le_gt_cases 2 n) as [C | C]; auto. exfalso. destruct Hh as [Hh | (q' & Hq' & M1 & M2)]; [lia|].
    destruct (small_grid values (S n) q' Hne ltac:(lia) Hq') as [S1 S2].
    destruct (Nat.le_gt_cases (length q') 1) as [L | L]; [specialize (M1 L); lia|].
    apply (M2 L). intros k Hk. assert (k = 1%nat) by lia. subst k. rewrite (S2 L). auto. }
  destruct (grid_range values n q Hne ltac:(lia) Hg) as (Hqne & E0 & HB & _ & E1). specialize (E1 Hn).
  exists n. split; auto. split; [lia|]. split; auto. rewrite E0, E1. split; [apply min_of; auto|]. split; [apply max_of; auto|]. split.
  - destruct (Nat.le_gt_cases (length q) 1) as [L | L]; auto. intros k Hk. lia.
  - intros Hlt. destruct Hh as [Hh | (q' & Hq' & M1 & M2)]; [lia|]. exists q'. replace (n + 1)%nat with (S n) by lia. split; auto.
    apply M2. destruct (Nat.le_gt_cases (length q') 1) as [L | L]; [specialize (M1 L); lia|auto].
Qed.

(** Proper grid: at least three values, not all equal. *)
Lemma adaptive_proper values m q nq : (3 <= length values)%nat -> (exists a b, In a values /\ In b values /\ a <> b) ->
  adaptive_grid values m = Ok (q, nq) -> proper_grid m values q.
Proof.
  intros HL (a & b & Ha & Hb & Hab) E. destruct (adaptive_ok _ _ _ _ HL E) as (n & _ & Hn & Hq & Hmin & Hmax & Hf & _).
  assert (H2 : (2 <= length q)%nat).
  { destruct (Nat.le_gt_cases 2 (length q)) as [C | C]; auto. exfalso. apply Hab.
    destruct Hmin as [_ M1], Hmax as [_ M2]. replace (length q - 1)%nat with 0%nat in M2 by lia.
    pose proof (M1 a Ha). pose proof (M1 b Hb). pose proof (M2 a Ha). pose proof (M2 b Hb). lra. }
  split; [apply Hq|]. auto.
Qed.

(** Otherwise the grid has at most one point. *)
Lemma adaptive_degenerate values m q nq : (length values < 3)%nat \/ (forall a b, In a values -> In b values -> a = b) ->
  adaptive_grid values m = Ok (q, nq) -> (length q <= 1)%nat.
Proof.
  intros H E. destruct values as [|x0 rest] eqn:Ev; [discriminate|]. rewrite <- Ev in *. assert (Hne : values <> []) by congruence. clear Ev.
  destruct (adaptive_core values m Hne) as (v & Hv & E' & _). rewrite E in E'. destruct v as [|n]; [discriminate|].
  destruct (get_quantiles_ok values n Hne) as (qs & Eq & Hg & _). rewrite Eq in E'. injection E' as -> _.
  destruct (Nat.le_gt_cases (length (unique qs)) 1) as [L | L]; auto. exfalso.
  destruct (grid_bounds values n (unique qs) Hne Hg L) as (Hn & Hmin & Hmax & _). destruct H as [H | H]; [lia|].
  pose proof (H _ _ (proj1 Hmin) (proj1 Hmax)) as C. pose proof (SSlt_nth (unique qs) 0 (length (unique qs) - 1) (proj1 Hg) ltac:(lia)). lra.
Qed.
