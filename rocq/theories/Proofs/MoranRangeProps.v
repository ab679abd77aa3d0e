(** Proofs for C181: the range of Moran's I; its mean with own weights. *)
From Coq Require Import Lra Lia Psatz Permutation.
From Verif.Model Require Import Base Ext Moran.
From Verif.Spec Require Import MoranSpec MoranRangeSpec.
From Verif.Proofs Require Import ListFacts SumFacts NeighbourFacts CsrFacts MoranFacts MoranProps MoranMoments MoranRandom.
Open Scope nat_scope.
Open Scope R_scope.

Lemma sum_n_add n f g : sum_n n (fun i => f i + g i) = sum_n n f + sum_n n g.
Proof. apply Rsum_map_plus. Qed.
Lemma sum_n_le n f g : (forall i, (i < n)%nat -> f i <= g i) -> sum_n n f <= sum_n n g.
Proof. intros H. unfold sum_n. apply Rsum_map_le. intros i Hi. apply in_seq in Hi. apply H. lia. Qed.
Lemma sum_n_const n c : sum_n n (fun _ => c) = INR n * c.
Proof. unfold sum_n. rewrite Rsum_map_const, seq_length. reflexivity. Qed.
Lemma sum_n_split n m f : sum_n (n + m) f = sum_n n f + sum_n m (fun i => f (n + i)%nat).
Proof.
  unfold sum_n. rewrite seq_app, map_app, Rsum_app. f_equal. cbn [Nat.add]. f_equal.
  assert (G : forall k s, map f (seq (n + s) k) = map (fun i => f (n + i)%nat) (seq s k)).
  { induction k as [|k IH]; intros s; [reflexivity|]. cbn [seq map]. f_equal. rewrite <- IH. f_equal. f_equal. lia. }
  specialize (G m 0%nat). rewrite Nat.add_0_r in G. exact G.
Qed.
Lemma sum_n_first m f : sum_n (S m) f = f 0%nat + sum_n m (fun i => f (S i)).
Proof. change (S m) with (1 + m)%nat. rewrite sum_n_split. f_equal. unfold sum_n. cbn [seq map]. rewrite Rsum_cons, Rsum_nil. lra. Qed.
Lemma sum_n_one n t f : (t < n)%nat -> sum_n n (fun j => (if (j =? t)%nat then 1 else 0) * f j) = f t.
Proof.
  intros Ht. replace n with (t + (1 + (n - t - 1)))%nat by lia. rewrite sum_n_split, sum_n_split.
  rewrite (sum_n_ext t _ (fun _ => 0)), sum_n_const.
  2:{ intros i Hi. destruct (Nat.eqb_spec i t); [lia|ring]. }
  rewrite (sum_n_ext (n - t - 1) _ (fun _ => 0)), sum_n_const.
  2:{ intros i Hi. destruct (Nat.eqb_spec (t + (1 + i)) t); [lia|ring]. }
  unfold sum_n. cbn [seq map]. rewrite Rsum_cons, Rsum_nil. rewrite Nat.add_0_r, Nat.eqb_refl. ring.
Qed.

(** ** the bound *)
Lemma quad_bound n (v : nat -> nat -> R) u : (forall i j, (i < n)%nat -> (j < n)%nat -> 0 <= v i j) ->
  Rabs (sum_n n (fun i => sum_n n (fun j => v i j * u i * u j))) <= sum_n n (fun i => u i ^ 2 * influence n v i).
Proof.
  intros Hv.
  assert (E : sum_n n (fun i => u i ^ 2 * influence n v i) = sum_n n (fun i => sum_n n (fun j => v i j * ((u i ^ 2 + u j ^ 2) / 2)))).
  { assert (E1 : sum_n n (fun i => sum_n n (fun j => v i j * ((u i ^ 2 + u j ^ 2) / 2))) = sum_n n (fun i => sum_n n (fun j => u i ^ 2 / 2 * v i j)) + sum_n n (fun i => sum_n n (fun j => u j ^ 2 / 2 * v i j))).
    { rewrite <- sum_n_add. apply sum_n_ext. intros i Hi. rewrite <- sum_n_add. apply sum_n_ext. intros j Hj. field. }
    rewrite E1, (sum_n_swap n (fun i j => u j ^ 2 / 2 * v i j)), <- sum_n_add. apply sum_n_ext. intros i Hi. rewrite !sum_n_scal. unfold influence. change (sum_n n (v i)) with (sum_n n (fun j => v i j)). field. }
  rewrite E. apply Rabs_le. split.
  - rewrite <- Ropp_involutive. apply Ropp_le_contravar. replace (- sum_n n (fun i => sum_n n (fun j => v i j * u i * u j))) with (sum_n n (fun i => sum_n n (fun j => - (v i j * u i * u j)))).
    + apply sum_n_le. intros i Hi. apply sum_n_le. intros j Hj. pose proof (Hv i j Hi Hj). assert (0 <= v i j * (u i + u j) ^ 2) by (apply Rmult_le_pos; [auto|apply pow2_ge_0]). nra.
    + rewrite <- (Rmult_1_l (sum_n n (fun i => sum_n n (fun j => v i j * u i * u j)))), Ropp_mult_distr_l, <- sum_n_scal. apply sum_n_ext. intros i Hi. rewrite <- sum_n_scal. apply sum_n_ext. intros j Hj. ring.
  - apply sum_n_le. intros i Hi. apply sum_n_le. intros j Hj. pose proof (Hv i j Hi Hj). assert (0 <= v i j * (u i - u j) ^ 2) by (apply Rmult_le_pos; [auto|apply pow2_ge_0]). nra.
Qed.

Lemma column_nonneg w n : nonnegative w n -> forall i j, (i < n)%nat -> (j < n)%nat -> 0 <= by_column w n i j.
Proof.
  intros H i j Hi Hj. unfold by_column. assert (0 <= row_sum w n j) by (apply sum_n_nonneg; intros; apply H; auto).
  destruct H0 as [H0|H0]; [apply Rmult_le_pos; [apply H; auto|left; apply Rinv_0_lt_compat; auto]|]. rewrite <- H0. unfold Rdiv. rewrite Rinv_0, Rmult_0_r. lra.
Qed.

Lemma S0_pos w n : nonnegative w n -> S0 n (by_column w n) <> 0 -> 0 < S0 n (by_column w n).
Proof.
  intros H Hne. assert (0 <= S0 n (by_column w n)) by (apply sum_n_nonneg; intros i Hi; apply sum_n_nonneg; intros j Hj; apply column_nonneg; auto). lra.
Qed.

Lemma I_bound y v c : (forall i j, (i < length y)%nat -> (j < length y)%nat -> 0 <= v i j) -> varies y -> 0 < S0 (length y) v ->
  (forall i, (i < length y)%nat -> INR (length y) * influence (length y) v i <= c * S0 (length y) v) -> Rabs (moran_I y v) <= c.
Proof.
  intros Hv Hy HS Hc. set (n := length y) in *. rewrite moran_I_eq. fold n.
  pose proof (powers_pos y Hy) as HP. pose proof (varies_n y Hy) as Hn. fold n in Hn. assert (Hx : 0 < INR n) by (apply lt_0_INR; lia).
  pose proof (quad_bound n v (deviation y) Hv) as HQ. fold (quad y v) in HQ.
  change (sum_n n (fun i => sum_n n (fun j => v i j * deviation y i * deviation y j))) with (quad y v) in HQ.
  assert (HB : INR n * sum_n n (fun i => deviation y i ^ 2 * influence n v i) <= c * S0 n v * sum_of_powers y 2).
  { unfold sum_of_powers. fold n. rewrite <- !sum_n_scal. apply sum_n_le. intros i Hi. pose proof (Hc i Hi). pose proof (pow2_ge_0 (deviation y i)). nra. }
  unfold Rdiv. rewrite !Rabs_mult, !Rabs_inv, (Rabs_right (INR n)), (Rabs_right (S0 n v)), (Rabs_right (sum_of_powers y 2)) by lra.
  apply (Rmult_le_reg_r (S0 n v * sum_of_powers y 2)); [apply Rmult_lt_0_compat; lra|].
  replace (INR n * / S0 n v * Rabs (quad y v) * / sum_of_powers y 2 * (S0 n v * sum_of_powers y 2)) with (INR n * Rabs (quad y v)) by (field; lra).
  assert (INR n * Rabs (quad y v) <= INR n * sum_n n (fun i => deviation y i ^ 2 * influence n v i)) by (apply Rmult_le_compat_l; lra). lra.
Qed.

Lemma bound cdf y w c : varies y -> usable w (length y) -> nonnegative w (length y) ->
  (forall i, (i < length y)%nat -> INR (length y) * influence (length y) (by_column w (length y)) i <= c * S0 (length y) (by_column w (length y))) ->
  exists I E V V' p, STMI cdf y w = Ok (Fin I, E, V, p) /\ spatiotemporal_MI y w = Ok (Fin I, E, V') /\ Rabs I <= c.
Proof.
  intros Hy Hu Hw Hc. destruct (same_global cdf y w Hy Hu) as (V & V' & p & E1 & E2). exists (moran_I y (by_column w (length y))), (Fin (-1 / (INR (length y) - 1))), V', V, p.
  split; [exact E2|]. split; [exact E1|]. apply I_bound; auto; [apply column_nonneg; auto|]. apply S0_pos; auto. apply Hu.
Qed.

Lemma regular cdf y w s : varies y -> rect w (length y) (length y) -> nonnegative w (length y) -> symmetric w (length y) -> 0 < s ->
  (forall i, (i < length y)%nat -> row_sum w (length y) i = s) ->
  exists I E V V' p, STMI cdf y w = Ok (Fin I, E, V, p) /\ spatiotemporal_MI y w = Ok (Fin I, E, V') /\ -1 <= I <= 1.
Proof.
  intros Hy HR Hw HS Hs Hrow. pose proof (varies_n y Hy) as Hn. set (n := length y) in *.
  assert (Hu : usable w n) by (apply sym_usable; auto; [lia|intros i Hi; rewrite Hrow by auto; lra]).
  assert (Hr : forall i, (i < n)%nat -> sum_n n (fun j => by_column w n i j) = 1).
  { intros i Hi. rewrite (sum_n_ext n _ (fun j => / s * mget 0 w i j)) by (intros j Hj; unfold by_column; rewrite Hrow by auto; field; lra). rewrite sum_n_scal.
    change (sum_n n (mget 0 w i)) with (row_sum w n i). rewrite Hrow by auto. field. lra. }
  assert (Hcol : forall i, (i < n)%nat -> sum_n n (fun j => by_column w n j i) = 1).
  { intros i Hi. rewrite (sum_n_ext n _ (fun j => / s * mget 0 w i j)) by (intros j Hj; unfold by_column; rewrite Hrow by auto; rewrite (HS j i) by auto; field; lra). rewrite sum_n_scal.
    change (sum_n n (mget 0 w i)) with (row_sum w n i). rewrite Hrow by auto. field. lra. }
  assert (HS0 : S0 n (by_column w n) = INR n) by (unfold S0; rewrite (sum_n_ext n _ (fun _ => 1)), sum_n_const by auto; ring).
  destruct (bound cdf y w 1 Hy Hu Hw) as (I & E & V & V' & p & E1 & E2 & HB).
  { intros i Hi. change (length y) with n; change (length y) with n in Hi. rewrite HS0. unfold influence. rewrite Hr, Hcol by auto. lra. }
  exists I, E, V, V', p. split; [exact E1|]. split; [exact E2|]. apply Rabs_le_inv in HB || (unfold Rabs in HB; destruct (Rcase_abs I)); lra.
Qed.

(** ** no bound in general *)
Section Unbounded.
  Variable k : nat.
  Hypothesis Hk : (1 <= k)%nat.
  Let n := (k * k + 1)%nat.
  Let height (j : nat) : R := if (j =? 0)%nat then INR k else 1.
  Let target1 (j : nat) : nat := if (j =? 0)%nat then 1%nat else 0%nat.
  Let value (i : nat) : R := if (i <? n)%nat then height i else - height (i - n).
  Let target (i : nat) : nat := if (i <? n)%nat then target1 i else (n + target1 (i - n))%nat.
  Let ys : list R := map value (seq 0 (n + n)).
  Let ws : matrix R := map (fun i => map (fun j => if (j =? target i)%nat then 1 else 0) (seq 0 (n + n))) (seq 0 (n + n)).

  Lemma hub_n : (2 <= n)%nat. Proof. unfold n. nia. Qed.
  Lemma hub_len : length ys = (n + n)%nat. Proof. unfold ys. rewrite map_length, seq_length. reflexivity. Qed.
  Lemma hub_target i : (i < n + n)%nat -> (target i < n + n)%nat /\ target i <> i.
  Proof. intros Hi. pose proof hub_n. unfold target, target1. destruct (Nat.ltb_spec i n); [destruct (Nat.eqb_spec i 0)|destruct (Nat.eqb_spec (i - n) 0)]; lia. Qed.
  Lemma hub_get i j : (i < n + n)%nat -> (j < n + n)%nat -> mget 0 ws i j = if (j =? target i)%nat then 1 else 0.
  Proof. intros Hi Hj. unfold mget, ws. rewrite (nth_map_in _ _ i 0%nat) by (rewrite seq_length; auto). rewrite seq_nth by auto. rewrite (nth_map_in _ _ j 0%nat) by (rewrite seq_length; auto). rewrite seq_nth by auto. reflexivity. Qed.
  Lemma hub_row i : (i < n + n)%nat -> row_sum ws (n + n) i = 1.
  Proof.
    intros Hi. unfold row_sum. rewrite (sum_n_ext _ _ (fun j => (if (j =? target i)%nat then 1 else 0) * 1)) by (intros j Hj; rewrite hub_get by auto; ring).
    apply (sum_n_one (n + n) (target i) (fun _ => 1)). apply hub_target; auto.
  Qed.
  Lemma hub_nth i : (i < n + n)%nat -> nth i ys 0 = value i.
  Proof. intros Hi. unfold ys. rewrite (nth_map_in _ _ i 0%nat) by (rewrite seq_length; auto). rewrite seq_nth by auto. reflexivity. Qed.
  Lemma value_low i : (i < n)%nat -> value i = height i.
  Proof. intros Hi. unfold value. destruct (Nat.ltb_spec i n); [reflexivity|lia]. Qed.
  Lemma value_high i : (i < n)%nat -> value (n + i) = - height i.
  Proof. intros Hi. unfold value. destruct (Nat.ltb_spec (n + i) n); [lia|]. f_equal. f_equal. lia. Qed.
  Lemma hub_sum : sum_n (n + n) value = 0.
  Proof.
    rewrite sum_n_split. rewrite (sum_n_ext n (fun i => value (n + i)) (fun i => -1 * height i)) by (intros i Hi; rewrite value_high by auto; ring).
    rewrite sum_n_scal, (sum_n_ext n value height) by (intros; apply value_low; auto). ring.
  Qed.
  Lemma hub_dev i : (i < n + n)%nat -> deviation ys i = value i.
  Proof.
    intros Hi. unfold deviation. rewrite hub_len, hub_nth by auto. rewrite (sum_n_ext _ _ value) by (intros; apply hub_nth; auto). rewrite hub_sum. unfold Rdiv. ring.
  Qed.
  Lemma height_squares : sum_n n (fun i => height i ^ 2) = 2 * (INR k * INR k).
  Proof.
    unfold n. replace (k * k + 1)%nat with (S (k * k)) by lia. rewrite sum_n_first. unfold height. rewrite Nat.eqb_refl.
    rewrite (sum_n_ext _ _ (fun _ => 1)) by (intros i Hi; cbn [Nat.eqb]; ring). rewrite sum_n_const, mult_INR. ring.
  Qed.
  Lemma hub_powers : sum_of_powers ys 2 = 4 * (INR k * INR k).
  Proof.
    unfold sum_of_powers. rewrite hub_len. rewrite (sum_n_ext _ _ (fun i => value i ^ 2)) by (intros i Hi; rewrite hub_dev by auto; reflexivity).
    rewrite sum_n_split. rewrite (sum_n_ext n _ (fun i => height i ^ 2)) by (intros i Hi; rewrite value_low by auto; reflexivity).
    rewrite (sum_n_ext n (fun i => value (n + i) ^ 2) (fun i => height i ^ 2)) by (intros i Hi; rewrite value_high by auto; ring). rewrite height_squares. ring.
  Qed.
  Lemma hub_pair i : (i < n + n)%nat -> value i * value (target i) = INR k.
  Proof.
    pose proof hub_n as Hn. intros Hi.
    assert (HP : forall j, (j < n)%nat -> (target1 j < n)%nat /\ height j * height (target1 j) = INR k).
    { intros j Hj. unfold target1, height. destruct (Nat.eqb_spec j 0) as [->|Hj0]; cbn [Nat.eqb]; split; try lia; ring. }
    destruct (Nat.lt_ge_cases i n) as [H|H].
    - destruct (HP i H) as [A B]. replace (target i) with (target1 i) by (unfold target; destruct (Nat.ltb_spec i n); [reflexivity|lia]). rewrite !value_low by auto. exact B.
    - destruct (HP (i - n)%nat) as [A B]; [lia|]. replace (target i) with (n + target1 (i - n))%nat by (unfold target; destruct (Nat.ltb_spec i n); [lia|reflexivity]).
      replace i with (n + (i - n))%nat at 1 by lia. rewrite !value_high by (auto; lia). rewrite <- B. ring.
  Qed.
  Lemma hub_column i j : (i < n + n)%nat -> (j < n + n)%nat -> by_column ws (n + n) i j = if (j =? target i)%nat then 1 else 0.
  Proof. intros Hi Hj. unfold by_column. rewrite hub_row, hub_get by auto. unfold Rdiv. rewrite Rinv_1. ring. Qed.
  Lemma hub_S0 : S0 (n + n) (by_column ws (n + n)) = INR (n + n).
  Proof.
    unfold S0. rewrite (sum_n_ext _ _ (fun _ => 1)); [rewrite sum_n_const; ring|]. intros i Hi.
    rewrite (sum_n_ext _ _ (fun j => (if (j =? target i)%nat then 1 else 0) * 1)) by (intros j Hj; rewrite hub_column by auto; ring).
    apply (sum_n_one (n + n) (target i) (fun _ => 1)). apply hub_target; auto.
  Qed.
  Lemma hub_quad : quad ys (by_column ws (n + n)) = INR (n + n) * INR k.
  Proof.
    unfold quad. rewrite hub_len. rewrite (sum_n_ext _ _ (fun _ => INR k)); [apply sum_n_const|]. intros i Hi.
    rewrite (sum_n_ext _ _ (fun j => (if (j =? target i)%nat then 1 else 0) * (value i * value j))) by (intros j Hj; rewrite hub_column, !hub_dev by auto; ring).
    rewrite (sum_n_one (n + n) (target i) (fun j => value i * value j)) by (apply hub_target; auto). apply hub_pair; auto.
  Qed.
  Lemma hub_varies : varies ys.
  Proof.
    pose proof hub_n. exists 0%nat, n. rewrite hub_len. split; [lia|]. split; [lia|]. rewrite !hub_nth by lia. rewrite value_low by lia. replace n with (n + 0)%nat at 1 by lia. rewrite value_high by lia.
    unfold height. cbn [Nat.eqb]. assert (0 < INR k) by (apply lt_0_INR; lia). lra.
  Qed.
  Lemma hub_rect : rect ws (n + n) (n + n).
  Proof. split; [unfold ws; rewrite map_length, seq_length; reflexivity|]. apply Forall_forall. intros r Hr. unfold ws in Hr. apply in_map_iff in Hr as (i & <- & _). rewrite map_length, seq_length. reflexivity. Qed.
  Lemma hub_usable : usable ws (n + n).
  Proof.
    split; [exact hub_rect|]. split; [intros i Hi; rewrite hub_row by auto; lra|]. rewrite hub_S0. apply not_0_INR. pose proof hub_n. lia.
  Qed.
  Lemma hub_I : moran_I ys (by_column ws (n + n)) > INR k / 2.
  Proof.
    rewrite moran_I_eq, hub_len, hub_S0, hub_quad, hub_powers. assert (Hx : 1 <= INR k) by (change 1 with (INR 1); apply le_INR; lia).
    assert (Hn : INR (n + n) = 2 * (INR k * INR k) + 2) by (unfold n; rewrite !plus_INR, !mult_INR; simpl; lra). rewrite Hn.
    replace ((2 * (INR k * INR k) + 2) / (2 * (INR k * INR k) + 2) * ((2 * (INR k * INR k) + 2) * INR k) / (4 * (INR k * INR k))) with (INR k / 2 + 1 / (2 * INR k)) by (field; split; nra).
    assert (0 < 1 / (2 * INR k)) by (apply Rdiv_lt_0_compat; lra). lra.
  Qed.

  Lemma hub_case : exists y w, varies y /\ usable w (length y) /\ nonnegative w (length y) /\
    (forall i, (i < length y)%nat -> row_sum w (length y) i = 1 /\ mget 0 w i i = 0) /\ moran_I y (by_column w (length y)) > INR k / 2.
  Proof.
    exists ys, ws. rewrite hub_len. split; [exact hub_varies|]. split; [exact hub_usable|]. split.
    - intros i j Hi Hj. rewrite hub_get by auto. destruct (_ =? _)%nat; lra.
    - split; [|exact hub_I]. intros i Hi. split; [apply hub_row; auto|]. rewrite hub_get by auto. destruct (Nat.eqb_spec i (target i)) as [E|]; [|reflexivity]. destruct (hub_target i Hi) as [_ H]. congruence.
  Qed.
End Unbounded.

Lemma unbounded cdf B : exists y w, varies y /\ usable w (length y) /\ nonnegative w (length y) /\
  (forall i, (i < length y)%nat -> row_sum w (length y) i = 1 /\ mget 0 w i i = 0) /\
  exists I E V V' p, STMI cdf y w = Ok (Fin I, E, V, p) /\ spatiotemporal_MI y w = Ok (Fin I, E, V') /\ I > B.
Proof.
  assert (HA : exists k, INR k > 2 * Rmax B 1).
  { destruct (archimed (2 * Rmax B 1)) as [H _]. exists (Z.to_nat (up (2 * Rmax B 1))). rewrite INR_IZR_INZ, Z2Nat.id; [exact H|].
    pose proof (Rmax_r B 1). apply le_IZR. lra. }
  destruct HA as (k & Hk).
  assert (Hk1 : (1 <= k)%nat) by (destruct k; [simpl in Hk; pose proof (Rmax_r B 1); lra|lia]).
  destruct (hub_case k Hk1) as (y & w & A & C & D & E & F). exists y, w. repeat (split; [assumption|]).
  destruct (same_global cdf y w A C) as (V & V' & p & E1 & E2). exists (moran_I y (by_column w (length y))), (Fin (-1 / (INR (length y) - 1))), V', V, p.
  split; [exact E2|]. split; [exact E1|]. pose proof (Rmax_l B 1). lra.
Qed.

(** ** the mean with own weights *)
Lemma mean_with_own y Ps v : all_permutations (length y) Ps -> varies y -> S0 (length y) v <> 0 ->
  mean_over Ps (fun q => moran_I (relabel_vector q y) v) = (INR (length y) * own_weights (length y) v / S0 (length y) v - 1) / (INR (length y) - 1).
Proof.
  intros HPs Hy HS. set (n := length y) in *. pose proof (varies_n y Hy) as Hn. fold n in Hn. pose proof (powers_pos y Hy) as HP.
  assert (Hx : 2 <= INR n) by (pose proof (le_INR 2 n Hn) as H; simpl in H; lra).
  rewrite (mean_ext Ps _ (fun p => INR n / S0 n v / sum_of_powers y 2 * Q n (deviation y) v p)) by (intros p Hp; apply relabel_I, HPs; auto).
  rewrite mean_scal. set (m2 := sum_of_powers y 2) in *.
  assert (EQ : mean_over Ps (Q n (deviation y) v) = - (m2 / INR n) / (INR n - 1) * (S0 n v - own_weights n v) + m2 / INR n * own_weights n v).
  { set (v0 := fun i j => if (j =? i)%nat then 0 else v i j).
    assert (ES : S0 n v = S0 n v0 + own_weights n v).
    { unfold S0, own_weights. rewrite <- sum_n_add. apply sum_n_ext. intros i Hi. rewrite <- (sum_n_one n i (fun j => v i j) Hi). rewrite <- sum_n_add. apply sum_n_ext. intros j Hj. unfold v0. destruct (j =? i)%nat; ring. }
    rewrite (mean_ext Ps _ (fun p => Q n (deviation y) v0 p + sum_n n (fun i => v i i * deviation y (nth i p 0%nat) ^ 2))).
    - rewrite mean_plus. rewrite (mean_Q n Ps HPs (deviation y) (dev_sum y) v0) by (auto; intros i Hi; unfold v0; rewrite Nat.eqb_refl; reflexivity).
      change (sum_n n (fun i => deviation y i ^ 2)) with m2. f_equal; [f_equal; rewrite ES; ring|].
      rewrite <- (mean_sum Ps n (fun p i => v i i * deviation y (nth i p 0%nat) ^ 2)). unfold own_weights. rewrite <- sum_n_scal. apply sum_n_ext. intros i Hi. rewrite mean_scal.
      pose proof (one_position n Ps HPs (deviation y) (fun t => t ^ 2) i Hi) as O. cbv beta in O. change (sum_n n (fun j => deviation y j ^ 2)) with m2 in O.
      apply (Rmult_eq_reg_l (INR n)); [|lra]. replace (INR n * (v i i * mean_over Ps (fun p => deviation y (nth i p 0%nat) ^ 2))) with (v i i * (INR n * mean_over Ps (fun p => deviation y (nth i p 0%nat) ^ 2))) by ring. rewrite O. field. lra.
    - intros p Hp. unfold Q. rewrite <- sum_n_add. apply sum_n_ext. intros i Hi.
      replace (v i i * deviation y (nth i p 0%nat) ^ 2) with (sum_n n (fun j => (if (j =? i)%nat then 1 else 0) * (v i j * deviation y (nth i p 0%nat) * deviation y (nth j p 0%nat)))) by (rewrite sum_n_one by auto; ring).
      rewrite <- sum_n_add. apply sum_n_ext. intros j Hj. unfold v0. destruct (j =? i)%nat; ring. }
  rewrite EQ. field. repeat split; auto; lra.
Qed.

Lemma own_mean cdf y w Ps : all_permutations (length y) Ps -> varies y -> usable w (length y) ->
  exists I E V p, STMI cdf y w = Ok (I, Fin E, V, p) /\
    mean_over Ps (fun q => moran_I (relabel_vector q y) (by_column w (length y))) =
      E + INR (length y) / (INR (length y) - 1) * (own_weights (length y) (by_column w (length y)) / S0 (length y) (by_column w (length y))).
Proof.
  intros HPs Hy Hu. destruct (STMI_I cdf y w Hy Hu) as (V & p & E). exists (Fin (moran_I y (by_column w (length y)))), (-1 / (INR (length y) - 1)), V, p. split; [exact E|].
  rewrite mean_with_own by (auto; apply Hu). pose proof (varies_n y Hy) as Hn. assert (Hx : 2 <= INR (length y)) by (pose proof (le_INR 2 _ Hn) as H; simpl in H; lra).
  field. split; [apply Hu|lra].
Qed.

Lemma own_too_low cdf y w Ps i0 : all_permutations (length y) Ps -> varies y -> usable w (length y) -> nonnegative w (length y) ->
  (i0 < length y)%nat -> 0 < mget 0 w i0 i0 ->
  exists I E V p, STMI cdf y w = Ok (I, Fin E, V, p) /\ E < mean_over Ps (fun q => moran_I (relabel_vector q y) (by_column w (length y))).
Proof.
  intros HPs Hy Hu Hw Hi0 Hpos. destruct (own_mean cdf y w Ps HPs Hy Hu) as (I & E & V & p & E1 & E2). exists I, E, V, p. split; [exact E1|]. rewrite E2.
  pose proof (varies_n y Hy) as Hn. assert (Hx : 2 <= INR (length y)) by (pose proof (le_INR 2 _ Hn) as H; simpl in H; lra).
  set (n := length y) in *. assert (HS : 0 < S0 n (by_column w n)) by (apply S0_pos; auto; apply Hu).
  assert (HO : 0 < own_weights n (by_column w n)).
  { apply (sum_n_pos n (fun i => by_column w n i i) i0); auto; [intros i Hi; apply column_nonneg; auto|]. unfold by_column. apply Rdiv_lt_0_compat; auto.
    assert (0 <= row_sum w n i0) by (apply sum_n_nonneg; intros; apply Hw; auto). destruct Hu as (_ & Hr & _). specialize (Hr i0 Hi0). lra. }
  assert (0 < INR n / (INR n - 1)) by (apply Rdiv_lt_0_compat; lra). assert (0 < own_weights n (by_column w n) / S0 n (by_column w n)) by (apply Rdiv_lt_0_compat; lra).
  assert (0 < INR n / (INR n - 1) * (own_weights n (by_column w n) / S0 n (by_column w n))) by (apply Rmult_lt_0_compat; auto). lra.
Qed.
