From Coq Require Import Lra Psatz Permutation.
From Verif.Model Require Import Base Ext Moran.
From Verif.Spec Require Import MoranSpec.
From Verif.Proofs Require Import ListFacts SumFacts NeighbourFacts CsrFacts MoranFacts MoranProps MoranMoments.
Open Scope nat_scope.
Open Scope R_scope.

Lemma dev_sum y : sum_n (length y) (deviation y) = 0.
Proof.
  destruct y as [|x0 y0]; [reflexivity|]. set (y := x0 :: y0). assert (Hx : INR (length y) <> 0) by (apply not_0_INR; simpl; lia).
  unfold deviation at 1, sum_n at 1. rewrite (Rsum_map_minus (fun i => nth i y 0)), Rsum_map_const, seq_length. fold (sum_n (length y) (fun i => nth i y 0)). field. auto.
Qed.

Section Relabel.
Variable y : list R.
Variable p : list nat.
Notation n := (length y).
Hypothesis Hp : Permutation p (sq n).

Lemma p_len : length p = n.
Proof. rewrite (Permutation_length Hp). apply seq_length. Qed.
Lemma p_lt i : (i < n)%nat -> (nth i p 0 < n)%nat.
Proof.
  intros Hi. assert (Hin : In (nth i p 0%nat) (sq n)) by (eapply Permutation_in; [exact Hp|apply nth_In; rewrite p_len; auto]). apply in_seq in Hin. lia.
Qed.
Lemma p_sum f : sum_n n (fun i => f (nth i p 0%nat)) = sum_n n f.
Proof.
  unfold sum_n. transitivity (Rsum (map f p)); [|apply Rsum_perm, Permutation_map, Hp].
  f_equal. transitivity (map f (pick p (sq n))); [unfold pick; rewrite map_map; reflexivity|]. rewrite pick_id by apply p_len. reflexivity.
Qed.

Lemma relabel_len : length (relabel_vector p y) = n.
Proof. unfold relabel_vector. rewrite map_length. apply p_len. Qed.

Lemma relabel_nth i : (i < n)%nat -> nth i (relabel_vector p y) 0 = nth (nth i p 0%nat) y 0.
Proof. intros Hi. unfold relabel_vector. rewrite (nth_map_in _ _ _ 0%nat) by (rewrite p_len; auto). reflexivity. Qed.

Lemma relabel_dev i : (i < n)%nat -> deviation (relabel_vector p y) i = deviation y (nth i p 0%nat).
Proof.
  intros Hi. unfold deviation. rewrite relabel_len, relabel_nth by auto. f_equal. f_equal.
  rewrite (sum_n_ext n _ (fun j => nth (nth j p 0%nat) y 0)) by (intros; apply relabel_nth; auto). apply (p_sum (fun j => nth j y 0)).
Qed.

Lemma relabel_powers k : sum_of_powers (relabel_vector p y) k = sum_of_powers y k.
Proof.
  unfold sum_of_powers. rewrite relabel_len. rewrite (sum_n_ext n _ (fun i => deviation y (nth i p 0%nat) ^ k)) by (intros; rewrite relabel_dev by auto; auto).
  apply (p_sum (fun i => deviation y i ^ k)).
Qed.

Lemma relabel_quad v : quad (relabel_vector p y) v = Q n (deviation y) v p.
Proof. unfold quad, Q. rewrite relabel_len. apply Rsum2_ext. intros i j Hi Hj. rewrite !relabel_dev by auto. reflexivity. Qed.

Lemma relabel_I v : moran_I (relabel_vector p y) v = INR n / S0 n v / sum_of_powers y 2 * Q n (deviation y) v p.
Proof. rewrite moran_I_eq, relabel_len, relabel_quad, relabel_powers. unfold Rdiv. ring. Qed.

Lemma relabel_kurtosis : kurtosis (relabel_vector p y) = kurtosis y.
Proof. unfold kurtosis. rewrite !relabel_powers, relabel_len. reflexivity. Qed.

Lemma relabel_varies : varies y -> varies (relabel_vector p y).
Proof.
  intros (i & j & Hi & Hj & Hne).
  assert (Hin : forall k, (k < n)%nat -> exists k', (k' < n)%nat /\ nth k' p 0%nat = k).
  { intros k Hk. assert (Hin : In k p) by (eapply Permutation_in; [apply Permutation_sym; exact Hp|apply in_seq; lia]).
    apply (In_nth _ _ 0%nat) in Hin as (k' & Hk' & E). rewrite p_len in Hk'. eauto. }
  destruct (Hin i Hi) as (i' & Hi' & <-). destruct (Hin j Hj) as (j' & Hj' & <-). exists i', j'. rewrite relabel_len, !relabel_nth by auto. auto.
Qed.

(** relabelling the weights as well *)
Variable w : matrix R.
Notation w' := (relabel_matrix p w).
Notation q i := (nth i p 0%nat).

Lemma relabel_rect : rect w' n n.
Proof.
  unfold relabel_matrix. split; [rewrite map_length; apply p_len|]. apply Forall_forall. intros row Hr. apply in_map_iff in Hr as (i & <- & _). rewrite map_length. apply p_len.
Qed.
Lemma relabel_get i j : (i < n)%nat -> (j < n)%nat -> mget 0 w' i j = mget 0 w (q i) (q j).
Proof.
  intros Hi Hj. unfold mget at 1, relabel_matrix. rewrite (nth_map_in _ _ _ 0%nat) by (rewrite p_len; auto). rewrite (nth_map_in _ _ _ 0%nat) by (rewrite p_len; auto). reflexivity.
Qed.
Lemma relabel_row_sum i : (i < n)%nat -> row_sum w' n i = row_sum w n (q i).
Proof.
  intros Hi. unfold row_sum. rewrite (sum_n_ext n _ (fun j => mget 0 w (q i) (q j))) by (intros; apply relabel_get; auto). apply (p_sum (fun j => mget 0 w (q i) j)).
Qed.
Lemma relabel_column i j : (i < n)%nat -> (j < n)%nat -> by_column w' n i j = by_column w n (q i) (q j).
Proof. intros Hi Hj. unfold by_column. rewrite relabel_get, relabel_row_sum by auto. reflexivity. Qed.

Lemma p_sum2 (f : nat -> nat -> R) : sum_n n (fun i => sum_n n (fun j => f (q i) (q j))) = sum_n n (fun i => sum_n n (fun j => f i j)).
Proof.
  rewrite (sum_n_ext n _ (fun i => sum_n n (fun j => f (q i) j))) by (intros i Hi; apply (p_sum (fun j => f (q i) j))).
  apply (p_sum (fun i => sum_n n (fun j => f i j))).
Qed.

Lemma relabel_S0 : S0 n (by_column w' n) = S0 n (by_column w n).
Proof. unfold S0. rewrite (Rsum2_ext n _ (fun i j => by_column w n (q i) (q j))) by (intros; apply relabel_column; auto). apply p_sum2. Qed.
Lemma relabel_S1 : S1 n (by_column w' n) = S1 n (by_column w n).
Proof.
  unfold S1. f_equal. rewrite (Rsum2_ext n _ (fun i j => (by_column w n (q i) (q j) + by_column w n (q j) (q i)) ^ 2)) by (intros; rewrite !relabel_column by auto; auto).
  apply (p_sum2 (fun i j => (by_column w n i j + by_column w n j i) ^ 2)).
Qed.
Lemma relabel_S2 : S2 n (by_column w' n) = S2 n (by_column w n).
Proof.
  unfold S2. rewrite (sum_n_ext n _ (fun i => sum_n n (fun j => by_column w n (q i) j + by_column w n j (q i)) ^ 2)).
  - apply (p_sum (fun i => sum_n n (fun j => by_column w n i j + by_column w n j i) ^ 2)).
  - intros i Hi. f_equal. rewrite (sum_n_ext n _ (fun j => by_column w n (q i) (q j) + by_column w n (q j) (q i))) by (intros; rewrite !relabel_column by auto; auto).
    apply (p_sum (fun j => by_column w n (q i) j + by_column w n j (q i))).
Qed.
Lemma relabel_variance b : randomisation_variance n (by_column w' n) b = randomisation_variance n (by_column w n) b.
Proof. unfold randomisation_variance. rewrite relabel_S0, relabel_S1, relabel_S2. reflexivity. Qed.
Lemma relabel_both_I : moran_I (relabel_vector p y) (by_column w' n) = moran_I y (by_column w n).
Proof.
  rewrite !moran_I_eq, relabel_len, relabel_powers, relabel_S0. f_equal. f_equal. unfold quad. rewrite relabel_len.
  rewrite (Rsum2_ext n _ (fun i j => by_column w n (q i) (q j) * deviation y (q i) * deviation y (q j))) by (intros; rewrite relabel_column, !relabel_dev by auto; auto).
  apply (p_sum2 (fun i j => by_column w n i j * deviation y i * deviation y j)).
Qed.
Lemma relabel_local i : (i < n)%nat -> local_moran (relabel_vector p y) (by_column w' n) i = local_moran y (by_column w n) (q i).
Proof.
  intros Hi. unfold local_moran. rewrite relabel_len, relabel_powers, relabel_dev by auto. f_equal.
  rewrite (sum_n_ext n _ (fun j => by_column w n (q i) (q j) * deviation y (q j))) by (intros; rewrite relabel_column, relabel_dev by auto; auto).
  apply (p_sum (fun j => by_column w n (q i) j * deviation y j)).
Qed.
Lemma relabel_usable : usable w n -> usable w' n.
Proof.
  intros (HR & Hs & HS). split; [apply relabel_rect|]. split; [|rewrite relabel_S0; auto]. intros i Hi. rewrite relabel_row_sum by auto. apply Hs, p_lt; auto.
Qed.

Lemma relabelling cdf : varies y -> usable w n -> (4 <= n)%nat ->
  spatiotemporal_MI (relabel_vector p y) w' = spatiotemporal_MI y w /\
  STMI cdf (relabel_vector p y) w' = STMI cdf y w /\
  (forall ls, spatiotemporal_LMI y w = Ok ls -> spatiotemporal_LMI (relabel_vector p y) w' = Ok (map (fun i => nth i ls NaN) p)).
Proof.
  intros Hv Hu Hn. pose proof (relabel_varies Hv) as Hv'. assert (Hu' : usable w' (length (relabel_vector p y))) by (rewrite relabel_len; apply relabel_usable; auto).
  assert (Hn' : (4 <= length (relabel_vector p y))%nat) by (rewrite relabel_len; auto). split; [|split].
  - rewrite (MI_ok _ _ Hv Hu Hn), (MI_ok _ _ Hv' Hu' Hn'). rewrite relabel_len, relabel_both_I, relabel_variance, relabel_kurtosis. reflexivity.
  - destruct (STMI_ok cdf _ _ Hv Hu Hn) as (? & -> & ->). destruct (STMI_ok cdf _ _ Hv' Hu' Hn') as (? & -> & ->). rewrite relabel_len, relabel_both_I, relabel_variance, relabel_kurtosis. reflexivity.
  - intros ls Hl. rewrite (LMI_local _ _ Hv Hu) in Hl. injection Hl as <-. rewrite (LMI_local _ _ Hv' Hu'), relabel_len. f_equal.
    match goal with |- _ = map ?g p => transitivity (map g (pick p (sq n))); [|rewrite (pick_id p n p_len); reflexivity] end. unfold pick. rewrite map_map. apply map_ext_in. intros i Hi. apply in_seq in Hi.
    rewrite (nth_map_in _ _ _ 0%nat) by (rewrite seq_length; apply p_lt; lia). rewrite seq_nth by (apply p_lt; lia). rewrite relabel_local by lia. reflexivity.
Qed.
End Relabel.

(** ** the randomisation distribution *)
Section Random.
Variable y : list R.
Notation n := (length y).
Variable Ps : list (list nat).
Hypothesis HPs : all_permutations n Ps.
Variable v : nat -> nat -> R.
Hypothesis Hdiag : forall i, (i < n)%nat -> v i i = 0.
Hypothesis HS : S0 n v <> 0.
Hypothesis Hv : varies y.

Lemma random_mean : mean_over Ps (fun p => moran_I (relabel_vector p y) v) = -1 / (INR n - 1).
Proof.
  pose proof (varies_n y Hv) as Hn. pose proof (powers_pos y Hv) as HP. assert (Hx : 2 <= INR n) by (pose proof (le_INR 2 n Hn) as H; simpl in H; lra).
  rewrite (mean_ext Ps _ (fun p => INR n / S0 n v / sum_of_powers y 2 * Q n (deviation y) v p)) by (intros p Hp; apply relabel_I, HPs; auto).
  rewrite mean_scal, (mean_Q n Ps HPs (deviation y) (dev_sum y) v Hdiag Hn). change (sum_n n (fun i => deviation y i ^ 2)) with (sum_of_powers y 2).
  field. repeat split; auto; lra.
Qed.

Lemma random_variance : (4 <= n)%nat ->
  mean_over Ps (fun p => (moran_I (relabel_vector p y) v - -1 / (INR n - 1)) ^ 2) = randomisation_variance n v (kurtosis y).
Proof.
  intros Hn. pose proof (powers_pos y Hv) as HP. assert (Hx : 4 <= INR n) by (pose proof (le_INR 4 n Hn) as H; simpl in H; lra).
  set (e := -1 / (INR n - 1)). set (K := INR n / S0 n v / sum_of_powers y 2).
  rewrite (mean_ext Ps _ (fun p => (K * K) * Q n (deviation y) v p ^ 2 + ((- 2 * e) * moran_I (relabel_vector p y) v + e ^ 2))).
  - rewrite !mean_plus, !mean_scal, (mean_const n Ps HPs), random_mean. fold e. rewrite (mean_QQ n Ps HPs (deviation y) (dev_sum y) v Hdiag Hn). unfold A2, A3, A4.
    change (sum_n n (fun i => deviation y i ^ 2)) with (sum_of_powers y 2). change (sum_n n (fun i => deviation y i ^ 4)) with (sum_of_powers y 4).
    unfold K, e, randomisation_variance, kurtosis. field. repeat split; auto; lra.
  - intros p Hp. rewrite relabel_I by (apply HPs; auto). fold K. ring.
Qed.
End Random.

Lemma column_diag w n : (forall i, (i < n)%nat -> mget 0 w i i = 0) -> forall i, (i < n)%nat -> by_column w n i i = 0.
Proof. intros H i Hi. unfold by_column. rewrite H by auto. unfold Rdiv. ring. Qed.

Lemma STMI_exact cdf y w Ps : all_permutations (length y) Ps -> varies y -> usable w (length y) -> (4 <= length y)%nat ->
  (forall i, (i < length y)%nat -> mget 0 w i i = 0) ->
  exists I E V p, STMI cdf y w = Ok (Fin I, Fin E, Fin V, p) /\
    I = moran_I y (by_column w (length y)) /\
    E = mean_over Ps (fun q => moran_I (relabel_vector q y) (by_column w (length y))) /\
    V = mean_over Ps (fun q => (moran_I (relabel_vector q y) (by_column w (length y)) - E) ^ 2).
Proof.
  intros HPs Hv Hu Hn Hd. destruct (STMI_ok cdf y w Hv Hu Hn) as (p & E & _). eexists _, _, _, p. split; [exact E|].
  assert (HS : S0 (length y) (by_column w (length y)) <> 0) by apply Hu. pose proof (column_diag w _ Hd) as Hd'.
  split; [reflexivity|]. split; [symmetry; apply random_mean; auto|symmetry; apply random_variance; auto].
Qed.
