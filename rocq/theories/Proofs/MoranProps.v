From Coq Require Import Lra Psatz Permutation.
From Verif.Model Require Import Base Ext Moran.
From Verif.Spec Require Import MoranSpec.
From Verif.Proofs Require Import ListFacts SumFacts NeighbourFacts CsrFacts MoranFacts.
Open Scope nat_scope.
Open Scope R_scope.

(** ** values for every n >= 2 *)
Lemma STMI_I cdf y w : varies y -> usable w (length y) ->
  exists V p, STMI cdf y w = Ok (Fin (moran_I y (by_column w (length y))), Fin (-1 / (INR (length y) - 1)), V, p).
Proof.
  intros Hv (HR & Hs & HS). pose proof (varies_n y Hv) as Hn. set (n := length y) in *. set (v := by_column w n) in *.
  unfold STMI. fold n. rewrite (square_ok _ _ HR). cbn [negb].
  rewrite (standardise_E w n HR Hs). fold v. rewrite dev_list. fold n. rewrite E_matvec, fin_vecdot, E_total, fin_squares.
  destruct (Nat.eqb_spec n 1); [lia|]. destruct (Nat.eqb_spec n 0); [lia|].
  set (x := INR n). set (u2 := sum_n n (fun i => deviation y i ^ 2)).
  assert (Hu2 : 0 < u2) by apply (powers_pos y Hv).
  assert (EI : sum_n n (fun i => deviation y i * sum_n n (fun j => v i j * deviation y j)) = quad y v).
  { unfold quad. fold n. apply sum_n_ext. intros i Hi. rewrite <- sum_n_scal. apply sum_n_ext. intros; ring. }
  rewrite EI. cbn [emul]. rewrite (ediv_fin (x * quad y v)) by (apply Rmult_integral_contrapositive_currified; [auto|lra]).
  assert (EM : x * quad y v / (S0 n v * u2) = moran_I y v).
  { rewrite moran_I_eq. fold n x. change (sum_of_powers y 2) with u2. field. repeat split; first [exact HS | lra]. }
  rewrite EM. eexists _, _. reflexivity.
Qed.

Lemma MI_I y w : varies y -> usable w (length y) ->
  exists V, spatiotemporal_MI y w = Ok (Fin (moran_I y (by_column w (length y))), Fin (-1 / (INR (length y) - 1)), V).
Proof.
  intros Hv (HR & Hs & HS). pose proof (varies_n y Hv) as Hn. set (n := length y) in *. set (v := by_column w n) in *.
  unfold spatiotemporal_MI. fold n. rewrite (square_ok _ _ HR). cbn [negb].
  rewrite (standardise_E w n HR Hs). fold v. destruct (std_ok y Hv) as [Hsd Hsq]. set (sd := np_std y) in *. fold n in Hsq.
  assert (Ez : map (fun a => ediv (Fin (a - np_mean y)) (Fin sd)) y = map (fun i => Fin (deviation y i / sd)) (sq n)).
  { rewrite (map_tab 0 _ y). apply map_ext_in. intros i Hi. apply in_seq in Hi. rewrite dev_eq by lia. apply ediv_fin. lra. }
  rewrite Ez. rewrite E_matvec, fin_vecdot, E_total, fin_squares.
  destruct (Nat.eqb_spec n 1); [lia|].
  assert (Hx : 2 <= INR n) by (pose proof (le_INR 2 n ltac:(lia)) as H; simpl in H; lra).
  set (x := INR n) in *. set (u2 := sum_n n (fun i => deviation y i ^ 2)).
  assert (Hu2 : 0 < u2) by apply (powers_pos y Hv). change (sum_of_powers y 2) with u2 in Hsq.
  assert (EI : sum_n n (fun i => sum_n n (fun j => v i j * (deviation y j / sd)) * (deviation y i / sd)) = quad y v / (sd * sd)).
  { unfold quad. fold n. unfold Rdiv at 3. rewrite (Rmult_comm _ (/ (sd * sd))). rewrite <- sum_n_scal. apply sum_n_ext. intros i Hi.
    rewrite (Rmult_comm (sum_n _ _)). rewrite <- !sum_n_scal. apply sum_n_ext. intros j Hj. field. lra. }
  assert (E2 : sum_n n (fun i => (deviation y i / sd) ^ 2) = u2 / (sd * sd)).
  { unfold u2, Rdiv. rewrite (Rmult_comm _ (/ (sd * sd))). rewrite <- sum_n_scal. apply sum_n_ext. intros i Hi. field. lra. }
  rewrite EI, E2, Hsq.
  assert (E22 : u2 / (u2 / x) = x) by (field; split; lra). rewrite E22.
  rewrite (ediv_fin x (S0 n v)) by auto. cbn [emul]. rewrite (ediv_fin _ x) by lra.
  eexists. f_equal. f_equal. f_equal. f_equal.
  rewrite moran_I_eq. fold n x. change (sum_of_powers y 2) with u2. field. repeat split; first [exact HS | lra].
Qed.

Lemma LMI_local y w : varies y -> usable w (length y) ->
  spatiotemporal_LMI y w = Ok (map (fun i => Fin (local_moran y (by_column w (length y)) i)) (sq (length y))).
Proof. exact (LMI_ok y w). Qed.

(** ** affine changes of y *)
Lemma aff_nth a b y i : (i < length y)%nat -> nth i (map (fun t => a * t + b) y) 0 = a * nth i y 0 + b.
Proof. intros Hi. rewrite (nth_map_in _ _ _ 0) by auto. reflexivity. Qed.

Lemma aff_dev a b y i : (i < length y)%nat -> deviation (map (fun t => a * t + b) y) i = a * deviation y i.
Proof.
  intros Hi. unfold deviation. rewrite map_length, aff_nth by auto.
  rewrite (sum_n_ext _ _ (fun j => a * nth j y 0 + b)) by (intros; apply aff_nth; auto).
  unfold sum_n. rewrite Rsum_map_plus, Rsum_map_scal, Rsum_map_const, seq_length. assert (INR (length y) <> 0) by (apply not_0_INR; lia). field. auto.
Qed.

Lemma aff_powers a b y k : sum_of_powers (map (fun t => a * t + b) y) k = a ^ k * sum_of_powers y k.
Proof.
  unfold sum_of_powers. rewrite map_length, <- sum_n_scal. apply sum_n_ext. intros i Hi. rewrite aff_dev by auto. apply Rpow_mult_distr.
Qed.

Lemma aff_quad a b y v : quad (map (fun t => a * t + b) y) v = a * a * quad y v.
Proof.
  unfold quad. rewrite map_length, <- sum_n_scal. apply sum_n_ext. intros i Hi. rewrite <- sum_n_scal. apply sum_n_ext. intros j Hj.
  rewrite !aff_dev by auto. ring.
Qed.

Lemma aff_varies a b y : a <> 0 -> varies y -> varies (map (fun t => a * t + b) y).
Proof.
  intros Ha (i & j & Hi & Hj & Hne). exists i, j. rewrite map_length, !aff_nth by auto. repeat split; auto. intros H. apply Hne.
  apply (Rmult_eq_reg_l a); auto. lra.
Qed.

Lemma aff_I a b y v : a <> 0 -> varies y -> S0 (length y) v <> 0 -> moran_I (map (fun t => a * t + b) y) v = moran_I y v.
Proof.
  intros Ha Hv HS. pose proof (powers_pos y Hv). rewrite !moran_I_eq, map_length, aff_quad, aff_powers. field. repeat split; auto; lra.
Qed.

Lemma aff_kurtosis a b y : a <> 0 -> varies y -> kurtosis (map (fun t => a * t + b) y) = kurtosis y.
Proof.
  intros Ha Hv. pose proof (powers_pos y Hv). pose proof (varies_n y Hv). assert (INR (length y) <> 0) by (apply not_0_INR; lia).
  unfold kurtosis. rewrite map_length, !aff_powers. field. repeat split; auto; lra.
Qed.

Lemma aff_local a b y v i : a <> 0 -> varies y -> (i < length y)%nat -> local_moran (map (fun t => a * t + b) y) v i = local_moran y v i.
Proof.
  intros Ha Hv Hi. pose proof (powers_pos y Hv). pose proof (varies_n y Hv). assert (INR (length y) <> 0) by (apply not_0_INR; lia).
  unfold local_moran. rewrite map_length, aff_powers, aff_dev by auto.
  rewrite (sum_n_ext _ _ (fun j => a * (v i j * deviation y j))) by (intros; rewrite aff_dev by auto; ring). rewrite sum_n_scal. field. repeat split; auto; lra.
Qed.

Lemma same_global cdf y w : varies y -> usable w (length y) ->
  exists V V' p, spatiotemporal_MI y w = Ok (Fin (moran_I y (by_column w (length y))), Fin (-1 / (INR (length y) - 1)), V) /\
    STMI cdf y w = Ok (Fin (moran_I y (by_column w (length y))), Fin (-1 / (INR (length y) - 1)), V', p).
Proof. intros Hv Hu. destruct (MI_I y w Hv Hu) as [V HV]. destruct (STMI_I cdf y w Hv Hu) as (V' & p & HV'). exists V, V', p. auto. Qed.

Lemma affine_invariant cdf a b y w : a <> 0 -> varies y -> usable w (length y) -> (4 <= length y)%nat ->
  let y' := map (fun t => a * t + b) y in
  spatiotemporal_MI y' w = spatiotemporal_MI y w /\ STMI cdf y' w = STMI cdf y w /\ spatiotemporal_LMI y' w = spatiotemporal_LMI y w.
Proof.
  intros Ha Hv Hu Hn y'. assert (HL : length y' = length y) by apply map_length.
  assert (Hv' : varies y') by (apply aff_varies; auto). assert (Hu' : usable w (length y')) by (rewrite HL; auto). assert (Hn' : (4 <= length y')%nat) by lia.
  assert (HS : S0 (length y) (by_column w (length y)) <> 0) by apply Hu.
  split; [|split].
  - rewrite (MI_ok y w Hv Hu Hn), (MI_ok y' w Hv' Hu' Hn'), HL. unfold y'. rewrite aff_I, aff_kurtosis by auto. reflexivity.
  - destruct (STMI_ok cdf y w Hv Hu Hn) as (p & -> & ->). destruct (STMI_ok cdf y' w Hv' Hu' Hn') as (p' & -> & ->). rewrite HL. unfold y'.
    rewrite aff_I, aff_kurtosis by auto. reflexivity.
  - rewrite (LMI_local y w Hv Hu), (LMI_local y' w Hv' Hu'), HL. f_equal. apply map_ext_in. intros i Hi. apply in_seq in Hi. unfold y'. rewrite aff_local by (auto; lia). reflexivity.
Qed.

(** ** sum of the local values *)
Lemma local_sum y v : varies y -> S0 (length y) v <> 0 -> sum_n (length y) (local_moran y v) = S0 (length y) v * moran_I y v.
Proof.
  intros Hv HS. pose proof (powers_pos y Hv). pose proof (varies_n y Hv). assert (Hx : INR (length y) <> 0) by (apply not_0_INR; lia).
  assert (E : sum_n (length y) (local_moran y v) = / (sum_of_powers y 2 / INR (length y)) * quad y v).
  { unfold quad. rewrite <- sum_n_scal. apply sum_n_ext. intros i Hi. unfold local_moran, Rdiv at 1. rewrite (Rmult_comm (deviation y i)), Rmult_assoc. f_equal.
    rewrite <- sum_n_scal. apply sum_n_ext. intros; ring. }
  rewrite E, moran_I_eq. field. repeat split; auto; lra.
Qed.

Lemma LMI_sum y w : varies y -> usable w (length y) ->
  exists ls V, spatiotemporal_LMI y w = Ok (map Fin ls) /\ length ls = length y /\
    spatiotemporal_MI y w = Ok (Fin (moran_I y (by_column w (length y))), Fin (-1 / (INR (length y) - 1)), V) /\
    Rsum ls = S0 (length y) (by_column w (length y)) * moran_I y (by_column w (length y)).
Proof.
  intros Hv Hu. destruct (MI_I y w Hv Hu) as [V HV]. exists (map (local_moran y (by_column w (length y))) (sq (length y))), V.
  rewrite (LMI_local y w Hv Hu), map_map, map_length, seq_length. repeat split; auto. apply local_sum; auto. apply Hu.
Qed.

(** ** standardisation *)
Lemma equal_rows w n s : (forall i, (i < n)%nat -> row_sum w n i = s) -> forall i j, (i < n)%nat -> (j < n)%nat -> by_column w n i j = by_row w n i j.
Proof. intros H i j Hi Hj. unfold by_column, by_row. rewrite !H by auto. reflexivity. Qed.

Lemma moran_I_ext y v v' : (forall i j, (i < length y)%nat -> (j < length y)%nat -> v i j = v' i j) -> moran_I y v = moran_I y v'.
Proof.
  intros H. rewrite !moran_I_eq. f_equal. unfold S0, quad.
  rewrite (Rsum2_ext (length y) v v') by auto. f_equal. apply Rsum2_ext. intros i j Hi Hj. rewrite H by auto. reflexivity.
Qed.
Lemma local_ext y v v' i : (forall j, (j < length y)%nat -> v i j = v' i j) -> local_moran y v i = local_moran y v' i.
Proof. intros H. unfold local_moran. f_equal. apply sum_n_ext. intros j Hj. rewrite H by auto. reflexivity. Qed.

Lemma sym_col w n i j : symmetric w n -> (i < n)%nat -> (j < n)%nat -> by_column w n i j = by_row w n j i.
Proof. intros H Hi Hj. unfold by_column, by_row. rewrite (H i j) by auto. reflexivity. Qed.

Lemma sym_S0 w n : symmetric w n -> S0 n (by_column w n) = S0 n (by_row w n).
Proof.
  intros H. unfold S0. rewrite (Rsum2_ext n (by_column w n) (fun i j => by_row w n j i)) by (intros; apply sym_col; auto). apply sum_n_swap.
Qed.

Lemma row_total w n : (forall i, (i < n)%nat -> row_sum w n i <> 0) -> S0 n (by_row w n) = INR n.
Proof.
  intros H. unfold S0. rewrite (sum_n_ext n _ (fun _ => 1)).
  - unfold sum_n. rewrite Rsum_map_const, seq_length. ring.
  - intros i Hi. unfold by_row, Rdiv. rewrite (sum_n_ext n _ (fun j => / row_sum w n i * mget 0 w i j)) by (intros; ring).
    rewrite sum_n_scal. apply Rinv_l. exact (H i Hi).
Qed.

Lemma sym_quad y w : symmetric w (length y) -> quad y (by_column w (length y)) = quad y (by_row w (length y)).
Proof.
  intros H. unfold quad.
  rewrite (Rsum2_ext _ _ (fun i j => by_row w (length y) j i * deviation y i * deviation y j)) by (intros; rewrite sym_col by auto; reflexivity).
  rewrite sum_n_swap. apply Rsum2_ext. intros; ring.
Qed.

Lemma sym_I y w : symmetric w (length y) -> moran_I y (by_column w (length y)) = moran_I y (by_row w (length y)).
Proof. intros H. rewrite !moran_I_eq, sym_S0, sym_quad by auto. reflexivity. Qed.

Lemma sym_S1 w n : symmetric w n -> S1 n (by_column w n) = S1 n (by_row w n).
Proof. intros H. unfold S1. f_equal. apply Rsum2_ext. intros i j Hi Hj. rewrite !sym_col by auto. f_equal. ring. Qed.
Lemma sym_S2 w n : symmetric w n -> S2 n (by_column w n) = S2 n (by_row w n).
Proof. intros H. unfold S2. apply sum_n_ext. intros i Hi. f_equal. apply sum_n_ext. intros j Hj. rewrite !sym_col by auto. ring. Qed.
Lemma sym_variance w n b : symmetric w n -> randomisation_variance n (by_column w n) b = randomisation_variance n (by_row w n) b.
Proof. intros H. unfold randomisation_variance. rewrite sym_S0, sym_S1, sym_S2 by auto. reflexivity. Qed.

Lemma sym_usable w n : (1 <= n)%nat -> rect w n n -> symmetric w n -> (forall i, (i < n)%nat -> row_sum w n i <> 0) -> usable w n.
Proof. intros Hn HR H Hs. repeat split; auto; try apply HR. rewrite sym_S0, row_total by auto. apply not_0_INR. lia. Qed.

(** ** the two variances *)
Lemma variance_gap n v b b' : (4 <= n)%nat -> S0 n v <> 0 ->
  randomisation_variance n v b - randomisation_variance n v b' =
    (b' - b) * ((INR n ^ 2 - INR n) * S1 n v - 2 * INR n * S2 n v + 6 * S0 n v ^ 2) / ((INR n - 1) * (INR n - 2) * (INR n - 3) * S0 n v ^ 2).
Proof.
  intros Hn HS. assert (Hx : 4 <= INR n) by (pose proof (le_INR 4 n ltac:(lia)) as H; simpl in H; lra).
  unfold randomisation_variance. field. repeat split; auto; lra.
Qed.

(** ** degenerate inputs *)
Lemma MI_single v w : rect w 1 1 -> spatiotemporal_MI [v] w = Raise ZeroDivisionError /\ forall cdf, STMI cdf [v] w = Raise ZeroDivisionError.
Proof. intros H. unfold spatiotemporal_MI, STMI. simpl length. rewrite (square_ok _ _ H). cbn [negb Nat.eqb]. split; auto. Qed.

Lemma zero_times_sum n v y : (forall i, (i < n)%nat -> deviation y i = 0) -> sum_n n (fun i => deviation y i * sum_n n (fun j => v i j * deviation y j)) = 0.
Proof. intros H. rewrite (sum_n_ext _ _ (fun _ => 0)) by (intros i Hi; rewrite H by auto; ring). unfold sum_n. rewrite Rsum_map_const. ring. Qed.

Lemma constant_STMI cdf y w : ~ varies y -> (2 <= length y)%nat -> usable w (length y) ->
  exists E V p, STMI cdf y w = Ok (NaN, E, V, p).
Proof.
  intros Hv Hn (HR & Hs & HS). pose proof (powers_zero y Hv) as Hd. set (n := length y) in *.
  unfold STMI. fold n. rewrite (square_ok _ _ HR). cbn [negb].
  rewrite (standardise_E w n HR Hs). rewrite dev_list. fold n. rewrite E_matvec, fin_vecdot, E_total, fin_squares.
  destruct (Nat.eqb_spec n 1); [lia|]. destruct (Nat.eqb_spec n 0); [lia|].
  rewrite zero_times_sum by auto. assert (Z : sum_n n (fun i => deviation y i ^ 2) = 0).
  { rewrite (sum_n_ext _ _ (fun _ => 0)) by (intros i Hi; rewrite Hd by auto; ring). unfold sum_n. rewrite Rsum_map_const. ring. }
  rewrite Z. cbn [emul]. rewrite !Rmult_0_r. assert (Ed : ediv (Fin 0) (Fin 0) = NaN).
  { simpl. destruct (Req_EM_T 0 0); [|lra]. destruct (Rlt_dec 0 0); [lra|]. reflexivity. }
  rewrite Ed. eexists _, _, _. reflexivity.
Qed.
