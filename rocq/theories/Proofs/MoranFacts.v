From Coq Require Import Lra Psatz.
From Verif.Model Require Import Base Ext Moran.
From Verif.Spec Require Import MoranSpec.
From Verif.Proofs Require Import ListFacts SumFacts NeighbourFacts CsrFacts.
Open Scope nat_scope.
Open Scope R_scope.

Notation sq n := (seq 0 n).

Lemma map2_map {A B C D} (g : B -> C -> D) (f : A -> B) (h : A -> C) l : map2 g (map f l) (map h l) = map (fun i => g (f i) (h i)) l.
Proof. induction l; simpl; congruence. Qed.

Lemma list_tab {A} (d : A) (l : list A) : l = map (fun i => nth i l d) (sq (length l)).
Proof.
  apply (list_eq_nth d); [rewrite map_length, seq_length; auto|]. intros i Hi. rewrite (nth_map_in _ _ _ 0%nat) by (rewrite seq_length; auto). rewrite seq_nth by auto. reflexivity.
Qed.

Lemma map_tab {A B} (d : A) (f : A -> B) (l : list A) : map f l = map (fun i => f (nth i l d)) (sq (length l)).
Proof. rewrite (list_tab d l) at 1. rewrite map_map. reflexivity. Qed.

Lemma matrix_tab {A} (d : A) (m : matrix A) r c : rect m r c -> m = map (fun i => map (fun j => mget d m i j) (sq c)) (sq r).
Proof.
  intros H. rewrite (list_tab [] m) at 1. replace (length m) with r by (symmetry; apply H). apply map_ext_in. intros i Hi. apply in_seq in Hi.
  rewrite (list_tab d (nth i m [])) at 1. rewrite (rect_row m r c i H) by lia. reflexivity.
Qed.

Lemma esum_fin {A} (f : A -> R) l : esum (map (fun i => Fin (f i)) l) = Fin (Rsum (map f l)).
Proof. unfold esum. induction l as [|x l IH]; simpl; [reflexivity|]. rewrite IH. reflexivity. Qed.

Definition E (n : nat) (v : nat -> nat -> R) : matrix ext := map (fun i => map (fun j => Fin (v i j)) (sq n)) (sq n).

Lemma E_rect n v : rect (E n v) n n.
Proof. split; [unfold E; rewrite map_length, seq_length; auto|]. apply Forall_forall. intros row Hr. apply in_map_iff in Hr as (i & <- & _). rewrite map_length, seq_length. auto. Qed.

Lemma E_get n v i j : (i < n)%nat -> (j < n)%nat -> mget NaN (E n v) i j = Fin (v i j).
Proof.
  intros Hi Hj. unfold mget, E. rewrite (nth_map_in _ _ _ 0%nat) by (rewrite seq_length; auto). rewrite (nth_map_in _ _ _ 0%nat) by (rewrite seq_length; auto).
  rewrite !seq_nth by auto. reflexivity.
Qed.

Lemma E_transpose n v : transpose NaN n (E n v) = E n (fun i j => v j i).
Proof.
  apply (matrix_eq NaN _ _ n n); [apply transpose_rect, E_rect|apply E_rect|]. intros i j Hi Hj.
  rewrite (transpose_get NaN _ n n) by (auto using E_rect). rewrite !E_get by auto. reflexivity.
Qed.

Lemma E_plus n v : plus_transpose n (E n v) = E n (fun i j => v i j + v j i).
Proof. unfold plus_transpose. rewrite E_transpose. unfold E. rewrite map2_map. apply map_ext. intros i. rewrite map2_map. reflexivity. Qed.

Lemma E_total n v : total (E n v) = Fin (S0 n v).
Proof.
  unfold total, E. rewrite map_map. rewrite (map_ext _ (fun i => Fin (Rsum (map (fun j => v i j) (sq n))))) by (intros; apply esum_fin). rewrite esum_fin. reflexivity.
Qed.

Lemma Rsum2_ext n (f g : nat -> nat -> R) : (forall i j, (i < n)%nat -> (j < n)%nat -> f i j = g i j) ->
  sum_n n (fun i => sum_n n (fun j => f i j)) = sum_n n (fun i => sum_n n (fun j => g i j)).
Proof. intros H. apply Rsum_map_ext. intros i Hi. apply Rsum_map_ext. intros j Hj. apply in_seq in Hi, Hj. apply H; lia. Qed.

Lemma sum_n_ext n f g : (forall i, (i < n)%nat -> f i = g i) -> sum_n n f = sum_n n g.
Proof. intros H. apply Rsum_map_ext. intros i Hi. apply in_seq in Hi. apply H. lia. Qed.

Lemma sum_n_scal n c f : sum_n n (fun i => c * f i) = c * sum_n n f.
Proof. apply Rsum_map_scal. Qed.

Lemma sum_n_swap n f : sum_n n (fun i => sum_n n (fun j => f i j)) = sum_n n (fun j => sum_n n (fun i => f i j)).
Proof. apply Rsum_swap. Qed.

Lemma E_S1 n v : moran_S1 n (E n v) = Fin (S1 n v).
Proof.
  unfold moran_S1. rewrite E_plus. assert (H : map (map esquare) (E n (fun i j => v i j + v j i)) = E n (fun i j => (v i j + v j i) ^ 2)).
  { unfold E. rewrite map_map. apply map_ext. intros i. rewrite map_map. apply map_ext. intros j. unfold esquare. cbn [emul]. f_equal. ring. }
  rewrite H, E_total. reflexivity.
Qed.

Lemma E_S2 n v : moran_S2 n (E n v) = Fin (S2 n v).
Proof.
  unfold moran_S2. rewrite E_plus. unfold E. rewrite !map_map.
  rewrite (map_ext _ (fun i => Fin ((sum_n n (fun j => v i j + v j i)) ^ 2))); [apply esum_fin|].
  intros i. rewrite esum_fin. unfold esquare. cbn [emul]. f_equal. unfold sum_n. ring.
Qed.

Lemma E_matvec n v z : matvec (E n v) (map (fun i => Fin (z i)) (sq n)) = map (fun i => Fin (sum_n n (fun j => v i j * z j))) (sq n).
Proof.
  unfold matvec, E. rewrite map_map. apply map_ext. intros i. rewrite map2_map. cbn [emul]. apply (esum_fin (fun j => v i j * z j)).
Qed.

Lemma fin_vecdot n a b : vecdot (map (fun i => Fin (a i)) (sq n)) (map (fun i => Fin (b i)) (sq n)) = Fin (sum_n n (fun i => a i * b i)).
Proof. unfold vecdot. rewrite map2_map. cbn [emul]. apply esum_fin. Qed.

Lemma fin_squares n a : esum (map esquare (map (fun i => Fin (a i)) (sq n))) = Fin (sum_n n (fun i => a i ^ 2)).
Proof. rewrite map_map. unfold esquare. cbn [emul]. rewrite esum_fin. f_equal. apply Rsum_map_ext. intros; ring. Qed.
Lemma fin_fourths n a : esum (map efour (map (fun i => Fin (a i)) (sq n))) = Fin (sum_n n (fun i => a i ^ 4)).
Proof. rewrite map_map. unfold efour, esquare. cbn [emul]. rewrite esum_fin. f_equal. apply Rsum_map_ext. intros; ring. Qed.

Lemma ediv_fin a b : b <> 0 -> ediv (Fin a) (Fin b) = Fin (a / b).
Proof. intros H. simpl. destruct (Req_EM_T b 0); [contradiction|reflexivity]. Qed.

Lemma square_ok {A} (w : matrix A) n : rect w n n -> square_of n w = true.
Proof.
  intros [HA HB]. unfold square_of. rewrite HA, Nat.eqb_refl. simpl. apply forallb_forall. intros r Hr. apply Nat.eqb_eq. rewrite Forall_forall in HB. auto.
Qed.

Lemma standardise_E w n : rect w n n -> (forall i, (i < n)%nat -> row_sum w n i <> 0) -> standardise w = E n (by_column w n).
Proof.
  intros HR Hs. unfold standardise.
  assert (Hsum : map Rsum w = map (fun i => row_sum w n i) (sq n)).
  { rewrite (matrix_tab 0 w n n HR) at 1. rewrite map_map. reflexivity. }
  rewrite Hsum. rewrite (matrix_tab 0 w n n HR) at 1. rewrite map_map. unfold E. apply map_ext_in. intros i Hi. rewrite map2_map. apply map_ext_in. intros j Hj.
  apply in_seq in Hi, Hj. apply ediv_fin. apply Hs. lia.
Qed.

(** A row that sums to zero gives NaN when the weights are not negative. *)
Lemma standardise_zero_row w n j : rect w n n -> (forall i k, (i < n)%nat -> (k < n)%nat -> 0 <= mget 0 w i k) -> (j < n)%nat -> row_sum w n j = 0 ->
  mget (Fin 0) (standardise w) j j = NaN.
Proof.
  intros HR Hnn Hj H0. unfold mget, standardise.
  assert (HLw : length w = n) by apply HR. assert (HLj : length (nth j w []) = n) by (apply (rect_row w n n); auto).
  rewrite (nth_map_in _ _ _ []) by lia. rewrite (map2_nth _ _ _ _ 0 0) by (rewrite ?map_length; lia). rewrite (nth_map_in _ _ _ []) by lia.
  assert (Ez : Rsum (nth j w []) = 0) by (rewrite (list_tab 0 (nth j w [])), HLj; exact H0).
  assert (Ej : nth j (nth j w []) 0 = 0).
  { apply (Rsum_zero_elem (nth j w [])); auto; [|apply nth_In; lia]. intros x Hx. apply (In_nth _ _ 0) in Hx as (k & Hk & <-). apply Hnn; lia. }
  rewrite Ez, Ej. simpl. destruct (Req_EM_T 0 0); [|lra]. destruct (Rlt_dec 0 0); [lra|]. destruct (Rlt_dec 0 0); [lra|reflexivity].
Qed.

(** ** deviations *)
Lemma dev_eq y i : (i < length y)%nat -> nth i y 0 - np_mean y = deviation y i.
Proof. intros Hi. unfold np_mean, deviation, sum_n. rewrite <- (list_tab 0 y). reflexivity. Qed.

Lemma dev_list y : map (fun v => Fin (v - np_mean y)) y = map (fun i => Fin (deviation y i)) (sq (length y)).
Proof.
  rewrite (map_tab 0 _ y). apply map_ext_in. intros i Hi. apply in_seq in Hi. rewrite dev_eq by lia. reflexivity.
Qed.

Lemma sum_n_nonneg n f : (forall i, (i < n)%nat -> 0 <= f i) -> 0 <= sum_n n f.
Proof. intros H. apply Rsum_nonneg. intros x Hx. apply in_map_iff in Hx as (i & <- & Hi). apply in_seq in Hi. apply H. lia. Qed.

Lemma sum_n_pos n f i : (forall i, (i < n)%nat -> 0 <= f i) -> (i < n)%nat -> 0 < f i -> 0 < sum_n n f.
Proof.
  intros H Hi Hp. assert (f i <= sum_n n f); [|lra]. apply Rsum_ge_elem.
  - intros x Hx. apply in_map_iff in Hx as (k & <- & Hk). apply in_seq in Hk. apply H. lia.
  - apply in_map_iff. exists i. split; auto. apply in_seq. lia.
Qed.

Lemma pow2_nonneg x : 0 <= x ^ 2. Proof. nra. Qed.

Lemma powers_pos y : varies y -> 0 < sum_of_powers y 2.
Proof.
  intros (i & j & Hi & Hj & Hne).
  assert (H : deviation y i <> 0 \/ deviation y j <> 0).
  { destruct (Req_EM_T (deviation y i) 0) as [E1 | ]; [|auto]. destruct (Req_EM_T (deviation y j) 0) as [E2 | ]; [|auto].
    exfalso. apply Hne. unfold deviation in *. lra. }
  unfold sum_of_powers. destruct H as [H | H]; [apply (sum_n_pos _ _ i)|apply (sum_n_pos _ _ j)]; auto using pow2_nonneg; pose proof (pow2_nonneg 0); nra.
Qed.

Lemma powers_zero y : ~ varies y -> forall i, (i < length y)%nat -> deviation y i = 0.
Proof.
  intros H i Hi. assert (Hc : forall j, (j < length y)%nat -> nth j y 0 = nth i y 0).
  { intros j Hj. destruct (Req_EM_T (nth j y 0) (nth i y 0)); auto. exfalso. apply H. exists j, i. auto. }
  unfold deviation. assert (E : sum_n (length y) (fun j => nth j y 0) = INR (length y) * nth i y 0).
  { rewrite (sum_n_ext _ _ (fun _ => nth i y 0)) by auto. unfold sum_n. rewrite Rsum_map_const, seq_length. auto. }
  rewrite E. assert (INR (length y) <> 0) by (apply not_0_INR; lia). field. auto.
Qed.

Lemma varies_n y : varies y -> (2 <= length y)%nat.
Proof. intros (i & j & Hi & Hj & Hne). destruct (Nat.eq_dec i j) as [-> | ]; [contradiction|lia]. Qed.

Lemma std_ok y : varies y -> 0 < np_std y /\ np_std y * np_std y = sum_of_powers y 2 / INR (length y).
Proof.
  intros H. pose proof (powers_pos y H) as HP. pose proof (varies_n y H) as Hn. assert (Hx : 0 < INR (length y)) by (apply lt_0_INR; lia).
  assert (E : Rsum (map (fun v => (v - np_mean y) * (v - np_mean y)) y) = sum_of_powers y 2).
  { rewrite (map_tab 0 _ y). apply Rsum_map_ext. intros i Hi. apply in_seq in Hi. rewrite dev_eq by lia. ring. }
  unfold np_std. rewrite E. assert (Hq : 0 < sum_of_powers y 2 / INR (length y)) by (apply Rdiv_lt_0_compat; auto).
  split; [apply sqrt_lt_R0; auto|apply sqrt_sqrt; lra].
Qed.

Definition quad (y : list R) (v : nat -> nat -> R) : R := sum_n (length y) (fun i => sum_n (length y) (fun j => v i j * deviation y i * deviation y j)).

Lemma moran_I_eq y v : moran_I y v = INR (length y) / S0 (length y) v * quad y v / sum_of_powers y 2.
Proof. reflexivity. Qed.

Lemma pow2_eq x : x ^ 2 = x * x. Proof. ring. Qed.

Lemma STMI_ok cdf y w : varies y -> usable w (length y) -> (4 <= length y)%nat ->
  let v := by_column w (length y) in
  exists p, STMI cdf y w = Ok (Fin (moran_I y v), Fin (-1 / (INR (length y) - 1)), Fin (randomisation_variance (length y) v (kurtosis y)), p) /\
    p = cdf (ediv (Fin (moran_I y v - (-1 / (INR (length y) - 1)))) (esqrt (Fin (randomisation_variance (length y) v (kurtosis y))))).
Proof.
  intros Hv (HR & Hs & HS) Hn v. set (n := length y) in *. unfold STMI. fold n. rewrite (square_ok _ _ HR). cbn [negb].
  rewrite (standardise_E w n HR Hs). fold v. rewrite dev_list. fold n. rewrite E_matvec, fin_vecdot, E_total, fin_squares, fin_fourths, E_S1, E_S2.
  fold n. destruct (Nat.eqb_spec n 1); [lia|]. destruct (Nat.eqb_spec n 0); [lia|].
  set (x := INR n). set (u2 := sum_n n (fun i => deviation y i ^ 2)). set (u4 := sum_n n (fun i => deviation y i ^ 4)).
  assert (Hu2 : 0 < u2) by apply (powers_pos y Hv).
  assert (Hx : 4 <= x) by (unfold x; pose proof (le_INR 4 n ltac:(lia)) as H; simpl in H; lra).
  assert (EI : sum_n n (fun i => deviation y i * sum_n n (fun j => v i j * deviation y j)) = quad y v).
  { unfold quad. fold n. apply sum_n_ext. intros i Hi. rewrite <- sum_n_scal. apply sum_n_ext. intros; ring. }
  rewrite EI. cbn [emul eadd esub eopp esquare]. unfold esquare. cbn [emul].
  assert (HC : (x - 1) * (x - 2) * (x - 3) * (S0 n v * S0 n v) <> 0).
  { repeat apply Rmult_integral_contrapositive_currified; auto; lra. }
  rewrite (ediv_fin (x * quad y v)) by (apply Rmult_integral_contrapositive_currified; [auto|lra]).
  rewrite (ediv_fin (/ x * u4)) by (assert (0 < / x * u2) by (apply Rmult_lt_0_compat; [apply Rinv_0_lt_compat|]; lra); apply Rmult_integral_contrapositive_currified; lra).
  cbn [emul eadd esub eopp]. rewrite (ediv_fin _ _ HC). cbn [emul eadd esub eopp].
  assert (EM : x * quad y v / (S0 n v * u2) = moran_I y v).
  { rewrite moran_I_eq. fold n x. change (sum_of_powers y 2) with u2. field. repeat split; first [exact HS | lra]. }
  assert (EV : (x * ((x * x - 3 * x + 3) * S1 n v + - (x * S2 n v) + 3 * (S0 n v * S0 n v)) +
      - (/ x * u4 / (/ x * u2 * (/ x * u2)) * ((x * x - x) * S1 n v + - (2 * x * S2 n v) + 6 * (S0 n v * S0 n v)))) / ((x - 1) * (x - 2) * (x - 3) * (S0 n v * S0 n v)) +
      - (-1 / (x - 1) * (-1 / (x - 1))) = randomisation_variance n v (kurtosis y)).
  { unfold randomisation_variance, kurtosis. cbv zeta. change (sum_of_powers y 2) with u2. change (sum_of_powers y 4) with u4. fold n x. field. repeat split; first [exact HS | lra]. }
  rewrite EM, EV. eexists. split; [reflexivity|]. reflexivity.
Qed.

Lemma MI_ok y w : varies y -> usable w (length y) -> (4 <= length y)%nat ->
  let v := by_column w (length y) in
  spatiotemporal_MI y w = Ok (Fin (moran_I y v), Fin (-1 / (INR (length y) - 1)), Fin (randomisation_variance (length y) v (kurtosis y / INR (length y)))).
Proof.
  intros Hv (HR & Hs & HS) Hn v. set (n := length y) in *. unfold spatiotemporal_MI. fold n. rewrite (square_ok _ _ HR). cbn [negb].
  rewrite (standardise_E w n HR Hs). fold v. destruct (std_ok y Hv) as [Hsd Hsq]. set (sd := np_std y) in *. fold n in Hsq.
  assert (Ez : map (fun a => ediv (Fin (a - np_mean y)) (Fin sd)) y = map (fun i => Fin (deviation y i / sd)) (sq n)).
  { rewrite (map_tab 0 _ y). apply map_ext_in. intros i Hi. apply in_seq in Hi. rewrite dev_eq by lia. apply ediv_fin. lra. }
  rewrite Ez. rewrite E_matvec, fin_vecdot, E_total, fin_squares, fin_fourths, E_S1, E_S2.
  destruct (Nat.eqb_spec n 1); [lia|].
  set (x := INR n) in *. set (u2 := sum_n n (fun i => deviation y i ^ 2)). set (u4 := sum_n n (fun i => deviation y i ^ 4)).
  assert (Hu2 : 0 < u2) by apply (powers_pos y Hv). change (sum_of_powers y 2) with u2 in Hsq.
  assert (Hx : 4 <= x) by (unfold x; pose proof (le_INR 4 n ltac:(lia)) as H; simpl in H; lra).
  assert (EI : sum_n n (fun i => sum_n n (fun j => v i j * (deviation y j / sd)) * (deviation y i / sd)) = quad y v / (sd * sd)).
  { unfold quad. fold n. unfold Rdiv at 3. rewrite (Rmult_comm _ (/ (sd * sd))). rewrite <- sum_n_scal. apply sum_n_ext. intros i Hi.
    rewrite (Rmult_comm (sum_n _ _)). rewrite <- !sum_n_scal. apply sum_n_ext. intros j Hj. field. lra. }
  assert (E2 : sum_n n (fun i => (deviation y i / sd) ^ 2) = u2 / (sd * sd)).
  { unfold u2, Rdiv. rewrite (Rmult_comm _ (/ (sd * sd))). rewrite <- sum_n_scal. apply sum_n_ext. intros i Hi. field. lra. }
  assert (E4 : sum_n n (fun i => (deviation y i / sd) ^ 4) = u4 / (sd * sd * (sd * sd))).
  { unfold u4, Rdiv. rewrite (Rmult_comm _ (/ (sd * sd * (sd * sd)))). rewrite <- sum_n_scal. apply sum_n_ext. intros i Hi. field. lra. }
  rewrite EI, E2, E4, Hsq. cbn [emul eadd esub eopp]. unfold esquare. cbn [emul].
  assert (HC : (x - 1) * (x - 2) * (x - 3) * (S0 n v * S0 n v) <> 0).
  { repeat apply Rmult_integral_contrapositive_currified; auto; lra. }
  assert (E22 : u2 / (u2 / x) = x) by (field; split; lra). rewrite E22.
  rewrite (ediv_fin x (S0 n v)) by auto. cbn [emul]. rewrite (ediv_fin _ x) by lra. rewrite (ediv_fin _ (x * x)) by nra.
  cbn [emul eadd esub eopp]. rewrite (ediv_fin _ _ HC). cbn [emul eadd esub eopp].
  f_equal. f_equal; [f_equal|].
  - f_equal. rewrite moran_I_eq. fold n x. change (sum_of_powers y 2) with u2. field. repeat split; first [exact HS | lra].
  - f_equal. unfold randomisation_variance, kurtosis. cbv zeta. change (sum_of_powers y 2) with u2. change (sum_of_powers y 4) with u4. fold n x. field. repeat split; first [exact HS | lra].
Qed.

Lemma LMI_ok y w : varies y -> usable w (length y) ->
  let v := by_column w (length y) in
  let m2 := sum_of_powers y 2 / INR (length y) in
  spatiotemporal_LMI y w = Ok (map (fun i => Fin (deviation y i / m2 * sum_n (length y) (fun j => v i j * deviation y j))) (sq (length y))).
Proof.
  intros Hv (HR & Hs & _) v m2. set (n := length y) in *. unfold spatiotemporal_LMI. fold n. rewrite (square_ok _ _ HR). cbn [negb].
  rewrite (standardise_E w n HR Hs). fold v. rewrite dev_list. fold n. rewrite E_matvec, fin_squares. fold (sum_of_powers y 2).
  pose proof (powers_pos y Hv) as HP. pose proof (varies_n y Hv) as Hn. fold n in Hn. assert (Hx : 0 < INR n) by (apply lt_0_INR; lia).
  rewrite ediv_fin by lra. assert (Hm2 : 0 < m2) by (apply Rdiv_lt_0_compat; auto). change (sum_n n (fun i => deviation y i ^ 2)) with (sum_of_powers y 2). fold m2.
  rewrite map2_map. f_equal. apply map_ext. intros i. rewrite ediv_fin by lra. reflexivity.
Qed.
