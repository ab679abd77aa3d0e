(** Proofs for C193: signs, size and mean of the local Moran values. *)
From Coq Require Import Lra Lia Psatz Permutation.
From Verif.Model Require Import Base Ext Moran.
From Verif.Spec Require Import MoranSpec MoranRangeSpec.
From Verif.Proofs Require Import ListFacts SumFacts NeighbourFacts CsrFacts MoranFacts MoranProps MoranMoments MoranRandom MoranDiagram MoranRangeProps MoranExamples.
Open Scope nat_scope.
Open Scope R_scope.

Lemma LMI_list y w : varies y -> usable w (length y) ->
  spatiotemporal_LMI y w = Ok (map Fin (map (local_moran y (by_column w (length y))) (seq 0 (length y)))).
Proof. intros Hy Hu. rewrite (LMI_local y w Hy Hu), map_map. reflexivity. Qed.

Lemma nth_tab {A} (f : nat -> A) n i d : (i < n)%nat -> nth i (map f (seq 0 n)) d = f i.
Proof. intros Hi. rewrite (nth_map_in _ _ _ 0%nat) by (rewrite seq_length; auto). rewrite seq_nth by auto. reflexivity. Qed.

Lemma equal_usable w n s : (0 < n)%nat -> rect w n n -> s <> 0 -> (forall i, (i < n)%nat -> row_sum w n i = s) -> usable w n.
Proof.
  intros Hn HR Hs H. split; [exact HR|]. split; [intros i Hi; rewrite H; auto|]. unfold S0.
  rewrite (sum_n_ext n _ (fun _ => 1)); [rewrite sum_n_const, Rmult_1_r; apply not_0_INR; lia|]. intros i Hi.
  rewrite (sum_n_ext n _ (fun j => / s * mget 0 w i j)) by (intros j Hj; unfold by_column; rewrite (H j Hj); unfold Rdiv; ring).
  rewrite sum_n_scal. transitivity (/ s * row_sum w n i); [reflexivity|]. rewrite (H i Hi). field. auto.
Qed.

(** ** quadrants *)
Lemma quadrants slope_of y w s : least_squares slope_of -> varies y -> rect w (length y) (length y) -> 0 < s ->
  (forall i, (i < length y)%nat -> row_sum w (length y) i = s) ->
  exists ls pts line, spatiotemporal_LMI y w = Ok (map Fin ls) /\ plot_moran_diagram slope_of y w = Ok (pts, line) /\
    length ls = length y /\ length pts = length y /\
    forall i, (i < length y)%nat -> exists a b, nth i pts (0, 0) = (a, b) /\
      nth i ls 0 = a * b / (s * (sum_of_powers y 2 / INR (length y))) /\
      (0 < nth i ls 0 <-> 0 < a * b) /\ (nth i ls 0 < 0 <-> a * b < 0).
Proof.
  intros HL Hy HR Hs H. pose proof (varies_n y Hy) as Hn. pose proof (powers_pos y Hy) as HP.
  assert (Hu : usable w (length y)) by (apply (equal_usable w _ s); auto; [lia|lra]).
  destruct (diagram slope_of y w HL Hy HR) as (lo & hi & b & ED & _).
  eexists _, _, _. split; [apply LMI_list; auto|]. split; [exact ED|]. rewrite !map_length, seq_length. split; [reflexivity|]. split; [reflexivity|].
  intros i Hi. set (n := length y) in *. assert (Hx : 0 < INR n) by (apply lt_0_INR; lia).
  set (l := sum_n n (fun j => mget 0 w i j * deviation y j)). exists (deviation y i), l. split; [rewrite nth_tab by auto; reflexivity|].
  rewrite nth_tab by auto.
  assert (E : local_moran y (by_column w n) i = deviation y i * l / (s * (sum_of_powers y 2 / INR n))).
  { unfold local_moran. fold n. rewrite (sum_n_ext n _ (fun j => / s * (mget 0 w i j * deviation y j))) by (intros j Hj; unfold by_column; rewrite (H j Hj); unfold Rdiv; ring).
    rewrite sum_n_scal. fold l. field. lra. }
  rewrite E. split; [reflexivity|]. set (c := s * (sum_of_powers y 2 / INR n)).
  assert (Hc : 0 < c) by (apply Rmult_lt_0_compat; auto; apply Rdiv_lt_0_compat; auto). set (q := deviation y i * l).
  assert (Ei : 0 < / c) by (apply Rinv_0_lt_compat; auto). unfold Rdiv. split; split; intros G; try nra.
Qed.

Definition y3 : list R := [1; 2; -3].
Definition w3 : matrix R := [[0; 2; 1]; [4; 0; 0]; [0; 1; 0]].

Ltac small3 := unfold sum_n; cbn [seq map]; rewrite !Rsum_cons, Rsum_nil.

Lemma y3_sum : sum_n 3 (fun i => nth i y3 0) = 0.
Proof. small3. unfold y3. cbn [nth]. lra. Qed.
Lemma y3_dev i : deviation y3 i = nth i y3 0.
Proof. unfold deviation. change (length y3) with 3%nat. rewrite y3_sum. unfold Rdiv. ring. Qed.
Lemma y3_varies : varies y3.
Proof. exists 0%nat, 1%nat. cbn. repeat split; try lia. lra. Qed.
Lemma y3_powers : sum_of_powers y3 2 = 14.
Proof. unfold sum_of_powers. change (length y3) with 3%nat. small3. rewrite !y3_dev. unfold y3. cbn [nth]. lra. Qed.
Lemma w3_row0 : row_sum w3 3 0 = 3. Proof. unfold row_sum. small3. unfold mget, w3. cbn [nth]. lra. Qed.
Lemma w3_row1 : row_sum w3 3 1 = 4. Proof. unfold row_sum. small3. unfold mget, w3. cbn [nth]. lra. Qed.
Lemma w3_row2 : row_sum w3 3 2 = 1. Proof. unfold row_sum. small3. unfold mget, w3. cbn [nth]. lra. Qed.
Lemma w3_usable : usable w3 3.
Proof.
  split; [split; [reflexivity|repeat constructor]|]. split.
  - intros i Hi. do 3 (destruct i as [|i]; [rewrite ?w3_row0, ?w3_row1, ?w3_row2; lra|]). lia.
  - unfold S0. small3. unfold by_column. rewrite w3_row0, w3_row1, w3_row2. unfold mget, w3. cbn [nth]. lra.
Qed.
Lemma w3_nonneg : nonnegative w3 3.
Proof. intros i j Hi Hj. do 3 (destruct i as [|i]; [do 3 (destruct j as [|j]; [unfold mget, w3; cbn [nth]; lra|]); lia|]); lia. Qed.
Lemma w3_diag i : (i < 3)%nat -> mget 0 w3 i i = 0.
Proof. intros Hi. do 3 (destruct i as [|i]; [reflexivity|]). lia. Qed.

Lemma quadrants_refuted slope_of : least_squares slope_of -> exists y w, varies y /\ usable w (length y) /\ nonnegative w (length y) /\
  (forall i, (i < length y)%nat -> mget 0 w i i = 0) /\
  exists ls pts line a b, spatiotemporal_LMI y w = Ok (map Fin ls) /\ plot_moran_diagram slope_of y w = Ok (pts, line) /\
    nth 0 pts (0, 0) = (a, b) /\ 0 < a /\ 0 < b /\ nth 0 ls 0 < 0.
Proof.
  intros HL. exists y3, w3. change (length y3) with 3%nat. split; [exact y3_varies|]. split; [exact w3_usable|]. split; [exact w3_nonneg|]. split; [exact w3_diag|].
  destruct (diagram slope_of y3 w3 HL y3_varies (proj1 w3_usable)) as (lo & hi & b & ED & _).
  eexists _, _, _, _, _. split; [apply LMI_list; [exact y3_varies|exact w3_usable]|]. split; [exact ED|]. split; [reflexivity|]. change (length y3) with 3%nat.
  rewrite nth_tab by lia. split; [rewrite y3_dev; unfold y3; cbn [nth]; lra|]. split.
  - small3. rewrite !y3_dev. unfold mget, w3, y3. cbn [nth]. lra.
  - unfold local_moran. change (length y3) with 3%nat. rewrite y3_powers. small3. rewrite !y3_dev. unfold by_column. rewrite w3_row0, w3_row1, w3_row2. unfold mget, w3, y3. cbn [nth]. simpl INR. lra.
Qed.

(** ** size *)
Lemma sum_n_two n (f : nat -> R) i j : (forall k, (k < n)%nat -> 0 <= f k) -> (i < n)%nat -> (j < n)%nat -> i <> j -> f i + f j <= sum_n n f.
Proof.
  intros Hf Hi Hj Hij.
  rewrite <- (sum_n_one n i f Hi), <- (sum_n_one n j f Hj), <- sum_n_add. apply sum_n_le. intros k Hk. specialize (Hf k Hk).
  destruct (Nat.eqb_spec k i), (Nat.eqb_spec k j); try lia; lra.
Qed.

Lemma abs_sum n f g : (forall i, (i < n)%nat -> Rabs (f i) <= g i) -> Rabs (sum_n n f) <= sum_n n g.
Proof.
  intros H. apply Rabs_le. split.
  - replace (- sum_n n g) with (sum_n n (fun i => -1 * g i)) by (rewrite sum_n_scal; ring). apply sum_n_le. intros i Hi. specialize (H i Hi). pose proof (Rle_abs (f i)). pose proof (Rle_abs (- f i)) as G. rewrite Rabs_Ropp in G. lra.
  - apply sum_n_le. intros i Hi. specialize (H i Hi). pose proof (Rle_abs (f i)). pose proof (Rle_abs (- f i)) as G. rewrite Rabs_Ropp in G. lra.
Qed.

Lemma local_bound y w : varies y -> usable w (length y) -> nonnegative w (length y) -> (forall i, (i < length y)%nat -> mget 0 w i i = 0) ->
  exists ls, spatiotemporal_LMI y w = Ok (map Fin ls) /\ length ls = length y /\
    forall i, (i < length y)%nat -> Rabs (nth i ls 0) <= INR (length y) / 2 * sum_n (length y) (by_column w (length y) i).
Proof.
  intros Hy Hu Hw Hd. eexists. split; [apply LMI_list; auto|]. split; [rewrite map_length, seq_length; reflexivity|]. intros i Hi. rewrite nth_tab by auto.
  pose proof (varies_n y Hy) as Hn. pose proof (powers_pos y Hy) as HP. set (n := length y) in *. assert (Hx : 0 < INR n) by (apply lt_0_INR; lia).
  unfold local_moran. fold n. set (m := sum_of_powers y 2) in *.
  replace (deviation y i / (m / INR n) * sum_n n (fun j => by_column w n i j * deviation y j)) with (INR n / m * sum_n n (fun j => by_column w n i j * (deviation y i * deviation y j))).
  2:{ rewrite (sum_n_ext n (fun j => by_column w n i j * (deviation y i * deviation y j)) (fun j => deviation y i * (by_column w n i j * deviation y j))) by (intros; ring). rewrite sum_n_scal. field. lra. }
  assert (Hq : 0 < INR n / m) by (apply Rdiv_lt_0_compat; auto). rewrite Rabs_mult, (Rabs_right (INR n / m)) by lra.
  assert (B : Rabs (sum_n n (fun j => by_column w n i j * (deviation y i * deviation y j))) <= sum_n n (fun j => m / 2 * by_column w n i j)).
  { apply abs_sum. intros j Hj. destruct (Nat.eq_dec i j) as [<-|Hij].
    - unfold by_column. rewrite Hd by auto. unfold Rdiv. rewrite !Rmult_0_l, Rabs_R0. lra.
    - assert (0 <= by_column w n i j) by (apply column_nonneg; auto; apply Hu). rewrite Rabs_mult, Rabs_right by lra. rewrite Rmult_comm. apply Rmult_le_compat_r; auto.
      assert (S2 : deviation y i ^ 2 + deviation y j ^ 2 <= m) by (apply (sum_n_two n (fun k => deviation y k ^ 2)); auto; intros; apply pow2_ge_0).
      pose proof (pow2_ge_0 (deviation y i - deviation y j)) as G1. pose proof (pow2_ge_0 (deviation y i + deviation y j)) as G2. clearbody m. apply Rabs_le. split; lra. }
  rewrite sum_n_scal in B. apply Rle_trans with (INR n / m * (m / 2 * sum_n n (by_column w n i))).
  - apply Rmult_le_compat_l; lra.
  - apply Req_le. field. lra.
Qed.

Section Attained.
  Variable n : nat.
  Hypothesis Hn : (2 <= n)%nat.
  Let value (i : nat) : R := match i with O => 1 | S O => -1 | _ => 0 end.
  Let target (i : nat) : nat := match i with O => 1%nat | _ => 0%nat end.
  Let ys : list R := map value (seq 0 n).
  Let ws : matrix R := map (fun i => map (fun j => if (j =? target i)%nat then 1 else 0) (seq 0 n)) (seq 0 n).

  Lemma att_len : length ys = n. Proof. unfold ys. rewrite map_length, seq_length. reflexivity. Qed.
  Lemma att_target i : (target i < n)%nat /\ target i <> i. Proof. destruct i; cbn; lia. Qed.
  Lemma att_get i j : (i < n)%nat -> (j < n)%nat -> mget 0 ws i j = if (j =? target i)%nat then 1 else 0.
  Proof. intros Hi Hj. unfold mget, ws. rewrite nth_tab by auto. rewrite nth_tab by auto. reflexivity. Qed.
  Lemma att_row i : (i < n)%nat -> row_sum ws n i = 1.
  Proof.
    intros Hi. unfold row_sum. rewrite (sum_n_ext _ _ (fun j => (if (j =? target i)%nat then 1 else 0) * 1)) by (intros j Hj; rewrite att_get by auto; ring).
    apply (sum_n_one n (target i) (fun _ => 1)). apply att_target.
  Qed.
  Lemma att_rect : rect ws n n.
  Proof. split; [unfold ws; rewrite map_length, seq_length; reflexivity|]. apply Forall_forall. intros r Hr. unfold ws in Hr. apply in_map_iff in Hr as (i & <- & _). rewrite map_length, seq_length. reflexivity. Qed.
  Lemma att_sums f : (forall i, f (S (S i)) = 0) -> sum_n n f = f 0%nat + f 1%nat.
  Proof.
    intros Hf. replace n with (S (S (n - 2))) by lia. rewrite !sum_n_first. rewrite (sum_n_ext (n - 2) _ (fun _ => 0)) by (intros; apply Hf). rewrite sum_n_const. ring.
  Qed.
  Lemma att_dev i : (i < n)%nat -> deviation ys i = value i.
  Proof.
    intros Hi. unfold deviation. rewrite att_len. unfold ys at 1. rewrite nth_tab by auto.
    rewrite (sum_n_ext n _ value) by (intros; unfold ys; apply nth_tab; auto). rewrite att_sums by reflexivity. cbn. unfold Rdiv. ring.
  Qed.
  Lemma att_powers : sum_of_powers ys 2 = 2.
  Proof.
    unfold sum_of_powers. rewrite att_len. rewrite (sum_n_ext n _ (fun i => value i ^ 2)) by (intros; rewrite att_dev by auto; reflexivity).
    rewrite att_sums by (intros; cbn; ring). cbn. ring.
  Qed.
  Lemma att_varies : varies ys.
  Proof. exists 0%nat, 1%nat. rewrite att_len. split; [lia|]. split; [lia|]. unfold ys. rewrite !nth_tab by lia. cbn. lra. Qed.

  Lemma attained : exists y w, length y = n /\ varies y /\ usable w n /\ nonnegative w n /\
    (forall i, (i < n)%nat -> row_sum w n i = 1 /\ mget 0 w i i = 0) /\
    exists ls, spatiotemporal_LMI y w = Ok (map Fin ls) /\ nth 0 ls 0 = - (INR n / 2).
  Proof.
    assert (Hu : usable ws n) by (apply (equal_usable ws n 1); [lia|exact att_rect|lra|exact att_row]).
    exists ys, ws. split; [exact att_len|]. split; [exact att_varies|]. split; [exact Hu|]. split; [|split].
    - intros i j Hi Hj. rewrite att_get by auto. destruct (_ =? _)%nat; lra.
    - intros i Hi. split; [apply att_row; auto|]. rewrite att_get by auto. destruct (Nat.eqb_spec i (target i)) as [E|]; [|reflexivity]. destruct (att_target i) as [_ H]. congruence.
    - eexists. split; [apply LMI_list; [exact att_varies|rewrite att_len; exact Hu]|]. rewrite att_len, nth_tab by lia. unfold local_moran. rewrite att_len, att_powers.
      rewrite (sum_n_ext n _ (fun j => (if (j =? target 0)%nat then 1 else 0) * value j)).
      2:{ intros j Hj. unfold by_column. rewrite att_row, att_get, att_dev by (auto; lia). unfold Rdiv. rewrite Rinv_1. ring. }
      rewrite (sum_n_one n (target 0) value) by apply att_target. rewrite att_dev by lia. cbn. assert (0 < INR n) by (apply lt_0_INR; lia). field. lra.
  Qed.
End Attained.

(** ** mean *)
Lemma local_mean y w Ps : all_permutations (length y) Ps -> varies y -> usable w (length y) ->
  exists L, (forall q, In q Ps -> spatiotemporal_LMI (relabel_vector q y) w = Ok (map Fin (L q))) /\
    forall i, (i < length y)%nat ->
      mean_over Ps (fun q => nth i (L q) 0) =
        by_column w (length y) i i - (sum_n (length y) (by_column w (length y) i) - by_column w (length y) i i) / (INR (length y) - 1).
Proof.
  intros HPs Hy Hu. set (n := length y) in *. set (v := by_column w n).
  exists (fun q => map (local_moran (relabel_vector q y) v) (seq 0 n)). split.
  - intros q Hq. assert (HL : length (relabel_vector q y) = n) by (apply relabel_len, HPs; auto).
    rewrite LMI_list; [rewrite HL; reflexivity| |rewrite HL; exact Hu]. apply relabel_varies; auto. apply HPs; auto.
  - intros i Hi. pose proof (varies_n y Hy) as Hn. fold n in Hn. pose proof (powers_pos y Hy) as HP.
    assert (Hx : 2 <= INR n) by (pose proof (le_INR 2 n Hn) as H; simpl in H; lra). set (m2 := sum_of_powers y 2) in *.
    rewrite (mean_ext Ps _ (fun q => INR n / m2 * sum_n n (fun j => v i j * (deviation y (nth i q 0%nat) * deviation y (nth j q 0%nat))))).
    2:{ intros q Hq. assert (Hp : Permutation q (seq 0 n)) by (apply HPs; auto). rewrite nth_tab by auto. unfold local_moran.
        rewrite (relabel_len y q Hp). fold n. rewrite (relabel_powers y q Hp). fold m2. rewrite (relabel_dev y q Hp) by auto.
        rewrite (sum_n_ext n (fun j => v i j * (_ * _)) (fun j => deviation y (nth i q 0%nat) * (v i j * deviation y (nth j q 0%nat)))) by (intros; ring). rewrite sum_n_scal.
        rewrite (sum_n_ext n (fun j => v i j * deviation (relabel_vector q y) j) (fun j => v i j * deviation y (nth j q 0%nat))) by (intros j Hj; rewrite (relabel_dev y q Hp) by auto; reflexivity).
        field. lra. }
    rewrite mean_scal. rewrite <- (mean_sum Ps n (fun p j => v i j * (deviation y (nth i p 0%nat) * deviation y (nth j p 0%nat)))).
    set (e := - (m2 / INR n) / (INR n - 1)).
    assert (E : forall j, (j < n)%nat -> mean_over Ps (fun p => v i j * (deviation y (nth i p 0%nat) * deviation y (nth j p 0%nat))) = e * v i j + (if (j =? i)%nat then 1 else 0) * ((m2 / INR n - e) * v i j)).
    { intros j Hj. rewrite mean_scal. destruct (Nat.eqb_spec j i) as [->|Hji].
      - pose proof (one_position n Ps HPs (deviation y) (fun t => t ^ 2) i Hi) as O. cbv beta in O. change (sum_n n (fun j => deviation y j ^ 2)) with m2 in O.
        rewrite (mean_ext Ps _ (fun p => deviation y (nth i p 0%nat) ^ 2)) by (intros; ring).
        assert (O' : mean_over Ps (fun p => deviation y (nth i p 0%nat) ^ 2) = m2 / INR n) by (rewrite <- O; field; lra). rewrite O'. ring.
      - pose proof (E11 n Ps HPs (deviation y) (dev_sum y) i j Hi Hj (not_eq_sym Hji)) as O. change (sum_n n (fun i => deviation y i ^ 2)) with m2 in O.
        assert (O' : mean_over Ps (fun p => deviation y (nth i p 0%nat) * deviation y (nth j p 0%nat)) = e) by (unfold e; rewrite <- O; field; lra). rewrite O'. ring. }
    rewrite (sum_n_ext n _ _ E), sum_n_add, sum_n_scal, (sum_n_one n i (fun j => (m2 / INR n - e) * v i j) Hi). unfold e. fold v. change (sum_n n (fun i0 => v i i0)) with (sum_n n (v i)). field. lra.
Qed.

Lemma local_mean_equal y w Ps s : all_permutations (length y) Ps -> varies y -> rect w (length y) (length y) -> s <> 0 ->
  (forall i, (i < length y)%nat -> row_sum w (length y) i = s /\ mget 0 w i i = 0) ->
  exists L, (forall q, In q Ps -> spatiotemporal_LMI (relabel_vector q y) w = Ok (map Fin (L q))) /\
    forall i, (i < length y)%nat -> mean_over Ps (fun q => nth i (L q) 0) = -1 / (INR (length y) - 1).
Proof.
  intros HPs Hy HR Hs H. pose proof (varies_n y Hy) as Hn. assert (Hx : 2 <= INR (length y)) by (pose proof (le_INR 2 _ Hn) as G; simpl in G; lra).
  destruct (local_mean y w Ps HPs Hy) as (L & A & B); [apply (equal_usable w _ s); auto; [lia|intros i Hi; apply H; auto]|]. exists L. split; [exact A|]. intros i Hi. rewrite B by auto.
  rewrite (sum_n_ext _ (by_column w (length y) i) (fun j => / s * mget 0 w i j)) by (intros j Hj; unfold by_column; rewrite (proj1 (H j Hj)); unfold Rdiv; ring).
  rewrite sum_n_scal. assert (D : by_column w (length y) i i = 0) by (unfold by_column; rewrite (proj2 (H i Hi)); unfold Rdiv; ring).
  assert (R1 : sum_n (length y) (fun j => mget 0 w i j) = s) by apply (H i Hi). change (sum_n (length y) (mget 0 w i) = s) in R1. rewrite D. 
  match goal with |- (0 - (/ s * ?t - 0) / _) = _ => change t with (sum_n (length y) (mget 0 w i)) end. rewrite R1. field. split; [lra|auto].
Qed.

Lemma local_mean_refuted : exists y w Ps, all_permutations (length y) Ps /\ varies y /\ usable w (length y) /\ nonnegative w (length y) /\
  (forall i, (i < length y)%nat -> mget 0 w i i = 0) /\
  exists L, (forall q, In q Ps -> spatiotemporal_LMI (relabel_vector q y) w = Ok (map Fin (L q))) /\
    mean_over Ps (fun q => nth 0 (L q) 0) < -1 / (INR (length y) - 1) < mean_over Ps (fun q => nth 2 (L q) 0).
Proof.
  exists y3, w3, (every_perm 3). change (length y3) with 3%nat. split; [apply every_perm_ok|]. split; [exact y3_varies|]. split; [exact w3_usable|]. split; [exact w3_nonneg|]. split; [exact w3_diag|].
  destruct (local_mean y3 w3 (every_perm 3) (every_perm_ok 3) y3_varies w3_usable) as (L & A & B). exists L. split; [exact A|]. change (length y3) with 3%nat in B. rewrite !B by lia.
  small3. unfold by_column. rewrite w3_row0, w3_row1, w3_row2. unfold mget, w3. cbn [nth]. simpl INR. lra.
Qed.
