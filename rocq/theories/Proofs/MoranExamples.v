From Coq Require Import Lra Psatz Permutation ListDec.
From Verif.Model Require Import Base Ext Moran.
From Verif.Spec Require Import MoranSpec.
From Verif.Proofs Require Import ListFacts SumFacts NeighbourFacts CsrFacts MoranFacts MoranProps MoranMoments MoranRandom.
Open Scope nat_scope.
Open Scope R_scope.

(** Every n has its list of rearrangements. *)
Fixpoint words (k n : nat) : list (list nat) :=
  match k with O => [[]] | S k => flat_map (fun x => map (cons x) (words k n)) (seq 0 n) end.

Lemma words_in k n p : In p (words k n) <-> length p = k /\ (forall x, In x p -> (x < n)%nat).
Proof.
  revert p; induction k as [|k IH]; intros p; simpl.
  - split; [intros [<- | []]; split; auto; intros x []|]. intros [H _]. left. destruct p; [auto|simpl in H; lia].
  - rewrite in_flat_map. split.
    + intros (x & Hx & Hp). apply in_map_iff in Hp as (q & <- & Hq). apply IH in Hq as [H1 H2]. apply in_seq in Hx. split; [simpl; lia|]. intros z [<- | Hz]; [lia|auto].
    + intros [H1 H2]. destruct p as [|x q]; [simpl in H1; lia|]. exists x. split; [apply in_seq; specialize (H2 x (or_introl eq_refl)); lia|].
      apply in_map, IH. split; [simpl in H1; lia|]. intros z Hz. apply H2. right; auto.
Qed.

Definition every_perm (n : nat) : list (list nat) :=
  nodup (list_eq_dec Nat.eq_dec) (filter (fun p => if NoDup_dec Nat.eq_dec p then true else false) (words n n)).

Lemma every_perm_ok n : all_permutations n (every_perm n).
Proof.
  split; [apply NoDup_nodup|]. intros p. unfold every_perm. rewrite nodup_In, filter_In, words_in. split.
  - intros [[H1 H2] H3]. destruct (NoDup_dec Nat.eq_dec p); [|discriminate]. apply NoDup_Permutation_bis; auto.
    + rewrite seq_length. lia.
    + intros x Hx. apply in_seq. specialize (H2 x Hx). lia.
  - intros H. split; [split|].
    + rewrite (Permutation_length H). apply seq_length.
    + intros x Hx. apply (Permutation_in _ H) in Hx. apply in_seq in Hx. lia.
    + destruct (NoDup_dec Nat.eq_dec p) as [ | Hn]; auto. exfalso. apply Hn. apply (Permutation_NoDup (Permutation_sym H)), seq_NoDup.
Qed.

(** A ring of four places, and a line of four. *)
Definition ring4 : matrix R := [[0; 1; 0; 1]; [1; 0; 1; 0]; [0; 1; 0; 1]; [1; 0; 1; 0]].
Definition line4 : matrix R := [[0; 1; 0; 0]; [1; 0; 1; 0]; [0; 1; 0; 1]; [0; 0; 1; 0]].
Definition y4 : list R := [0; 0; 1; 3].

Ltac sums := unfold S0, S1, S2, row_sum, sum_n; cbn [seq map]; rewrite ?Rsum_cons, ?Rsum_nil; unfold by_column, by_row, row_sum, sum_n; cbn [seq map]; rewrite ?Rsum_cons, ?Rsum_nil; unfold mget; cbn [nth].
Ltac rect4 := split; [reflexivity|repeat constructor].
Ltac lt4 i H := repeat (destruct i as [|i]; [|try lia]).

Lemma y4_varies : varies y4.
Proof. exists 0%nat, 2%nat. cbn. repeat split; try lia. lra. Qed.

Lemma ring4_usable : usable ring4 4.
Proof.
  split; [rect4|]. split.
  - intros i Hi. lt4 i Hi; sums; unfold ring4; cbn [nth]; lra.
  - sums. unfold ring4. cbn [nth]. lra.
Qed.
Lemma line4_usable : usable line4 4.
Proof.
  split; [rect4|]. split.
  - intros i Hi. lt4 i Hi; sums; unfold line4; cbn [nth]; lra.
  - sums. unfold line4. cbn [nth]. lra.
Qed.
Lemma ring4_rows i : (i < 4)%nat -> row_sum ring4 4 i = 2.
Proof. intros Hi. lt4 i Hi; sums; unfold ring4; cbn [nth]; lra. Qed.
Lemma ring4_diag i : (i < 4)%nat -> mget 0 ring4 i i = 0.
Proof. intros Hi. lt4 i Hi; reflexivity. Qed.
Lemma line4_sym : symmetric line4 4.
Proof. intros i j Hi Hj. lt4 i Hi; lt4 j Hj; reflexivity. Qed.

Lemma ring4_gap : (INR 4 ^ 2 - INR 4) * S1 4 (by_column ring4 4) - 2 * INR 4 * S2 4 (by_column ring4 4) + 6 * S0 4 (by_column ring4 4) ^ 2 = 16.
Proof. sums. unfold ring4. cbn [nth]. replace (INR 4) with 4 by (simpl; ring). field. Qed.

Lemma kurtosis_pos y : varies y -> 0 < kurtosis y.
Proof.
  intros Hv. pose proof (powers_pos y Hv). pose proof (varies_n y Hv). assert (0 < INR (length y)) by (apply lt_0_INR; lia).
  assert (H4 : 0 < sum_of_powers y 4).
  { destruct Hv as (i & j & Hi & Hj & Hne).
    assert (Hd : deviation y i <> 0 \/ deviation y j <> 0).
    { destruct (Req_EM_T (deviation y i) 0) as [E1 | ]; [|auto]. destruct (Req_EM_T (deviation y j) 0) as [E2 | ]; [|auto]. exfalso. apply Hne. unfold deviation in *. lra. }
    assert (Hp : forall t, 0 <= t ^ 4) by (intros t; replace (t ^ 4) with ((t * t) * (t * t)) by ring; apply Rle_0_sqr).
    assert (Hq : forall t, t <> 0 -> 0 < t ^ 4) by (intros t Ht; replace (t ^ 4) with ((t * t) * (t * t)) by ring; assert (0 < t * t) by (apply Rsqr_pos_lt; auto); nra).
    unfold sum_of_powers. destruct Hd; [apply (sum_n_pos _ _ i)|apply (sum_n_pos _ _ j)]; auto. }
  unfold kurtosis. apply Rdiv_lt_0_compat; [apply Rdiv_lt_0_compat; auto|]. apply pow_lt. apply Rdiv_lt_0_compat; auto.
Qed.

(** C74 *)
Lemma two_variances cdf y w : varies y -> usable w (length y) -> (4 <= length y)%nat ->
  let n := length y in let v := by_column w n in let x := INR n in
  exists I E V V' p, spatiotemporal_MI y w = Ok (I, E, Fin V) /\ STMI cdf y w = Ok (I, E, Fin V', p) /\
    V' = randomisation_variance n v (kurtosis y) /\ V = randomisation_variance n v (kurtosis y / x) /\
    V - V' = (kurtosis y - kurtosis y / x) * ((x ^ 2 - x) * S1 n v - 2 * x * S2 n v + 6 * S0 n v ^ 2) / ((x - 1) * (x - 2) * (x - 3) * S0 n v ^ 2) /\
    (V = V' <-> (x ^ 2 - x) * S1 n v - 2 * x * S2 n v + 6 * S0 n v ^ 2 = 0).
Proof.
  intros Hv Hu Hn n v x. destruct (STMI_ok cdf y w Hv Hu Hn) as (p & E & _). eexists _, _, _, _, p. split; [exact (MI_ok y w Hv Hu Hn)|]. split; [exact E|].
  split; [reflexivity|]. split; [reflexivity|]. assert (HS : S0 n v <> 0) by apply Hu.
  pose proof (variance_gap n v (kurtosis y / x) (kurtosis y) Hn HS) as G. change (length y) with n. fold v x. fold x in G. split; [exact G|].
  assert (Hx : 4 <= x) by (pose proof (le_INR 4 n Hn) as H; replace (INR 4) with 4 in H by (simpl; ring); exact H).
  set (s5 := (x ^ 2 - x) * S1 n v - 2 * x * S2 n v + 6 * S0 n v ^ 2) in *. pose proof (kurtosis_pos y Hv) as HK.
  assert (HC : (x - 1) * (x - 2) * (x - 3) * S0 n v ^ 2 <> 0) by (repeat apply Rmult_integral_contrapositive_currified; auto; lra).
  assert (HB : kurtosis y - kurtosis y / x <> 0).
  { assert (0 < kurtosis y * (1 - / x)); [|unfold Rdiv; lra]. apply Rmult_lt_0_compat; auto. assert (/ x <= / 4) by (apply Rinv_le_contravar; lra). lra. }
  split; intros H.
  - assert (Z : forall t : R, t - t = 0) by (intros; ring). rewrite H, Z in G. symmetry in G. unfold Rdiv in G. apply Rmult_integral in G as [G | G]; [|apply Rinv_neq_0_compat in HC; contradiction].
    apply Rmult_integral in G as [G | G]; [contradiction|auto].
  - rewrite H in G. unfold Rdiv in G. lra.
Qed.

(** C97 *)
Lemma p_value Phi y w : (forall a b, a < b -> Phi a < Phi b) -> Phi 0 = 1 / 2 ->
  varies y -> usable w (length y) -> (4 <= length y)%nat ->
  let n := length y in let v := by_column w n in
  0 < randomisation_variance n v (kurtosis y) ->
  exists I E V p, STMI (fun z => match z with Fin t => Fin (Phi t) | _ => NaN end) y w = Ok (Fin I, Fin E, Fin V, Fin p) /\
    p = Phi ((I - E) / sqrt V) /\ (p > 1 / 2 <-> I > E) /\ (p < 1 / 2 <-> I < E).
Proof.
  intros Hinc H0 Hv Hu Hn n v HV. destruct (STMI_ok (fun z => match z with Fin t => Fin (Phi t) | _ => NaN end) y w Hv Hu Hn) as (p & E & Ep).
  fold n v in E, Ep. set (V := randomisation_variance n v (kurtosis y)) in *. set (I := moran_I y v) in *. set (e := -1 / (INR n - 1)) in *.
  assert (Hs : 0 < sqrt V) by (apply sqrt_lt_R0; auto). unfold esqrt in Ep. destruct (Rlt_dec V 0); [lra|]. rewrite ediv_fin in Ep by lra. subst p.
  exists I, e, V, (Phi ((I - e) / sqrt V)). split; [exact E|]. split; [reflexivity|].
  assert (Hsgn : forall z, (0 < z / sqrt V <-> 0 < z) /\ (z / sqrt V < 0 <-> z < 0)).
  { intros z. assert (Hi : 0 < / sqrt V) by (apply Rinv_0_lt_compat; auto). unfold Rdiv. split; split; intros; nra. }
  destruct (Hsgn (I - e)) as [[A1 A2] [B1 B2]]. set (t := (I - e) / sqrt V) in *.
  assert (P : (Phi t > 1 / 2 <-> 0 < t) /\ (Phi t < 1 / 2 <-> t < 0)).
  { rewrite <- H0. destruct (Rtotal_order t 0) as [Ht | [Ht | Ht]].
    - pose proof (Hinc _ _ Ht). lra.
    - rewrite Ht. lra.
    - pose proof (Hinc _ _ Ht). lra. }
  destruct P as [P1 P2]. rewrite P1, P2. split; split; intros; lra.
Qed.

(** ** degenerate inputs *)
Lemma eadd_nan_r a : eadd a NaN = NaN. Proof. destruct a; reflexivity. Qed.
Lemma esum_nan l : In NaN l -> esum l = NaN.
Proof.
  unfold esum. induction l as [|x l IH]; [intros []|]. intros [-> | H]; simpl; [reflexivity|]. rewrite IH by auto. apply eadd_nan_r.
Qed.
Lemma emul_nan_r a : emul a NaN = NaN. Proof. destruct a; cbn; try reflexivity. destruct (Rlt_dec 0 r); [reflexivity|]. destruct (Rlt_dec r 0); reflexivity. Qed.
Lemma emul_nan_l a : emul NaN a = NaN. Proof. reflexivity. Qed.
Lemma ediv_nan_r a : ediv a NaN = NaN. Proof. destruct a; reflexivity. Qed.
Lemma ediv_nan_l a : ediv NaN a = NaN. Proof. destruct a; reflexivity. Qed.

Lemma zero_row_total w n j : rect w n n -> (forall i k, (i < n)%nat -> (k < n)%nat -> 0 <= mget 0 w i k) -> (j < n)%nat -> row_sum w n j = 0 -> total (standardise w) = NaN.
Proof.
  intros HR Hnn Hj H0. pose proof (standardise_zero_row w n j HR Hnn Hj H0) as Z. unfold total. apply esum_nan.
  assert (HLw : length w = n) by apply HR. assert (HLj : length (nth j w []) = n) by (apply (rect_row w n n); auto).
  apply in_map_iff. exists (nth j (standardise w) []). split.
  - apply esum_nan. unfold mget in Z. rewrite <- Z. apply nth_In. unfold standardise. rewrite (nth_map_in _ _ _ []) by lia. rewrite map2_length, map_length. lia.
  - apply nth_In. unfold standardise. rewrite map_length. lia.
Qed.

Lemma zero_row cdf y w j : (2 <= length y)%nat -> rect w (length y) (length y) -> (forall i k, (i < length y)%nat -> (k < length y)%nat -> 0 <= mget 0 w i k) ->
  (j < length y)%nat -> row_sum w (length y) j = 0 ->
  (exists E V, spatiotemporal_MI y w = Ok (NaN, E, V)) /\ (exists E V p, STMI cdf y w = Ok (NaN, E, V, p)).
Proof.
  intros Hn HR Hnn Hj H0. pose proof (zero_row_total w _ j HR Hnn Hj H0) as T. unfold spatiotemporal_MI, STMI. rewrite (square_ok _ _ HR), T. cbn [negb].
  destruct (Nat.eqb_spec (length y) 1); [lia|]. destruct (Nat.eqb_spec (length y) 0); [lia|].
  rewrite ediv_nan_r, !emul_nan_l, ediv_nan_l, ediv_nan_r. split; [eexists _, _; reflexivity|eexists _, _, _; reflexivity].
Qed.

Lemma std_zero y : ~ varies y -> np_std y = 0.
Proof.
  intros Hv. pose proof (powers_zero y Hv) as Hd. unfold np_std.
  rewrite (map_tab 0 _ y). rewrite (Rsum_map_ext _ (fun _ => 0)) by (intros i Hi; apply in_seq in Hi; rewrite dev_eq, Hd by lia; ring).
  rewrite Rsum_map_const, Rmult_0_r. unfold Rdiv. rewrite Rmult_0_l. apply sqrt_0.
Qed.

Lemma constant_MI y w : ~ varies y -> (2 <= length y)%nat -> rect w (length y) (length y) -> exists E V, spatiotemporal_MI y w = Ok (NaN, E, V).
Proof.
  intros Hv Hn HR. unfold spatiotemporal_MI. rewrite (square_ok _ _ HR), (std_zero y Hv). cbn [negb].
  destruct (Nat.eqb_spec (length y) 1); [lia|].
  assert (Z : esum (map esquare (map (fun v => ediv (Fin (v - np_mean y)) (Fin 0)) y)) = NaN).
  { apply esum_nan. rewrite map_map. apply in_map_iff. exists (nth 0 y 0). split; [|apply nth_In; lia]. rewrite dev_eq by lia. rewrite powers_zero by (auto; lia).
    simpl. destruct (Req_EM_T 0 0); [|lra]. destruct (Rlt_dec 0 0); [lra|]. reflexivity. }
  rewrite Z, ediv_nan_r. eexists _, _. reflexivity.
Qed.

(** ** refutations *)
Definition w2s : matrix R := [[1; 1]; [1; 0]].
Definition w2a : matrix R := [[1; 1]; [0; 1]].
Definition y2 : list R := [0; 1].

Lemma y2_varies : varies y2.
Proof. exists 0%nat, 1%nat. cbn. repeat split; try lia. lra. Qed.
Lemma w2s_usable : usable w2s 2.
Proof.
  split; [rect4|]. split; [intros i Hi; lt4 i Hi; sums; unfold w2s; cbn [nth]; lra|]. sums. unfold w2s. cbn [nth]. lra.
Qed.
Lemma w2a_usable : usable w2a 2.
Proof.
  split; [rect4|]. split; [intros i Hi; lt4 i Hi; sums; unfold w2a; cbn [nth]; lra|]. sums. unfold w2a. cbn [nth]. lra.
Qed.

Lemma y2_dev : deviation y2 0 = - (1 / 2) /\ deviation y2 1 = 1 / 2 /\ sum_of_powers y2 2 = 1 / 2.
Proof.
  assert (A : deviation y2 0 = - (1 / 2)) by (unfold deviation, y2, sum_n; cbn [length seq map nth]; rewrite !Rsum_cons, Rsum_nil; change (INR 2) with 2; field).
  assert (B : deviation y2 1 = 1 / 2) by (unfold deviation, y2, sum_n; cbn [length seq map nth]; rewrite !Rsum_cons, Rsum_nil; change (INR 2) with 2; field).
  split; [auto|split; [auto|]]. unfold sum_of_powers, sum_n. cbn [length seq map y2]. fold y2. rewrite !Rsum_cons, Rsum_nil, A, B. field.
Qed.

Lemma rows_refuted_local : local_moran y2 (by_column w2s 2) 0 <> local_moran y2 (by_row w2s 2) 0.
Proof.
  destruct y2_dev as (A & B & C). unfold local_moran. change (length y2) with 2%nat. unfold sum_n at 1 2. cbn [seq map]. rewrite !Rsum_cons, !Rsum_nil, A, B, C.
  sums. unfold w2s. cbn [nth]. change (INR 2) with 2. lra.
Qed.
Lemma rows_refuted_global : moran_I y2 (by_column w2a 2) <> moran_I y2 (by_row w2a 2).
Proof.
  destruct y2_dev as (A & B & C). rewrite !moran_I_eq. unfold quad. change (length y2) with 2%nat. rewrite C. unfold sum_n. cbn [seq map]. rewrite !Rsum_cons, !Rsum_nil, A, B.
  sums. unfold w2a. cbn [nth]. change (INR 2) with 2. lra.
Qed.

Lemma affine_I cdf a b y w : a <> 0 -> varies y -> usable w (length y) ->
  let y' := map (fun t => a * t + b) y in
  exists I E V V' U U' p p', spatiotemporal_MI y w = Ok (I, E, V) /\ spatiotemporal_MI y' w = Ok (I, E, V') /\
    STMI cdf y w = Ok (I, E, U, p) /\ STMI cdf y' w = Ok (I, E, U', p').
Proof.
  intros Ha Hv Hu y'. assert (HL : length y' = length y) by apply map_length.
  assert (Hv' : varies y') by (apply aff_varies; auto). assert (Hu' : usable w (length y')) by (rewrite HL; auto).
  destruct (MI_I y w Hv Hu) as [V HV]. destruct (MI_I y' w Hv' Hu') as [V' HV']. destruct (STMI_I cdf y w Hv Hu) as (U & p & HU). destruct (STMI_I cdf y' w Hv' Hu') as (U' & p' & HU').
  rewrite HL in HV', HU'. unfold y' in HV', HU'. rewrite aff_I in HV', HU' by (auto; apply Hu). fold y' in HV', HU'. eexists _, _, V, V', U, U', p, p'. eauto.
Qed.

Lemma equal_rows_ok cdf y w s : varies y -> usable w (length y) -> (forall i, (i < length y)%nat -> row_sum w (length y) i = s) ->
  (exists E V p, STMI cdf y w = Ok (Fin (moran_I y (by_row w (length y))), E, V, p)) /\
  spatiotemporal_LMI y w = Ok (map (fun i => Fin (local_moran y (by_row w (length y)) i)) (seq 0 (length y))).
Proof.
  intros Hv Hu Hs. pose proof (equal_rows w (length y) s Hs) as E. split.
  - destruct (STMI_I cdf y w Hv Hu) as (V & p & H). rewrite (moran_I_ext y _ _ E) in H. eauto.
  - rewrite (LMI_local y w Hv Hu). f_equal. apply map_ext_in. intros i Hi. apply in_seq in Hi. f_equal. apply local_ext. intros j Hj. apply E; auto; lia.
Qed.

Lemma symmetric_ok cdf y w : varies y -> rect w (length y) (length y) -> symmetric w (length y) -> (forall i, (i < length y)%nat -> row_sum w (length y) i <> 0) -> (4 <= length y)%nat ->
  exists E p, STMI cdf y w = Ok (Fin (moran_I y (by_row w (length y))), E, Fin (randomisation_variance (length y) (by_row w (length y)) (kurtosis y)), p).
Proof.
  intros Hv HR Hsym Hs Hn. assert (Hu : usable w (length y)) by (apply sym_usable; auto; lia).
  destruct (STMI_ok cdf y w Hv Hu Hn) as (p & H & _). rewrite sym_I, sym_variance in H by auto. eauto.
Qed.

Lemma relabel_example : Permutation [2; 0; 3; 1]%nat (seq 0 4).
Proof. simpl. change [2; 0; 3; 1]%nat with ([2]%nat ++ [0; 3; 1]%nat)%list. apply NoDup_Permutation_bis; [repeat (constructor; [simpl; intuition lia|]); constructor|simpl; lia|]. intros x Hx. simpl in *. intuition lia. Qed.

(** Without the zero diagonal the expectation is not the mean. *)
Definition diag2 : matrix R := [[1; 0]; [0; 1]].
Lemma diag2_usable : usable diag2 2.
Proof.
  split; [rect4|]. split; [intros i Hi; lt4 i Hi; sums; unfold diag2; cbn [nth]; lra|]. sums. unfold diag2. cbn [nth]. lra.
Qed.
Lemma diag2_I y : varies y -> length y = 2%nat -> moran_I y (by_column diag2 2) = 1.
Proof.
  intros Hv HL. pose proof (powers_pos y Hv) as HP. rewrite moran_I_eq. unfold quad. unfold sum_of_powers in *. rewrite HL in *. unfold sum_n in *. cbn [seq map] in *. rewrite !Rsum_cons, !Rsum_nil in *.
  sums. unfold diag2. cbn [nth]. change (INR 2) with 2. field. lra.
Qed.
Lemma diagonal_matters cdf Ps : all_permutations 2 Ps ->
  exists E V p, STMI cdf y2 diag2 = Ok (Fin 1, Fin E, V, p) /\ E = -1 /\ mean_over Ps (fun q => moran_I (relabel_vector q y2) (by_column diag2 2)) = 1.
Proof.
  intros HPs. destruct (STMI_I cdf y2 diag2 y2_varies diag2_usable) as (V & p & H). change (length y2) with 2%nat in H. rewrite (diag2_I y2 y2_varies eq_refl) in H.
  eexists _, V, p. split; [exact H|]. split; [change (INR 2) with 2; lra|].
  rewrite (mean_ext Ps _ (fun _ => 1)); [apply (mean_const 2 Ps HPs)|]. intros q Hq. apply HPs in Hq.
  apply diag2_I; [apply (relabel_varies y2 q Hq y2_varies)|apply (relabel_len y2 q Hq)].
Qed.

Lemma ring4_variance_pos : 0 < randomisation_variance 4 (by_column ring4 4) (kurtosis y4).
Proof.
  assert (D : deviation y4 0 = -1 /\ deviation y4 1 = -1 /\ deviation y4 2 = 0 /\ deviation y4 3 = 2).
  { unfold deviation, y4, sum_n; cbn [length seq map nth]; rewrite !Rsum_cons, Rsum_nil. replace (INR 4) with 4 by (simpl; ring). repeat split; field. }
  destruct D as (D0 & D1 & D2 & D3).
  assert (K : kurtosis y4 = 2).
  { unfold kurtosis, sum_of_powers, sum_n. change (length y4) with 4%nat. cbn [seq map]. rewrite !Rsum_cons, Rsum_nil, D0, D1, D2, D3. replace (INR 4) with 4 by (simpl; ring). field. }
  assert (A0 : S0 4 (by_column ring4 4) = 4) by (sums; unfold ring4; cbn [nth]; field).
  assert (A1 : S1 4 (by_column ring4 4) = 4) by (sums; unfold ring4; cbn [nth]; field).
  assert (A2' : S2 4 (by_column ring4 4) = 16) by (sums; unfold ring4; cbn [nth]; field).
  unfold randomisation_variance. rewrite K, A0, A1, A2'. replace (INR 4) with 4 by (simpl; ring). lra.
Qed.

(** A strictly increasing function with value 1/2 at 0. *)
Definition Phi0 (t : R) : R := t + 1 / 2.
