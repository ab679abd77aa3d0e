(** The Moran diagram. *)
From Coq Require Import Lra Lia Psatz.
From Verif.Model Require Import Base Ext Moran.
From Verif.Spec Require Import MoranSpec.
From Verif.Proofs Require Import ListFacts CsrFacts SumFacts MoranFacts MoranProps.
Open Scope nat_scope.
Open Scope R_scope.

Lemma squared_error_sum n (x z : nat -> R) b :
  squared_error (map x (seq 0 n)) (map z (seq 0 n)) b = sum_n n (fun i => (z i - b * x i) ^ 2).
Proof. unfold squared_error, sum_n. rewrite map2_map. reflexivity. Qed.

Lemma sum_n_plus n f g : sum_n n (fun i => f i + g i) = sum_n n f + sum_n n g.
Proof. unfold sum_n. apply Rsum_map_plus. Qed.

Lemma squared_error_quadratic n (x z : nat -> R) b :
  sum_n n (fun i => (z i - b * x i) ^ 2) =
  sum_n n (fun i => z i ^ 2) - 2 * b * sum_n n (fun i => x i * z i) + b * b * sum_n n (fun i => x i ^ 2).
Proof.
  rewrite <- !sum_n_scal.
  transitivity (sum_n n (fun i => z i ^ 2 + ((-1) * (2 * b * (x i * z i)) + b * b * x i ^ 2))).
  - apply sum_n_ext. intros. ring.
  - rewrite !sum_n_plus, sum_n_scal. ring.
Qed.

(** The minimiser is unique when the abscissae are not all zero. *)
Lemma least_squares_slope slope_of n (x z : nat -> R) :
  least_squares slope_of -> 0 < sum_n n (fun i => x i ^ 2) ->
  slope_of (map x (seq 0 n)) (map z (seq 0 n)) = sum_n n (fun i => x i * z i) / sum_n n (fun i => x i ^ 2).
Proof.
  intros HL HP. set (b := slope_of _ _).
  set (X := sum_n n (fun i => x i ^ 2)) in *. set (Y := sum_n n (fun i => x i * z i)).
  pose proof (HL (map x (seq 0 n)) (map z (seq 0 n)) (Y / X) ltac:(rewrite !map_length; reflexivity)) as H.
  fold b in H. rewrite !squared_error_sum, !squared_error_quadratic in H. fold X Y in H.
  set (Z := sum_n n (fun i => z i ^ 2)) in H.
  assert (HE : X * ((b - Y / X) * (b - Y / X)) <= 0).
  { replace (X * ((b - Y / X) * (b - Y / X))) with
      ((Z - 2 * b * Y + b * b * X) - (Z - 2 * (Y / X) * Y + Y / X * (Y / X) * X)) by (field; lra). lra. }
  assert (HS : (b - Y / X) * (b - Y / X) <= 0).
  { apply Rnot_lt_le. intros C. pose proof (Rmult_lt_0_compat _ _ HP C). lra. }
  assert (b - Y / X = 0) by nra. lra.
Qed.

Lemma powers2_pos y : varies y -> 0 < sum_of_powers y 2.
Proof.
  intros (i & j & Hi & Hj & N). unfold sum_of_powers.
  destruct (Req_dec (deviation y i) 0) as [E|E].
  - assert (E' : deviation y j <> 0) by (unfold deviation in *; lra).
    apply (sum_n_pos _ _ j); auto; [intros; apply pow2_nonneg|]. nra.
  - apply (sum_n_pos _ _ i); auto; [intros; apply pow2_nonneg|]. nra.
Qed.

Definition lag (y : list R) (w : matrix R) (i : nat) : R := sum_n (length y) (fun j => mget 0 w i j * deviation y j).

Lemma center_tab y : map (fun v => v - np_mean y) y = map (deviation y) (seq 0 (length y)).
Proof.
  rewrite (map_tab 0 (fun v => v - np_mean y) y). apply map_ext_in. intros i Hi. apply in_seq in Hi. apply dev_eq. lia.
Qed.
Lemma lag_tab y w : rect w (length y) (length y) ->
  map (fun row => Rsum (map2 Rmult row (map (deviation y) (seq 0 (length y))))) w = map (lag y w) (seq 0 (length y)).
Proof.
  intros HR. rewrite (matrix_tab 0 w _ _ HR) at 1. unfold sq. rewrite map_map. apply map_ext_in. intros i Hi. rewrite map2_map. reflexivity.
Qed.

Lemma fold_min_spec cs : forall c, In (fold_left Rmin cs c) (c :: cs) /\ forall v, In v (c :: cs) -> fold_left Rmin cs c <= v.
Proof.
  induction cs as [|a cs IH]; intros c; simpl.
  - split; [auto|]. intros v [<- | []]. lra.
  - destruct (IH (Rmin c a)) as [H1 H2]. split.
    + destruct H1 as [H1|H1]; [|auto]. rewrite <- H1. unfold Rmin. destruct (Rle_dec c a); auto.
    + intros v Hv. pose proof (H2 (Rmin c a) (or_introl eq_refl)).
      pose proof (Rmin_l c a). pose proof (Rmin_r c a).
      destruct Hv as [<-|[<-|Hv]]; [lra|lra|]. apply H2. simpl; auto.
Qed.
Lemma fold_max_spec cs : forall c, In (fold_left Rmax cs c) (c :: cs) /\ forall v, In v (c :: cs) -> v <= fold_left Rmax cs c.
Proof.
  induction cs as [|a cs IH]; intros c; simpl.
  - split; [auto|]. intros v [<- | []]. lra.
  - destruct (IH (Rmax c a)) as [H1 H2]. split.
    + destruct H1 as [H1|H1]; [|auto]. rewrite <- H1. unfold Rmax. destruct (Rle_dec c a); auto.
    + intros v Hv. pose proof (H2 (Rmax c a) (or_introl eq_refl)).
      pose proof (Rmax_l c a). pose proof (Rmax_r c a).
      destruct Hv as [<-|[<-|Hv]]; [lra|lra|]. apply H2. simpl; auto.
Qed.

Lemma diagram slope_of y w : least_squares slope_of -> varies y -> rect w (length y) (length y) ->
  exists lo hi b,
    plot_moran_diagram slope_of y w =
      Ok (map (fun i => (deviation y i, sum_n (length y) (fun j => mget 0 w i j * deviation y j))) (seq 0 (length y)),
          ((lo, b * lo), (hi, b * hi))) /\
    b = sum_n (length y) (fun i => sum_n (length y) (fun j => mget 0 w i j * deviation y i * deviation y j)) / sum_of_powers y 2 /\
    (exists i, (i < length y)%nat /\ lo = deviation y i) /\ (exists i, (i < length y)%nat /\ hi = deviation y i) /\
    (forall i, (i < length y)%nat -> lo <= deviation y i <= hi).
Proof.
  intros HL HV HR. unfold plot_moran_diagram. rewrite (square_ok _ _ HR). cbn [negb].
  rewrite center_tab, lag_tab by auto. set (n := length y) in *.
  assert (Hn : (0 < n)%nat) by (destruct HV as (i & _ & Hi & _); unfold n; lia).
  destruct (map (deviation y) (seq 0 n)) as [|c cs] eqn:EC.
  { destruct n; [lia|discriminate]. }
  destruct (fold_min_spec cs c) as [L1 L2]. destruct (fold_max_spec cs c) as [U1 U2].
  rewrite <- EC in *.
  exists (fold_left Rmin cs c), (fold_left Rmax cs c), (slope_of (map (deviation y) (seq 0 n)) (map (lag y w) (seq 0 n))).
  split; [rewrite map2_map; reflexivity|]. split.
  - rewrite least_squares_slope by (auto; apply powers2_pos; auto). unfold sum_of_powers. f_equal.
    apply sum_n_ext. intros i Hi. unfold lag. fold n. rewrite <- sum_n_scal. apply sum_n_ext. intros. ring.
  - split; [|split].
    + apply in_map_iff in L1. destruct L1 as (i & E & Hi). apply in_seq in Hi. exists i. split; [lia|auto].
    + apply in_map_iff in U1. destruct U1 as (i & E & Hi). apply in_seq in Hi. exists i. split; [lia|auto].
    + intros i Hi. assert (In (deviation y i) (map (deviation y) (seq 0 n))) by (apply in_map, in_seq; lia). auto.
Qed.

Lemma diagram_I slope_of cdf y w s : least_squares slope_of -> varies y -> rect w (length y) (length y) -> s <> 0 ->
  (forall i, (i < length y)%nat -> row_sum w (length y) i = s) ->
  exists pts lo hi b I E V p, plot_moran_diagram slope_of y w = Ok (pts, ((lo, b * lo), (hi, b * hi))) /\ lo < hi /\
    STMI cdf y w = Ok (Fin I, E, V, p) /\ b = s * I.
Proof.
  intros HL HV HR Hs H1. destruct (diagram slope_of y w HL HV HR) as (lo & hi & b & ED & Eb & _ & _ & Hlh).
  set (n := length y) in *.
  assert (Hn : (0 < n)%nat) by (destruct HV as (i & _ & Hi & _); unfold n; lia).
  pose proof (lt_0_INR n Hn) as Hn'. pose proof (powers2_pos y HV) as HP.
  assert (EB : forall i j, (i < n)%nat -> (j < n)%nat -> by_column w n i j = / s * mget 0 w i j).
  { intros i j Hi Hj. unfold by_column. rewrite H1 by auto. field; auto. }
  assert (ES0 : S0 n (by_column w n) = INR n).
  { transitivity (sum_n n (fun i => 1)).
    - unfold S0. apply sum_n_ext. intros i Hi. replace 1 with (/ s * row_sum w n i) by (rewrite H1 by auto; field; auto).
      unfold row_sum. rewrite <- sum_n_scal. apply sum_n_ext. intros j Hj. auto.
    - unfold sum_n. rewrite Rsum_map_const, seq_length. ring. }
  assert (HU : usable w n).
  { split; [auto|]. split; [intros i Hi; rewrite H1 by auto; auto|]. rewrite ES0. lra. }
  destruct (STMI_I cdf y w HV HU) as (V & p & ES).
  assert (EI : moran_I y (by_column w n) = b / s).
  { rewrite Eb. unfold moran_I. fold n. rewrite ES0.
    replace (INR n / INR n) with 1 by (field; lra). rewrite Rmult_1_l.
    transitivity ((/ s * sum_n n (fun i => sum_n n (fun j => mget 0 w i j * deviation y i * deviation y j))) / sum_of_powers y 2); [|field; split; first [assumption|lra]].
    apply (f_equal (fun t => t / sum_of_powers y 2)). rewrite <- sum_n_scal. apply sum_n_ext. intros i Hi. rewrite <- sum_n_scal. apply sum_n_ext. intros j Hj. rewrite EB by auto. ring. }
  fold n in ES. rewrite EI in ES.
  do 2 eexists. exists hi, b. do 4 eexists. split; [exact ED|]. split; [|split; [exact ES|field; auto]].
  destruct HV as (i & j & Hi & Hj & N). pose proof (Hlh i Hi). pose proof (Hlh j Hj).
  assert (deviation y i <> deviation y j) by (unfold deviation; lra).
  destruct (Rtotal_order (deviation y i) (deviation y j)) as [|[|]]; lra.
Qed.

(** A least-squares slope exists. *)
Definition ols (x z : list R) : R :=
  let q := Rsum (map2 Rmult x x) in if Req_EM_T q 0 then 0 else Rsum (map2 Rmult x z) / q.

Lemma ols_ok : least_squares ols.
Proof.
  intros x z b HL. set (n := length x).
  assert (EX : x = map (fun i => nth i x 0) (seq 0 n)) by (apply list_tab).
  assert (EZ : z = map (fun i => nth i z 0) (seq 0 n)) by (unfold n; rewrite HL; apply list_tab).
  set (fx := fun i => nth i x 0) in *. set (fz := fun i => nth i z 0) in *.
  unfold ols. rewrite EX, EZ. rewrite !map2_map, !squared_error_sum, !squared_error_quadratic.
  change (Rsum (map (fun i => fx i * fx i) (seq 0 n))) with (sum_n n (fun i => fx i * fx i)).
  change (Rsum (map (fun i => fx i * fz i) (seq 0 n))) with (sum_n n (fun i => fx i * fz i)).
  assert (E2 : sum_n n (fun i => fx i * fx i) = sum_n n (fun i => fx i ^ 2)) by (apply sum_n_ext; intros; ring).
  rewrite E2. set (X := sum_n n (fun i => fx i ^ 2)). set (Y := sum_n n (fun i => fx i * fz i)). set (Z := sum_n n (fun i => fz i ^ 2)).
  assert (HX : 0 <= X) by (apply sum_n_nonneg; intros; apply pow2_ge_0).
  destruct (Req_EM_T X 0) as [E|E].
  - assert (Y = 0).
    { destruct (Req_dec Y 0) as [|N]; auto. exfalso.
      assert (HA : forall i, (i < n)%nat -> fx i = 0).
      { intros i Hi. destruct (Req_dec (fx i) 0); auto. exfalso.
        assert (0 < X) by (apply (sum_n_pos _ _ i); auto; [intros; apply pow2_ge_0|nra]). lra. }
      apply N. unfold Y. transitivity (sum_n n (fun i => 0)).
      - apply sum_n_ext. intros i Hi. rewrite HA by auto. ring.
      - unfold sum_n. rewrite Rsum_map_const. ring. }
    nra.
  - assert (HP : 0 < X) by lra.
    replace (Z - 2 * (Y / X) * Y + Y / X * (Y / X) * X) with (Z - Y * Y / X) by (field; lra).
    pose proof (pow2_ge_0 (b * X - Y)). 
    replace (Z - 2 * b * Y + b * b * X) with (Z - Y * Y / X + (b * X - Y) ^ 2 / X) by (field; lra).
    assert (0 <= (b * X - Y) ^ 2 / X) by (apply Rmult_le_pos; [auto|left; apply Rinv_0_lt_compat; auto]). lra.
Qed.
