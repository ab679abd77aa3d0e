(** From the error of one kernel value to the error of a whole weight matrix (C166). *)
From Coq Require Import Lra Psatz ZArith.
From Flocq.Core Require Import Core.
From Verif.Model Require Import Base Ext Sort Kernel Distance WeightMatrix KernelFloat WeightFloat Float64 Float32.
From Verif.Spec Require Import KernelSpec WeightSpec FloatSpec WeightFloatSpec FloatErrorSpec.
From Verif.Proofs Require Import ListFacts KernelFacts SortFacts AdaptiveFacts KernelProps KernelExamples SumFacts CsrFacts WeightFacts WeightProps FloatFacts Float64Facts FloatNorm Float32Facts WeightFloatFacts WeightFloatProps WeightFloatThms FloatError.
Open Scope string_scope.
Open Scope nat_scope.
Open Scope R_scope.

Lemma kernel_error_range k : 0 <= kernel_error k <= 20.
Proof. unfold kernel_error. repeat match goal with |- context [if ?b then _ else _] => destruct b; try lra end. Qed.

(** Sums that differ by at most [m] in each entry. *)
Lemma Rsum_close n f g m : (forall j, (j < n)%nat -> Rabs (f j - g j) <= m) ->
  Rabs (Rsum (tabulate n f) - Rsum (tabulate n g)) <= INR n * m.
Proof.
  unfold tabulate. intros H. assert (HI : forall j, In j (seq 0 n) -> Rabs (f j - g j) <= m) by (intros j Hj; apply in_seq in Hj; apply H; lia).
  rewrite <- (seq_length n 0) at 3. clear H. induction (seq 0 n) as [|x l IH].
  - simpl. rewrite Rminus_diag_eq, Rabs_R0 by reflexivity. lra.
  - change (length (x :: l)) with (S (length l)). rewrite S_INR. cbn [map Rsum fold_right]. 
    change (fold_right Rplus 0 (map f l)) with (Rsum (map f l)). change (fold_right Rplus 0 (map g l)) with (Rsum (map g l)).
    assert (A := HI x (or_introl eq_refl)). assert (B : Rabs (Rsum (map f l) - Rsum (map g l)) <= INR (length l) * m) by (apply IH; intros; apply HI; right; auto).
    apply Rabs_le_inv in A. apply Rabs_le_inv in B. apply Rabs_le. lra.
Qed.

Lemma Rsum_ge_entry n f j : (forall i, (i < n)%nat -> 0 <= f i) -> (j < n)%nat -> f j <= Rsum (tabulate n f).
Proof.
  intros H Hj. assert (HI : In (f j) (tabulate n f)) by (rewrite <- (tabulate_nth n f j 0) by auto; apply nth_In; rewrite tabulate_length; auto).
  assert (HF : Forall (Rle 0) (tabulate n f)).
  { apply (proj2 (Forall_nth_lt (Rle 0) 0 _)). rewrite tabulate_length. intros i Hi. rewrite tabulate_nth by auto. auto. }
  revert HI HF. generalize (tabulate n f) as l. induction l as [|x l IH]; [intros []|]. intros [->|HI] HF; inversion HF; subst; cbn [Rsum fold_right].
  - pose proof (Rsum_nonneg' l ltac:(auto)). unfold Rsum in H0. lra.
  - specialize (IH HI ltac:(auto)). unfold Rsum in IH. lra.
Qed.

Lemma bernoulli_hi u m : 0 <= u -> 1 + INR m * u <= (1 + u) ^ m.
Proof. intros Hu. induction m; [simpl; lra|]. rewrite S_INR. cbn [pow]. pose proof (pos_INR m). nra. Qed.
Lemma bernoulli_lo u m : 0 <= u < 1 -> 1 - INR m * u <= (1 - u) ^ m <= 1.
Proof.
  intros Hu. induction m; [simpl; lra|]. rewrite S_INR. cbn [pow]. pose proof (pos_INR m).
  assert (0 <= (1 - u) ^ m) by (apply pow_le; lra). split; nra.
Qed.
Lemma growth u m : 0 <= u < 1 -> INR m * u <= 1 / 21 -> (1 + u) ^ m - 1 <= 21 / 20 * (INR m * u).
Proof.
  intros Hu HM. pose proof (bernoulli_lo u m Hu) as [L _]. pose proof (pos_INR m). set (t := INR m * u) in *.
  assert (0 <= t) by (unfold t; nra). assert (P : (1 + u) ^ m * (1 - u) ^ m <= 1).
  { rewrite <- Rpow_mult_distr. apply Rle_trans with (1 ^ m); [apply pow_incr; nra|rewrite pow1; lra]. }
  assert (0 <= (1 + u) ^ m) by (apply pow_le; lra). assert ((1 + u) ^ m * (1 - t) <= 1) by nra.
  assert ((1 + u) ^ m <= 1 / (1 - t)). { apply Rmult_le_reg_r with (1 - t); [lra|]. replace (1 / (1 - t) * (1 - t)) with 1 by (field; lra). lra. }
  assert (1 / (1 - t) <= 1 + 21 / 20 * t). { apply Rmult_le_reg_r with (1 - t); [lra|]. replace (1 / (1 - t) * (1 - t)) with 1 by (field; lra). nra. }
  lra.
Qed.

(** Products of numbers of the unit interval. *)
Lemma prod_unit l : Forall (fun w => 0 <= w <= 1) l -> 0 <= Rprod l <= 1.
Proof. induction 1; cbn [Rprod fold_right]; [lra|]. unfold Rprod in IHForall. nra. Qed.
Lemma mult_close a w x y m n : 0 <= a <= 1 -> 0 <= y <= 1 -> Rabs (a - x) <= m -> Rabs (w - y) <= n -> Rabs (a * w - x * y) <= m + n.
Proof.
  intros Ha Hy A B. replace (a * w - x * y) with (a * (w - y) + (a - x) * y) by ring.
  eapply Rle_trans; [apply Rabs_triang|]. rewrite !Rabs_mult, (Rabs_pos_eq a), (Rabs_pos_eq y) by lra.
  pose proof (Rabs_pos (w - y)). pose proof (Rabs_pos (a - x)). nra.
Qed.

(** A quotient whose parts are known up to errors. *)
Lemma quotient_close p p' S S' T dl g : 0 <= p' <= S' -> 0 <= p -> 1 <= S -> 0 < S' -> 0 <= g ->
  Rabs (p' - p) <= dl -> Rabs (T - S) <= g ->
  Rabs (p' / S' - p / S) <= dl + (g + Rabs (S' - T)) / S.
Proof.
  intros Hp Hp0 HS HS' Hg A B.
  assert (E : p' / S' - p / S = (p' / S') * ((S - S') / S) + (p' - p) / S) by (field; lra). rewrite E.
  eapply Rle_trans; [apply Rabs_triang|].
  assert (Q : 0 <= p' / S' <= 1).
  { split; [apply Rmult_le_pos; [lra|left; apply Rinv_0_lt_compat; lra]|]. apply Rmult_le_reg_r with S'; [lra|]. unfold Rdiv. rewrite Rmult_assoc, Rinv_l by lra. lra. }
  assert (I : 0 < / S <= 1). { split; [apply Rinv_0_lt_compat; lra|]. rewrite <- Rinv_1. apply Rinv_le_contravar; lra. }
  rewrite (Rabs_mult (p' / S')), (Rabs_pos_eq (p' / S')) by lra. unfold Rdiv at 2 3 4. rewrite !(Rabs_mult _ (/ S)), (Rabs_pos_eq (/ S)) by lra.
  assert (D : Rabs (S - S') <= g + Rabs (S' - T)).
  { replace (S - S') with (- ((T - S) + (S' - T))) by ring. rewrite Rabs_Ropp. eapply Rle_trans; [apply Rabs_triang|]. lra. }
  pose proof (Rabs_pos (S - S')). pose proof (Rabs_pos (p' - p)).
  assert (Rabs (p' - p) * / S <= dl) by nra.
  assert (p' / S' * (Rabs (S - S') * / S) <= (g + Rabs (S' - T)) * / S).
  { apply Rle_trans with (1 * (Rabs (S - S') * / S)). - apply Rmult_le_compat_r; [|lra]. apply Rmult_le_pos; lra.
    - rewrite Rmult_1_l. apply Rmult_le_compat_r; lra. }
  lra.
Qed.

Section Matrix.
  Variable fl fexp fcube : R -> ext.
  Variable u eta : R.
  Hypothesis HR : rounding fl.
  Hypothesis HE : faithful_exp fl fexp.
  Hypothesis HC : faithful_cube fl fcube.
  Hypothesis HA : accurate fl u eta.
  Hypothesis HW : wide fl (u + eta).
  Notation e := (u + eta).

  (** Product over the dimensions. *)
  Lemma fold_close ws xs m : Forall2 (fun w x => (0 <= w <= 1 /\ representable fl w) /\ 0 <= x <= 1 /\ Rabs (w - x) <= m) ws xs ->
    forall a x p n, (0 <= a <= 1 /\ representable fl a) -> Rabs (a - x) <= n ->
      fold_left (fmul fl) (map Fin ws) (Fin a) = Fin p -> Rabs (p - x * Rprod xs) <= n + INR (length ws) * (m + e).
  Proof.
    induction 1 as [|w y ws ys (Uw & Hy & D) HF IH]; intros a x p n Ua Dn; cbn [map fold_left].
    - intros E. injection E as <-. simpl. rewrite Rmult_1_r. lra.
    - destruct (fmul_unit fl HR a w Ua Uw) as (q & Eq & Uq & _). intros E. rewrite Eq in E.
      assert (Dq : Rabs (q - x * y) <= n + (m + e)).
      { unfold fmul, emul, rounded in Eq. pose proof (fl_close_unit fl u eta HA (a * w) q ltac:(destruct Ua, Uw; nra) Eq) as C.
        pose proof (mult_close a w x y n m ltac:(tauto) Hy Dn D) as C2. apply Rabs_le_inv in C. apply Rabs_le_inv in C2. apply Rabs_le. lra. }
      pose proof (IH q (x * y) p _ Uq Dq E) as F. cbn [Rprod fold_right]. change (fold_right Rmult 1 ys) with (Rprod ys).
      replace (x * (y * Rprod ys)) with (x * y * Rprod ys) by ring. change (length (w :: ws)) with (S (length ws)). rewrite S_INR. lra.
  Qed.

  (** One row. *)
  Lemma row_close n ps xs s j0 dl : accurate fl u eta ->
    (forall j, (j < n)%nat -> (0 <= ps j <= 1 /\ representable fl (ps j)) /\ 0 <= xs j <= 1 /\ Rabs (ps j - xs j) <= dl) ->
    (j0 < n)%nat -> ps j0 = 1 -> xs j0 = 1 -> 21 * e <= dl -> INR n * dl <= 1 -> float_sum fl (tabulate n ps) s ->
    forall j vs, (j < n)%nat -> normalise_row_fl fl (map Fin (tabulate n ps)) (Fin s) = map Fin vs ->
      Rabs (nth j vs 0 - safe_div (xs j) (Rsum (tabulate n xs))) <= 46 / 21 * INR n * dl.
  Proof.
    intros _ H Hj0 P0 X0 Hdl Hn HS j vs Hj Ev.
    assert (HF : Forall (fun w => 0 <= w /\ representable fl w) (tabulate n ps)).
    { apply (proj2 (Forall_nth_lt (fun w => 0 <= w /\ representable fl w) 0 _)). rewrite tabulate_length. intros i Hi. rewrite tabulate_nth by auto. destruct (H i Hi) as [[A B] _]. split; [lra|auto]. }
    pose proof (float_sum_error fl HR u eta HA _ _ HS HF) as [SL SU]. rewrite tabulate_length in SL, SU.
    destruct (float_sum_props fl HR _ _ HS HF) as (S0 & _ & SM & _).
    destruct (normalise_unit fl HR _ _ HF HS) as (vs' & Ev' & _ & _ & _ & HD & _). rewrite Ev in Ev'. apply fin_map_inj in Ev'. subst vs'.
    rewrite tabulate_length in HD.
    assert (Hin : forall i, (i < n)%nat -> ps i <= s).
    { intros i Hi. apply SM. rewrite <- (tabulate_nth n ps i 0) by auto. apply nth_In. rewrite tabulate_length. auto. }
    assert (S1 : 1 <= s) by (rewrite <- P0; auto). specialize (HD j Hj ltac:(lra)). rewrite tabulate_nth in HD by auto.
    assert (T1 : 1 <= Rsum (tabulate n xs)). { rewrite <- X0. apply Rsum_ge_entry; auto. intros i Hi. apply H; auto. }
    assert (TP : 1 <= Rsum (tabulate n ps)). { rewrite <- P0. apply Rsum_ge_entry; auto. intros i Hi. apply H; auto. }
    pose proof (Rsum_close n ps xs dl (fun i Hi => proj2 (proj2 (H i Hi)))) as DT.
    set (S := Rsum (tabulate n xs)) in *. set (T := Rsum (tabulate n ps)) in *.
    unfold safe_div. destruct (Req_EM_T S 0) as [E0|_]; [lra|].
    destruct HA as (Hu & Heta & _). destruct HW as [[E1 E2] _].
    assert (N1 : 1 <= INR n) by (replace 1 with (INR 1) by reflexivity; apply le_INR; lia).
    assert (Nm : INR (n - 1) <= INR n) by (apply le_INR; lia). pose proof (pos_INR (n - 1)) as Np.
    assert (Small : INR (n - 1) * u <= 1 / 21). { assert (INR (n - 1) * u <= INR n * e) by (apply Rmult_le_compat; lra). assert (INR n * (21 * e) <= INR n * dl) by (apply Rmult_le_compat_l; lra). lra. }
    pose proof (growth u (n - 1) Hu Small) as G. pose proof (bernoulli_lo u (n - 1) Hu) as [B1 _].
    assert (Gb : Rabs (s - T) <= 21 / 20 * (INR n * e) * T).
    { assert (INR (n - 1) * u <= INR n * e) by (apply Rmult_le_compat; lra).
      assert (0 <= INR (n - 1) * u) by (apply Rmult_le_pos; lra).
      apply Rabs_le. split.
      - assert (T * (1 - INR (n - 1) * u) <= s) by (eapply Rle_trans; [|exact SL]; apply Rmult_le_compat_l; lra). nra.
      - assert (s <= T * (1 + 21 / 20 * (INR (n - 1) * u))) by (eapply Rle_trans; [exact SU|]; apply Rmult_le_compat_l; lra). nra. }
    destruct (H j Hj) as ([Pj _] & Xj & Dj).
    pose proof (quotient_close (xs j) (ps j) S s T dl (INR n * dl) (conj (proj1 Pj) (Hin j Hj)) (proj1 Xj) T1 ltac:(lra) ltac:(nra) Dj DT) as Q.
    assert (TS : T <= 2 * S) by (apply Rabs_le_inv in DT; lra).
    assert (Q2 : (INR n * dl + Rabs (s - T)) / S <= INR n * dl + 21 / 10 * (INR n * e)).
    { apply Rmult_le_reg_r with S; [lra|]. unfold Rdiv. rewrite Rmult_assoc, Rinv_l, Rmult_1_r by lra.
      assert (0 <= INR n * e) by (apply Rmult_le_pos; lra). assert (0 <= INR n * dl) by (apply Rmult_le_pos; lra).
      assert (Rabs (s - T) <= 21 / 20 * (INR n * e) * (2 * S)) by (eapply Rle_trans; [exact Gb|]; apply Rmult_le_compat_l; lra). nra. }
    pose proof (fl_close_unit fl u eta HA (ps j / s) (nth j vs 0)) as C.
    assert (QU : 0 <= ps j / s <= 1).
    { split; [apply Rmult_le_pos; [lra|left; apply Rinv_0_lt_compat; lra]|]. apply Rmult_le_reg_r with s; [lra|]. unfold Rdiv. rewrite Rmult_assoc, Rinv_l by lra. specialize (Hin j Hj). lra. }
    specialize (C QU HD). apply Rabs_le_inv in C. apply Rabs_le_inv in Q.
    assert (e <= dl / 21) by lra. assert (INR n * e <= INR n * dl / 21) by nra. assert (dl <= INR n * dl) by nra.
    apply Rabs_le. lra.
  Qed.

  Variable rowsum : list ext -> ext.
  Variable quantile : R -> list R -> R.
  Variable Ds : list (matrix R).
  Variable kt : dim_arg string.
  Variable bw : dim_arg R.
  Variable nc : dim_arg count_arg.
  Variable r c : nat.
  Hypothesis HV : valid_distances Ds r c.
  Hypothesis Hr : (0 < r)%nat.
  Hypothesis HS : sums_rows fl rowsum c.
  Hypothesis Hbw : forall dim b, arg_at bw dim = Some b -> 0 <= b.
  Hypothesis Hnc : forall dim q, arg_at nc dim <> Some (CFloat q).

  Theorem matrix_close W W' i j v v' :
    weight_matrix_from_distance (map A2 Ds) kt RNone bw nc = Ok W ->
    weight_matrix_from_distance_fl fl fexp fcube rowsum quantile Ds kt bw nc = Ok W' ->
    (i < r)%nat -> (j < c)%nat -> (exists j0, (j0 < c)%nat /\ forall D, In D Ds -> mget 0 D i j0 = 0) ->
    21 * (INR (length Ds) * INR c) * e <= 1 ->
    mget NaN W i j = Fin v -> mget NaN W' i j = Fin v' ->
    Rabs (v' - v) <= 46 * (INR (length Ds) * INR c) * e.
  Proof.
    intros H H' Hi Hj (j0 & Hj0 & HZ) HB Ev Ev'.
    destruct (wm_sound2 _ _ _ _ _ _ _ HV Hr H) as [_ [x [Hx ->]]].
    destruct (wfl_inv fl fexp fcube HR HE HC rowsum quantile Ds kt bw nc r c HV Hr HS W' H') as (ks & ps & bs & raw & p & s & V & H1 & H2 & H3 & H4 & H5 & -> & HVr & H8).
    assert (He : 0 < e) by (destruct HW; lra).
    assert (HD : (0 < length Ds)%nat) by (destruct HV as [Hne _]; destruct Ds; [contradiction|simpl; lia]).
    assert (N1 : 1 <= INR (length Ds)) by (replace 1 with (INR 1) by reflexivity; apply le_INR; lia).
    (* one dimension *)
    assert (HX : forall dim j, (dim < length Ds)%nat -> (j < c)%nat ->
      0 <= x dim i j <= 1 /\ Rabs (raw dim i j - x dim i j) <= 20 * e /\ (mget 0 (nth dim Ds []) i j = 0 -> x dim i j = 1 /\ raw dim i j = 1)).
    { intros dim j' Hd Hj'. destruct (Hx dim Hd) as (k & q & b & HQ & _ & HBd & HK).
      destruct (requests_unique _ _ _ _ _ _ _ _ HQ (H1 dim Hd)) as [-> ->].
      specialize (HBd i Hi). specialize (HK i j' Hi Hj'). pose proof (H2 dim i Hd Hi) as HBf.
      destruct (H3 dim i j' Hd Hi Hj') as [Wf _].
      assert (EB : nth i b 0 = bs dim i).
      { destruct (ps dim) as [b0|z|q] eqn:Ep; simpl in HBd, HBf.
        - congruence.
        - destruct HBd as (_ & _ & A), HBf as (_ & _ & B). eapply kth_smallest_unique; eauto.
        - exfalso. destruct (H1 dim Hd) as (_ & _ & _ & _ & HQr). rewrite Ep in HQr. unfold rule_of in HQr.
          destruct (arg_at bw dim); [destruct (arg_at nc dim); discriminate|]. destruct (arg_at nc dim) as [[z|q'|]|] eqn:En; try discriminate. eapply Hnc; eauto. }
      assert (Hk : known_kernel (ks dim)) by apply (H1 dim Hd).
      pose proof (dist_nonneg Ds r c HV dim i j' Hd Hi Hj') as Hdn.
      assert (Hb : 0 <= bs dim i).
      { destruct (H1 dim Hd) as (_ & _ & _ & _ & HQr). pose proof (proj1 (Forall_nth_lt _ ([] : matrix R) _) (proj2 HV) dim Hd) as [HR1 HE1].
        assert (HN : Forall (Rle 0) (nth i (nth dim Ds []) [])).
        { apply (proj1 (Forall_nth_lt (Forall (Rle 0)) [] (nth dim Ds []))); [exact HE1|]. destruct HR1 as [-> _]. exact Hi. }
        destruct (ps dim) as [b0|z|q] eqn:Ep; simpl in HBf.
        - subst b0. unfold rule_of in HQr. destruct (arg_at bw dim) as [b'|] eqn:E; [|destruct (arg_at nc dim) as [[| |]|]; discriminate].
          destruct (arg_at nc dim); [discriminate|]. injection HQr as <-. eapply Hbw; eauto.
        - destruct HBf as (_ & _ & HI & _). rewrite Forall_forall in HN. auto.
        - exfalso. unfold rule_of in HQr.
          destruct (arg_at bw dim); [destruct (arg_at nc dim); discriminate|]. destruct (arg_at nc dim) as [[z|q'|]|] eqn:En; try discriminate. eapply Hnc; eauto. }
      assert (Wx : weighs (ks dim) (bs dim i) (mget 0 (nth dim Ds []) i j') (x dim i j')) by (apply weighs_iff; auto; rewrite HK, EB; reflexivity).
      split; [|split].
      - rewrite HK. apply kernel_value_range; auto.
      - eapply Rle_trans; [apply (kernel_close fl fexp fcube u eta HR HE HC HA HW (ks dim) (bs dim i) (mget 0 (nth dim Ds []) i j')); auto|].
        apply Rmult_le_compat_r; [lra|]. apply kernel_error_range.
      - intros EZ. rewrite EZ in *. split.
        + rewrite HK. rewrite EB. apply kernel_value_0; auto.
        + pose proof (coincident_fl fl fexp fcube HR HE HC (ks dim) (bs dim i) Hk Hb) as HW1. unfold weighs_fl in Wf, HW1. rewrite Wf in HW1. congruence. }
    (* product *)
    assert (HP : forall j, (j < c)%nat -> 0 <= PR Ds x i j <= 1 /\ Rabs (p i j - PR Ds x i j) <= 21 * INR (length Ds) * e).
    { intros j' Hj'. destruct (H4 i j' Hi Hj') as [Up F]. unfold PR.
      assert (HF2 : Forall2 (fun w y => (0 <= w <= 1 /\ representable fl w) /\ 0 <= y <= 1 /\ Rabs (w - y) <= 20 * e) (raw_at Ds raw i j') (tabulate (length Ds) (fun dim => x dim i j'))).
      { unfold raw_at, tabulate. assert (G : forall dim, In dim (seq 0 (length Ds)) -> (dim < length Ds)%nat) by (intros dim Hd; apply in_seq in Hd; lia).
        induction (seq 0 (length Ds)) as [|y l IH]; simpl; constructor.
        - assert (Hy : (y < length Ds)%nat) by (apply G; left; auto). split; [apply H3; auto|]. destruct (HX y j' Hy Hj') as (A & B & _). auto.
        - apply IH. intros dim Hd. apply G. right; auto. }
      pose proof (tabulate_length (length Ds) (fun dim => raw dim i j')) as LR. change (length (raw_at Ds raw i j') = length Ds) in LR.
      assert (HU : 0 <= Rprod (tabulate (length Ds) (fun dim => x dim i j')) <= 1).
      { apply prod_unit. apply (proj2 (Forall_nth_lt (fun w => 0 <= w <= 1) 0 _)). rewrite tabulate_length. intros d Hd. rewrite tabulate_nth by auto. apply HX; auto. }
      split; [exact HU|]. destruct HF2 as [|w y ws ys (Uw & Hy & Dw) HF2]; [contradiction|].
      pose proof (fold_close ws ys (20 * e) HF2 w y (p i j') (20 * e) Uw Dw F) as C. cbn [Rprod fold_right]. change (fold_right Rmult 1 ys) with (Rprod ys).
      eapply Rle_trans; [exact C|]. rewrite <- LR. change (length (w :: ws)) with (S (length ws)). rewrite S_INR. lra. }
    assert (Hn : INR c * (21 * INR (length Ds) * e) <= 1) by lra.
    pose proof (row_close c (p i) (PR Ds x i) (s i) j0 (21 * INR (length Ds) * e) HA) as RC.
    assert (P1 : p i j0 = 1).
    { destruct (H4 i j0 Hi Hj0) as [_ F].
      assert (HO : forall w, In w (raw_at Ds raw i j0) -> w = 1).
      { intros w Hw. destruct (raw_at_In Ds raw i j0 w Hw) as (dim & Hd & ->). apply (HX dim j0 Hd Hj0). apply HZ, nth_In. exact Hd. }
      assert (HU : Forall (fun w => 0 <= w <= 1 /\ representable fl w) (raw_at Ds raw i j0)).
      { apply Forall_forall. intros w Hw. destruct (raw_at_In Ds raw i j0 w Hw) as (dim & Hd & ->). apply H3; auto. }
      destruct (raw_at Ds raw i j0) as [|w ws]; [contradiction|]. inversion HU; subst.
      destruct (fold_unit fl HR ws ltac:(auto) w ltac:(auto)) as (q & Eq & _ & _ & _ & Q1). rewrite F in Eq. injection Eq as ->.
      apply Q1; [apply HO; left; auto|intros; apply HO; right; auto]. }
    assert (X1 : PR Ds x i j0 = 1).
    { unfold PR. assert (EO : tabulate (length Ds) (fun dim => x dim i j0) = tabulate (length Ds) (fun _ => 1)).
      { apply tabulate_ext. intros dim Hd. apply (HX dim j0 Hd Hj0). apply HZ, nth_In. exact Hd. }
      rewrite EO. unfold tabulate. induction (seq 0 (length Ds)) as [|y l IH]; [reflexivity|]. cbn. unfold Rprod in IH. rewrite IH. lra. }
    assert (HG : forall j', (j' < c)%nat -> (0 <= p i j' <= 1 /\ representable fl (p i j')) /\ 0 <= PR Ds x i j' <= 1 /\ Rabs (p i j' - PR Ds x i j') <= 21 * INR (length Ds) * e).
    { intros j' Hj'. split; [apply H4; auto|apply HP; auto]. }
    specialize (RC HG Hj0 P1 X1 ltac:(nra) Hn (H5 i Hi) j (nth i V []) Hj (H8 i Hi)).
    rewrite (nth_get V r c i j HVr Hi Hj) in Ev'. injection Ev' as <-.
    assert (EV : mget NaN (mmap Fin (mtab r c (fun i j => safe_div (PR Ds x i j) (SR Ds c x i)))) i j = Fin (safe_div (PR Ds x i j) (SR Ds c x i))).
    { rewrite mmap_mtab. apply mtab_get; auto. }
    rewrite EV in Ev. injection Ev as <-. unfold SR. lra.
  Qed.
End Matrix.
