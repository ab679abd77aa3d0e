(** Values of stacked predictions (C162). *)
From Coq Require Import Lra Lia Psatz.
From Verif.Model Require Import Base Ext Csr Neighbour Distance WeightModel NumbaImpl Stacking StackingPredict.
From Verif.Spec Require Import KernelSpec NeighbourSpec StackingSpec RidgeSpec RidgeMetaSpec.
From Verif.Proofs Require Import ListFacts SumFacts RidgeProps SolverExists RidgeChanges CsrFacts NeighbourProps StackingCsr StackingFacts StackingMeta StackingProps StackingClaims StackingClaims2 StackingClaims3 StackingPredictProps.
Open Scope nat_scope.
Open Scope R_scope.

(** Minimisers are unique. *)
Lemma minimiser_unique p alpha obs c b c' b' : weighted_sample p obs -> 0 < alpha -> length c = p -> length c' = p ->
  (forall c2 b2, objO p alpha obs c b <= objO p alpha obs c2 b2) ->
  (forall c2 b2, objO p alpha obs c' b' <= objO p alpha obs c2 b2) -> c = c' /\ b = b'.
Proof.
  intros HO Ha L L' M M'.
  assert (E : fitO solve_exact p alpha obs = Ok (c, Fin b)) by (apply fit_iff; [exact solve_exact_exact|exact HO|exact Ha|split; [exact L|exact M]]).
  assert (E' : fitO solve_exact p alpha obs = Ok (c', Fin b')) by (apply fit_iff; [exact solve_exact_exact|exact HO|exact Ha|split; [exact L'|exact M']]).
  rewrite E in E'. injection E' as -> ->. split; reflexivity.
Qed.

Lemma linear_zero p b x : linear p (repeat 0 p) b x = b.
Proof.
  unfold linear. rewrite Rsum_zero; [ring|]. intros v Hv. apply in_tabulate in Hv as (j & Hj & <-).
  rewrite nth_repeat. ring.
Qed.

(** Constant targets. *)
Lemma ridge_constant p alpha obs k : weighted_sample p obs -> 0 < alpha -> (forall o, In o obs -> target o = k) ->
  forall c2 b2, objO p alpha obs (repeat 0 p) k <= objO p alpha obs c2 b2.
Proof.
  intros HO Ha HK c2 b2.
  assert (E : objO p alpha obs (repeat 0 p) k = 0).
  { unfold objO, weighted_error. rewrite Rsum_zero, Rsum_zero; [ring| |].
    - intros v Hv. apply in_tabulate in Hv as (j & Hj & <-). rewrite nth_repeat. ring.
    - intros v Hv. apply in_map_iff in Hv as (o & <- & Ho). rewrite linear_zero, (HK o Ho). ring. }
  rewrite E. apply objO_nonneg; auto.
Qed.

(** Identical features. *)
Section Copies.
  Variables (q : nat) (alpha : R) (T : list nat) (w g y : nat -> R).
  Hypothesis Ha : 0 < alpha.
  Hypothesis Hw : forall k, In k T -> 0 <= w k.
  Hypothesis HW : exists k, In k T /\ 0 < w k.
  Definition copies : list observation := map (fun k => Obs (repeat (g k) q) (y k) (w k)) T.
  Let Wt := Rsum (map w T).
  Let gb := mean_over T w g.
  Let yb := mean_over T w y.
  Let Sgg := codeviation T w g g.
  Let Sgy := codeviation T w g y.
  Let t := Sgy / (INR q * Sgg + alpha).

  Lemma Wt_pos : 0 < Wt.
  Proof.
    destruct HW as (k & Hk & Hp). unfold Wt. apply (Rlt_le_trans _ (w k)); [exact Hp|].
    apply Rsum_ge_elem; [|apply in_map, Hk]. intros v Hv. apply in_map_iff in Hv as (j & <- & Hj). apply Hw, Hj.
  Qed.
  Lemma sum_wg h : Rsum (map (fun k => w k * h k) T) = Wt * mean_over T w h.
  Proof. pose proof Wt_pos. unfold mean_over. fold Wt. field. lra. Qed.
  Lemma copies_sample : weighted_sample q copies.
  Proof.
    split.
    - intros o Ho. apply in_map_iff in Ho as (k & <- & Hk). cbn. split; [apply repeat_length|apply Hw, Hk].
    - destruct HW as (k & Hk & Hp). exists (Obs (repeat (g k) q) (y k) (w k)). split; [apply in_map_iff; exists k; auto|exact Hp].
  Qed.
  Lemma Sgg_nonneg : 0 <= Sgg.
  Proof.
    apply Rsum_nonneg. intros v Hv. apply in_map_iff in Hv as (k & <- & Hk). apply Rmult_le_pos; [apply Hw, Hk|].
    apply Rle_0_sqr.
  Qed.

  Lemma linear_copies c b v : linear q c b (repeat v q) = v * Rsum (tabulate q (fun j => nth j c 0)) + b.
  Proof.
    unfold linear. f_equal. rewrite (tabulate_ext q _ (fun j => v * nth j c 0)).
    - unfold tabulate. rewrite <- Rsum_map_scal. reflexivity.
    - intros j Hj. f_equal. rewrite (nth_indep _ 0 v) by (rewrite repeat_length; exact Hj). apply nth_repeat.
  Qed.

  (** The error splits into a part for the slope and a part for the intercept. *)
  Lemma error_copies c b :
    let C := Rsum (tabulate q (fun j => nth j c 0)) in
    weighted_error q copies c b = codeviation T w y y - 2 * C * Sgy + C * C * Sgg + Wt * (yb - C * gb - b) ^ 2.
  Proof.
    intros C. unfold weighted_error, copies. rewrite map_map. cbn [weight target features].
    rewrite (Rsum_map_ext _ (fun k => w k * ((y k - yb) * (y k - yb)) + (-2 * C) * (w k * ((g k - gb) * (y k - yb)))
       + (C * C) * (w k * ((g k - gb) * (g k - gb))) + (2 * (yb - C * gb - b)) * (w k * y k) + (- (2 * (yb - C * gb - b)) * C) * (w k * g k)
       + (- (2 * (yb - C * gb - b)) * (yb - C * gb) + (yb - C * gb - b) ^ 2) * w k)).
    - rewrite !Rsum_map_plus, !Rsum_map_scal, (sum_wg y), (sum_wg g). fold gb yb. unfold Sgy, Sgg, codeviation. fold gb yb. fold Wt. ring.
    - intros k Hk. rewrite linear_copies. fold C. ring.
  Qed.

  Lemma tab_sum_const v : Rsum (tabulate q (fun j => nth j (repeat v q) 0)) = INR q * v.
  Proof.
    rewrite (tabulate_ext q _ (fun _ => v)).
    - unfold tabulate. rewrite Rsum_map_const, seq_length. reflexivity.
    - intros j Hj. rewrite (nth_indep _ 0 v) by (rewrite repeat_length; exact Hj). apply nth_repeat.
  Qed.

  Lemma ridge_copies c2 b2 : objO q alpha copies (repeat t q) (yb - INR q * t * gb) <= objO q alpha copies c2 b2.
  Proof.
    unfold objO. rewrite !error_copies, tab_sum_const.
    set (C := Rsum (tabulate q (fun j => nth j c2 0))). set (Q := Rsum (tabulate q (fun j => nth j c2 0 ^ 2))).
    assert (EQ : Rsum (tabulate q (fun j => nth j (repeat t q) 0 ^ 2)) = INR q * (t * t)).
    { rewrite (tabulate_ext q _ (fun _ => t * t)).
      - unfold tabulate. rewrite Rsum_map_const, seq_length. reflexivity.
      - intros j Hj. rewrite (nth_indep _ 0 t) by (rewrite repeat_length; exact Hj). rewrite nth_repeat. ring. }
    rewrite EQ.
    assert (HQ : 0 <= Q - 2 * t * C + INR q * (t * t)).
    { assert (E : Rsum (tabulate q (fun j => (nth j c2 0 - t) ^ 2)) = Q - 2 * t * C + INR q * (t * t)).
      { unfold tabulate. rewrite (Rsum_map_ext _ (fun j => nth j c2 0 ^ 2 + (-2 * t) * nth j c2 0 + t * t)) by (intros; ring).
        rewrite !Rsum_map_plus, Rsum_map_scal, Rsum_map_const, seq_length. unfold Q, C, tabulate. ring. }
      rewrite <- E. apply Rsum_nonneg. intros v Hv. apply in_tabulate in Hv as (j & Hj & <-). apply pow2_ge_0. }
    assert (HS := Sgg_nonneg). assert (HWp := Wt_pos).
    assert (Hq : 0 <= INR q) by apply pos_INR.
    assert (HD : 0 < INR q * Sgg + alpha) by (pose proof (Rmult_le_pos _ _ Hq HS); lra).
    assert (Ht : Sgy = t * (INR q * Sgg + alpha)) by (unfold t; field; lra).
    assert (HB : 0 <= Wt * (yb - C * gb - b2) ^ 2) by (apply Rmult_le_pos; [lra|apply pow2_ge_0]).
    replace (Wt * (yb - INR q * t * gb - (yb - INR q * t * gb)) ^ 2) with 0 by ring.
    assert (H1 : alpha * (2 * t * C - INR q * (t * t)) <= alpha * Q) by (apply Rmult_le_compat_l; lra).
    assert (H2 : 0 <= (C - INR q * t) * (C - INR q * t) * Sgg) by (apply Rmult_le_pos; [apply Rle_0_sqr|exact HS]).
    rewrite Ht.
    set (A := codeviation T w y y).
    assert (H3 : alpha * Q - alpha * (2 * t * C - INR q * (t * t)) + (C - INR q * t) * (C - INR q * t) * Sgg + Wt * (yb - C * gb - b2) ^ 2 =
       (A - 2 * C * (t * (INR q * Sgg + alpha)) + C * C * Sgg + Wt * (yb - C * gb - b2) ^ 2 + alpha * Q) -
       (A - 2 * (INR q * t) * (t * (INR q * Sgg + alpha)) + INR q * t * (INR q * t) * Sgg + 0 + alpha * (INR q * (t * t)))) by ring.
    lra.
  Qed.

  Lemma copies_value v : linear q (repeat t q) (yb - INR q * t * gb) (repeat v q) = ridge_of_copies alpha q T w g y v.
  Proof.
    rewrite linear_copies, tab_sum_const. unfold ridge_of_copies. fold gb yb Sgg Sgy. unfold t.
    assert (HS := Sgg_nonneg). assert (Hq : 0 <= INR q) by apply pos_INR.
    assert (HD : 0 < INR q * Sgg + alpha) by (pose proof (Rmult_le_pos _ _ Hq HS); lra).
    field. lra.
  Qed.
End Copies.


Section Stacked.
  Context {est meta : Type}.
  Variable fit_est : nat -> matrix R -> list R -> list R -> result est.
  Variable predict_est : est -> matrix R -> result (list R).
  Variable fit_meta : R -> nat -> matrix R -> list R -> list R -> result meta.
  Variable predict_meta : meta -> matrix R -> result (list R).
  Variable solve : matrix R -> list R -> result (list R).

  Lemma meta_minimises (numba : bool) alpha q obs x m p :
    (if numba then exact_solver solve else ridge_regression fit_meta predict_meta) -> 0 < alpha -> weighted_sample q obs -> length x = q ->
    meta_fitted fit_meta predict_meta solve numba alpha q (X_of obs) (y_of obs) (w_of obs) x m p ->
    exists c b, length c = q /\ p = linear q c b x /\ forall c2 b2, objO q alpha obs c b <= objO q alpha obs c2 b2.
  Proof.
    intros HM Ha HO Hx HF. unfold meta_fitted in HF. destruct numba.
    - destruct HF as (c & b & E & _ & ->). change (fitO solve q alpha obs = Ok (c, Fin b)) in E.
      apply (fit_iff solve q HM alpha obs c b HO Ha) in E as [L M]. exists c, b. split; [exact L|]. split; [|exact M].
      rewrite (dot_Sg x c q Hx L). reflexivity.
    - destruct HF as (mm & E & _ & Ep). destruct (HM _ _ _ _ _ _ Ha HO E Ep) as (c & b & L & Epp & M).
      exists c, b. split; [exact L|]. split; [exact Epp|]. intros c2 b2. rewrite <- !objO_eq. apply M.
  Qed.

  Lemma meta_constant (numba : bool) alpha q (T : list nat) row yv wv x m p k :
    (if numba then exact_solver solve else ridge_regression fit_meta predict_meta) -> 0 < alpha ->
    (forall t, In t T -> length (row t) = q /\ 0 < wv t) -> T <> [] -> length x = q -> (forall t, In t T -> yv t = k) ->
    meta_fitted fit_meta predict_meta solve numba alpha q (map row T) (map yv T) (map wv T) x m p -> p = k.
  Proof.
    intros HM Ha HT Hne Hx Hy HF.
    set (obs := map (fun t => Obs (row t) (yv t) (wv t)) T).
    assert (HO : weighted_sample q obs).
    { split.
      - intros o Ho. apply in_map_iff in Ho as (t & <- & Ht). cbn. destruct (HT t Ht). split; [assumption|lra].
      - destruct T as [|t T']; [congruence|]. eexists. split; [left; reflexivity|]. cbn. apply HT. left; reflexivity. }
    assert (HF' : meta_fitted fit_meta predict_meta solve numba alpha q (X_of obs) (y_of obs) (w_of obs) x m p).
    { unfold X_of, y_of, w_of, obs. rewrite !map_map. exact HF. }
    destruct (meta_minimises numba alpha q obs x m p HM Ha HO Hx HF') as (c & b & L & -> & M).
    destruct (minimiser_unique q alpha obs c b (repeat 0 q) k HO Ha L (repeat_length _ _) M) as [-> ->].
    - apply ridge_constant; auto. intros o Ho. apply in_map_iff in Ho as (t & <- & Ht). cbn. apply Hy, Ht.
    - apply linear_zero.
  Qed.

  Lemma meta_copies (numba : bool) alpha q (T : list nat) g yv wv v m p :
    (if numba then exact_solver solve else ridge_regression fit_meta predict_meta) -> 0 < alpha ->
    (forall t, In t T -> 0 < wv t) -> T <> [] ->
    meta_fitted fit_meta predict_meta solve numba alpha q (map (fun t => repeat (g t) q) T) (map yv T) (map wv T) (repeat v q) m p ->
    p = ridge_of_copies alpha q T wv g yv v.
  Proof.
    intros HM Ha HT Hne HF.
    assert (Hw : forall t, In t T -> 0 <= wv t) by (intros t Ht; apply Rlt_le, HT, Ht).
    assert (HW : exists t, In t T /\ 0 < wv t).
    { destruct T as [|t T']; [congruence|]. exists t. split; [left; reflexivity|apply HT; left; reflexivity]. }
    assert (HO := copies_sample q T wv g yv Hw HW).
    assert (HF' : meta_fitted fit_meta predict_meta solve numba alpha q (X_of (copies q T wv g yv)) (y_of (copies q T wv g yv)) (w_of (copies q T wv g yv)) (repeat v q) m p).
    { unfold X_of, y_of, w_of, copies. rewrite !map_map. exact HF. }
    destruct (meta_minimises numba alpha q _ _ m p HM Ha HO (repeat_length _ _) HF') as (c & b & L & -> & M).
    destruct (minimiser_unique q alpha _ c b _ _ HO Ha L (repeat_length _ _) M (ridge_copies q alpha T wv g yv Ha Hw HW)) as [-> ->].
    apply copies_value; auto.
  Qed.

  Context {G : Type}.
  Variable seed0 : G.
  Variable choice : G -> list nat -> nat -> G * list nat.
  Variable cpu : nat.
  Variable wm : filesystem -> list coords -> list coords -> filesystem * result swts.
  Notation sfit := (sfit est fit_est predict_est meta fit_meta predict_meta solve G seed0 choice cpu wm).

  Lemma meta_points_ne n W' i t : (t < n)%nat -> t <> i -> 0 < mget 0 W' i t -> meta_points n W' i <> [].
  Proof. intros H1 H2 H3 E. assert (Hin : In t (meta_points n W' i)) by (apply meta_points_in; auto). rewrite E in Hin. destruct Hin. Qed.

  Theorem stacking_constant r c g fs s0 X y coords given w W W' i k :
    let n := length X in
    let o := sfit r c g fs s0 X y coords given in
    valid_choice choice -> one_per_row predict_est -> valid_runtime r n (patches cpu c) ->
    valid_rates c -> real_weights wm fs coords given w -> holds_real w W n ->
    (if sc_use_numba c then exact_solver solve else ridge_regression fit_meta predict_meta) -> 0 < sc_alpha c ->
    (sc_use_numba c = true -> forall u v, (u < n)%nat -> (v < n)%nat -> 0 <= mget 0 W u v) ->
    shrunk_weights (sc_meta_shrink c) W W' ->
    so_result est meta G o = Ok tt -> (i < n)%nat ->
    (exists t, (t < n)%nat /\ t <> i /\ 0 < mget 0 W' i t) ->
    (forall t, (t < n)%nat -> t <> i -> 0 < mget 0 W' i t -> nth t y 0 = k) ->
    exists ps, ss_stacking_predict est meta (so_state est meta G o) = Some ps /\ length ps = n /\ nth i ps 0 = k.
  Proof.
    intros n o Hc Hone Hr Hrt Hreal Hw HM Ha Hpos Hsh H1 Hi (t0 & T1 & T2 & T3) Hy.
    destruct (sfit_stacked fit_est predict_est fit_meta predict_meta solve seed0 choice cpu wm Hc Hone r c g fs s0 X y coords given w W Hr Hrt Hreal Hw Hpos H1)
      as (L & W1 & es & ps0 & qs & ps & ses & A1 & A2 & A3 & _ & _ & A4 & _).
    rewrite (shrunk_unique _ W W1 W' A2 Hsh) in *. fold n in A3. exists ps. split; [exact A4|].
    split; [apply (st_num _ _ _ _ _ _ _ _ _ _ _ _ _ _ _ _ _ _ _ A3)|].
    destruct (st_meta _ _ _ _ _ _ _ _ _ _ _ _ _ _ _ _ _ _ _ A3 i Hi) as (m & bases & HB). cbv zeta in HB. destruct HB as (_ & _ & HF).
    refine (meta_constant _ _ _ _ (fun t => map _ _) (fun t => nth t y 0) (mget 0 W' i) _ m _ k HM Ha _ _ _ _ HF).
    - intros t Ht. apply meta_points_in in Ht. rewrite map_length. split; [reflexivity|tauto].
    - apply (meta_points_ne n W' i t0); auto.
    - apply map_length.
    - intros t Ht. apply meta_points_in in Ht. apply Hy; tauto.
  Qed.

  Variable f : est -> list R -> R.

  Theorem stacking_copies r c g fs s0 X y coords given w W W' i :
    let n := length X in
    let o := sfit r c g fs s0 X y coords given in
    valid_choice choice -> rowwise predict_est f -> valid_runtime r n (patches cpu c) ->
    valid_rates c -> real_weights wm fs coords given w -> holds_real w W n -> all_bases_used c w ->
    (if sc_use_numba c then exact_solver solve else ridge_regression fit_meta predict_meta) -> 0 < sc_alpha c ->
    (sc_use_numba c = true -> forall u v, (u < n)%nat -> (v < n)%nat -> 0 <= mget 0 W u v) ->
    shrunk_weights (sc_meta_shrink c) W W' ->
    so_result est meta G o = Ok tt -> (i < n)%nat -> 0 < mget 0 W' i i ->
    (exists t, (t < n)%nat /\ t <> i /\ 0 < mget 0 W' i t) ->
    exists L es ps, leave_outs seed0 choice c W L /\ ss_base_list est meta (so_state est meta G o) = Some es /\
      ss_stacking_predict est meta (so_state est meta G o) = Some ps /\ length es = n /\ length ps = n /\
      forall h, (forall e t, In e es -> (t < n)%nat -> f e (nth t X []) = h t) ->
      nth i ps 0 = ridge_of_copies (sc_alpha c) (length (meta_bases n L i)) (meta_points n W' i) (mget 0 W' i) h (fun t => nth t y 0) (h i).
  Proof.
    intros n o Hc Hrow Hr Hrt Hreal Hw Hall HM Ha Hpos Hsh H1 Hi Hii (t0 & T1 & T2 & T3).
    assert (Hone : one_per_row predict_est) by (intros e Z p H; rewrite (Hrow e Z p H); apply map_length).
    destruct (sfit_stacked fit_est predict_est fit_meta predict_meta solve seed0 choice cpu wm Hc Hone r c g fs s0 X y coords given w W Hr Hrt Hreal Hw Hpos H1)
      as (L & W1 & es & ps0 & qs & ps & ses & A1 & A2 & A3 & A5 & _ & A4 & _).
    rewrite (shrunk_unique _ W W1 W' A2 Hsh) in *. fold n in A3. exists L, es, ps. split; [exact A1|]. split; [exact A5|]. split; [exact A4|].
    pose proof (st_num _ _ _ _ _ _ _ _ _ _ _ _ _ _ _ _ _ _ _ A3) as (N1 & _ & N3 & _). split; [exact N1|]. split; [exact N3|].
    intros h Hh.
    assert (HL : mget false L i i = true).
    { destruct Hw as [HW _]. assert (Hn : (0 < n)%nat) by lia. apply (leave_outs_shape seed0 choice c W L n Hc Hrt HW Hn A1). auto. }
    destruct (stacked_entries fit_est predict_est fit_meta predict_meta solve f _ _ _ _ _ _ _ _ _ _ _ _ _ _ i Hrow A3 Hall Hi HL Hii) as (m & bases & _ & F1 & M1).
    cbv zeta in M1.
    assert (Hb : forall t, (t < n)%nat -> map (fun e => f e (nth t X [])) bases = repeat (h t) (length bases)).
    { intros t Ht. clear M1. assert (HI : forall e, In e bases -> In e es).
      { clear -F1. induction F1 as [|j e C bs Hj F IH]; intros e' [].
        - subst. eapply nth_error_In; eauto.
        - apply IH; auto. }
      clear F1. induction bases as [|e bs IH]; [reflexivity|]. cbn. f_equal; [apply Hh; [apply HI; left; reflexivity|exact Ht]|].
      apply IH. intros e' He'. apply HI. right; exact He'. }
    rewrite (Hb i Hi) in M1.
    rewrite (map_ext_in (fun t => map (fun e => f e (nth t X [])) bases) (fun t => repeat (h t) (length bases))) in M1
      by (intros t Ht; apply Hb; apply meta_points_in in Ht; tauto).
    assert (EL : length (meta_bases n L i) = length bases) by apply (Forall2_len _ _ _ F1). rewrite EL.
    refine (meta_copies _ _ _ _ h (fun t => nth t y 0) (mget 0 W' i) (h i) m _ HM Ha _ _ M1).
    - intros t Ht. apply meta_points_in in Ht. tauto.
    - apply (meta_points_ne n W' i t0); auto.
  Qed.
End Stacked.

(** Exact base learners: between the mean of the neighbours and the truth. *)
Lemma copies_of_target alpha q T w y v : 0 < alpha -> (forall t, In t T -> 0 < w t) -> T <> [] ->
  let mu := mean_over T w y in
  exists s, 0 <= s < 1 /\ ridge_of_copies alpha q T w y y v = mu + s * (v - mu) /\ (ridge_of_copies alpha q T w y y v = v <-> v = mu).
Proof.
  intros Ha HT Hne mu. set (S := codeviation T w y y).
  assert (HS : 0 <= S) by (apply (Sgg_nonneg T w y); intros t Ht; apply Rlt_le, HT, Ht).
  assert (Hq : 0 <= INR q * S) by (apply Rmult_le_pos; [apply pos_INR|exact HS]).
  exists (INR q * S / (INR q * S + alpha)).
  assert (Hs : 0 <= INR q * S / (INR q * S + alpha) < 1).
  { split; [apply Rmult_le_pos; [exact Hq|apply Rlt_le, Rinv_0_lt_compat; lra]|]. apply (Rmult_lt_reg_r (INR q * S + alpha)); [lra|]. field_simplify; lra. }
  split; [exact Hs|]. unfold ridge_of_copies. fold S mu. split; [reflexivity|].
  set (s := INR q * S / (INR q * S + alpha)) in *. split; intros H; [|rewrite H; ring].
  assert (E : (1 - s) * (v - mu) = 0) by lra. apply Rmult_integral in E. lra.
Qed.

Section NewPoints.
  Context {est meta : Type}.
  Variable fit_est : nat -> matrix R -> list R -> list R -> result est.
  Variable predict_est : est -> matrix R -> result (list R).
  Variable fit_meta : R -> nat -> matrix R -> list R -> list R -> result meta.
  Variable predict_meta : meta -> matrix R -> result (list R).
  Variable cpu : nat.
  Variable wm : filesystem -> list coords -> list coords -> filesystem * result swts.
  Variable f : est -> list R -> R.
  Notation spredict := (spredict est fit_est predict_est meta fit_meta predict_meta cpu wm).
  Hypothesis Hrow : rowwise predict_est f.
  Hypothesis Hone : one_per_row predict_meta.
  Hypothesis HM : ridge_regression fit_meta predict_meta.

  Lemma support_in n U i t : In t (support n U i) <-> (t < n)%nat /\ 0 < mget 0 U t i.
  Proof.
    unfold support. rewrite filter_In, in_seq. unfold Rltb. destruct (Rlt_dec 0 (mget 0 U t i)); split; intros [A B]; try discriminate; split; auto; try lia; lra.
  Qed.

  Theorem new_easy r c fs s0 X y v Xp vp W U fs1 fs2 s out i :
    let n := length X in
    let k := length Xp in
    wm fs v v = (fs1, Ok (SDense W)) -> wm fs1 v vp = (fs2, Ok (SDense U)) -> rect W n n -> rect U n k ->
    schedule n (r_second r) -> length (r_buffer r) = n -> (forall k', patches cpu c = Some k' -> schedule k' (r_base r)) ->
    0 < sc_alpha c ->
    spredict r c fs s0 X y v Xp vp = (s, fs2, Ok out) -> (i < k)%nat ->
    (exists t, (t < n)%nat /\ 0 < mget 0 U t i) ->
    (forall a, (forall t, (t < n)%nat -> 0 < mget 0 U t i -> nth t y 0 = a) -> nth i out [] = [Fin a]) /\
    exists es, ss_base_list est meta s = Some es /\ length es = n /\
      forall h x, (forall e t, In e es -> (t < n)%nat -> f e (nth t X []) = h t) -> (forall e, In e es -> f e (nth i Xp []) = x) ->
      let T := support n U i in
      nth i out [] = [Fin (ridge_of_copies (sc_alpha c) (length T) T (fun t => mget 0 U t i) h (fun t => nth t y 0) x)].
  Proof.
    intros n k E1 E2 HW HU HS HB HP Ha H Hi (t0 & T1 & T2).
    assert (Hk : (0 < k)%nat) by lia.
    destruct (new_predictions fit_est predict_est fit_meta predict_meta cpu wm f Hrow r c fs s0 X y v Xp vp W U fs1 fs2 s out E1 E2 HW HU Hk HS HB HP H)
      as (es & B1 & B2 & B3 & _ & B5).
    destruct (B5 i Hi) as (bases & p & F & Eo & m & R1 & R2).
    assert (Hp : exists q, p = [q]).
    { assert (L := Hone _ _ _ R2). destruct p as [|q [|q' p']]; try discriminate L. exists q. reflexivity. }
    destruct Hp as [q ->].
    set (T := support (length X) U i) in *.
    assert (EL : length T = length bases) by apply (Forall2_len _ _ _ F).
    assert (HF : meta_fitted fit_meta predict_meta (fun _ b => Ok b) false (sc_alpha c) (length T)
       (map (fun t => map (fun e => f e (nth t X [])) bases) T) (map (fun t => nth t y 0) T) (map (fun t => mget 0 U t i) T)
       (map (fun e => f e (nth i Xp [])) bases) (MFitted meta m) q) by (exists m; auto).
    assert (HTw : forall t, In t T -> (t < n)%nat /\ 0 < mget 0 U t i) by (intros t Ht; apply support_in, Ht).
    assert (Hne : T <> []).
    { intros E. assert (Hin : In t0 T) by (apply support_in; auto). rewrite E in Hin. destruct Hin. }
    split.
    - intros a Hy. rewrite Eo. cbn. do 2 f_equal.
      refine (meta_constant fit_meta predict_meta (fun _ b => Ok b) false _ _ _ _ _ _ _ _ q a HM Ha _ Hne _ _ HF).
      + intros t Ht. rewrite map_length. split; [auto|apply HTw, Ht].
      + rewrite map_length. auto.
      + intros t Ht. apply Hy; apply HTw, Ht.
    - exists es. split; [exact B1|]. split; [exact B2|]. intros h x Hh Hx. cbv zeta. fold n. fold T. rewrite Eo. cbn. do 2 f_equal.
      assert (HI : forall e, In e bases -> In e es).
      { clear -F. induction F as [|j e C bs Hj F IH]; intros e' [].
        - subst. eapply nth_error_In; eauto.
        - apply IH; auto. }
      assert (Hrep : forall z u, (forall e, In e es -> f e z = u) -> map (fun e => f e z) bases = repeat u (length bases)).
      { intros z u Hz. clear - HI Hz. induction bases as [|e bs IH]; [reflexivity|]. cbn. f_equal; [apply Hz, HI; left; reflexivity|].
        apply IH. intros e' He'. apply HI. right; exact He'. }
      rewrite (Hrep _ x Hx) in HF.
      rewrite (map_ext_in _ (fun t => repeat (h t) (length bases))) in HF by (intros t Ht; apply Hrep; intros e He; apply Hh; [exact He|apply HTw, Ht]).
      rewrite <- EL in HF.
      refine (meta_copies fit_meta predict_meta (fun _ b => Ok b) false _ _ _ h _ _ x _ q HM Ha _ Hne HF).
      intros t Ht. apply HTw, Ht.
  Qed.
End NewPoints.
