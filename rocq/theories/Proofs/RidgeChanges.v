(** How ridge_cholesky responds to changes of its data (C141, C142). *)
From Coq Require Import Lra Lia Psatz Permutation.
From Verif.Model Require Import Base Ext NumbaImpl.
From Verif.Spec Require Import RidgeSpec.
From Verif.Proofs Require Import ListFacts SumFacts RidgeProps SolverExists.
Open Scope nat_scope.
Open Scope R_scope.

Section Ridge.
  Variables (solve : matrix R -> list R -> result (list R)) (p : nat).
  Hypothesis Hsolve : exact_solver solve.

  Definition fitO (alpha : R) (obs : list observation) := ridge_cholesky solve p (X_of obs) (y_of obs) alpha (w_of obs).
  Definition objO (alpha : R) (obs : list observation) (c : list R) (b : R) : R :=
    weighted_error p obs c b + alpha * Rsum (tabulate p (fun j => nth j c 0 ^ 2)).

  Lemma objO_eq alpha obs c b : ridge_objective p (X_of obs) (y_of obs) (w_of obs) alpha c b = objO alpha obs c b.
  Proof.
    unfold ridge_objective, objO, weighted_error, X_of, y_of, w_of. f_equal.
    rewrite map_length. induction obs as [|o obs IH]; [reflexivity|].
    cbn [length map]. rewrite tabulate_S, !Rsum_cons. f_equal. exact IH.
  Qed.

  Lemma sample_facts obs : weighted_sample p obs ->
    rect (X_of obs) (length obs) p /\ length (y_of obs) = length obs /\ length (w_of obs) = length obs /\
    (forall i, (i < length obs)%nat -> 0 <= nth i (w_of obs) 0) /\ Rsum (w_of obs) <> 0 /\ (0 < length obs)%nat.
  Proof.
    intros [H (o & Ho & Hp)]. unfold X_of, y_of, w_of. rewrite !map_length.
    assert (Hn : forall x, In x (map weight obs) -> 0 <= x).
    { intros x Hx. apply in_map_iff in Hx as (o' & <- & Ho'). apply H; auto. }
    split; [split; [apply map_length|]|].
    - apply Forall_forall. intros r Hr. apply in_map_iff in Hr as (o' & <- & Ho'). apply H; auto.
    - split; [reflexivity|]. split; [reflexivity|]. split.
      + intros i Hi. apply Hn. apply nth_In. rewrite map_length. exact Hi.
      + split.
        * assert (K := Rsum_ge_elem (map weight obs) (weight o) Hn (in_map weight obs o Ho)). lra.
        * destruct obs; [destruct Ho|cbn; lia].
  Qed.

  Lemma fit_iff alpha obs c b : weighted_sample p obs -> 0 < alpha ->
    (fitO alpha obs = Ok (c, Fin b) <-> length c = p /\ forall c' b', objO alpha obs c b <= objO alpha obs c' b').
  Proof.
    intros HO Ha. destruct (sample_facts obs HO) as (F1 & F2 & F3 & F4 & F5 & F6).
    split.
    - intros H. destruct (ridge_minimises p _ _ _ _ alpha F1 F2 F3 F4 F5 (Rlt_le _ _ Ha) solve Hsolve F6 c _ H) as (L & b0 & E & M & _).
      injection E as ->. split; [exact L|]. intros c' b'. rewrite <- !objO_eq. apply M.
    - intros [L M]. destruct (ridge_total p _ _ _ _ alpha F1 F2 F3 F4 F5 solve Hsolve F6 Ha) as (c1 & b1 & E).
      destruct (ridge_minimises p _ _ _ _ alpha F1 F2 F3 F4 F5 (Rlt_le _ _ Ha) solve Hsolve F6 c1 _ E) as (L1 & b0 & Eb & M1 & U).
      destruct (U Ha c b L) as [-> ->].
      { rewrite !objO_eq. apply M. }
      unfold fitO. rewrite E, Eb. reflexivity.
  Qed.

  Lemma fit_ok alpha obs : weighted_sample p obs -> 0 < alpha -> exists c b, fitO alpha obs = Ok (c, Fin b).
  Proof.
    intros HO Ha. destruct (sample_facts obs HO) as (F1 & F2 & F3 & F4 & F5 & F6).
    destruct (ridge_total p _ _ _ _ alpha F1 F2 F3 F4 F5 solve Hsolve F6 Ha) as (c1 & b1 & E).
    destruct (ridge_minimises p _ _ _ _ alpha F1 F2 F3 F4 F5 (Rlt_le _ _ Ha) solve Hsolve F6 c1 _ E) as (_ & b0 & Eb & _).
    exists c1, b0. unfold fitO. rewrite E, Eb. reflexivity.
  Qed.

  (** Same objective up to a positive factor, hence the same result. *)
  Lemma fit_same alpha obs alpha' obs' k : weighted_sample p obs -> weighted_sample p obs' -> 0 < alpha -> 0 < alpha' -> 0 < k ->
    (forall c b, objO alpha' obs' c b = k * objO alpha obs c b) -> fitO alpha' obs' = fitO alpha obs.
  Proof.
    intros HO HO' Ha Ha' Hk HE. destruct (fit_ok alpha obs HO Ha) as (c & b & E). rewrite E.
    apply (fit_iff alpha' obs' c b HO' Ha'). apply (fit_iff alpha obs c b HO Ha) in E as [L M].
    split; [exact L|]. intros c' b'. rewrite !HE. apply Rmult_le_compat_l; [lra|apply M].
  Qed.

  Lemma fit_reorder alpha obs obs' : weighted_sample p obs -> 0 < alpha -> Permutation obs obs' -> fitO alpha obs' = fitO alpha obs.
  Proof.
    intros HO Ha HP. apply (fit_same _ _ _ _ 1); auto; try lra.
    - destruct HO as [H (o & Ho & Hp)]. split.
      + intros o' Ho'. apply H. apply (Permutation_in _ (Permutation_sym HP) Ho').
      + exists o. split; [apply (Permutation_in _ HP Ho)|exact Hp].
    - intros c b. unfold objO, weighted_error.
      rewrite (Rsum_perm _ _ (Permutation_map (fun o => weight o * (target o - linear p c b (features o)) ^ 2) HP)). ring.
  Qed.

  Lemma fit_zero_weight alpha obs o : weighted_sample p obs -> 0 < alpha -> length (features o) = p -> weight o = 0 ->
    fitO alpha (o :: obs) = fitO alpha obs.
  Proof.
    intros HO Ha Hl Hz. apply (fit_same _ _ _ _ 1); auto; try lra.
    - destruct HO as [H (o' & Ho & Hp)]. split.
      + intros o1 [<-|H1]; [split; [exact Hl|lra]|apply H; auto].
      + exists o'. split; [right; exact Ho|exact Hp].
    - intros c b. unfold objO, weighted_error. cbn [map]. rewrite Rsum_cons, Hz. ring.
  Qed.

  Lemma fit_merge alpha obs x t v v' : weighted_sample p (Obs x t v :: Obs x t v' :: obs) -> 0 < alpha ->
    fitO alpha (Obs x t v :: Obs x t v' :: obs) = fitO alpha (Obs x t (v + v') :: obs).
  Proof.
    intros HO Ha. symmetry. apply (fit_same _ _ _ _ 1); auto; try lra.
    - destruct HO as [H (o' & Ho & Hp)].
      assert (V := proj2 (H _ (or_introl eq_refl))). assert (V' := proj2 (H _ (or_intror (or_introl eq_refl)))). cbn in V, V'. split.
      + intros o1 [<-|H1]; [cbn; split; [apply (H _ (or_introl eq_refl))|lra]|apply H; right; right; auto].
      + destruct Ho as [<-|[<-|Ho]]; cbn in Hp.
        * exists (Obs x t (v + v')). split; [left; auto|cbn; lra].
        * exists (Obs x t (v + v')). split; [left; auto|cbn; lra].
        * exists o'. split; [right; exact Ho|exact Hp].
    - intros c b. unfold objO, weighted_error. cbn [map]. rewrite !Rsum_cons. cbn. ring.
  Qed.

  Lemma sample_map (f : observation -> observation) obs : weighted_sample p obs ->
    (forall o, In o obs -> length (features (f o)) = p /\ exists k, 0 < k /\ weight (f o) = k * weight o) -> weighted_sample p (map f obs).
  Proof.
    intros [H (o & Ho & Hp)] Hf. split.
    - intros o' Ho'. apply in_map_iff in Ho' as (o1 & <- & H1). destruct (Hf o1 H1) as (L & k & Hk & E).
      split; [exact L|]. rewrite E. destruct (H o1 H1). nra.
    - exists (f o). split; [apply in_map; exact Ho|]. destruct (Hf o Ho) as (_ & k & Hk & E). rewrite E. nra.
  Qed.

  Lemma fit_scale_weights alpha obs k : weighted_sample p obs -> 0 < alpha -> 0 < k ->
    fitO (k * alpha) (map (fun o => Obs (features o) (target o) (k * weight o)) obs) = fitO alpha obs.
  Proof.
    intros HO Ha Hk. apply (fit_same _ _ _ _ k); auto; try nra.
    - apply sample_map; [exact HO|]. intros o Ho. cbn. split; [apply HO; auto|exists k; auto].
    - intros c b. unfold objO, weighted_error. rewrite map_map. cbn.
      rewrite Rmult_plus_distr_l, <- Rsum_map_scal. f_equal; [apply Rsum_map_ext; intros; ring|ring].
  Qed.

  Lemma linear_shift_b c b k x : linear p c (b + k) x = linear p c b x + k.
  Proof. unfold linear. ring. Qed.

  Lemma fit_shift_target alpha obs k c b : weighted_sample p obs -> 0 < alpha -> fitO alpha obs = Ok (c, Fin b) ->
    fitO alpha (map (fun o => Obs (features o) (target o + k) (weight o)) obs) = Ok (c, Fin (b + k)).
  Proof.
    intros HO Ha E. apply fit_iff; auto.
    - apply sample_map; [exact HO|]. intros o Ho. cbn. split; [apply HO; auto|exists 1; split; [lra|ring]].
    - apply fit_iff in E as [L M]; auto. split; [exact L|].
      assert (K : forall c b, objO alpha (map (fun o => Obs (features o) (target o + k) (weight o)) obs) c b = objO alpha obs c (b - k)).
      { intros c0 b0. unfold objO, weighted_error. rewrite map_map. cbn. f_equal. apply Rsum_map_ext. intros o Ho. unfold linear. ring. }
      intros c' b'. rewrite !K. replace (b + k - k) with b by ring. apply M.
  Qed.

  Lemma nth_scale a c j : nth j (map (Rmult a) c) 0 = a * nth j c 0.
  Proof. rewrite <- (map_nth (Rmult a)). now rewrite Rmult_0_r. Qed.

  Lemma linear_scale a c b x : linear p (map (Rmult a) c) (a * b) x = a * linear p c b x.
  Proof.
    unfold linear. rewrite Rmult_plus_distr_l. f_equal.
    change (Sg p (fun j => nth j x 0 * nth j (map (Rmult a) c) 0) = a * Sg p (fun j => nth j x 0 * nth j c 0)).
    rewrite <- Sg_scal. apply Sg_ext. intros j Hj. rewrite nth_scale. ring.
  Qed.

  Lemma objO_scale alpha obs a c b :
    objO alpha (map (fun o => Obs (features o) (a * target o) (weight o)) obs) (map (Rmult a) c) (a * b) = a ^ 2 * objO alpha obs c b.
  Proof.
    unfold objO, weighted_error. rewrite map_map. cbn [features target weight].
    rewrite Rmult_plus_distr_l, <- Rsum_map_scal. f_equal.
    - apply Rsum_map_ext. intros o Ho. rewrite linear_scale. ring.
    - change (alpha * Sg p (fun j => nth j (map (Rmult a) c) 0 ^ 2) = a ^ 2 * (alpha * Sg p (fun j => nth j c 0 ^ 2))).
      rewrite (Sg_ext p (fun j => nth j (map (Rmult a) c) 0 ^ 2) (fun j => a ^ 2 * nth j c 0 ^ 2)).
      + rewrite Sg_scal. ring.
      + intros j Hj. rewrite nth_scale. ring.
  Qed.

  Lemma objO_nonneg alpha obs c b : weighted_sample p obs -> 0 < alpha -> 0 <= objO alpha obs c b.
  Proof.
    intros HO Ha. unfold objO, weighted_error.
    assert (0 <= Rsum (map (fun o => weight o * (target o - linear p c b (features o)) ^ 2) obs)).
    { apply Rsum_nonneg. intros x Hx. apply in_map_iff in Hx as (o & <- & Ho). apply Rmult_le_pos; [apply HO, Ho|apply pow2_ge_0]. }
    assert (0 <= Rsum (tabulate p (fun j => nth j c 0 ^ 2))).
    { apply (Sg_nonneg p (fun j => nth j c 0 ^ 2)). intros; apply pow2_ge_0. }
    nra.
  Qed.

  Lemma fit_scale_target alpha obs a c b : weighted_sample p obs -> 0 < alpha -> fitO alpha obs = Ok (c, Fin b) ->
    fitO alpha (map (fun o => Obs (features o) (a * target o) (weight o)) obs) = Ok (map (Rmult a) c, Fin (a * b)).
  Proof.
    intros HO Ha E.
    assert (HO' : weighted_sample p (map (fun o => Obs (features o) (a * target o) (weight o)) obs)).
    { apply sample_map; [exact HO|]. intros o Ho. cbn. split; [apply HO; auto|exists 1; split; [lra|ring]]. }
    apply fit_iff; auto. apply fit_iff in E as [L M]; auto. split; [rewrite map_length; exact L|].
    intros c' b'. rewrite objO_scale. destruct (Req_EM_T a 0) as [Z|Z].
    - rewrite Z at 1. assert (K := objO_nonneg alpha _ c' b' HO' Ha). nra.
    - assert (K := objO_scale alpha obs a (map (Rmult (/ a)) c') (/ a * b')).
      assert (E1 : map (Rmult a) (map (Rmult (/ a)) c') = c').
      { rewrite map_map. rewrite <- (map_id c') at 2. apply map_ext. intros v. field. exact Z. }
      rewrite E1 in K. replace (a * (/ a * b')) with b' in K by (field; exact Z). rewrite K.
      assert (K2 := M (map (Rmult (/ a)) c') (/ a * b')). assert (0 < a ^ 2) by nra. nra.
  Qed.

  (** Moving the features by [s]. *)
  Definition move (s : list R) (o : observation) : observation := Obs (map2 Rplus (features o) s) (target o) (weight o).

  Lemma linear_move c b s x : length x = p -> length s = p ->
    linear p c b (map2 Rplus x s) = linear p c (b + Sg p (fun j => nth j s 0 * nth j c 0)) x.
  Proof.
    intros Hx Hs. unfold linear. fold (Sg p (fun j => nth j (map2 Rplus x s) 0 * nth j c 0)). fold (Sg p (fun j => nth j x 0 * nth j c 0)).
    rewrite (Sg_ext p (fun j => nth j (map2 Rplus x s) 0 * nth j c 0) (fun j => nth j x 0 * nth j c 0 + nth j s 0 * nth j c 0)).
    - rewrite Sg_plus. ring.
    - intros j Hj. rewrite (map2_nth Rplus x s j 0 0 0) by lia. ring.
  Qed.

  Lemma fit_move alpha obs s c b : weighted_sample p obs -> 0 < alpha -> length s = p -> fitO alpha obs = Ok (c, Fin b) ->
    fitO alpha (map (move s) obs) = Ok (c, Fin (b - Rsum (map2 Rmult s c))).
  Proof.
    intros HO Ha Hs E. apply fit_iff; auto.
    - apply sample_map; [exact HO|]. intros o Ho. cbn. split.
      + rewrite map2_length. destruct (proj1 HO o Ho) as [L _]. lia.
      + exists 1; split; [lra|ring].
    - apply fit_iff in E as [L M]; auto. split; [exact L|].
      assert (K : forall c b, objO alpha (map (move s) obs) c b = objO alpha obs c (b + Sg p (fun j => nth j s 0 * nth j c 0))).
      { intros c0 b0. unfold objO, weighted_error. rewrite map_map. cbn [move features target weight]. f_equal. apply Rsum_map_ext. intros o Ho.
        rewrite linear_move; auto. apply HO, Ho. }
      intros c' b'. rewrite !K. rewrite (map2_sum Rmult s c p 0 0 Hs L).
      replace (b - _ + _) with b by (unfold Sg; ring). apply M.
  Qed.

  (** A stronger penalty. *)
  Lemma size_Sg c : length c = p -> size_of c = Rsum (tabulate p (fun j => nth j c 0 ^ 2)).
  Proof.
    intros L. unfold size_of. rewrite (Sg_list (map (fun v => v ^ 2) c)), map_length, L. apply Sg_ext. intros j Hj.
    rewrite <- (map_nth (fun v => v ^ 2)). apply nth_indep. rewrite map_length. lia.
  Qed.

  Lemma fit_shrink alpha alpha' obs c b c' b' : weighted_sample p obs -> 0 < alpha -> alpha < alpha' ->
    fitO alpha obs = Ok (c, Fin b) -> fitO alpha' obs = Ok (c', Fin b') ->
    size_of c' <= size_of c /\ weighted_error p obs c b <= weighted_error p obs c' b'.
  Proof.
    intros HO Ha Hlt E E'. apply fit_iff in E as [L M]; auto. apply fit_iff in E' as [L' M']; auto; [|lra].
    rewrite !size_Sg by auto. assert (K := M c' b'). assert (K' := M' c b). unfold objO in *.
    set (s := Rsum (tabulate p (fun j => nth j c 0 ^ 2))) in *. set (s' := Rsum (tabulate p (fun j => nth j c' 0 ^ 2))) in *.
    set (e := weighted_error p obs c b) in *. set (e' := weighted_error p obs c' b') in *. split; nra.
  Qed.

  (** The weighted errors cancel: the fit passes through the weighted means. *)
  Lemma fit_mean alpha obs c b : weighted_sample p obs -> 0 < alpha -> fitO alpha obs = Ok (c, Fin b) ->
    Rsum (map (fun o => weight o * (target o - linear p c b (features o))) obs) = 0.
  Proof.
    intros HO Ha E. apply fit_iff in E as [L M]; auto.
    set (g := Rsum (map (fun o => weight o * (target o - linear p c b (features o))) obs)).
    set (W := Rsum (map weight obs)).
    assert (HW : 0 < W).
    { destruct (sample_facts obs HO) as (_ & _ & _ & _ & F5 & _). destruct HO as [H _].
      assert (0 <= W). { apply Rsum_nonneg. intros x Hx. apply in_map_iff in Hx as (o & <- & Ho). apply H, Ho. }
      unfold w_of in F5. fold W in F5. lra. }
    assert (K : forall t, objO alpha obs c (b + t) = objO alpha obs c b - 2 * t * g + t ^ 2 * W).
    { intros t. unfold objO, weighted_error, g, W. 
      assert (K1 : Rsum (map (fun o => weight o * (target o - linear p c (b + t) (features o)) ^ 2) obs) =
        Rsum (map (fun o => weight o * (target o - linear p c b (features o)) ^ 2) obs)
        - 2 * t * Rsum (map (fun o => weight o * (target o - linear p c b (features o))) obs) + t ^ 2 * Rsum (map weight obs)).
      { rewrite <- !Rsum_map_scal, <- Rsum_map_minus, <- Rsum_map_plus. apply Rsum_map_ext. intros o Ho. rewrite linear_shift_b. ring. }
      rewrite K1. ring. }
    assert (Q := M c (b + g / W)). rewrite K in Q.
    assert (E1 : - 2 * (g / W) * g + (g / W) ^ 2 * W = - (g * g / W)) by (field; lra).
    assert (0 <= - (g * g / W)) by lra. 
    assert (E2 : g * g = (g * g / W) * W) by (field; lra). nra.
  Qed.
End Ridge.

(** Scaling one feature is not undone by its coefficient. *)
Definition rs1 : list observation := [Obs [0] 0 1; Obs [2] 2 1].
Definition rs2 : list observation := [Obs [0] 0 1; Obs [4] 2 1].
Lemma rs1_sample : weighted_sample 1 rs1.
Proof. split; [intros o [<-|[<-|[]]]; cbn; lra || (split; [reflexivity|lra])|exists (Obs [0] 0 1); cbn; split; [auto|lra]]. Qed.
Lemma rs2_sample : weighted_sample 1 rs2.
Proof. split; [intros o [<-|[<-|[]]]; cbn; lra || (split; [reflexivity|lra])|exists (Obs [0] 0 1); cbn; split; [auto|lra]]. Qed.
Lemma rs1_fit solve : exact_solver solve -> fitO solve 1 2 rs1 = Ok ([1 / 2], Fin (1 / 2)).
Proof.
  intros HS. apply fit_iff; auto using rs1_sample; [lra|]. split; [reflexivity|]. intros c b.
  unfold objO, weighted_error, linear, rs1, tabulate, Rsum. cbn. set (v := nth 0 c 0).
  assert (0 <= (b - 1 / 2) ^ 2) by apply pow2_ge_0. assert (0 <= (2 * (v - 1 / 2) + (b - 1 / 2)) ^ 2) by apply pow2_ge_0.
  assert (0 <= (v - 1 / 2) ^ 2) by apply pow2_ge_0. lra.
Qed.
Lemma rs2_fit solve : exact_solver solve -> fitO solve 1 2 rs2 = Ok ([2 / 5], Fin (1 / 5)).
Proof.
  intros HS. apply fit_iff; auto using rs2_sample; [lra|]. split; [reflexivity|]. intros c b.
  unfold objO, weighted_error, linear, rs2, tabulate, Rsum. cbn. set (v := nth 0 c 0).
  assert (0 <= (b - 1 / 5) ^ 2) by apply pow2_ge_0. assert (0 <= (4 * (v - 2 / 5) + (b - 1 / 5)) ^ 2) by apply pow2_ge_0.
  assert (0 <= (v - 2 / 5) ^ 2) by apply pow2_ge_0. lra.
Qed.
