(** Stacking and the unit of the target. *)
From Coq Require Import Lra Lia Psatz.
From Verif.Model Require Import Base Ext Csr Neighbour Distance WeightModel NumbaImpl Stacking.
From Verif.Spec Require Import KernelSpec NeighbourSpec StackingSpec RidgeSpec UnitsSpec.
From Verif.Proofs Require Import ListFacts SumFacts KernelFacts CsrFacts ShrinkFacts NeighbourFacts SampleFacts WeightModelFacts
  NeighbourProps WeightModelProps StackingCsr StackingFacts StackingMeta StackingProps StackingClaims RidgeProps SolverExists RidgeChanges Units.
Open Scope nat_scope.
Open Scope R_scope.

Definition obs_units (a k : R) (o : observation) : observation := Obs (map (in_units a k) (features o)) (in_units a k (target o)) (weight o).

Section Ridge.
  Variables (solve : matrix R -> list R -> result (list R)) (p : nat).
  Hypothesis Hsolve : exact_solver solve.
  Variables a k : R.
  Hypothesis Ha0 : a <> 0.

  Lemma linear_units c b x : length x = p ->
    linear p c b (map (in_units a k) x) = in_units a k (linear p c ((b - k + k * Sg p (fun j => nth j c 0)) / a) x).
  Proof.
    intros Hx. unfold linear. fold (Sg p (fun j => nth j (map (in_units a k) x) 0 * nth j c 0)). fold (Sg p (fun j => nth j x 0 * nth j c 0)).
    rewrite (Sg_ext p (fun j => nth j (map (in_units a k) x) 0 * nth j c 0) (fun j => a * (nth j x 0 * nth j c 0) + k * nth j c 0)).
    - rewrite Sg_plus, !Sg_scal. unfold in_units. field. auto.
    - intros j Hj. rewrite (nth_map_in (in_units a k) x j 0 0) by lia. unfold in_units. ring.
  Qed.

  Lemma objO_units alpha obs c b : weighted_sample p obs ->
    objO p (a * a * alpha) (map (obs_units a k) obs) c b = a * a * objO p alpha obs c ((b - k + k * Sg p (fun j => nth j c 0)) / a).
  Proof.
    intros HO. unfold objO, weighted_error. rewrite map_map. cbn [obs_units features target weight].
    rewrite Rmult_plus_distr_l, <- Rsum_map_scal. f_equal; [|ring]. apply Rsum_map_ext. intros o Ho.
    rewrite linear_units by (apply HO, Ho). unfold in_units. ring.
  Qed.

  Lemma fit_units_ridge alpha obs c b : weighted_sample p obs -> 0 < alpha -> fitO solve p alpha obs = Ok (c, Fin b) ->
    fitO solve p (a * a * alpha) (map (obs_units a k) obs) = Ok (c, Fin (in_units a k b - k * Sg p (fun j => nth j c 0))).
  Proof.
    intros HO Ha E. assert (Haa : 0 < a * a) by nra. apply fit_iff; auto; [|nra|].
    - apply sample_map; [exact HO|]. intros o Ho. cbn. split; [rewrite map_length; apply HO; auto|exists 1; split; [lra|ring]].
    - apply fit_iff in E as [L M]; auto. split; [exact L|]. intros c' b'. rewrite !objO_units by auto.
      apply Rmult_le_compat_l; [lra|].
      replace ((in_units a k b - k * Sg p (fun j => nth j c 0) - k + k * Sg p (fun j => nth j c 0)) / a) with b by (unfold in_units; field; auto).
      apply M.
  Qed.
End Ridge.

Lemma dot_Sg x c p : length x = p -> length c = p -> dot x c = Sg p (fun j => nth j x 0 * nth j c 0).
Proof. intros Hx Hc. unfold dot. rewrite (map2_sum Rmult x c p 0 0 Hx Hc). reflexivity. Qed.

Section Stacked.
  Context {est meta : Type}.
  Variable fit_est : nat -> matrix R -> list R -> list R -> result est.
  Variable predict_est : est -> matrix R -> result (list R).
  Variable fit_meta : R -> nat -> matrix R -> list R -> list R -> result meta.
  Variable predict_meta : meta -> matrix R -> result (list R).
  Variable solve : matrix R -> list R -> result (list R).
  Variable f : est -> list R -> R.
  Hypothesis Hrow : rowwise predict_est f.
  Hypothesis Hpred : forall e x, exists p, predict_est e [x] = Ok p.
  Variables a k : R.
  Hypothesis Ha : a <> 0.
  Hypothesis Hfu : follows_units fit_est predict_est a k.
  Notation stacked := (stacked fit_est predict_est fit_meta predict_meta solve).

  Lemma f_units e e' : (forall Z p, predict_est e Z = Ok p -> predict_est e' Z = Ok (map (in_units a k) p)) ->
    forall x, f e' x = in_units a k (f e x).
  Proof.
    intros H x. destruct (Hpred e x) as [p Hp]. pose proof (Hrow _ _ _ Hp) as E1. subst p. apply H in Hp. apply Hrow in Hp. cbn in Hp. congruence.
  Qed.

  Lemma stacked_units garbage garbage' c c' w X y n W L W' es ps0 qs ps ses es' ps0' qs' ps' ses' i :
    stacked garbage c w X y n W L W' es ps0 qs ps ses ->
    stacked garbage' c' w X (map (in_units a k) y) n W L W' es' ps0' qs' ps' ses' ->
    length y = n -> all_bases_used c w -> all_bases_used c' w -> sc_use_numba c' = sc_use_numba c -> sc_alpha c' = a * a * sc_alpha c ->
    (if sc_use_numba c then exact_solver solve /\ 0 < sc_alpha c /\ meta_points n W' i <> [] else meta_follows_units fit_meta predict_meta a k) ->
    (i < n)%nat -> mget false L i i = true -> 0 < mget 0 W' i i ->
    nth i ps' 0 = in_units a k (nth i ps 0).
  Proof.
    intros A B Hy Hall Hall' Hnum Hal Hm Hi HL HW.
    destruct (stacked_entries fit_est predict_est fit_meta predict_meta solve f _ _ _ _ _ _ _ _ _ _ _ _ _ _ i Hrow A Hall Hi HL HW) as (m & bases & _ & F1 & M1).
    destruct (stacked_entries fit_est predict_est fit_meta predict_meta solve f _ _ _ _ _ _ _ _ _ _ _ _ _ _ i Hrow B Hall' Hi HL HW) as (m' & bases' & _ & F2 & M2).
    cbv zeta in M1, M2. destruct A as [(A1 & _) A5 _], B as [(B1 & _) B5 _].
    assert (Hb : Forall2 (fun e e' => forall x, f e' x = in_units a k (f e x)) bases bases').
    { clear M1 M2. revert bases' F2. induction F1 as [|j e C bases Hj F1 IH]; intros bases' F2; inversion F2 as [|j' e' C' bs' Hj' F2']; subst; constructor; [|apply IH; auto].
      destruct (A5 j e Hj) as (P1 & _), (B5 j e' Hj') as (P2 & _). unfold base_learner in *. cbv zeta in *.
      destruct (Hfu _ _ _ _ _ P1) as (e2 & P3 & P4). apply f_units.
      assert (E : forall T, (forall t, In t T -> (t < length y)%nat) -> map (in_units a k) (map (fun t => nth t y 0) T) = map (fun t => nth t (map (in_units a k) y) 0) T).
      { intros T HT. rewrite map_map. apply map_ext_in. intros t Ht. symmetry. apply nth_map_in. auto. }
      rewrite E in P3 by (intros t Ht; unfold base_training in Ht; apply filter_In in Ht; destruct Ht as [Ht _]; apply in_seq in Ht; lia).
      rewrite P2 in P3. injection P3 as <-. exact P4. }
    assert (Hrows : forall x, map (fun e => f e x) bases' = map (in_units a k) (map (fun e => f e x) bases)).
    { intros x. clear -Hb. induction Hb; cbn; auto. f_equal; auto. }
    assert (Elen : length bases' = length bases) by (symmetry; apply (Forall2_len _ _ _ Hb)).
    set (T := meta_points n W' i) in *.
    rewrite Hrows, Elen, Hnum, Hal in M2.
    rewrite (map_ext (fun t => map (fun e => f e (nth t X [])) bases') (fun t => map (in_units a k) (map (fun e => f e (nth t X [])) bases))) in M2 by (intros; apply Hrows).
    assert (EyT : map (fun t => nth t (map (in_units a k) y) 0) T = map (in_units a k) (map (fun t => nth t y 0) T)).
    { rewrite map_map. apply map_ext_in. intros t Ht. apply nth_map_in. apply meta_points_in in Ht. lia. }
    rewrite EyT in M2. unfold meta_fitted in M1, M2. destruct (sc_use_numba c).
    - destruct M1 as (co & b & R1 & _ & Q1). destruct M2 as (co' & b' & R2 & _ & Q2). destruct Hm as (HS & Halpha & HT).
      set (obs := map (fun t => Obs (map (fun e => f e (nth t X [])) bases) (nth t y 0) (mget 0 W' i t)) T).
      assert (HO : weighted_sample (length bases) obs).
      { split.
        - intros o Ho. apply in_map_iff in Ho. destruct Ho as (t & <- & Ht). cbn. rewrite map_length. apply meta_points_in in Ht. split; [reflexivity|lra].
        - destruct T as [|t T'] eqn:ET; [congruence|]. eexists. split; [left; reflexivity|]. cbn. assert (Ht : In t (meta_points n W' i)) by (fold T; rewrite ET; left; auto).
          apply meta_points_in in Ht. tauto. }
      assert (E1 : fitO solve (length bases) (sc_alpha c) obs = Ok (co, Fin b)).
      { rewrite <- R1. unfold fitO, X_of, y_of, w_of, obs. rewrite !map_map. reflexivity. }
      assert (Lco : length co = length bases) by (apply (fit_iff solve _ HS (sc_alpha c) obs co b HO Halpha) in E1; apply E1).
      apply (fit_units_ridge solve _ HS a k Ha) in E1; auto.
      assert (E2 : fitO solve (length bases) (a * a * sc_alpha c) (map (obs_units a k) obs) = Ok (co', Fin b')).
      { rewrite <- R2. unfold fitO, X_of, y_of, w_of, obs. rewrite !map_map. reflexivity. }
      rewrite E1 in E2. injection E2 as <- <-. rewrite Q1, Q2.
      rewrite (dot_Sg _ _ (length bases)), (dot_Sg _ _ (length bases)) by (rewrite ?map_length; auto).
      rewrite (Sg_ext _ (fun j => nth j (map (in_units a k) (map (fun e => f e (nth i X [])) bases)) 0 * nth j co 0)
        (fun j => a * (nth j (map (fun e => f e (nth i X [])) bases) 0 * nth j co 0) + k * nth j co 0)).
      + rewrite Sg_plus, !Sg_scal. unfold in_units. ring.
      + intros j Hj. rewrite (nth_map_in (in_units a k) _ j 0 0) by (rewrite map_length; auto). unfold in_units. ring.
    - destruct M1 as (mm & R1 & _ & Q1). destruct M2 as (mm' & R2 & _ & Q2). destruct (Hm _ _ _ _ _ _ R1) as (m2 & R3 & Q3).
      rewrite map_map in R3. rewrite R3 in R2. injection R2 as <-. apply Q3 in Q1. rewrite Q1 in Q2. injection Q2 as Q2. auto.
  Qed.

  Context {G : Type}.
  Variable seed0 : G.
  Variable choice : G -> list nat -> nat -> G * list nat.
  Variable cpu : nat.
  Variable wm : filesystem -> list coords -> list coords -> filesystem * result swts.
  Notation sfit := (sfit est fit_est predict_est meta fit_meta predict_meta solve G seed0 choice cpu wm).

  Theorem stacking_units r r' c g g' fs s0 s0' X y coords given w W W' i :
    let n := length X in
    let c' := with_alpha c (a * a * sc_alpha c) in
    let o := sfit r c g fs s0 X y coords given in
    let o' := sfit r' c' g' fs s0' X (map (in_units a k) y) coords given in
    valid_choice choice -> valid_runtime r n (patches cpu c) -> valid_runtime r' n (patches cpu c) ->
    valid_rates c -> real_weights wm fs coords given w -> holds_real w W n -> all_bases_used c w ->
    shrunk_weights (sc_meta_shrink c) W W' ->
    (if sc_use_numba c
     then exact_solver solve /\ 0 < sc_alpha c /\ (exists t, (t < n)%nat /\ t <> i /\ 0 < mget 0 W' i t) /\ forall u v, (u < n)%nat -> (v < n)%nat -> 0 <= mget 0 W u v
     else meta_follows_units fit_meta predict_meta a k) ->
    so_result est meta G o = Ok tt -> so_result est meta G o' = Ok tt ->
    (i < n)%nat -> 0 < mget 0 W' i i ->
    exists ps ps', ss_stacking_predict est meta (so_state est meta G o) = Some ps /\
      ss_stacking_predict est meta (so_state est meta G o') = Some ps' /\ length ps = n /\ length ps' = n /\
      nth i ps' 0 = in_units a k (nth i ps 0).
  Proof.
    intros n c' o o' Hc Hr Hr' Hrt Hreal Hw Hall Hsh Hnum H1 H2 Hi Hp.
    assert (Hone : one_per_row predict_est) by (intros e Z p H; rewrite (Hrow e Z p H); apply map_length).
    assert (Hpos : sc_use_numba c = true -> forall u v, (u < n)%nat -> (v < n)%nat -> 0 <= mget 0 W u v) by (intros E; rewrite E in Hnum; apply Hnum).
    destruct (sfit_stacked fit_est predict_est fit_meta predict_meta solve seed0 choice cpu wm Hc Hone r c g fs s0 X y coords given w W Hr Hrt Hreal Hw Hpos H1)
      as (L & W1 & es & ps0 & qs & ps & ses & A1 & A2 & A3 & _ & _ & A4 & _).
    destruct (sfit_stacked fit_est predict_est fit_meta predict_meta solve seed0 choice cpu wm Hc Hone r' c' g' fs s0' X (map (in_units a k) y) coords given w W Hr' Hrt Hreal Hw Hpos H2)
      as (L1 & W2 & es1 & ps01 & qs1 & ps1 & ses1 & B1 & B2 & B3 & _ & _ & B4 & _).
    change (leave_outs seed0 choice c W L1) in B1. change (shrunk_weights (sc_meta_shrink c) W W2) in B2.
    rewrite (leave_outs_unique seed0 choice c W L1 L B1 A1) in *. rewrite (shrunk_unique _ W W2 W' B2 Hsh) in *. rewrite (shrunk_unique _ W W1 W' A2 Hsh) in *.
    fold n in A3, B3. exists ps, ps1. split; [exact A4|]. split; [exact B4|].
    split; [apply (st_num _ _ _ _ _ _ _ _ _ _ _ _ _ _ _ _ _ _ _ A3)|]. split; [apply (st_num _ _ _ _ _ _ _ _ _ _ _ _ _ _ _ _ _ _ _ B3)|].
    assert (Hy : length y = n).
    { destruct (sfit_inv fit_est predict_est fit_meta predict_meta solve seed0 choice cpu wm r c g fs s0 X y coords given H1) as (w0 & g1 & Lm & g2 & locs & w' & second & preds & XT & es2 & p & score & g3 & ps2 & scores & ses2 & score' & H).
      cbv zeta in H. destruct H as (HC & _). destruct (check_ok X y HC) as (Ly & _). unfold n. congruence. }
    refine (stacked_units _ _ c c' w X y n W L W' _ _ _ _ _ _ _ _ _ _ i A3 B3 Hy Hall Hall eq_refl eq_refl _ Hi _ Hp).
    - destruct (sc_use_numba c); auto. destruct Hnum as (N1 & N2 & (t & T1 & T2 & T3) & _). split; [auto|]. split; [auto|].
      intros E. assert (Hin : In t (meta_points n W' i)) by (apply meta_points_in; auto). rewrite E in Hin. destruct Hin.
    - destruct Hw as [HW _]. assert (Hn : (0 < n)%nat) by lia. apply (leave_outs_shape seed0 choice c W L n Hc Hrt HW Hn A1). auto.
  Qed.
End Stacked.
