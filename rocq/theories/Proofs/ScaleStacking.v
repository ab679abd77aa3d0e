(** Stacking and the unit of the weights. *)
From Coq Require Import Lra Lia Psatz.
From Verif.Model Require Import Base Ext Csr Neighbour Distance WeightModel NumbaImpl Stacking.
From Verif.Spec Require Import KernelSpec NeighbourSpec StackingSpec RidgeSpec UnitsSpec ScaleSpec.
From Verif.Proofs Require Import ListFacts SumFacts KernelFacts CsrFacts ShrinkFacts NeighbourFacts SampleFacts WeightModelFacts
  NeighbourProps WeightModelProps StackingCsr StackingFacts StackingMeta StackingProps StackingClaims RidgeProps SolverExists RidgeChanges Units StackingUnits.
Open Scope nat_scope.
Open Scope R_scope.

Section Factor.
  Variable k : R.
  Hypothesis Hk : 0 < k.

  Lemma Rltb_scale x y : Rltb (k * x) (k * y) = Rltb x y.
  Proof. unfold Rltb. destruct (Rlt_dec (k * x) (k * y)), (Rlt_dec x y); auto; exfalso; nra. Qed.
  Lemma Rleb_scale x y : Rleb (k * x) (k * y) = Rleb x y.
  Proof. unfold Rleb. destruct (Rle_dec (k * x) (k * y)), (Rle_dec x y); auto; exfalso; nra. Qed.
  Lemma Rltb_scale0 x : Rltb 0 (k * x) = Rltb 0 x.
  Proof. rewrite <- (Rltb_scale 0 x), Rmult_0_r. reflexivity. Qed.
  Lemma Reqb_scale0 x : Reqb (k * x) 0 = Reqb x 0.
  Proof. unfold Reqb. destruct (Req_EM_T (k * x) 0) as [E|E], (Req_EM_T x 0) as [F|F]; auto; exfalso; [apply Rmult_integral in E; lra|subst; apply E; ring]. Qed.

  Lemma count_scale (p : R -> bool) (q : R -> bool) row : (forall x, p (k * x) = q x) -> KernelSpec.count p (map (Rmult k) row) = KernelSpec.count q row.
  Proof.
    intros H. unfold KernelSpec.count. induction row as [|x row IH]; cbn; auto. rewrite H. destruct (q x); cbn; auto.
  Qed.

  Lemma kth_scale row j v : kth_smallest row j v <-> kth_smallest (map (Rmult k) row) j (k * v).
  Proof.
    unfold kth_smallest. rewrite (count_scale _ (fun x => Rleb x v)), (count_scale _ (fun x => Rltb x v)) by (intros; auto using Rleb_scale, Rltb_scale).
    split; intros (A & B); (split; [|exact B]).
    - apply in_map. exact A.
    - apply in_map_iff in A. destruct A as (x & E & Hx). replace v with x; auto. apply Rmult_eq_reg_l in E; lra.
  Qed.

  Lemma kth_in_scale row j v : kth_smallest (map (Rmult k) row) j v -> exists v0, v = k * v0 /\ kth_smallest row j v0.
  Proof.
    intros H. assert (A := proj1 H). apply in_map_iff in A. destruct A as (v0 & <- & _). exists v0. split; auto. apply (proj2 (kth_scale row j v0)). exact H.
  Qed.

  Lemma hf7_scale row p b : hyndman_fan_7 row p b -> hyndman_fan_7 (map (Rmult k) row) p (k * b).
  Proof.
    unfold hyndman_fan_7. cbv zeta. rewrite map_length. intros (A & B & C). split; [destruct row; [congruence|discriminate]|].
    split; [intros H; apply (proj1 (kth_scale row _ b)); auto|]. intros j v w Hj Hh Hv Hw.
    apply kth_in_scale in Hv. apply kth_in_scale in Hw. destruct Hv as (v0 & -> & Hv), Hw as (w0 & -> & Hw).
    rewrite (C j v0 w0 Hj Hh Hv Hw). ring.
  Qed.

  Lemma filter_scale row : filter (fun x => negb (Reqb x 0)) (map (Rmult k) row) = map (Rmult k) (filter (fun x => negb (Reqb x 0)) row).
  Proof. induction row as [|x row IH]; cbn [map filter]; auto. rewrite Reqb_scale0. destruct (negb (Reqb x 0)); cbn [map]; rewrite IH; auto. Qed.

  Lemma cut_row_scale q row row' : cut_row q row row' -> cut_row q (map (Rmult k) row) (map (Rmult k) row').
  Proof.
    unfold cut_row. rewrite filter_scale. intros [[A ->]|(b & A & ->)].
    - left. rewrite A. auto.
    - right. exists (k * b). split; [apply hf7_scale; exact A|]. rewrite !map_map. apply map_ext. intros x. rewrite Rltb_scale.
      destruct (Rltb x b); ring.
  Qed.

  Lemma shrunk_scale rate W W' : shrunk_weights rate W W' -> shrunk_weights rate (all_scaled k W) (all_scaled k W').
  Proof.
    destruct rate as [q|]; cbn; [|intros ->; reflexivity]. intros [Hq H]. split; [exact Hq|]. unfold all_scaled, mmap.
    induction H; cbn; constructor; auto using cut_row_scale.
  Qed.

  Lemma shrink_row_scale q row : 0 <= q <= 1 -> shrink_row q (map (Rmult k) row) = map (Rmult k) (shrink_row q row).
  Proof. intros Hq. symmetry. apply cut_row_unique; [exact Hq|]. apply cut_row_scale, shrink_row_cut, Hq. Qed.

  Lemma positive_scale W : mmap positive (all_scaled k W) = mmap positive W.
  Proof. unfold all_scaled, mmap. rewrite map_map. apply map_ext. intros row. rewrite map_map. apply map_ext. intros x. apply Rltb_scale0. Qed.

  Lemma length_scale W : length (all_scaled k W) = length W.
  Proof. apply map_length. Qed.

  Lemma mget_scale W i j : mget 0 (all_scaled k W) i j = k * mget 0 W i j.
  Proof.
    unfold mget, all_scaled, mmap. change (@nil R) with (map (Rmult k) []) at 1. rewrite map_nth.
    rewrite <- (map_nth (Rmult k)). rewrite Rmult_0_r. reflexivity.
  Qed.

  Lemma sample_scale {G} (seed0 : G) choice order g W q shrink : (forall r, shrink = Some r -> 0 <= r <= 1) -> schedule (length W) order ->
    sample_neighbour G seed0 choice order g (all_scaled k W) q shrink = sample_neighbour G seed0 choice order g W q shrink.
  Proof.
    intros Hr HS. unfold sample_neighbour. destruct shrink as [r|].
    - rewrite !neighbour_shrink_ok by (rewrite ?length_scale; auto).
      replace (map (shrink_row r) (all_scaled k W)) with (all_scaled k (map (shrink_row r) W)).
      + cbn [snd]. rewrite positive_scale. reflexivity.
      + unfold all_scaled, mmap. rewrite !map_map. apply map_ext. intros row. symmetry. apply shrink_row_scale. auto.
    - rewrite positive_scale. reflexivity.
  Qed.

  Lemma leave_outs_scale {G} (seed0 : G) choice c W L : valid_rates c ->
    leave_outs seed0 choice c (all_scaled k W) L -> leave_outs seed0 choice c W L.
  Proof.
    intros (_ & Hr2 & _) (q & o & g & g' & A & B & C). rewrite length_scale in B. rewrite sample_scale in C by auto. exists q, o, g, g'. auto.
  Qed.

  Lemma base_training_scale n W L j : base_training n (all_scaled k W) L j = base_training n W L j.
  Proof. unfold base_training. apply filter_ext. intros t. rewrite mget_scale, Reqb_scale0. reflexivity. Qed.
  Lemma meta_points_scale n W i : meta_points n (all_scaled k W) i = meta_points n W i.
  Proof. unfold meta_points. apply filter_ext. intros t. rewrite mget_scale, Rltb_scale0. reflexivity. Qed.
  Lemma evaluated_scale n W L j : evaluated n (all_scaled k W) L j = evaluated n W L j.
  Proof.
    unfold evaluated. apply filter_ext. intros t.
    assert (E : forall l, existsb (fun i => mget false L i j && Rltb 0 (mget 0 (all_scaled k W) i t)) l = existsb (fun i => mget false L i j && Rltb 0 (mget 0 W i t)) l).
    { induction l as [|i l IH]; cbn; auto. rewrite mget_scale, Rltb_scale0, IH. reflexivity. }
    apply E.
  Qed.
End Factor.

Section Stacked.
  Context {est meta : Type}.
  Variable fit_est : nat -> matrix R -> list R -> list R -> result est.
  Variable predict_est : est -> matrix R -> result (list R).
  Variable fit_meta : R -> nat -> matrix R -> list R -> list R -> result meta.
  Variable predict_meta : meta -> matrix R -> result (list R).
  Variable solve : matrix R -> list R -> result (list R).
  Variable f : est -> list R -> R.
  Hypothesis Hrow : rowwise predict_est f.
  Hypothesis Hpred : forall e x, exists p, predict_est e [x] = Ok p.
  Hypothesis Hfr : only_ratios_real fit_est predict_est.
  Variable k : R.
  Hypothesis Hk : 0 < k.
  Notation stacked := (stacked fit_est predict_est fit_meta predict_meta solve).

  Lemma f_same e e' : (forall Z, predict_est e' Z = predict_est e Z) -> forall x, f e' x = f e x.
  Proof.
    intros H x. destruct (Hpred e x) as [p Hp]. pose proof (Hrow _ _ _ Hp) as E1. subst p. rewrite <- H in Hp. apply Hrow in Hp. cbn in Hp. congruence.
  Qed.

  Lemma stacked_scale garbage garbage' c c' w w' X y n W L W' es ps0 qs ps ses es' ps0' qs' ps' ses' i :
    stacked garbage c w X y n W L W' es ps0 qs ps ses ->
    stacked garbage' c' w' X y n (all_scaled k W) L (all_scaled k W') es' ps0' qs' ps' ses' ->
    all_bases_used c w -> all_bases_used c' w' -> sc_use_numba c' = sc_use_numba c -> sc_alpha c' = k * sc_alpha c ->
    (if sc_use_numba c then exact_solver solve /\ 0 < sc_alpha c /\ meta_points n W' i <> [] else penalty_in_weights fit_meta predict_meta k) ->
    (i < n)%nat -> mget false L i i = true -> 0 < mget 0 W' i i ->
    nth i ps' 0 = nth i ps 0.
  Proof.
    intros A B Hall Hall' Hnum Hal Hm Hi HL HW.
    destruct (stacked_entries fit_est predict_est fit_meta predict_meta solve f _ _ _ _ _ _ _ _ _ _ _ _ _ _ i Hrow A Hall Hi HL HW) as (m & bases & _ & F1 & M1).
    assert (HWk : 0 < mget 0 (all_scaled k W') i i) by (rewrite mget_scale; nra).
    destruct (stacked_entries fit_est predict_est fit_meta predict_meta solve f _ _ _ _ _ _ _ _ _ _ _ _ _ _ i Hrow B Hall' Hi HL HWk) as (m' & bases' & _ & F2 & M2).
    cbv zeta in M1, M2. destruct A as [(A1 & _) A5 _], B as [(B1 & _) B5 _].
    assert (Hb : Forall2 (fun e e' => forall x, f e' x = f e x) bases bases').
    { clear M1 M2. revert bases' F2. induction F1 as [|j e C bases Hj F1 IH]; intros bases' F2; inversion F2 as [|j' e' C' bs' Hj' F2']; subst; constructor; [|apply IH; auto].
      destruct (A5 j e Hj) as (P1 & _), (B5 j e' Hj') as (P2 & _). unfold base_learner in *. cbv zeta in *.
      rewrite (base_training_scale k Hk) in P2.
      destruct (Hfr _ _ _ _ _ k Hk P1) as (e2 & P3 & P4). apply f_same.
      rewrite map_map in P3. rewrite (map_ext (fun t => k * mget 0 W j t) (mget 0 (all_scaled k W) j)) in P3 by (intros; rewrite mget_scale; reflexivity).
      rewrite P2 in P3. injection P3 as <-. exact P4. }
    assert (Hrows : forall x, map (fun e => f e x) bases' = map (fun e => f e x) bases).
    { intros x. clear -Hb. induction Hb; cbn; auto. f_equal; auto. }
    assert (Elen : length bases' = length bases) by (symmetry; apply (Forall2_len _ _ _ Hb)).
    rewrite (meta_points_scale k Hk) in M2. set (T := meta_points n W' i) in *.
    rewrite Hrows, Elen, Hnum, Hal in M2.
    rewrite (map_ext (fun t => map (fun e => f e (nth t X [])) bases') (fun t => map (fun e => f e (nth t X [])) bases)) in M2 by (intros; apply Hrows).
    rewrite (map_ext (mget 0 (all_scaled k W') i) (fun t => k * mget 0 W' i t)) in M2 by (intros; apply mget_scale).
    unfold meta_fitted in M1, M2. destruct (sc_use_numba c).
    - destruct M1 as (co & b & R1 & _ & Q1). destruct M2 as (co' & b' & R2 & _ & Q2). destruct Hm as (HS & Halpha & HT).
      set (obs := map (fun t => Obs (map (fun e => f e (nth t X [])) bases) (nth t y 0) (mget 0 W' i t)) T).
      assert (HO : weighted_sample (length bases) obs).
      { split.
        - intros o Ho. apply in_map_iff in Ho. destruct Ho as (t & <- & Ht). cbn. rewrite map_length. apply meta_points_in in Ht. split; [reflexivity|lra].
        - destruct T as [|t T'] eqn:ET; [congruence|]. eexists. split; [left; reflexivity|]. cbn. assert (Ht : In t (meta_points n W' i)) by (fold T; rewrite ET; left; auto).
          apply meta_points_in in Ht. tauto. }
      assert (E1 : fitO solve (length bases) (sc_alpha c) obs = Ok (co, Fin b)).
      { rewrite <- R1. unfold fitO, X_of, y_of, w_of, obs. rewrite !map_map. reflexivity. }
      assert (E2 : fitO solve (length bases) (k * sc_alpha c) (map (fun o => Obs (features o) (target o) (k * weight o)) obs) = Ok (co', Fin b')).
      { rewrite <- R2. unfold fitO, X_of, y_of, w_of, obs. rewrite !map_map. reflexivity. }
      rewrite (fit_scale_weights solve _ HS) in E2 by auto. rewrite E1 in E2. injection E2 as <- <-. congruence.
    - destruct M1 as (mm & R1 & _ & Q1). destruct M2 as (mm' & R2 & _ & Q2). destruct (Hm _ _ _ _ _ _ R1) as (m2 & R3 & Q3).
      rewrite map_map in R3. rewrite R3 in R2. injection R2 as <-. rewrite Q3, Q1 in Q2. injection Q2 as Q2. auto.
  Qed.

  Context {G : Type}.
  Variable seed0 : G.
  Variable choice : G -> list nat -> nat -> G * list nat.
  Variable cpu : nat.
  Variable wm : filesystem -> list coords -> list coords -> filesystem * result swts.
  Notation sfit := (sfit est fit_est predict_est meta fit_meta predict_meta solve G seed0 choice cpu wm).

  Theorem stacking_scale r r' c g g' fs fs' s0 s0' X y coords coords' given given' w w' W W' i :
    let n := length X in
    let c' := with_alpha c (k * sc_alpha c) in
    let o := sfit r c g fs s0 X y coords given in
    let o' := sfit r' c' g' fs' s0' X y coords' given' in
    valid_choice choice -> valid_runtime r n (patches cpu c) -> valid_runtime r' n (patches cpu c) ->
    valid_rates c -> real_weights wm fs coords given w -> holds_real w W n -> all_bases_used c w ->
    real_weights wm fs' coords' given' w' -> holds_real w' (all_scaled k W) n -> all_bases_used c w' ->
    shrunk_weights (sc_meta_shrink c) W W' ->
    (if sc_use_numba c
     then exact_solver solve /\ 0 < sc_alpha c /\ (exists t, (t < n)%nat /\ t <> i /\ 0 < mget 0 W' i t) /\ forall u v, (u < n)%nat -> (v < n)%nat -> 0 <= mget 0 W u v
     else penalty_in_weights fit_meta predict_meta k) ->
    so_result est meta G o = Ok tt -> so_result est meta G o' = Ok tt ->
    (i < n)%nat -> 0 < mget 0 W' i i ->
    exists ps ps', ss_stacking_predict est meta (so_state est meta G o) = Some ps /\
      ss_stacking_predict est meta (so_state est meta G o') = Some ps' /\ length ps = n /\ length ps' = n /\
      nth i ps' 0 = nth i ps 0.
  Proof.
    intros n c' o o' Hc Hr Hr' Hrt Hreal Hw Hall Hreal' Hw' Hall' Hsh Hnum H1 H2 Hi Hp.
    assert (Hone : one_per_row predict_est) by (intros e Z p H; rewrite (Hrow e Z p H); apply map_length).
    assert (Hpos : sc_use_numba c = true -> forall u v, (u < n)%nat -> (v < n)%nat -> 0 <= mget 0 W u v) by (intros E; rewrite E in Hnum; apply Hnum).
    assert (Hpos' : sc_use_numba c = true -> forall u v, (u < n)%nat -> (v < n)%nat -> 0 <= mget 0 (all_scaled k W) u v).
    { intros E u v Hu Hv. rewrite mget_scale. apply Rmult_le_pos; [lra|apply Hpos; auto]. }
    destruct (sfit_stacked fit_est predict_est fit_meta predict_meta solve seed0 choice cpu wm Hc Hone r c g fs s0 X y coords given w W Hr Hrt Hreal Hw Hpos H1)
      as (L & W1 & es & ps0 & qs & ps & ses & A1 & A2 & A3 & _ & _ & A4 & _).
    destruct (sfit_stacked fit_est predict_est fit_meta predict_meta solve seed0 choice cpu wm Hc Hone r' c' g' fs' s0' X y coords' given' w' (all_scaled k W) Hr' Hrt Hreal' Hw' Hpos' H2)
      as (L1 & W2 & es1 & ps01 & qs1 & ps1 & ses1 & B1 & B2 & B3 & _ & _ & B4 & _).
    change (leave_outs seed0 choice c (all_scaled k W) L1) in B1. change (shrunk_weights (sc_meta_shrink c) (all_scaled k W) W2) in B2.
    apply (leave_outs_scale k Hk seed0 choice c W L1 Hrt) in B1.
    rewrite (leave_outs_unique seed0 choice c W L1 L B1 A1) in *.
    rewrite (shrunk_unique _ _ W2 (all_scaled k W') B2 (shrunk_scale k Hk _ W W' Hsh)) in *. rewrite (shrunk_unique _ W W1 W' A2 Hsh) in *.
    fold n in A3, B3. exists ps, ps1. split; [exact A4|]. split; [exact B4|].
    split; [apply (st_num _ _ _ _ _ _ _ _ _ _ _ _ _ _ _ _ _ _ _ A3)|]. split; [apply (st_num _ _ _ _ _ _ _ _ _ _ _ _ _ _ _ _ _ _ _ B3)|].
    refine (stacked_scale _ _ c c' w w' X y n W L W' _ _ _ _ _ _ _ _ _ _ i A3 B3 Hall Hall' eq_refl eq_refl _ Hi _ Hp).
    - destruct (sc_use_numba c); auto. destruct Hnum as (N1 & N2 & (t & T1 & T2 & T3) & _). split; [auto|]. split; [auto|].
      intros E. assert (Hin : In t (meta_points n W' i)) by (apply meta_points_in; auto). rewrite E in Hin. destruct Hin.
    - destruct Hw as [HW _]. assert (Hn : (0 < n)%nat) by lia. apply (leave_outs_shape seed0 choice c W L n Hc Hrt HW Hn A1). auto.
  Qed.
End Stacked.
