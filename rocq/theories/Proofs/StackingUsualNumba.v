(** When a stacking fit with the numba ridge succeeds. *)
From Coq Require Import Lra.
From Verif.Model Require Import Base Ext Csr Neighbour Distance WeightModel NumbaImpl Stacking.
From Verif.Spec Require Import KernelSpec NeighbourSpec WeightModelSpec RidgeSpec StackingSpec StackingTotalSpec.
From Verif.Proofs Require Import ListFacts KernelFacts CsrFacts ShrinkFacts NeighbourFacts SampleFacts WeightModelFacts
  NeighbourProps WeightModelProps StackingCsr StackingFacts StackingMeta StackingProps StackingClaims StackingTotal AleFacts
  RidgeProps RidgeChanges StackingUsual.
Open Scope nat_scope.
Open Scope R_scope.

(** The observations of one meta model. *)
Definition meta_obs (C T : list nat) (entry : nat -> nat -> R) (y : list R) (wt : nat -> R) : list observation :=
  map (fun k => Obs (map (fun j => entry j k) C) (nth k y 0) (wt k)) T.
Lemma meta_obs_sample C n W' i entry y : meta_points n W' i <> [] ->
  weighted_sample (length C) (meta_obs C (meta_points n W' i) entry y (mget 0 W' i)).
Proof.
  intros HT. split.
  - intros o Ho. apply in_map_iff in Ho. destruct Ho as (t & <- & Ht). cbn. rewrite map_length. apply meta_points_in in Ht. split; [reflexivity|lra].
  - destruct (meta_points n W' i) as [|t T] eqn:ET; [congruence|]. eexists. split; [left; reflexivity|]. cbn.
    assert (Ht : In t (meta_points n W' i)) by (rewrite ET; left; auto). apply meta_points_in in Ht. tauto.
Qed.
Lemma meta_obs_fit solve C T entry y wt alpha :
  ridge_cholesky solve (length C) (map (fun k => map (fun j => entry j k) C) T) (map (fun k => nth k y 0) T) alpha (map wt T) =
  fitO solve (length C) alpha (meta_obs C T entry y wt).
Proof. unfold fitO, X_of, y_of, w_of, meta_obs. rewrite !map_map. reflexivity. Qed.

Section Numba.
  Context {est meta : Type}.
  Variable fit_est : nat -> matrix R -> list R -> list R -> result est.
  Variable predict_est : est -> matrix R -> result (list R).
  Variable fit_meta : R -> nat -> matrix R -> list R -> list R -> result meta.
  Variable predict_meta : meta -> matrix R -> result (list R).
  Variable solve : matrix R -> list R -> result (list R).
  Context {G : Type}.
  Variable seed0 : G.
  Variable choice : G -> list nat -> nat -> G * list nat.
  Variable cpu : nat.
  Variable wm : filesystem -> list coords -> list coords -> filesystem * result swts.
  Notation sfit := (sfit est fit_est predict_est meta fit_meta predict_meta solve G seed0 choice cpu wm).

  Hypothesis Hchoice : valid_choice choice.
  Hypothesis Hest : needs_data fit_est predict_est.
  Hypothesis Hsolve : exact_solver solve.

  Lemma stacked_numba garbage c w X y n W L W' : sc_use_numba c = true -> 0 < sc_alpha c ->
    (forall i, (i < n)%nat -> mget false L i i = true) -> (exists m, w = SSparse m) ->
    (exists es ps0 qs ps ses, stacked fit_est predict_est fit_meta predict_meta solve garbage c w X y n W L W' es ps0 qs ps ses) <->
    (forall i, (i < n)%nat -> base_training n W L i <> [] /\ meta_points n W' i <> []).
  Proof.
    intros Hnb Ha Hd [mw ->]. destruct Hest as (E1 & E2 & E3 & E4). split.
    - intros (es & ps0 & qs & ps & ses & [(L1 & L2 & L3 & L4) Hb Hm]) i Hi. split.
      + intros E. destruct (nth_error es i) as [e|] eqn:Ee; [|apply nth_error_None in Ee; lia].
        destruct (Hb i e Ee) as (B & _). unfold base_learner in B. rewrite E in B. apply E1 in B. exact B.
      + intros E. destruct (Hm i Hi) as (m & bases & _ & _ & H). rewrite Hnb in H. cbn [meta_fitted] in H. destruct H as (co & b & H & _).
        rewrite E in H. unfold ridge_cholesky in H. cbn [map length Nat.eqb negb orb] in H. apply bind_ok in H. destruct H as (z & _ & H). discriminate.
    - intros H.
      assert (Hev : forall j, (j < n)%nat -> evaluated n W' L j <> []).
      { intros j Hj E. destruct (H j Hj) as (_ & H2). destruct (meta_points n W' j) as [|k T] eqn:ET; [congruence|].
        assert (In k (meta_points n W' j)) as Hk by (rewrite ET; left; auto).
        assert (In k (evaluated n W' L j)) as Hin by (apply (meta_points_evaluated n W' L j j k); auto; apply meta_bases_in; auto).
        rewrite E in Hin. destruct Hin. }
      destruct (list_choice (fun j e => base_learner fit_est X y n W L j e) n) as (es & Les & Hes).
      { intros j Hj. destruct (H j Hj) as (H1 & _). unfold base_learner. apply E2; rewrite ?map_length; auto. apply map_not_nil. auto. }
      destruct (list_choice (fun j p => forall e, nth_error es j = Some e -> predict_est e [nth j X []] = Ok [p]) n) as (ps0 & Lps0 & Hps0).
      { intros j Hj. destruct (nth_error es j) as [e|] eqn:Ee; [|apply nth_error_None in Ee; lia].
        destruct (proj2 (E3 e [nth j X []])) as [p Hp]; [discriminate|]. pose proof (E4 _ _ _ Hp) as Hl. cbn in Hl.
        destruct p as [|a [|b p]]; try discriminate. exists a. intros e' He'. congruence. }
      destruct (list_choice (fun j q => forall e, nth_error es j = Some e -> predict_est e (map (fun k => nth k X []) (evaluated n W' L j)) = Ok q) n) as (qs & Lqs & Hqs).
      { intros j Hj. destruct (nth_error es j) as [e|] eqn:Ee; [|apply nth_error_None in Ee; lia].
        destruct (proj2 (E3 e (map (fun k => nth k X []) (evaluated n W' L j)))) as [p Hp]; [apply map_not_nil; auto|]. exists p. intros e' He'. congruence. }
      assert (HC : forall i j, In j (used_bases c (SSparse mw) n L i) -> (j < n)%nat).
      { intros i j Hj. unfold used_bases in Hj. destruct (sc_estimator_rate c); apply meta_bases_in in Hj; tauto. }
      destruct (list_choice (fun i (v : R * stacking_estimator est meta) => exists m bases,
         let C := used_bases c (SSparse mw) n L i in
         let T := meta_points n W' i in
         let entry j k := lookup (evaluated n W' L j) (nth j qs []) k in
         let input j := if true && negb (existsb (Nat.eqb i) (evaluated n W' L j)) then last (nth j qs []) garbage else entry j i in
         snd v = StackingEstimator est meta m bases /\
         Forall2 (fun j e => nth_error es j = Some e) C bases /\
         meta_fitted fit_meta predict_meta solve true (sc_alpha c) (length C) (map (fun k => map (fun j => entry j k) C) T) (map (fun k => nth k y 0) T)
           (map (mget 0 W' i) T) (map input C) m (fst v)) n) as (vs & Lvs & Hvs).
      { intros i Hi. destruct (H i Hi) as (_ & H2). cbv zeta. set (C := used_bases c (SSparse mw) n L i) in *. set (T := meta_points n W' i) in *.
        set (entry := fun j k => lookup (evaluated n W' L j) (nth j qs []) k).
        set (input := fun j => if true && negb (existsb (Nat.eqb i) (evaluated n W' L j)) then last (nth j qs []) garbage else entry j i).
        destruct (fit_ok solve (length C) Hsolve (sc_alpha c) (meta_obs C T entry y (mget 0 W' i))) as (co & b & HF); auto; [apply meta_obs_sample; auto|].
        assert (HB : exists bases, Forall2 (fun j e => nth_error es j = Some e) C bases).
        { assert (HC' : forall j, In j C -> (j < n)%nat) by (intros j Hj; apply (HC i); auto). clear -HC' Les. clearbody C. induction C as [|j C IH]; [exists []; constructor|].
          destruct IH as [bs Hbs]; [intros; apply HC'; right; auto|]. destruct (nth_error es j) as [e|] eqn:Ee.
          - exists (e :: bs). constructor; auto.
          - apply nth_error_None in Ee. specialize (HC' j (or_introl eq_refl)). lia. }
        destruct HB as [bases HB]. exists (dot (map input C) co + b, StackingEstimator est meta (MLinear meta co (Fin b)) bases), (MLinear meta co (Fin b)), bases.
        split; [reflexivity|]. split; [exact HB|]. cbn [meta_fitted fst]. exists co, b. split; [|auto].
        rewrite <- HF. apply (meta_obs_fit solve C T entry y (mget 0 W' i)). }
      exists es, ps0, qs, (map fst vs), (map snd vs). constructor.
      + rewrite !map_length. auto.
      + intros j e Hj. assert (Hjn : (j < n)%nat) by (rewrite <- Les; apply nth_error_Some; congruence). split; [apply Hes; auto|]. split.
        * apply (Hps0 j (nth j ps0 0)); auto. apply nth_error_nth'. lia.
        * apply (Hqs j (nth j qs [])); auto. apply nth_error_nth'. lia.
      + intros i Hi. destruct (nth_error vs i) as [v|] eqn:Ev; [|apply nth_error_None in Ev; lia].
        destruct (Hvs i v Ev) as (m & bases & V1 & V2 & V3). exists m, bases. cbv zeta. rewrite Hnb.
        split; [rewrite nth_error_map, Ev; cbn; rewrite V1; reflexivity|]. split; [exact V2|].
        rewrite (nth_map_in fst vs i v) by lia. rewrite (nth_error_nth _ _ v Ev). exact V3.
  Qed.

  Theorem usual_numba_iff r c g fs s0 X y coords given w W :
    let n := length X in
    valid_runtime r n (patches cpu c) -> valid_rates c ->
    real_weights wm fs coords given w -> holds_real w W n -> sc_use_numba c = true -> 0 < sc_alpha c ->
    (forall i k, (i < n)%nat -> (k < n)%nat -> 0 <= mget 0 W i k) ->
    so_result est meta G (sfit r c g fs s0 X y coords given) = Ok tt <->
    valid_data X y /\ keeps_all c n /\ has_batches cpu c /\ (exists m, w = SSparse m) /\
    exists L W', leave_outs seed0 choice c W L /\ shrunk_weights (sc_meta_shrink c) W W' /\
      forall i, (i < n)%nat -> base_training n W L i <> [] /\ meta_points n W' i <> [].
  Proof.
    intros n HR Hrates Hreal Hw Hnb Ha Hnn.
    assert (Hone : one_per_row predict_est) by (destruct Hest as (_ & _ & _ & H); exact H).
    rewrite (sfit_iff fit_est predict_est fit_meta predict_meta solve seed0 choice cpu wm Hone Hchoice r c g fs s0 X y coords given w W HR Hrates Hreal Hw) by auto.
    assert (Hdiag : (0 < n)%nat -> forall L, leave_outs seed0 choice c W L -> forall i, (i < n)%nat -> mget false L i i = true).
    { intros Hn L HL. destruct Hw as [HW _]. apply (leave_outs_shape seed0 choice c W L n Hchoice Hrates HW Hn HL). }
    assert (Hpos : valid_data X y -> (0 < n)%nat).
    { intros (p & HR' & H1 & _). destruct HR' as [H2 _]. unfold n. lia. }
    fold n. split.
    - intros (C1 & C2 & C3 & L & W' & es & ps0 & qs & ps & ses & H1 & H2 & H3 & H4).
      assert (Hsp : exists m, w = SSparse m) by (unfold storable in H3; rewrite Hnb in H3; destruct w as [m|m]; [destruct H3; discriminate|exists m; reflexivity]).
      pose proof (proj1 (stacked_numba (r_garbage r) c w X y n W L W' Hnb Ha (Hdiag (Hpos C1) L H1) Hsp) (ex_intro _ es (ex_intro _ ps0 (ex_intro _ qs (ex_intro _ ps (ex_intro _ ses H4)))))) as H5.
      repeat split; auto. exists L, W'. repeat split; auto; apply H5; auto.
    - intros (C1 & C2 & C3 & C4 & L & W' & H1 & H2 & H3). repeat split; auto.
      destruct (proj2 (stacked_numba (r_garbage r) c w X y n W L W' Hnb Ha (Hdiag (Hpos C1) L H1) C4)) as (es & ps0 & qs & ps & ses & H5); auto.
      exists L, W', es, ps0, qs, ps, ses. split; [auto|]. split; [auto|]. split; [|auto]. destruct C4 as [m ->]. unfold storable. rewrite Hnb.
      assert (H0 : (0 < n)%nat) by auto. destruct (H3 0%nat H0) as (_ & H6). destruct (meta_points n W' 0) as [|k T] eqn:ET; [congruence|].
      assert (Hk : In k (meta_points n W' 0)) by (rewrite ET; left; auto). apply meta_points_in in Hk. exists 0%nat, k. tauto.
  Qed.
End Numba.
