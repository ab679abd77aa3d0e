(** More consequences for stacking: settings that do not matter, failures, attributes. *)
From Coq Require Import Lra Sorting.Sorted.
From Verif.Model Require Import Base Ext Csr Neighbour Distance WeightModel NumbaImpl Stacking.
From Verif.Spec Require Import KernelSpec NeighbourSpec StackingSpec.
From Verif.Proofs Require Import ListFacts KernelFacts CsrFacts ShrinkFacts NeighbourFacts SampleFacts WeightModelFacts
  NeighbourProps WeightModelProps StackingCsr StackingFacts StackingMeta StackingProps StackingClaims.
Open Scope nat_scope.
Open Scope R_scope.

Lemma form_unique {A} (d : A) isz M n c c' : csr_form d isz M n c -> csr_form d isz M n c' -> c = c'.
Proof. rewrite !csr_form_eq. congruence. Qed.

Lemma second_w_any order order' buf buf' nb LT n (Nm Lm : matrix bool) :
  rect Nm n n -> rect Lm n n -> schedule n order -> schedule n order' -> length buf = n -> length buf' = n ->
  ((nb = MDense Nm /\ LT = MDense Lm) \/ exists cN cL, nb = MSparse cN /\ LT = MSparse cL /\ csr_mask Nm n cN /\ csr_mask Lm n cL) ->
  second_w order buf nb LT = second_w order' buf' nb LT.
Proof.
  intros HN HL HS HS' Hb Hb' [[-> ->]|(cN & cL & -> & -> & FN & FL)]; cbn [second_w].
  - unfold second_order_neighbour. rewrite !(second_order_dense_eq n) by auto. reflexivity.
  - unfold second_order_neighbour_csr.
    rewrite (second_order_sparse_eq false false negb negb n Nm Lm cN cL order buf) by auto.
    rewrite (second_order_sparse_eq false false negb negb n Nm Lm cN cL order' buf) by auto.
    rewrite !(second_order_dense_eq n) by auto. reflexivity.
Qed.

Section Claims.
  Context {est meta : Type}.
  Variable fit_est : nat -> matrix R -> list R -> list R -> result est.
  Variable predict_est : est -> matrix R -> result (list R).
  Variable fit_meta : R -> nat -> matrix R -> list R -> list R -> result meta.
  Variable predict_meta : meta -> matrix R -> result (list R).
  Variable solve : matrix R -> list R -> result (list R).
  Context {G : Type}.
  Variable seed0 : G.
  Variable choice : G -> list nat -> nat -> G * list nat.
  Variable cpu : nat.
  Variable wm : filesystem -> list coords -> list coords -> filesystem * result swts.
  Notation sfit := (sfit est fit_est predict_est meta fit_meta predict_meta solve G seed0 choice cpu wm).
  Notation so_result := (so_result est meta G).
  Notation so_state := (so_state est meta G).

  Lemma fit_bases_any order order' X y w second k k' r :
    (0 < k')%nat -> schedule k order -> schedule k' order' ->
    fit_bases est fit_est predict_est order X y w second (Some k) = Ok r ->
    fit_bases est fit_est predict_est order' X y w second (Some k') = Ok r.
  Proof.
    intros Hk' HS HS'. assert (Hk : (0 < k)%nat \/ k = 0%nat) by lia.
    unfold fit_bases. destruct w as [m|m], second as [s|s]; try discriminate.
    - intros H. apply bind_ok in H. destruct H as [[a b] [H1 H]].
      destruct Hk as [Hk| ->]; [|discriminate H1].
      apply (run_batches_iff _ _ _ _ _ _ Hk HS) in H1. apply (run_batches_iff _ _ _ _ _ _ Hk' HS') in H1. rewrite H1. exact H.
    - intros H. apply bind_ok in H. destruct H as [[a b] [H1 H]].
      destruct Hk as [Hk| ->]; [|discriminate H1].
      apply (run_batches_iff _ _ _ _ _ _ Hk HS) in H1. apply (run_batches_iff _ _ _ _ _ _ Hk' HS') in H1. rewrite H1. exact H.
  Qed.

  Lemma fit_metas_any r r' c k g n y w nb L XT es : (sc_use_numba c = true -> r_garbage r = r_garbage r') ->
    fit_metas est meta fit_meta predict_meta solve G choice r' (with_n_patches c k) g n y w nb L XT es =
    fit_metas est meta fit_meta predict_meta solve G choice r c g n y w nb L XT es.
  Proof. intros H. unfold fit_metas. cbn. destruct (sc_use_numba c); [|reflexivity]. rewrite H by auto. reflexivity. Qed.

  (** The outcome depends neither on the schedules nor on the number of batches. *)
  Theorem any_schedule r r' c k g fs s0 X y coords given w W :
    let n := length X in
    valid_choice choice ->
    valid_runtime r n (patches cpu c) -> (0 < k)%nat -> valid_runtime r' n (Some k) ->
    (sc_use_numba c = true -> r_garbage r = r_garbage r') -> valid_rates c ->
    real_weights wm fs coords given w -> holds_real w W n ->
    so_result (sfit r c g fs s0 X y coords given) = Ok tt ->
    sfit r' (with_n_patches c k) g fs s0 X y coords given = sfit r c g fs s0 X y coords given.
  Proof.
    intros n Hc (R1 & R2 & R3 & R4 & R5) Hk (Q1 & Q2 & Q3 & Q4 & Q5) Hg Hrt Hreal Hw Hok.
    destruct (sfit_inv fit_est predict_est fit_meta predict_meta solve seed0 choice cpu wm r c g fs s0 X y coords given Hok)
      as (w0 & g1 & Lm & g2 & locs & w' & second & preds & XT & es & p & score & g3 & ps & scores & ses & score' & HI).
    cbv zeta in HI. destruct HI as (E0 & E00 & E1 & E2 & E3 & E4 & E5 & E6 & E7 & E8 & E9 & _).
    rewrite <- (real_weights_fun wm fs coords given w w0 Hreal E00) in *. clear w0 E00.
    assert (Hn : (0 < n)%nat).
    { unfold check_X_y in E0. unfold n. destruct (length X); [|lia]. rewrite orb_true_r in E0. discriminate. }
    destruct (leave_out_stage seed0 choice Hc r c g w W n g1 Lm Hrt Hw Hn R1 E1) as (L & HLo & HLd & HLs).
    assert (Hr3 : forall q, sc_meta_shrink c = Some q -> 0 <= q <= 1) by apply Hrt.
    destruct (shrink_stage (r_shrink r) (sc_meta_shrink c) w W n w' Hr3 Hw R2 E3) as (W' & HW1 & HW2 & Hwd & Hws).
    pose proof Hw as [HW Hw']. destruct (leave_outs_shape seed0 choice c W L n Hc Hrt HW Hn HLo) as [HL Hdiag].
    assert (HLW : length W = n) by apply HW.
    assert (F1 : leave_out_sample G seed0 choice r' (with_n_patches c k) g w = Ok (g1, Lm)).
    { rewrite <- E1. unfold leave_out_sample. cbn. destruct Hrt as (Hq1 & Hq2 & _). destruct (sc_leave_out_rate c) as [q|]; [|reflexivity].
      destruct Hw' as [->|(cw & -> & F)].
      - rewrite (sample_neighbour_reproducible G seed0 choice (r_sample r') (r_sample r) g g) by (rewrite HLW; auto). reflexivity.
      - destruct (sample_sparse_agrees G seed0 choice (r_sample r) g W cw q (sc_leave_out_shrink c) n) as (ga & La & cLa & A1 & A2 & A3); auto.
        destruct (sample_sparse_agrees G seed0 choice (r_sample r') g W cw q (sc_leave_out_shrink c) n) as (gb & Lb & cLb & B1 & B2 & B3); auto.
        rewrite (sample_neighbour_reproducible G seed0 choice (r_sample r') (r_sample r) g g) in B1 by (rewrite HLW; auto).
        rewrite A1 in B1. injection B1 as <- <-. rewrite A2, B2. rewrite (form_unique _ _ _ _ _ _ A3 B3). reflexivity. }
    assert (F3 : shrink_w (r_shrink r') (sc_meta_shrink c) w = (w', Ok tt)).
    { rewrite <- E3. unfold shrink_w. destruct (sc_meta_shrink c) as [q|]; [|reflexivity]. specialize (Hr3 q eq_refl).
      destruct Hw' as [->|(cw & -> & F)].
      - rewrite (shrink_any_schedule (r_shrink r') (r_shrink r)) by (rewrite HLW; auto). reflexivity.
      - destruct (shrink_csr_form q (r_shrink r) W n n cw Hr3 HW F R2) as [c1 [A1 A2]].
        destruct (shrink_csr_form q (r_shrink r') W n n cw Hr3 HW F Q2) as [c2 [B1 B2]].
        unfold neighbour_shrink_csr. rewrite A1, B1. rewrite (form_unique _ _ _ _ _ _ A2 B2). reflexivity. }
    assert (F4 : second_w (r_second r') (r_buffer r') (positive_w w') (transpose_mask Lm) = Ok second).
    { rewrite <- E4. apply (second_w_any _ _ _ _ _ _ n (mmap positive W') (transpose false n L)); auto.
      - apply rect_mmap; auto.
      - apply transpose_rect; auto.
      - destruct Hw' as [->|(cw & -> & F)].
        + left. rewrite (Hwd eq_refl), (HLd eq_refl). cbn. rewrite (rect_ncols L n n HL Hn). auto.
        + right. destruct (HLs cw eq_refl) as (cL & -> & FL). destruct (Hws cw eq_refl) as (c' & -> & F').
          exists (csr_where positive c'), (csr_transpose cL). cbn. repeat split.
          * apply (csr_where_form_gen positive W' n c'); auto. apply Rltb_false. lra.
          * apply csr_transpose_form; auto. }
    assert (Ek : exists k0, patches cpu c = Some k0).
    { destruct (patches cpu c); [eauto|discriminate]. }
    destruct Ek as [k0 Ek].
    assert (F5 : fit_bases est fit_est predict_est (r_base r') X y
      (if sc_leave_local_out c then clear_diag (zero_leave_out (transpose_mask Lm) w) else zero_leave_out (transpose_mask Lm) w) second (Some k) = Ok (preds, XT, es)).
    { rewrite Ek in E5. apply (fit_bases_any (r_base r) (r_base r') _ _ _ _ k0 k); auto. }
    unfold Stacking.sfit. rewrite E0. cbn [sc_cache_data with_n_patches sc_leave_local_out sc_sample_local_rate sc_meta_shrink].
    assert (EP : patches cpu (with_n_patches c k) = Some k) by (unfold patches; cbn; destruct (sc_n_jobs c); reflexivity).
    rewrite EP.
    destruct Hreal as [->|(-> & v & -> & Hwm)].
    - destruct coords; rewrite F1, E1, E2, F3, E3; cbn [bind]; rewrite F4, E4; cbn [bind]; rewrite F5, E5; cbn [bind]; rewrite E6; cbn [bind]; rewrite E7; cbn [bind];
        rewrite (fit_metas_any r r') by auto; reflexivity.
    - destruct (wm fs v v) as [fs' rw] eqn:Ewm. cbn in Hwm. subst rw.
      rewrite F1, E1, E2, F3, E3; cbn [bind]; rewrite F4, E4; cbn [bind]; rewrite F5, E5; cbn [bind]; rewrite E6; cbn [bind]; rewrite E7; cbn [bind];
        rewrite (fit_metas_any r r') by auto; reflexivity.
  Qed.

  (** C52 *)
  Theorem leave_local_out_irrelevant r c b g fs s0 X y coords given w W :
    let n := length X in
    valid_choice choice -> schedule n (r_sample r) -> valid_rates c -> real_weights wm fs coords given w -> holds_real w W n ->
    sfit r (with_leave_local_out c b) g fs s0 X y coords given = sfit r c g fs s0 X y coords given.
  Proof.
    intros n Hc HS Hrt Hreal Hw. unfold Stacking.sfit. destruct (check_X_y X y) as [[]|e] eqn:E0; [|reflexivity].
    assert (Hn : (0 < n)%nat).
    { unfold check_X_y in E0. unfold n. destruct (length X); [|lia]. rewrite orb_true_r in E0. discriminate. }
    cbn [sc_cache_data with_leave_local_out sc_leave_local_out sc_sample_local_rate sc_meta_shrink].
    change (leave_out_sample G seed0 choice r (with_leave_local_out c b) g) with (leave_out_sample G seed0 choice r c g).
    change (patches cpu (with_leave_local_out c b)) with (patches cpu c).
    change (fit_metas est meta fit_meta predict_meta solve G choice r (with_leave_local_out c b)) with
      (fit_metas est meta fit_meta predict_meta solve G choice r c).
    destruct Hreal as [->|(-> & v & -> & Hwm)].
    - destruct coords; (destruct (leave_out_sample G seed0 choice r c g w) as [[g1 Lm]|e] eqn:E1; [|reflexivity];
        rewrite (clear_diag_stage seed0 choice Hc r c g w W n g1 Lm Hrt Hw Hn HS E1); destruct b, (sc_leave_local_out c); reflexivity).
    - destruct (wm fs v v) as [fs' rw] eqn:Ewm. cbn in Hwm. subst rw.
      destruct (leave_out_sample G seed0 choice r c g w) as [[g1 Lm]|e] eqn:E1; [|reflexivity].
      rewrite (clear_diag_stage seed0 choice Hc r c g w W n g1 Lm Hrt Hw Hn HS E1); destruct b, (sc_leave_local_out c); reflexivity.
  Qed.

  (** C51 *)
  Theorem leave_out_rate_required r c g fs s0 X y coords given : sc_leave_out_rate c = None ->
    raises (so_result (sfit r c g fs s0 X y coords given)).
  Proof.
    intros H. destruct (so_result (sfit r c g fs s0 X y coords given)) as [[]|e] eqn:E; [|exists e; reflexivity].
    destruct (sfit_inv fit_est predict_est fit_meta predict_meta solve seed0 choice cpu wm r c g fs s0 X y coords given E)
      as (w0 & g1 & Lm & g2 & locs & w' & second & preds & XT & es & p & score & g3 & ps & scores & ses & score' & HI).
    cbv zeta in HI. destruct HI as (E0 & E00 & E1 & _). unfold leave_out_sample in E1. rewrite H in E1. discriminate.
  Qed.

  (** C55 *)
  Lemma fit_bases_count order X y w second k preds XT es n : (forall k', k = Some k' -> schedule k' order) ->
    (match w with SDense m => length m | SSparse m => c_nrows m end) = n ->
    fit_bases est fit_est predict_est order X y w second k = Ok (preds, XT, es) -> length preds = n.
  Proof.
    intros HS Hn H. unfold fit_bases in H. destruct k as [k|]; [|discriminate]. specialize (HS k eq_refl).
    assert (Hk : (0 < k)%nat \/ k = 0%nat) by lia.
    destruct w as [m|m], second as [s|s]; try discriminate; apply bind_ok in H; destruct H as [[a b] [H1 H]];
      (destruct Hk as [Hk| ->]; [|discriminate H1]); apply (run_batches_iff _ _ _ _ _ _ Hk HS) in H1;
      destruct H1 as (rs & M & -> & ->); apply mapM_length in M; rewrite seq_length in M.
    - apply bind_ok in H. destruct H as [rows [H2 H]]. injection H as <- <- <-. cbn [fst]. rewrite !map_length. lia.
    - cbn [fst] in H. destruct (negb _); [discriminate|]. apply bind_ok in H. destruct H as [c [H2 H]]. injection H as <- <- <-.
      rewrite !map_length. lia.
  Qed.

  Theorem sample_rate_must_keep_all r c g fs s0 X y coords given w W q :
    let n := length X in
    valid_choice choice -> valid_runtime r n (patches cpu c) -> valid_rates c -> real_weights wm fs coords given w -> holds_real w W n ->
    sc_sample_local_rate c = Some q -> trunc (q * INR n) <> Z.of_nat n ->
    raises (so_result (sfit r c g fs s0 X y coords given)).
  Proof.
    intros n Hc (R1 & R2 & R3 & R4 & R5) Hrt Hreal Hw Hq Hne.
    destruct (so_result (sfit r c g fs s0 X y coords given)) as [[]|e] eqn:E; [|exists e; reflexivity]. exfalso.
    destruct (sfit_inv fit_est predict_est fit_meta predict_meta solve seed0 choice cpu wm r c g fs s0 X y coords given E)
      as (w0 & g1 & Lm & g2 & locs & w' & second & preds & XT & es & p & score & g3 & ps & scores & ses & score' & HI).
    cbv zeta in HI. destruct HI as (E0 & E00 & E1 & E2 & E3 & E4 & E5 & E6 & E7 & _).
    rewrite <- (real_weights_fun wm fs coords given w w0 Hreal E00) in *. clear w0 E00.
    assert (Hn : (0 < n)%nat).
    { unfold check_X_y in E0. unfold n. destruct (length X); [|lia]. rewrite orb_true_r in E0. discriminate. }
    assert (Ecl : (if sc_leave_local_out c then clear_diag (zero_leave_out (transpose_mask Lm) w) else zero_leave_out (transpose_mask Lm) w) =
                  zero_leave_out (transpose_mask Lm) w).
    { destruct (sc_leave_local_out c); auto. apply (clear_diag_stage seed0 choice Hc r c g w W n g1 Lm); auto. }
    rewrite Ecl in E5.
    destruct (leave_out_stage seed0 choice Hc r c g w W n g1 Lm Hrt Hw Hn R1 E1) as (L & HLo & HLd & HLs).
    pose proof Hw as [HW Hw']. destruct (leave_outs_shape seed0 choice c W L n Hc Hrt HW Hn HLo) as [HL Hdiag].
    assert (HT : rect (transpose false n L) n n) by (apply transpose_rect; auto).
    assert (Lp : length preds = n).
    { apply (fit_bases_count _ _ _ _ _ _ _ _ _ n R5) in E5; auto.
      destruct Hw' as [->|(cw & -> & F)].
      - rewrite (HLd eq_refl). cbn [transpose_mask zero_leave_out]. rewrite (rect_ncols L n n HL Hn). apply (zeroed_rect _ _ _ HT HW).
      - destruct (HLs cw eq_refl) as (cL & -> & FL). cbn [transpose_mask].
        assert (FT : csr_mask (transpose false n L) n (csr_transpose cL)) by (apply csr_transpose_form; auto).
        destruct (zero_leave_out_form _ _ _ _ _ HT HW FT F) as (c' & EZ & F'). rewrite EZ.
        apply form_nrows in F'. rewrite F'. apply (zeroed_rect _ _ _ HT HW). }
    unfold one_each in E6. apply mapM_length in E6.
    unfold r2_score in E7. destruct (Nat.eqb_spec (length (take 0 y locs)) (length p)) as [El|]; [|discriminate].
    unfold take in El. rewrite map_length in El.
    unfold sample_locations in E2. rewrite Hq in E2. apply bind_ok in E2. destruct E2 as [[g' s] [H1 H2]]. injection H2 as <- <-.
    assert (Ls : length (sort_nat s) = length s) by (apply Permutation_length; apply Permutation_sym; apply sort_nat_perm).
    fold n in H1. unfold draw in H1. destruct (Z.ltb_spec (trunc (q * INR n)) 0); [discriminate|]. cbn [orb] in H1.
    destruct (Z.ltb_spec (Z.of_nat (length (seq 0 n))) (trunc (q * INR n))) as [|Hle]; [discriminate|]. injection H1 as H1.
    rewrite seq_length in Hle.
    destruct (Hc g1 (seq 0 n) (Z.to_nat (trunc (q * INR n)))) as (V1 & _).
    { rewrite seq_length. lia. }
    rewrite H1 in V1. cbn in V1. lia.
  Qed.

  Theorem n_jobs_needs_patches r c g fs s0 X y coords given j : sc_n_jobs c = Some j -> sc_n_patches c = None ->
    raises (so_result (sfit r c g fs s0 X y coords given)).
  Proof.
    intros H1 H2. destruct (so_result (sfit r c g fs s0 X y coords given)) as [[]|e] eqn:E; [|exists e; reflexivity].
    destruct (sfit_inv fit_est predict_est fit_meta predict_meta solve seed0 choice cpu wm r c g fs s0 X y coords given E)
      as (w0 & g1 & Lm & g2 & locs & w' & second & preds & XT & es & p & score & g3 & ps & scores & ses & score' & HI).
    cbv zeta in HI. destruct HI as (E0 & E00 & E1 & E2 & E3 & E4 & E5 & _). unfold patches in E5. rewrite H1, H2 in E5. discriminate.
  Qed.

  (** C56 *)
  Theorem residual_outer r c g fs s0 X y coords given w W :
    let n := length X in
    let s := so_state (sfit r c g fs s0 X y coords given) in
    valid_choice choice -> one_per_row predict_est ->
    valid_runtime r n (patches cpu c) -> valid_rates c -> real_weights wm fs coords given w -> holds_real w W n ->
    (sc_use_numba c = true -> forall a b, (a < n)%nat -> (b < n)%nat -> 0 <= mget 0 W a b) ->
    so_result (sfit r c g fs s0 X y coords given) = Ok tt ->
    exists ys ps res, ss_y_sample est meta s = Some ys /\ ss_local_predict est meta s = Some (map (fun x => [x]) ps) /\
      ss_local_residual est meta s = Some res /\ length ps = n /\ length ys = n /\ rect res n n /\
      forall a b, (a < n)%nat -> (b < n)%nat -> mget 0 res a b = nth b ys 0 - nth a ps 0.
  Proof.
    intros n s Hc Hone Hr Hrt Hreal Hw Hpos Hok.
    destruct (sfit_stacked fit_est predict_est fit_meta predict_meta solve seed0 choice cpu wm Hc Hone r c g fs s0 X y coords given w W Hr Hrt Hreal Hw Hpos Hok)
      as (L & W' & es' & ps0 & qs & ps' & ses' & A1 & A2 & A3 & A4 & A5 & _).
    destruct (sfit_inv fit_est predict_est fit_meta predict_meta solve seed0 choice cpu wm r c g fs s0 X y coords given Hok)
      as (w0 & g1 & Lm & g2 & locs & w' & second & preds & XT & es & p & score & g3 & ps & scores & ses & score' & HI).
    cbv zeta in HI. destruct HI as (E0 & E00 & E1 & E2 & E3 & E4 & E5 & E6 & E7 & E8 & E9 & B1 & B2 & B3 & _ & _ & _ & _ & B4 & _).
    rewrite A5 in B2. injection B2 as <-.
    assert (Ep : p = ps0).
    { unfold one_each in E6. clear -E6. revert p E6. induction ps0 as [|x l IH]; intros p H; cbn in H.
      - congruence.
      - apply bind_ok in H. destruct H as [v [H H2]]. injection H2 as <-. f_equal. apply IH. exact H. }
    subst p. fold s in B3, B4, A5.
    pose proof (st_num _ _ _ _ _ _ _ _ _ _ _ _ _ _ _ _ _ _ _ A3) as (N1 & N2 & N3 & N4). fold n in N1, N2, N3, N4.
    assert (El : length (take 0 y locs) = n).
    { unfold r2_score in E7. destruct (Nat.eqb_spec (length (take 0 y locs)) (length ps0)) as [El|]; [congruence|discriminate]. }
    exists (take 0 y locs), ps0, (map (fun a => map (fun b => b - a) (take 0 y locs)) ps0).
    split; [exact B4|]. split; [exact A5|]. split; [exact B3|]. split; [exact N2|]. split; [exact El|].
    split; [split; [rewrite map_length; auto|]|].
    - rewrite Forall_map. apply Forall_forall. intros x _. rewrite map_length. exact El.
    - intros a b Ha Hb. unfold mget. rewrite (nth_map_in _ _ _ 0 []) by lia. rewrite (nth_map_in _ _ _ 0 0) by lia. reflexivity.
  Qed.

  (** C57 *)
  Theorem cache_flag r c g fs s0 X y coords given :
    check_X_y X y = Ok tt -> (coords <> None \/ given <> None) -> ss_base_list est meta s0 = None ->
    let s := so_state (sfit r c g fs s0 X y coords given) in
    ss_cache_estimator est meta s =
    match ss_base_list est meta s with Some _ => ss_cache_estimator est meta s0 | None => true end.
  Proof.
    intros H0 Hcg Hb s. unfold s, Stacking.sfit. rewrite H0.
    assert (EN : ~ (coords = None /\ given = None)) by (intros [-> ->]; destruct Hcg; congruence).
    match goal with |- context [match coords with Some _ => ?A | None => match given with Some _ => _ | None => ?B end end] =>
      assert (EE : (match coords with Some _ => A | None => match given with Some _ => A | None => B end end) = A)
      by (destruct coords, given; auto; destruct EN; auto); rewrite EE end.
    clear EE EN Hcg H0 s.
    destruct (match given, coords with Some w, _ => (fs, Ok w) | None, Some v => wm fs v v | None, None => (fs, Raise TypeError) end) as [fs' w].
    destruct w as [w|e]; [|cbn; rewrite Hb; reflexivity].
    destruct (leave_out_sample G seed0 choice r c g w) as [[g1 Lm]|e]; [|destruct given; cbn; rewrite Hb; reflexivity].
    destruct (sample_locations G choice g1 (sc_sample_local_rate c) (length X)) as [[g2 locs]|e]; [|destruct given; cbn; rewrite Hb; reflexivity].
    destruct (shrink_w (r_shrink r) (sc_meta_shrink c) w) as [w' sh].
    match goal with |- context [match ?b with Ok _ => _ | Raise e => SOutcome _ _ _ _ _ _ _ (Raise e) end] =>
      destruct b as [[nb [[preds XT] es]]|e]; [|destruct given; cbn; rewrite Hb; reflexivity] end.
    match goal with |- context [match ?b with Ok _ => _ | Raise e => SOutcome _ _ _ _ _ _ _ (Raise e) end] =>
      destruct b as [[p score]|e]; [|destruct given; cbn; rewrite Hb; reflexivity] end.
    match goal with |- context [match ?b with Ok _ => _ | Raise e => SOutcome _ _ _ _ _ _ _ (Raise e) end] =>
      destruct b as [[[g3 [[ps scores] ses]] score']|e] end; destruct given; reflexivity.
  Qed.

  Theorem cache_flag_restored r c g fs s0 X y coords given :
    so_result (sfit r c g fs s0 X y coords given) = Ok tt ->
    ss_cache_estimator est meta (so_state (sfit r c g fs s0 X y coords given)) = ss_cache_estimator est meta s0.
  Proof.
    intros Hok.
    destruct (sfit_inv fit_est predict_est fit_meta predict_meta solve seed0 choice cpu wm r c g fs s0 X y coords given Hok)
      as (w0 & g1 & Lm & g2 & locs & w' & second & preds & XT & es & p & score & g3 & ps & scores & ses & score' & HI).
    cbv zeta in HI. apply HI.
  Qed.

  (** C59 *)
  Theorem estimator_rate_base_zero r c g fs s0 X y coords given W q :
    let n := length X in
    let s := so_state (sfit r c g fs s0 X y coords given) in
    valid_choice choice -> one_per_row predict_est ->
    valid_runtime r n (patches cpu c) -> valid_rates c -> real_weights wm fs coords given (SDense W) -> rect W n n ->
    sc_use_numba c = false -> sc_estimator_rate c = Some q -> 0 < q <= 1 ->
    so_result (sfit r c g fs s0 X y coords given) = Ok tt ->
    exists e0 rest ses, ss_base_list est meta s = Some (e0 :: rest) /\ ss_local_list est meta s = Some (LStacking est meta ses) /\
      length ses = n /\ forall se, In se ses -> se_bases est meta se = [e0].
  Proof.
    intros n s Hc Hone Hr Hrt Hreal HW Hnb Hq Hq1 Hok.
    assert (Hw : holds_real (SDense W) W n) by (split; auto).
    assert (Hpos : sc_use_numba c = true -> forall a b, (a < n)%nat -> (b < n)%nat -> 0 <= mget 0 W a b) by congruence.
    destruct (sfit_stacked fit_est predict_est fit_meta predict_meta solve seed0 choice cpu wm Hc Hone r c g fs s0 X y coords given (SDense W) W Hr Hrt Hreal Hw Hpos Hok)
      as (L & W' & es & ps0 & qs & ps & ses & A1 & A2 & A3 & A4 & A5 & A6 & A7).
    destruct (sfit_inv fit_est predict_est fit_meta predict_meta solve seed0 choice cpu wm r c g fs s0 X y coords given Hok)
      as (w0 & g1 & Lm & g2 & locs & w' & second & preds & XT & es' & p & score & g3 & ps' & scores & ses' & score' & HI).
    destruct HI as (E0 & _).
    assert (Hn : (0 < n)%nat).
    { unfold check_X_y in E0. unfold n. destruct (length X); [|lia]. rewrite orb_true_r in E0. discriminate. }
    pose proof (st_num _ _ _ _ _ _ _ _ _ _ _ _ _ _ _ _ _ _ _ A3) as (N1 & N2 & N3 & N4). fold n in N1, N2, N3, N4, A3.
    destruct es as [|e0 rest]; [cbn in N1; lia|]. exists e0, rest, ses.
    split; [exact A4|]. split; [exact A7|]. split; [exact N4|].
    intros se Hse. apply In_nth_error in Hse. destruct Hse as [i Hi].
    assert (Hin : (i < n)%nat) by (rewrite <- N4; apply nth_error_Some; congruence).
    destruct (st_meta _ _ _ _ _ _ _ _ _ _ _ _ _ _ _ _ _ _ _ A3 i Hin) as (m & bases & H1 & H2 & _).
    unfold used_bases in H2. rewrite Hq in H2. rewrite Hi in H1. injection H1 as ->. cbn [se_bases].
    assert (Hc1 : Rceil q = 1%Z) by (apply Rceil_eq; cbn; lra). rewrite Hc1 in H2. cbn in H2.
    inversion H2 as [|a b l l' P1 P2]; subst. inversion P2; subst. cbn in P1. congruence.
  Qed.

  Theorem estimator_rate_ignored_sparse r c q g fs s0 X y coords given cw :
    real_weights wm fs coords given (SSparse cw) ->
    sfit r (with_estimator_rate c q) g fs s0 X y coords given = sfit r c g fs s0 X y coords given.
  Proof.
    intros Hreal. unfold Stacking.sfit. destruct (check_X_y X y) as [[]|e]; [|reflexivity].
    cbn [sc_cache_data with_estimator_rate sc_leave_local_out sc_sample_local_rate sc_meta_shrink].
    change (leave_out_sample G seed0 choice r (with_estimator_rate c q) g) with (leave_out_sample G seed0 choice r c g).
    change (patches cpu (with_estimator_rate c q)) with (patches cpu c).
    assert (Em : forall g n y m nb L XT es, fit_metas est meta fit_meta predict_meta solve G choice r (with_estimator_rate c q) g n y (SSparse m) nb L XT es =
                 fit_metas est meta fit_meta predict_meta solve G choice r c g n y (SSparse m) nb L XT es) by reflexivity.
    assert (Es : exists m, fst (shrink_w (r_shrink r) (sc_meta_shrink c) (SSparse cw)) = SSparse m).
    { unfold shrink_w. destruct (sc_meta_shrink c); [|eexists; reflexivity]. destruct (neighbour_shrink_csr _ _ _ _ _). eexists; reflexivity. }
    destruct Es as [m Es]. destruct (shrink_w (r_shrink r) (sc_meta_shrink c) (SSparse cw)) as [w' sh] eqn:E3. cbn in Es. subst w'.
    destruct Hreal as [->|(-> & v & -> & Hwm)].
    - destruct coords; rewrite E3; reflexivity.
    - destruct (wm fs v v) as [fs' rw] eqn:Ewm. cbn in Hwm. subst rw. rewrite E3. reflexivity.
  Qed.

  (** The in-place shrink *)
  Theorem shrink_overwrites r c g fs s0 X y coords w W :
    let n := length X in
    valid_choice choice -> valid_runtime r n (patches cpu c) -> valid_rates c -> holds_real w W n ->
    so_result (sfit r c g fs s0 X y coords (Some w)) = Ok tt ->
    exists W' w', shrunk_weights (sc_meta_shrink c) W W' /\ holds_real w' W' n /\
      so_weights est meta G (sfit r c g fs s0 X y coords (Some w)) = Some w'.
  Proof.
    intros n Hc (R1 & R2 & R3 & R4 & R5) Hrt Hw Hok.
    destruct (sfit_inv fit_est predict_est fit_meta predict_meta solve seed0 choice cpu wm r c g fs s0 X y coords (Some w) Hok)
      as (w0 & g1 & Lm & g2 & locs & w' & second & preds & XT & es & p & score & g3 & ps & scores & ses & score' & HI).
    cbv zeta in HI. destruct HI as (E0 & E00 & E1 & E2 & E3 & E4 & E5 & E6 & E7 & E8 & E9 & B1 & B2 & B3 & B4 & B5 & B6 & B7 & B8 & B9 & B10 & B11 & _).
    assert (w0 = w) by (destruct E00 as [H|[H _]]; congruence). subst w0.
    assert (Hr3 : forall q, sc_meta_shrink c = Some q -> 0 <= q <= 1) by apply Hrt.
    destruct (shrink_stage (r_shrink r) (sc_meta_shrink c) w W n w' Hr3 Hw R2 E3) as (W' & HW1 & HW2 & Hwd & Hws).
    exists W', w'. split; [exact HW1|]. split; [|exact B11]. split; [exact HW2|].
    destruct Hw as [_ [->|(cw & -> & F)]]; [left; auto|right]. destruct (Hws cw eq_refl) as (c' & -> & F'). exists c'. auto.
  Qed.

  Theorem attributes_disagree r c g fs s0 X y v w W :
    let n := length X in
    valid_choice choice -> valid_runtime r n (patches cpu c) -> valid_rates c ->
    snd (wm fs v v) = Ok w -> holds_real w W n ->
    so_result (sfit r c g fs s0 X y (Some v) None) = Ok tt ->
    exists W' w', shrunk_weights (sc_meta_shrink c) W W' /\ holds_real w' W' n /\
      ss_weight_matrix est meta (so_state (sfit r c g fs s0 X y (Some v) None)) = Some w' /\
      ss_neighbour_matrix est meta (so_state (sfit r c g fs s0 X y (Some v) None)) = Some (positive_w w).
  Proof.
    intros n Hc (R1 & R2 & R3 & R4 & R5) Hrt Hwm Hw Hok.
    destruct (sfit_inv fit_est predict_est fit_meta predict_meta solve seed0 choice cpu wm r c g fs s0 X y (Some v) None Hok)
      as (w0 & g1 & Lm & g2 & locs & w' & second & preds & XT & es & p & score & g3 & ps & scores & ses & score' & HI).
    cbv zeta in HI. destruct HI as (E0 & E00 & E1 & E2 & E3 & E4 & E5 & E6 & E7 & E8 & E9 & B1 & B2 & B3 & B4 & B5 & B6 & B7 & B8 & B9 & B10 & B11 & B12 & _).
    assert (w0 = w) by (destruct E00 as [H|(_ & v' & Hv & H)]; congruence). subst w0. destruct (B12 eq_refl) as [C1 C2].
    assert (Hr3 : forall q, sc_meta_shrink c = Some q -> 0 <= q <= 1) by apply Hrt.
    destruct (shrink_stage (r_shrink r) (sc_meta_shrink c) w W n w' Hr3 Hw R2 E3) as (W' & HW1 & HW2 & Hwd & Hws).
    exists W', w'. split; [exact HW1|]. split; [|split; [exact C1|exact C2]]. split; [exact HW2|].
    destruct Hw as [_ [->|(cw & -> & F)]]; [left; auto|right]. destruct (Hws cw eq_refl) as (c' & -> & F'). exists c'. auto.
  Qed.
End Claims.
