(** Dense, sparse and numba fits agree (C53); replaying a stacked prediction (C54). *)
From Coq Require Import Lra Sorting.Sorted.
From Verif.Model Require Import Base Ext Csr Neighbour Distance WeightModel NumbaImpl Stacking.
From Verif.Spec Require Import KernelSpec NeighbourSpec StackingSpec.
From Verif.Proofs Require Import ListFacts KernelFacts CsrFacts ShrinkFacts NeighbourFacts SampleFacts WeightModelFacts
  NeighbourProps WeightModelProps StackingCsr StackingFacts StackingMeta StackingProps StackingClaims StackingClaims2.
Open Scope nat_scope.
Open Scope R_scope.

Lemma nth_error_ext {A} (l l' : list A) : (forall i, nth_error l i = nth_error l' i) -> l = l'.
Proof.
  revert l'. induction l as [|a l IH]; intros [|b l'] H; auto; try (specialize (H 0%nat); discriminate).
  f_equal; [specialize (H 0%nat); cbn in H; congruence|]. apply IH. intros j. exact (H (S j)).
Qed.

Section Claims.
  Context {est meta : Type}.
  Variable fit_est : nat -> matrix R -> list R -> list R -> result est.
  Variable predict_est : est -> matrix R -> result (list R).
  Variable fit_meta : R -> nat -> matrix R -> list R -> list R -> result meta.
  Variable predict_meta : meta -> matrix R -> result (list R).
  Variable solve : matrix R -> list R -> result (list R).
  Notation stacked := (stacked fit_est predict_est fit_meta predict_meta solve).

  Lemma stacked_fun garbage garbage' c w w' X y n W L W' es ps0 qs ps ses es' ps0' qs' ps' ses' :
    sc_use_numba c = false -> all_bases_used c w -> all_bases_used c w' ->
    stacked garbage c w X y n W L W' es ps0 qs ps ses ->
    stacked garbage' c w' X y n W L W' es' ps0' qs' ps' ses' ->
    es = es' /\ ps0 = ps0' /\ ps = ps' /\ ses = ses'.
  Proof.
    intros Hnb Hu Hu' HA HB. edestruct (@stacked_bases_fun est meta) as (EQ1 & EQ2 & Hq); [exact HA|exact HB|]. subst es' ps0'.
    destruct HA as [(A1 & A2 & A3 & A4) A5 A6]. destruct HB as [(B1 & B2 & B3 & B4) B5 B6].
    split; [reflexivity|]. split; [reflexivity|].
    assert (Hi : forall i, (i < n)%nat -> nth_error ses i = nth_error ses' i /\ nth i ps 0 = nth i ps' 0).
    { intros i Hi. destruct (A6 i Hi) as (m & bases & H1 & H2 & H3). destruct (B6 i Hi) as (m' & bases' & H1' & H2' & H3').
      cbv zeta in *. rewrite Hnb in *. cbn [andb] in *. rewrite used_all in * by auto.
      assert (Eb : bases = bases') by (apply (Forall2_fun _ _ _ _ (fun a b b' (P : nth_error es a = Some b) (Q : nth_error es a = Some b') => f_equal (fun o => match o with Some x => x | None => b end) (eq_trans (eq_sym P) Q)) H2 H2')).
      subst bases'.
      assert (Hc : forall j, In j (meta_bases n L i) -> nth j qs [] = nth j qs' []) by (intros j Hj; apply Hq; apply meta_bases_in in Hj; tauto).
      assert (E1 : map (fun k => map (fun j => lookup (evaluated n W' L j) (nth j qs []) k) (meta_bases n L i)) (meta_points n W' i) =
                   map (fun k => map (fun j => lookup (evaluated n W' L j) (nth j qs' []) k) (meta_bases n L i)) (meta_points n W' i)).
      { apply map_ext. intros k. apply map_ext_in. intros j Hj. rewrite Hc; auto. }
      assert (E2 : map (fun j => lookup (evaluated n W' L j) (nth j qs []) i) (meta_bases n L i) =
                   map (fun j => lookup (evaluated n W' L j) (nth j qs' []) i) (meta_bases n L i)).
      { apply map_ext_in. intros j Hj. rewrite Hc; auto. }
      rewrite E1, E2 in H3. edestruct (@meta_fitted_fun meta) as [EQ3 EQ4]; [exact H3|exact H3'|]. subst m'. split; congruence. }
    split.
    - apply (list_eq_nth 0); [lia|]. intros i Hlt. apply Hi. lia.
    - apply nth_error_ext. intros i. destruct (Nat.lt_ge_cases i n) as [Hlt|Hge]; [apply Hi; auto|].
      rewrite (proj2 (nth_error_None ses i)) by lia. rewrite (proj2 (nth_error_None ses' i)) by lia. reflexivity.
  Qed.

  Context {G : Type}.
  Variable seed0 : G.
  Variable choice : G -> list nat -> nat -> G * list nat.
  Variable cpu : nat.
  Variable wm : filesystem -> list coords -> list coords -> filesystem * result swts.
  Notation sfit := (sfit est fit_est predict_est meta fit_meta predict_meta solve G seed0 choice cpu wm).
  Notation so_result := (so_result est meta G).
  Notation so_state := (so_state est meta G).

  Theorem dense_sparse_identical r r' c g g' fs fs' s0 s0' X y coords coords' W cw :
    let n := length X in
    let o := sfit r c g fs s0 X y coords (Some (SDense W)) in
    let o' := sfit r' c g' fs' s0' X y coords' (Some (SSparse cw)) in
    valid_choice choice -> one_per_row predict_est ->
    valid_runtime r n (patches cpu c) -> valid_runtime r' n (patches cpu c) -> valid_rates c ->
    rect W n n -> csr_form 0 (fun x => Reqb x 0) W n cw ->
    sc_use_numba c = false -> sc_estimator_rate c = None ->
    so_result o = Ok tt -> so_result o' = Ok tt ->
    ss_base_list est meta (so_state o) = ss_base_list est meta (so_state o') /\
    ss_local_predict est meta (so_state o) = ss_local_predict est meta (so_state o') /\
    ss_stacking_predict est meta (so_state o) = ss_stacking_predict est meta (so_state o') /\
    ss_local_list est meta (so_state o) = ss_local_list est meta (so_state o').
  Proof.
    intros n o o' Hc Hone Hr Hr' Hrt HW F Hnb Hest H1 H2.
    assert (Hw : holds_real (SDense W) W n) by (split; auto).
    assert (Hw' : holds_real (SSparse cw) W n) by (split; auto; right; exists cw; auto).
    assert (Hpos : sc_use_numba c = true -> forall a b, (a < n)%nat -> (b < n)%nat -> 0 <= mget 0 W a b) by congruence.
    destruct (sfit_stacked fit_est predict_est fit_meta predict_meta solve seed0 choice cpu wm Hc Hone r c g fs s0 X y coords _ _ W Hr Hrt (or_introl eq_refl) Hw Hpos H1)
      as (L & W' & es & ps0 & qs & ps & ses & A1 & A2 & A3 & A4 & A5 & A6 & A7).
    destruct (sfit_stacked fit_est predict_est fit_meta predict_meta solve seed0 choice cpu wm Hc Hone r' c g' fs' s0' X y coords' _ _ W Hr' Hrt (or_introl eq_refl) Hw' Hpos H2)
      as (L1 & W1 & es1 & ps01 & qs1 & ps1 & ses1 & B1 & B2 & B3 & B4 & B5 & B6 & B7).
    rewrite (leave_outs_unique seed0 choice c W L1 L B1 A1) in *. rewrite (shrunk_unique _ W W1 W' B2 A2) in *.
    assert (U1 : all_bases_used c (SDense W)) by (left; auto). assert (U2 : all_bases_used c (SSparse cw)) by (left; auto).
    edestruct stacked_fun as (EQ1 & EQ2 & EQ3 & EQ4); [exact Hnb|exact U1|exact U2|exact A3|exact B3|]. subst es1 ps01 ps1 ses1.
    fold o in A4, A5, A6, A7. fold o' in B4, B5, B6, B7. repeat split; congruence.
  Qed.

  Theorem numba_same_problems f r r' c g g' fs fs' s0 s0' X y coords coords' w cw W :
    let n := length X in
    let o := sfit r (with_numba c false) g fs s0 X y coords (Some w) in
    let o' := sfit r' (with_numba c true) g' fs' s0' X y coords' (Some (SSparse cw)) in
    valid_choice choice -> rowwise predict_est f ->
    valid_runtime r n (patches cpu c) -> valid_runtime r' n (patches cpu c) -> valid_rates c ->
    holds_real w W n -> holds_real (SSparse cw) W n -> all_bases_used c w ->
    (forall a b, (a < n)%nat -> (b < n)%nat -> 0 <= mget 0 W a b) ->
    so_result o = Ok tt -> so_result o' = Ok tt ->
    exists W' ps ps' ses ses',
      shrunk_weights (sc_meta_shrink c) W W' /\
      ss_base_list est meta (so_state o) = ss_base_list est meta (so_state o') /\
      ss_local_predict est meta (so_state o) = ss_local_predict est meta (so_state o') /\
      ss_stacking_predict est meta (so_state o) = Some ps /\ ss_stacking_predict est meta (so_state o') = Some ps' /\
      ss_local_list est meta (so_state o) = Some (LStacking est meta ses) /\
      ss_local_list est meta (so_state o') = Some (LStacking est meta ses') /\
      forall i, (i < n)%nat -> 0 < mget 0 W' i i ->
        exists bases design targets weights input m m',
          nth_error ses i = Some (StackingEstimator est meta m bases) /\
          nth_error ses' i = Some (StackingEstimator est meta m' bases) /\
          meta_fitted fit_meta predict_meta solve false (sc_alpha c) (length bases) design targets weights input m (nth i ps 0) /\
          meta_fitted fit_meta predict_meta solve true (sc_alpha c) (length bases) design targets weights input m' (nth i ps' 0).
  Proof.
    intros n o o' Hc Hf Hr Hr' Hrt Hw Hw' Hu Hpos H1 H2.
    assert (Hone : one_per_row predict_est) by (intros e X' p Hp; apply Hf in Hp; rewrite Hp, map_length; auto).
    assert (Hu1 : all_bases_used (with_numba c false) w) by exact Hu.
    assert (Hu2 : all_bases_used (with_numba c true) (SSparse cw)) by (right; eauto).
    destruct (sfit_stacked fit_est predict_est fit_meta predict_meta solve seed0 choice cpu wm Hc Hone r (with_numba c false) g fs s0 X y coords _ _ W Hr Hrt (or_introl eq_refl) Hw (fun _ => Hpos) H1)
      as (L & W' & es & ps0 & qs & ps & ses & A1 & A2 & A3 & A4 & A5 & A6 & A7).
    destruct (sfit_stacked fit_est predict_est fit_meta predict_meta solve seed0 choice cpu wm Hc Hone r' (with_numba c true) g' fs' s0' X y coords' _ _ W Hr' Hrt (or_introl eq_refl) Hw' (fun _ => Hpos) H2)
      as (L1 & W1 & es1 & ps01 & qs1 & ps1 & ses1 & B1 & B2 & B3 & B4 & B5 & B6 & B7).
    assert (HL : L1 = L) by (apply (leave_outs_unique seed0 choice c W); [exact B1|exact A1]). subst L1.
    assert (HWW : W1 = W') by (apply (shrunk_unique (sc_meta_shrink c) W); [exact B2|exact A2]). subst W1.
    fold o in A4, A5, A6, A7. fold o' in B4, B5, B6, B7. fold n in A3, B3.
    edestruct (@stacked_bases_fun est meta) as (EQ1 & EQ2 & _); [exact A3|exact B3|]. subst es1 ps01.
    exists W', ps, ps1, ses, ses1. split; [exact A2|]. split; [congruence|]. split; [congruence|]. repeat (split; [assumption|]).
    intros i Hi Hp.
    assert (Hd : mget false L i i = true).
    { destruct Hw as [HW _]. assert (Hn : (0 < n)%nat) by lia. apply (leave_outs_shape seed0 choice c W L n Hc Hrt HW Hn); auto. }
    destruct (stacked_entries fit_est predict_est fit_meta predict_meta solve f _ _ _ _ _ _ _ _ _ _ _ _ _ _ i Hf A3 Hu1 Hi Hd Hp) as (m & bases & P1 & P2 & P3).
    destruct (stacked_entries fit_est predict_est fit_meta predict_meta solve f _ _ _ _ _ _ _ _ _ _ _ _ _ _ i Hf B3 Hu2 Hi Hd Hp) as (m' & bases' & Q1 & Q2 & Q3).
    assert (Eb : bases = bases') by (apply (Forall2_fun _ _ _ _ (fun a b b' (P : nth_error es a = Some b) (Q : nth_error es a = Some b') => f_equal (fun o => match o with Some x => x | None => b end) (eq_trans (eq_sym P) Q)) P2 Q2)).
    subst bases'. cbv zeta in *. eexists bases, _, _, _, _, m, m'. split; [exact P1|]. split; [exact Q1|]. split; [exact P3|exact Q3].
  Qed.

  Theorem missing_is_zero r c g fs s0 X y coords given w W :
    let n := length X in
    let o := sfit r c g fs s0 X y coords given in
    valid_choice choice -> one_per_row predict_est ->
    valid_runtime r n (patches cpu c) -> valid_rates c -> real_weights wm fs coords given w -> holds_real w W n -> all_bases_used c w ->
    sc_use_numba c = false ->
    so_result o = Ok tt ->
    exists L W' ps ses, leave_outs seed0 choice c W L /\ shrunk_weights (sc_meta_shrink c) W W' /\
      ss_stacking_predict est meta (so_state o) = Some ps /\
      ss_local_list est meta (so_state o) = Some (LStacking est meta ses) /\
      forall i, (i < n)%nat -> exists bases m design targets weights input,
        nth_error ses i = Some (StackingEstimator est meta m bases) /\
        meta_fitted fit_meta predict_meta solve false (sc_alpha c) (length bases) design targets weights input m (nth i ps 0) /\
        Forall2 (fun j v => (forall i', (i' < n)%nat -> mget false L i' j = true -> ~ 0 < mget 0 W' i' i) -> v = 0) (meta_bases n L i) input.
  Proof.
    intros n o Hc Hone Hr Hrt Hreal Hw Hall Hnb H.
    assert (Hpos : sc_use_numba c = true -> forall a b, (a < n)%nat -> (b < n)%nat -> 0 <= mget 0 W a b) by congruence.
    destruct (sfit_stacked fit_est predict_est fit_meta predict_meta solve seed0 choice cpu wm Hc Hone r c g fs s0 X y coords given w W Hr Hrt Hreal Hw Hpos H)
      as (L & W' & es & ps0 & qs & ps & ses & A1 & A2 & A3 & A4 & _ & A5 & A6).
    fold o in A4, A5, A6. fold n in A3.
    exists L, W', ps, ses. repeat (split; [assumption|]). intros i Hi.
    destruct (st_meta _ _ _ _ _ _ _ _ _ _ _ _ _ _ _ _ _ _ _ A3 i Hi) as (m & bases & P1 & P2 & P3). cbv zeta in P3. rewrite used_all in * by auto.
    rewrite Hnb in P3. cbn [andb] in P3.
    rewrite (Forall2_len _ _ _ P2) in P3. eexists bases, m, _, _, _, _. split; [exact P1|]. split; [exact P3|].
    clear P3 P2. assert (HA : Forall (fun j => (forall i', (i' < n)%nat -> mget false L i' j = true -> ~ 0 < mget 0 W' i' i) ->
       lookup (evaluated n W' L j) (nth j qs []) i = 0) (meta_bases n L i)).
    { apply Forall_forall. intros j Hj Hno. apply lookup_absent. apply evaluated_none; auto. }
    induction HA; cbn [map]; constructor; auto.
  Qed.

  Theorem replay f r c g fs s0 X y coords given w W :
    let n := length X in
    let o := sfit r c g fs s0 X y coords given in
    valid_choice choice -> (forall e X, predict_est e X = Ok (map (f e) X)) ->
    valid_runtime r n (patches cpu c) -> valid_rates c -> real_weights wm fs coords given w -> holds_real w W n -> all_bases_used c w ->
    (sc_use_numba c = true -> forall a b, (a < n)%nat -> (b < n)%nat -> 0 <= mget 0 W a b) ->
    so_result o = Ok tt ->
    exists W' ps ses, shrunk_weights (sc_meta_shrink c) W W' /\
      ss_stacking_predict est meta (so_state o) = Some ps /\
      ss_local_list est meta (so_state o) = Some (LStacking est meta ses) /\ length ses = n /\
      forall i, (i < n)%nat -> 0 < mget 0 W' i i ->
      exists se, nth_error ses i = Some se /\
        predict_stacking est predict_est meta predict_meta se [nth i X []] = Ok [Fin (nth i ps 0)].
  Proof.
    intros n o Hc Hf Hr Hrt Hreal Hw Hall Hpos H.
    assert (Hone : one_per_row predict_est) by (intros e X' p Hp; rewrite Hf in Hp; injection Hp as <-; rewrite map_length; auto).
    destruct (sfit_stacked fit_est predict_est fit_meta predict_meta solve seed0 choice cpu wm Hc Hone r c g fs s0 X y coords given w W Hr Hrt Hreal Hw Hpos H)
      as (L & W' & es & ps0 & qs & ps & ses & A1 & A2 & A3 & A4 & _ & A5 & A6).
    fold o in A4, A5, A6. fold n in A3.
    destruct (st_num _ _ _ _ _ _ _ _ _ _ _ _ _ _ _ _ _ _ _ A3) as (N1 & N2 & N3 & N4).
    exists W', ps, ses. repeat (split; [assumption|]). intros i Hi Hp.
    apply (stacked_replay fit_est predict_est fit_meta predict_meta solve f _ _ _ _ _ _ _ _ _ _ _ _ _ _ i Hf A3 Hall Hi); auto.
    destruct Hw as [HW _]. assert (Hn : (0 < n)%nat) by lia. apply (leave_outs_shape seed0 choice c W L n Hc Hrt HW Hn A1). auto.
  Qed.
End Claims.
