(** What a successful stacking fit has computed. *)
From Coq Require Import Lra Sorting.Sorted.
From Verif.Model Require Import Base Ext Csr Neighbour Distance WeightModel NumbaImpl Stacking.
From Verif.Spec Require Import KernelSpec NeighbourSpec StackingSpec.
From Verif.Proofs Require Import ListFacts KernelFacts CsrFacts ShrinkFacts NeighbourFacts SampleFacts WeightModelFacts
  NeighbourProps WeightModelProps StackingCsr StackingFacts StackingMeta.
Open Scope nat_scope.
Open Scope R_scope.

Lemma leave_outs_unique {G} (seed0 : G) choice c W L L' :
  leave_outs seed0 choice c W L -> leave_outs seed0 choice c W L' -> L = L'.
Proof.
  intros (q & o & g & g1 & H1 & H2 & H3) (q' & o' & g' & g1' & H1' & H2' & H3').
  rewrite H1 in H1'. injection H1' as <-.
  rewrite (sample_neighbour_reproducible G seed0 choice o o' g g') in H3 by auto. congruence.
Qed.
Lemma shrunk_unique rate W W1 W2 : shrunk_weights rate W W1 -> shrunk_weights rate W W2 -> W1 = W2.
Proof.
  intros H1 H2. apply shrunk_effective in H1. apply shrunk_effective in H2. destruct rate as [q|]; [|congruence].
  destruct H1 as [_ ->], H2 as [_ ->]. reflexivity.
Qed.

Lemma candidate_exists shrink (W : matrix R) : (forall q, shrink = Some q -> 0 <= q <= 1) ->
  exists Ws, shrunk_weights shrink W Ws.
Proof.
  intros Hq. destruct shrink as [q|]; [|exists W; reflexivity].
  exists (map (shrink_row q) W). apply shrunk_effective. auto.
Qed.

Lemma leave_outs_shape {G} (seed0 : G) choice c W L n : valid_choice choice -> valid_rates c -> rect W n n -> (0 < n)%nat ->
  leave_outs seed0 choice c W L ->
  rect L n n /\ forall i, (i < n)%nat -> mget false L i i = true.
Proof.
  intros Hc (Hr1 & Hr2 & _) HW Hn (q & o & g & g1 & H1 & H2 & H3). assert (HL : length W = n) by apply HW. rewrite HL in H2.
  destruct (candidate_exists (sc_leave_out_shrink c) W) as [Ws HWs]; [auto|].
  destruct (sample_neighbour_sound G seed0 choice o g W Ws q (sc_leave_out_shrink c) n) as (g' & L' & E & HR & Hs); auto.
  rewrite H3 in E. injection E as <- <-. split; [exact HR|]. intros i Hi. apply (Hs i Hi).
Qed.

Lemma leave_outs_meaning {G} (seed0 : G) choice c W L n : valid_choice choice -> valid_rates c -> rect W n n -> (0 < n)%nat ->
  leave_outs seed0 choice c W L ->
  exists q Ws, sc_leave_out_rate c = Some q /\ shrunk_weights (sc_leave_out_shrink c) W Ws /\ rect L n n /\
  forall i, (i < n)%nat ->
    let m := num_neighbours i (nth i Ws []) in
    sample_spec (Nat.min m (Nat.max 1 (Z.to_nat (Rceil (INR m * q))))) i (nth i Ws []) (nth i L []).
Proof.
  intros Hc (Hr1 & Hr2 & _) HW Hn (q & o & g & g1 & H1 & H2 & H3). assert (HL : length W = n) by apply HW. rewrite HL in H2.
  destruct (candidate_exists (sc_leave_out_shrink c) W) as [Ws HWs]; [auto|].
  destruct (sample_neighbour_sound G seed0 choice o g W Ws q (sc_leave_out_shrink c) n) as (g' & L' & E & HR & Hs); auto.
  rewrite H3 in E. injection E as <- <-. exists q, Ws. auto.
Qed.

Lemma rect_shrink q W n : rect W n n -> rect (map (shrink_row q) W) n n.
Proof.
  intros [H1 H2]. split; [rewrite map_length; auto|]. rewrite Forall_map. revert H2. apply Forall_impl. intros row <-.
  rewrite shrink_row_map. apply map_length.
Qed.
Lemma shrunk_rect rate W W' n : (forall q, rate = Some q -> 0 <= q <= 1) -> rect W n n -> shrunk_weights rate W W' -> rect W' n n.
Proof.
  intros Hq HW H. apply shrunk_effective in H. destruct rate as [q|]; [|subst; auto]. destruct H as [_ ->]. apply rect_shrink; auto.
Qed.
Lemma shrunk_get rate W W' n i k : (forall q, rate = Some q -> 0 <= q <= 1) -> rect W n n -> shrunk_weights rate W W' ->
  mget 0 W' i k = mget 0 W i k \/ mget 0 W' i k = 0.
Proof.
  intros Hq HW H. apply shrunk_effective in H. destruct rate as [q|]; [|subst; auto]. destruct H as [_ ->]. unfold mget.
  destruct (Nat.lt_ge_cases i (length W)) as [Hi|Hi].
  - rewrite (nth_map_in _ _ _ [] []) by auto. apply (ss_kept_or_zero _ _ _ (shrink_row_spec q (nth i W []) (Hq q eq_refl))).
  - right. rewrite (nth_overflow (map _ _)) by (rewrite map_length; auto). destruct k; reflexivity.
Qed.

Lemma transpose_mask_get (L : matrix bool) n j i : rect L n n -> (i < n)%nat -> (j < n)%nat -> mget false (transpose false n L) j i = mget false L i j.
Proof. intros. apply (transpose_get false L n n); auto. Qed.

Section Main.
  Context {est meta : Type}.
  Variable fit_est : nat -> matrix R -> list R -> list R -> result est.
  Variable predict_est : est -> matrix R -> result (list R).
  Variable fit_meta : R -> nat -> matrix R -> list R -> list R -> result meta.
  Variable predict_meta : meta -> matrix R -> result (list R).
  Variable solve : matrix R -> list R -> result (list R).
  Context {G : Type}.
  Variable seed0 : G.
  Variable choice : G -> list nat -> nat -> G * list nat.
  Variable cpu : nat.
  Variable wm : filesystem -> list coords -> list coords -> filesystem * result swts.

  Notation sfit := (sfit est fit_est predict_est meta fit_meta predict_meta solve G seed0 choice cpu wm).

  Lemma sfit_inv r c g fs s0 X y coords given :
    so_result est meta G (sfit r c g fs s0 X y coords given) = Ok tt ->
    exists w g1 Lm g2 locs w' second preds XT es p score g3 ps scores ses score',
      let o := sfit r c g fs s0 X y coords given in
      let s := so_state est meta G o in
      let LT := transpose_mask Lm in
      let wl := zero_leave_out LT w in
      let ys := take 0 y locs in
      check_X_y X y = Ok tt /\ real_weights wm fs coords given w /\
      leave_out_sample G seed0 choice r c g w = Ok (g1, Lm) /\
      sample_locations G choice g1 (sc_sample_local_rate c) (length X) = Ok (g2, locs) /\
      shrink_w (r_shrink r) (sc_meta_shrink c) w = (w', Ok tt) /\
      second_w (r_second r) (r_buffer r) (positive_w w') LT = Ok second /\
      fit_bases est fit_est predict_est (r_base r) X y (if sc_leave_local_out c then clear_diag wl else wl) second (patches cpu c) = Ok (preds, XT, es) /\
      one_each preds = Ok p /\ r2_score ys p = Ok score /\
      fit_metas est meta fit_meta predict_meta solve G choice r c g2 (length X) y w' (clear_mask_diag (positive_w w')) Lm XT es = Ok (g3, (ps, scores, ses)) /\
      r2_score ys ps = Ok score' /\
      ss_base_list est meta s = Some es /\ ss_local_predict est meta s = Some preds /\
      ss_local_residual est meta s = Some (map (fun a => map (fun b => b - a) ys) p) /\
      ss_stacking_predict est meta s = Some ps /\ ss_local_list est meta s = Some (LStacking est meta ses) /\
      ss_cache_estimator est meta s = ss_cache_estimator est meta s0 /\
      ss_local_indices est meta s = Some locs /\ ss_y_sample est meta s = Some ys /\
      ss_llocv_score est meta s = Some score /\ ss_llocv_stacking est meta s = Some score' /\
      so_weights est meta G o = match given with Some _ => Some w' | None => None end /\
      (given = None -> ss_weight_matrix est meta s = Some w' /\ ss_neighbour_matrix est meta s = Some (positive_w w)) /\
      so_gen est meta G o = g3.
  Proof.
    unfold Stacking.sfit. destruct (check_X_y X y) as [[]|e] eqn:EC; [|discriminate].
    assert (EW : match coords, given with None, None => True | _, _ => 
       let '(fs', w) := match given, coords with
                         | Some w, _ => (fs, Ok w)
                         | None, Some v => wm fs v v
                         | None, None => (fs, Raise TypeError)
                         end in forall w0, w = Ok w0 -> real_weights wm fs coords given w0 end).
    { destruct coords as [v|], given as [w0|]; auto.
      - intros w1 H. left. congruence.
      - destruct (wm fs v v) as [fs' w] eqn:E. intros w1 ->. right. split; auto. exists v. rewrite E. auto.
      - intros w1 H. left. congruence. }
    assert (EN : (coords = None /\ given = None) \/ ~ (coords = None /\ given = None)).
    { destruct coords, given; auto; right; intros [? ?]; discriminate. }
    destruct EN as [[-> ->]|EN]; [discriminate|].
    set (fw := match given, coords with Some w, _ => (fs, Ok w) | None, Some v => wm fs v v | None, None => (fs, Raise TypeError) end) in *.
    assert (EW' : forall w0, snd fw = Ok w0 -> real_weights wm fs coords given w0).
    { destruct fw as [fs' w]. destruct coords, given; auto. destruct EN; auto. }
    clear EW. intros H.
    match type of H with context [match coords with Some _ => ?A | None => match given with Some _ => _ | None => ?B end end] =>
      assert (EE : (match coords with Some _ => A | None => match given with Some _ => A | None => B end end) = A)
      by (destruct coords, given; auto; destruct EN; auto); rewrite EE in * end.
    clear EE EN. destruct fw as [fs' w]. cbn [snd] in EW'.
    destruct w as [w|e]; [|discriminate]. specialize (EW' w eq_refl).
    destruct (leave_out_sample G seed0 choice r c g w) as [[g1 Lm]|e] eqn:E1; [|discriminate].
    destruct (sample_locations G choice g1 (sc_sample_local_rate c) (length X)) as [[g2 locs]|e] eqn:E2; [|discriminate].
    destruct (shrink_w (r_shrink r) (sc_meta_shrink c) w) as [w' sh] eqn:E3.
    destruct sh as [[]|e]; [|discriminate]. cbn [bind] in H |- *.
    destruct (second_w (r_second r) (r_buffer r) (positive_w w') (transpose_mask Lm)) as [second|e] eqn:E4; [|discriminate].
    cbn [bind] in H |- *.
    destruct (fit_bases est fit_est predict_est (r_base r) X y
      (if sc_leave_local_out c then clear_diag (zero_leave_out (transpose_mask Lm) w) else zero_leave_out (transpose_mask Lm) w) second (patches cpu c))
      as [[[preds XT] es]|e] eqn:E5; [|discriminate].
    cbn [bind] in H |- *.
    destruct (one_each preds) as [p|e] eqn:E6; [|discriminate]. cbn [bind] in H |- *.
    destruct (r2_score (take 0 y locs) p) as [score|e] eqn:E7; [|discriminate]. cbn [bind] in H |- *.
    destruct (fit_metas est meta fit_meta predict_meta solve G choice r c g2 (length X) y w' (clear_mask_diag (positive_w w')) Lm XT es)
      as [[g3 [[ps scores] ses]]|e] eqn:E8; [|discriminate]. cbn [bind fst snd] in H |- *.
    destruct (r2_score (take 0 y locs) ps) as [score'|e] eqn:E9; [|discriminate]. cbn [bind] in H |- *.
    exists w, g1, Lm, g2, locs, w', second, preds, XT, es, p, score, g3, ps, scores, ses, score'.
    cbv zeta. repeat split; auto.
    all: try (destruct given; reflexivity).
    all: try (destruct given; cbn; congruence).
  Qed.

  Hypothesis Hchoice : valid_choice choice.

  Lemma leave_out_stage r c g w W n g1 Lm : valid_rates c -> holds_real w W n -> (0 < n)%nat -> schedule n (r_sample r) ->
    leave_out_sample G seed0 choice r c g w = Ok (g1, Lm) ->
    exists L, leave_outs seed0 choice c W L /\
      (w = SDense W -> Lm = MDense L) /\
      (forall cw, w = SSparse cw -> exists cL, Lm = MSparse cL /\ csr_mask L n cL).
  Proof.
    intros (Hr1 & Hr2 & _) [HW Hw] Hn HS H. unfold leave_out_sample in H. assert (HL : length W = n) by apply HW.
    destruct (sc_leave_out_rate c) as [q|] eqn:Eq; [|discriminate].
    destruct Hw as [->|[cw [-> F]]].
    - apply bind_ok in H. destruct H as [[g' L] [H1 H]]. injection H as <- <-.
      exists L. split; [exists q, (r_sample r), g, g'; rewrite HL; auto|]. split; [auto|discriminate].
    - destruct (sample_sparse_agrees G seed0 choice (r_sample r) g W cw q (sc_leave_out_shrink c) n) as (g' & L & cL & H1 & H2 & H3); auto.
      rewrite H2 in H. cbn [bind] in H. injection H as <- <-.
      exists L. split; [exists q, (r_sample r), g, g'; rewrite HL; auto|]. split; [discriminate|].
      intros cw' _. exists cL. auto.
  Qed.

  Lemma shrink_stage order rate w W n w' : (forall q, rate = Some q -> 0 <= q <= 1) -> holds_real w W n -> schedule n order ->
    shrink_w order rate w = (w', Ok tt) ->
    exists W', shrunk_weights rate W W' /\ rect W' n n /\
      (w = SDense W -> w' = SDense W') /\
      (forall cw, w = SSparse cw -> exists c', w' = SSparse c' /\ csr_form 0 zeroR W' n c').
  Proof.
    intros Hq [HW Hw] HS H. assert (HL : length W = n) by apply HW. unfold shrink_w in H. destruct rate as [q|].
    - specialize (Hq q eq_refl).
      exists (map (shrink_row q) W). assert (HS' : schedule (length W) order) by congruence.
      split; [apply shrunk_effective; auto|]. split; [apply rect_shrink; auto|].
      destruct Hw as [->|[cw [-> F]]].
      + rewrite neighbour_shrink_ok in H by auto. injection H as <-. split; [auto|discriminate].
      + destruct (shrink_csr_form q order W n n cw Hq HW F HS) as [c' [E1 E2]].
        unfold neighbour_shrink_csr in H. rewrite E1 in H. injection H as <-. split; [discriminate|]. intros cw' _. exists c'. auto.
    - exists W. injection H as <-. split; [reflexivity|]. split; [auto|].
      destruct Hw as [->|[cw [-> F]]]; [split; [auto|discriminate]|]. split; [discriminate|]. intros cw' E. exists cw. auto.
  Qed.

  Lemma Wl_diag L W n : rect L n n -> rect W n n -> (forall i, (i < n)%nat -> mget false L i i = true) ->
    fill_diagonal 0 (zeroed (transpose false n L) W) = zeroed (transpose false n L) W.
  Proof.
    intros HL HW Hd. assert (HT : rect (transpose false n L) n n) by (apply transpose_rect; auto).
    pose proof (zeroed_rect _ _ _ HT HW) as HZ.
    apply (matrix_eq 0 _ _ n n); [apply fill_diagonal_rect; auto|auto|].
    intros i j Hi Hj. unfold mget. rewrite fill_diagonal_nth by (destruct HZ; lia).
    destruct (Nat.eq_dec i j) as [->|Hij].
    - rewrite list_set_nth_eq by (rewrite (rect_row _ _ _ _ HZ Hj); auto).
      symmetry. pose proof (zeroed_get _ _ _ j j HT HW Hj Hj) as E. rewrite (transpose_mask_get L n j j), Hd in E by auto. exact E.
    - rewrite list_set_nth_neq by auto. reflexivity.
  Qed.

  Lemma clear_diag_stage r c g w W n g1 Lm : valid_rates c -> holds_real w W n -> (0 < n)%nat -> schedule n (r_sample r) ->
    leave_out_sample G seed0 choice r c g w = Ok (g1, Lm) ->
    clear_diag (zero_leave_out (transpose_mask Lm) w) = zero_leave_out (transpose_mask Lm) w.
  Proof.
    intros Hr Hw Hn HS H. destruct (leave_out_stage r c g w W n g1 Lm Hr Hw Hn HS H) as (L & HLo & Hd & Hs).
    destruct Hw as [HW Hw]. destruct (leave_outs_shape seed0 choice c W L n Hchoice Hr HW Hn HLo) as [HL Hdiag].
    destruct Hw as [->|[cw [-> F]]].
    - rewrite (Hd eq_refl). cbn [transpose_mask zero_leave_out clear_diag]. rewrite (rect_ncols L n n HL Hn).
      fold (zeroed (transpose false n L) W). rewrite Wl_diag by auto. reflexivity.
    - destruct (Hs cw eq_refl) as (cL & -> & FL). cbn [transpose_mask].
      assert (FT : csr_mask (transpose false n L) n (csr_transpose cL)) by (apply csr_transpose_form; auto).
      assert (HT : rect (transpose false n L) n n) by (apply transpose_rect; auto).
      destruct (zero_leave_out_form _ _ _ _ _ HT HW FT F) as (c' & E & F'). rewrite E.
      cbn [clear_diag]. f_equal.
      assert (F2 : csr_form 0 zeroR (zeroed (transpose false n L) W) n (remove_diagonal c')).
      { rewrite <- Wl_diag by auto. apply remove_diagonal_form; auto; [apply Reqb_true; reflexivity|apply zeroed_rect; auto]. }
      change R_is_zero with zeroR. rewrite (eliminate_zeros_form _ _ _ _ _ F2). rewrite csr_form_eq in F', F2. congruence.
  Qed.

  Lemma training_eq n W L j : rect W n n -> rect L n n -> (j < n)%nat ->
    filter (fun k => Rnonzero (mget 0 (zeroed (transpose false n L) W) j k)) (seq 0 n) = base_training n W L j /\
    map (mget 0 (zeroed (transpose false n L) W) j) (base_training n W L j) = map (mget 0 W j) (base_training n W L j).
  Proof.
    intros HW HL Hj. assert (HT : rect (transpose false n L) n n) by (apply transpose_rect; auto).
    assert (E : forall k, (k < n)%nat -> mget 0 (zeroed (transpose false n L) W) j k = if mget false L k j then 0 else mget 0 W j k).
    { intros k Hk. rewrite (zeroed_get _ _ n) by auto. rewrite (transpose_mask_get L n j k) by auto. reflexivity. }
    split.
    - apply filter_ext_in. intros k Hk. apply in_seq in Hk. rewrite E by lia. unfold Rnonzero.
      destruct (mget false L k j); [rewrite (proj2 (Reqb_true 0 0)) by auto; cbn; rewrite andb_false_r; reflexivity|].
      cbn. rewrite andb_true_r. reflexivity.
    - apply map_ext_in. intros k Hk. apply filter_In in Hk. destruct Hk as [Hk Hb]. apply in_seq in Hk. rewrite E by lia.
      apply andb_prop in Hb. destruct Hb as [_ Hb]. destruct (mget false L k j); [discriminate|reflexivity].
  Qed.

  Lemma second_eq n order buf W' L j : rect W' n n -> rect L n n -> schedule n order -> length buf = n -> (j < n)%nat ->
    nonzero (nth j (second_order_dense order buf (mmap positive W') (transpose false n L)) []) = evaluated n W' L j.
  Proof.
    intros HW HL HS Hb Hj. assert (HT : rect (transpose false n L) n n) by (apply transpose_rect; auto).
    assert (HP : rect (mmap positive W') n n) by (apply rect_mmap; auto).
    destruct (second_order_spec n order buf (mmap positive W') (transpose false n L) HP HT HS Hb) as [HR Hs].
    rewrite (nonzero_row _ n) by auto. apply filter_ext_in. intros k Hk. apply in_seq in Hk.
    apply eq_true_iff_eq. rewrite Hs by lia. rewrite existsb_exists. split.
    - intros (i & Hi & H1 & H2). exists i. split; [apply in_seq; lia|]. rewrite (transpose_mask_get L n j i) in H1 by auto. rewrite H1.
      rewrite (mmap_get positive W' 0 false n n i k) in H2 by (auto; lia). exact H2.
    - intros (i & Hi & H). apply in_seq in Hi. apply andb_prop in H. destruct H as [H1 H2]. exists i. split; [lia|].
      rewrite (transpose_mask_get L n j i) by (auto; lia). split; auto.
      rewrite (mmap_get positive W' 0 false n n i k) by (auto; lia). exact H2.
  Qed.

  Hypothesis Hone : one_per_row predict_est.

  Lemma base_result_spec X y n W L W' preds qs es p : rect W n n -> rect L n n ->
    base_result fit_est predict_est X y n (zeroed (transpose false n L) W) (evaluated n W' L) preds qs es ->
    one_each preds = Ok p ->
    length es = n /\ length p = n /\
    forall j e, nth_error es j = Some e ->
      base_learner fit_est X y n W L j e /\ predict_est e [nth j X []] = Ok [nth j p 0] /\
      predict_est e (map (fun k => nth k X []) (evaluated n W' L j)) = Ok (nth j qs []).
  Proof.
    intros HW HL (L1 & L2 & L3 & H) Hp. apply one_each_ok in Hp. destruct Hp as [Lp Hp]. repeat split; try lia;
    assert (Hj : (j < n)%nat) by (rewrite <- L3; apply nth_error_Some; congruence);
    destruct (H j e) as (H1 & H2 & H3); auto; destruct (training_eq n W L j HW HL Hj) as [T1 T2].
    - unfold base_learner. cbv zeta. cbv zeta in H1. rewrite T1, T2 in H1. exact H1.
    - rewrite H2. rewrite Hp by lia. reflexivity.
  Qed.

  Theorem sfit_stacked r c g fs s0 X y coords given w W :
    let n := length X in
    let o := sfit r c g fs s0 X y coords given in
    let s := so_state est meta G o in
    valid_runtime r n (patches cpu c) -> valid_rates c ->
    real_weights wm fs coords given w -> holds_real w W n ->
    (sc_use_numba c = true -> forall i k, (i < n)%nat -> (k < n)%nat -> 0 <= mget 0 W i k) ->
    so_result est meta G o = Ok tt ->
    exists L W' es ps0 qs ps ses,
      leave_outs seed0 choice c W L /\ shrunk_weights (sc_meta_shrink c) W W' /\
      stacked fit_est predict_est fit_meta predict_meta solve (r_garbage r) c w X y n W L W' es ps0 qs ps ses /\
      ss_base_list est meta s = Some es /\ ss_local_predict est meta s = Some (map (fun x => [x]) ps0) /\
      ss_stacking_predict est meta s = Some ps /\ ss_local_list est meta s = Some (LStacking est meta ses).
  Proof.
    intros n o s (HS1 & HS2 & HS3 & Hbuf & HS4) Hrates Hreal Hw Hpos Hok.
    destruct (sfit_inv r c g fs s0 X y coords given Hok) as
      (w0 & g1 & Lm & g2 & locs & w' & second & preds & XT & es & p & score & g3 & ps & scores & ses & score' & H).
    cbv zeta in H. fold o in H. fold s in H. fold n in H.
    destruct H as (HC & Hreal0 & E1 & E2 & E3 & E4 & E5 & E6 & E7 & E8 & E9 & F1 & F2 & _ & F4 & F5 & _).
    assert (w0 = w).
    { destruct Hreal as [->|(-> & v & -> & Hv)]; destruct Hreal0 as [H0|(H0 & v' & H1 & Hv')]; try discriminate; [congruence|].
      injection H1 as <-. congruence. }
    subst w0. destruct (check_ok X y HC) as (Ly & Hn & _ & _). fold n in Ly, Hn.
    assert (Ecl : (if sc_leave_local_out c then clear_diag (zero_leave_out (transpose_mask Lm) w) else zero_leave_out (transpose_mask Lm) w)
                  = zero_leave_out (transpose_mask Lm) w).
    { destruct (sc_leave_local_out c); auto. apply (clear_diag_stage r c g w W n g1 Lm); auto. }
    rewrite Ecl in E5. clear Ecl.
    destruct (leave_out_stage r c g w W n g1 Lm Hrates Hw Hn HS1 E1) as (L & HLo & HLd & HLs).
    assert (Hr3 : forall q, sc_meta_shrink c = Some q -> 0 <= q <= 1) by apply Hrates.
    destruct (shrink_stage (r_shrink r) (sc_meta_shrink c) w W n w' Hr3 Hw HS2 E3) as (W' & HW'1 & HW'2 & Hwd & Hws).
    destruct Hw as [HW Hw]. destruct (leave_outs_shape seed0 choice c W L n Hchoice Hrates HW Hn HLo) as [HL Hdiag].
    assert (HT : rect (transpose false n L) n n) by (apply transpose_rect; auto).
    assert (HP : rect (mmap positive W') n n) by (apply rect_mmap; auto).
    pose proof (zeroed_rect _ _ _ HT HW) as HZ.
    assert (Hps : forall i k, sc_use_numba c = true -> (i < n)%nat -> (k < n)%nat -> 0 <= mget 0 W' i k).
    { intros i k Hu Hi Hk. destruct (shrunk_get _ W W' n i k Hr3 HW HW'1) as [E|E]; rewrite E; [apply Hpos; auto|lra]. }
    destruct Hw as [->|[cw [-> F]]].
    - (* dense *)
      rewrite (HLd eq_refl) in *. rewrite (Hwd eq_refl) in *.
      cbn [transpose_mask positive_w second_w zero_leave_out clear_mask_diag] in E4, E5, E8.
      rewrite (rect_ncols L n n HL Hn) in E4, E5. fold (zeroed (transpose false n L) W) in E5. injection E4 as <-.
      unfold second_order_neighbour in E5. set (S2 := second_order_dense (r_second r) (r_buffer r) (mmap positive W') (transpose false n L)) in *.
      destruct (second_order_spec n (r_second r) (r_buffer r) (mmap positive W') (transpose false n L) HP HT HS3 Hbuf) as [HR2 _].
      destruct (fit_bases_dense fit_est predict_est (r_base r) X y _ _ _ n preds XT es eq_refl (eq_sym Ly) HZ HR2 HS4 E5)
        as (qs & rows & Hbase & -> & Hmeta).
      assert (Hidx : forall j, (j < n)%nat -> nonzero (nth j S2 []) = evaluated n W' L j) by (intros j Hj; apply second_eq; auto).
      assert (Hbase' : base_result fit_est predict_est X y n (zeroed (transpose false n L) W) (evaluated n W' L) preds qs es).
      { destruct Hbase as (L1 & L2 & L3 & Hb). repeat split; auto;
        assert (Hj : (j < n)%nat) by (rewrite <- L3; apply nth_error_Some; congruence); destruct (Hb j e) as (B1 & B2 & B3); auto.
        rewrite <- Hidx by auto. exact B3. }
      assert (Hmeta' : meta_ok (XDense rows) n (evaluated n W' L) qs).
      { destruct Hmeta as [M1 M2]. split; auto. intros j k Hj. rewrite <- Hidx by auto. apply M2; auto. }
      destruct (base_result_spec X y n W L W' preds qs es p HW HL Hbase' E6) as (Le & Lp & Hb).
      unfold fit_metas in E8. destruct (sc_use_numba c) eqn:Enb; [discriminate|].
      apply bind_ok in E8. destruct E8 as [[g4 rs] [E8 E8']]. apply bind_ok in E8'. destruct E8' as [ps' [E8' E8'']].
      cbn [fst snd] in E8', E8''. injection E8'' as <- <- <- <-.
      destruct (meta_loop_ok _ _ _ _ _ E8) as [Lrs Hrs]. rewrite seq_length in Lrs, Hrs. fold n in Lrs, Hrs, E8.
      apply one_each_ok in E8'. rewrite map_length in E8'. destruct E8' as [Lps Hps'].
      exists L, W', es, p, qs, ps', (map snd rs).
      split; [exact HLo|]. split; [exact HW'1|]. split; [|repeat split; auto].
      + constructor.
        * rewrite map_length. lia.
        * exact Hb.
        * intros i Hi. rewrite Enb. cbn [andb].
          destruct (Hrs i ([], StackingEstimator est meta (MLinear meta [] NaN) []) Hi) as (ga & gb & Ht).
          rewrite seq_nth in Ht by auto. cbn [Nat.add] in Ht.
          destruct (nth i rs ([], StackingEstimator est meta (MLinear meta [] NaN) [])) as [pp se] eqn:En.
          destruct (meta_dense_ok fit_meta predict_meta choice Hchoice c W W' L rows es n qs y ga i gb pp se HW'2 HL (Hdiag i Hi) Le (eq_sym Ly) Hi Hmeta' Ht)
            as (mm & bases & D1 & D2 & D3 & D4).
          exists (MFitted meta mm), bases. cbv zeta. split; [|split; [exact D2|]].
          -- rewrite nth_error_map, (nth_error_nth' rs ([], StackingEstimator est meta (MLinear meta [] NaN) [])) by lia. rewrite En. cbn. rewrite D1. reflexivity.
          -- cbn [meta_fitted]. exists mm. split; [exact D3|]. split; [reflexivity|]. rewrite D4.
             assert (Ep : nth i (map fst rs) [] = pp) by (rewrite (nth_map_in _ _ _ ([], StackingEstimator est meta (MLinear meta [] NaN) [])) by lia; rewrite En; reflexivity).
             rewrite <- Ep, Hps' by lia. reflexivity.
      + rewrite F2. f_equal. apply one_each_ok in E6. destruct E6 as [L6 H6]. apply (list_eq_nth []); [rewrite map_length; auto|].
        intros i Hi. rewrite H6 by auto. rewrite (nth_map_in _ _ _ 0) by lia. reflexivity.
    - (* sparse *)
      destruct (HLs cw eq_refl) as (cL & -> & FL). destruct (Hws cw eq_refl) as (cw' & -> & FW').
      cbn [transpose_mask positive_w second_w clear_mask_diag] in E4, E5, E8.
      assert (FT : csr_mask (transpose false n L) n (csr_transpose cL)) by (apply csr_transpose_form; auto).
      destruct (zero_leave_out_form _ _ _ _ _ HT HW FT F) as (cl & El & Fl). rewrite El in E5.
      assert (FP : csr_mask (mmap positive W') n (csr_where positive cw')).
      { apply (csr_where_form W' n); auto. }
      apply bind_ok in E4. destruct E4 as [c2 [E4 E4']]. injection E4' as <-.
      set (S2 := second_order_dense (r_second r) (r_buffer r) (mmap positive W') (transpose false n L)) in *.
      assert (Hidx : forall j, (j < n)%nat -> nonzero (nth j S2 []) = evaluated n W' L j) by (intros j Hj; apply second_eq; auto).
      destruct (second_order_spec n (r_second r) (r_buffer r) (mmap positive W') (transpose false n L) HP HT HS3 Hbuf) as [HR2 _]. fold S2 in HR2.
      assert (H2 : (forall i, (i < n)%nat -> row_indices c2 i = evaluated n W' L i) /\ c_indptr c2 = indptr_from 0 (map (evaluated n W' L) (seq 0 n))).
      { pose proof (second_order_sparse_eq false false negb negb n (mmap positive W') (transpose false n L) (csr_where positive cw') (csr_transpose cL)
          (r_second r) (r_buffer r) HP HT FP FT HS3 Hbuf) as Esp.
        rewrite !negb_negb_mmap in Esp. fold S2 in Esp.
        unfold second_order_neighbour_csr in E4. rewrite Esp in E4.
        assert (Em : map nonzero S2 = map (evaluated n W' L) (seq 0 n)).
        { apply (list_eq_nth []); [rewrite !map_length, seq_length; apply HR2|]. intros j Hj. rewrite map_length in Hj.
          assert (j < n)%nat by (destruct HR2; lia).
          rewrite (nth_map_in _ _ _ []) by auto. rewrite (nth_map_in _ _ _ 0%nat) by (rewrite seq_length; auto). rewrite seq_nth by auto. apply Hidx; auto. }
        rewrite Em in E4. destruct (map (evaluated n W' L) (seq 0 n)) as [|r0 rr] eqn:E0; [discriminate|]. rewrite <- E0 in E4 |- *.
        unfold csr_infer in E4. destruct (concat (map (evaluated n W' L) (seq 0 n))) as [|i0 l0] eqn:Ec; [discriminate|]. injection E4 as <-.
        split; [|reflexivity]. intros i Hi. unfold row_indices, row_slice. cbn [c_indices c_indptr]. rewrite <- Ec.
        rewrite slice_concat by (rewrite map_length, seq_length; auto).
        rewrite (nth_map_in _ _ _ 0%nat) by (rewrite seq_length; auto). rewrite seq_nth by auto. reflexivity. }
      destruct H2 as [H2 H2'].
      destruct (fit_bases_sparse fit_est predict_est Hone (r_base r) X y _ _ _ _ n (evaluated n W' L) preds XT es eq_refl (eq_sym Ly) HZ Fl H2
        (fun i k Hk => evaluated_lt n W' L i k Hk) H2' HS4 E5) as (qs & cx & Hbase & -> & Hmeta & _).
      destruct (base_result_spec X y n W L W' preds qs es p HW HL Hbase E6) as (Le & Lp & Hb).
      assert (Hq : forall j, (j < n)%nat -> length (nth j qs []) = length (evaluated n W' L j)).
      { intros j Hj. destruct (nth_error es j) as [e|] eqn:Ee; [|apply nth_error_None in Ee; lia].
        destruct (Hb j e Ee) as (_ & _ & B3). apply Hone in B3. rewrite B3, map_length. reflexivity. }
      assert (Fn : csr_mask (candidates W') n (remove_diagonal (csr_where positive cw'))).
      { apply remove_diagonal_form; auto. }
      assert (Elp : ss_local_predict est meta s = Some (map (fun x => [x]) p)).
      { rewrite F2. f_equal. apply one_each_ok in E6. destruct E6 as [L6 H6]. apply (list_eq_nth []); [rewrite map_length; auto|].
        intros i Hi. rewrite H6 by auto. rewrite (nth_map_in _ _ _ 0) by lia. reflexivity. }
      unfold fit_metas in E8. destruct (sc_use_numba c) eqn:Enb.
      + apply bind_ok in E8. destruct E8 as [rs [E8 E8']]. apply bind_ok in E8'. destruct E8' as [ps' [E8' E8'']].
        apply bind_ok in E8''. destruct E8'' as [ses' [Es E8'']]. injection E8'' as <- <- <- <-. fold n in E8, Es.
        destruct (mapM_seq _ _ _ E8) as [Lrs Hrs]. pose proof (mapM_length _ _ _ E8') as Lps. destruct (mapM_seq _ _ _ Es) as [Les Hes].
        assert (Hpi : forall i d, (i < n)%nat -> snd (fst (nth i rs d)) = Fin (nth i ps' 0)).
        { apply mapM_ok_iff in E8'. clear -E8' Lrs. rewrite <- Lrs. clear Lrs. induction E8' as [|e x l l' Hx HF IH]; intros i d Hi; [simpl in Hi; lia|].
          destruct i; cbn [nth]; [|apply IH; simpl in Hi; lia]. destruct (snd (fst e)); congruence. }
        exists L, W', es, p, qs, ps', ses'.
        split; [exact HLo|]. split; [exact HW'1|]. split; [|repeat split; auto].
        constructor.
        * lia.
        * exact Hb.
        * intros i Hi. rewrite Enb. cbn [andb meta_fitted].
          set (d := (@nil R, NaN, NaN, 0)). specialize (Hrs i d Hi). specialize (Hpi i d Hi).
          specialize (Hes i (StackingEstimator est meta (MLinear meta [] NaN) []) Hi).
          destruct (nth i rs d) as [[[coef b] v] sc] eqn:En. cbn [fst snd] in Hpi. subst v.
          destruct (meta_numba_ok fit_meta solve c cw (r_garbage r) W' cw' L cL _ cx n qs y i coef b (nth i ps' 0) sc
            HW'2 FW' HL FL Fn (fun k Hk => Hps i k eq_refl Hi Hk) (eq_sym Ly) Hi Hmeta Hq Hrs) as (D1 & b' & D2 & D3 & D4).
          apply bind_ok in Hes. destruct Hes as [bs [B1 Hes]]. apply bind_ok in Hes. destruct Hes as [e0 [B2 Hes]].
          rewrite (getitem_lt d) in B2 by lia. injection B2 as <-. rewrite En in Hes. cbn [fst snd] in Hes. injection Hes as Hes.
          exists (MLinear meta coef b), bs. cbv zeta. split; [|split].
          -- rewrite (nth_error_nth' ses' (StackingEstimator est meta (MLinear meta [] NaN) [])) by lia. rewrite <- Hes. reflexivity.
          -- rewrite <- D1. apply take_checked_inv. exact B1.
          -- exists coef, b'. split; [exact D3|]. split; [rewrite D2; reflexivity|]. rewrite D4. f_equal. f_equal. apply map_ext. intros j.
             destruct (existsb (Nat.eqb i) (evaluated n W' L j)); reflexivity.
      + apply bind_ok in E8. destruct E8 as [[g4 rs] [E8 E8']]. apply bind_ok in E8'. destruct E8' as [ps' [E8' E8'']].
        cbn [fst snd] in E8', E8''. injection E8'' as <- <- <- <-.
        destruct (meta_loop_ok _ _ _ _ _ E8) as [Lrs Hrs]. rewrite seq_length in Lrs, Hrs. fold n in Lrs, Hrs, E8.
        apply one_each_ok in E8'. rewrite map_length in E8'. destruct E8' as [Lps Hps'].
        exists L, W', es, p, qs, ps', (map snd rs).
        split; [exact HLo|]. split; [exact HW'1|]. split; [|repeat split; auto].
        constructor.
        * rewrite map_length. lia.
        * exact Hb.
        * intros i Hi. rewrite Enb. cbn [andb].
          destruct (Hrs i ([], StackingEstimator est meta (MLinear meta [] NaN) []) Hi) as (ga & gb & Ht).
          rewrite seq_nth in Ht by auto. cbn [Nat.add] in Ht.
          destruct (nth i rs ([], StackingEstimator est meta (MLinear meta [] NaN) [])) as [pp se] eqn:En.
          destruct (meta_sparse_ok fit_meta predict_meta solve c cw W' cw' L cL _ cx es n qs y ga i gb pp se HW'2 FW' HL FL Fn Le (eq_sym Ly) Hi Hmeta Hq Ht)
            as (mm & bases & D1 & D2 & D3 & D4).
          exists (MFitted meta mm), bases. cbv zeta. split; [|split; [exact D2|]].
          -- rewrite nth_error_map, (nth_error_nth' rs ([], StackingEstimator est meta (MLinear meta [] NaN) [])) by lia. rewrite En. cbn. rewrite D1. reflexivity.
          -- cbn [meta_fitted]. exists mm. split; [exact D3|]. split; [reflexivity|]. rewrite D4.
             assert (Ep : nth i (map fst rs) [] = pp) by (rewrite (nth_map_in _ _ _ ([], StackingEstimator est meta (MLinear meta [] NaN) [])) by lia; rewrite En; reflexivity).
             rewrite <- Ep, Hps' by lia. reflexivity.
  Qed.
End Main.
