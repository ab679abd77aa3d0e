(** predict_by_fit of the stacking model. *)
From Coq Require Import Lra Sorting.Sorted.
From Verif.Model Require Import Base Ext Csr Neighbour Distance WeightModel NumbaImpl Stacking StackingPredict.
From Verif.Spec Require Import KernelSpec NeighbourSpec StackingSpec.
From Verif.Proofs Require Import ListFacts KernelFacts CsrFacts ShrinkFacts NeighbourFacts SampleFacts WeightModelFacts
  NeighbourProps WeightModelProps StackingCsr StackingFacts StackingMeta StackingProps StackingClaims StackingClaims2 StackingClaims3.
Open Scope nat_scope.
Open Scope R_scope.

Section Predict.
  Context {est meta : Type}.
  Variable fit_est : nat -> matrix R -> list R -> list R -> result est.
  Variable predict_est : est -> matrix R -> result (list R).
  Variable fit_meta : R -> nat -> matrix R -> list R -> list R -> result meta.
  Variable predict_meta : meta -> matrix R -> result (list R).
  Variable cpu : nat.
  Variable wm : filesystem -> list coords -> list coords -> filesystem * result swts.

  Notation spredict := (spredict est fit_est predict_est meta fit_meta predict_meta cpu wm).
  Notation task := (predict_task est predict_est meta fit_meta predict_meta).

  Lemma spredict_inv r c fs s0 X y v Xp vp s fs2 out :
    spredict r c fs s0 X y v Xp vp = (s, fs2, Ok out) ->
    exists fs1 w m second preds x es p score rs,
      check_X_y X y = Ok tt /\ wm fs v v = (fs1, Ok w) /\ wm fs1 v vp = (fs2, Ok (SDense m)) /\
      predict_second (r_second r) (r_buffer r) (SDense m) = Ok second /\
      fit_bases est fit_est predict_est (r_base r) X y (predict_base_weights c w) second (patches cpu c) = Ok (preds, XDense x, es) /\
      one_each preds = Ok p /\ r2_score y p = Ok score /\ sc_use_numba c = false /\
      mapM (task (sc_alpha c) y (transpose 0 (ncols m) m) x es Xp) (seq 0 (length Xp)) = Ok rs /\
      out = map fst rs /\
      ss_base_list est meta s = Some es /\ ss_local_list est meta s = Some (LStacking est meta (map snd rs)) /\
      ss_local_predict est meta s = Some preds /\ ss_y_sample est meta s = Some y /\ ss_llocv_score est meta s = Some score /\
      ss_cache_estimator est meta s = ss_cache_estimator est meta s0.
  Proof.
    unfold StackingPredict.spredict. destruct (check_X_y X y) as [[]|e]; [|discriminate].
    destruct (wm fs v v) as [fs1 [w|e]]; [|discriminate]. destruct (wm fs1 v vp) as [fs2' [t|e]] eqn:Et; [|discriminate].
    destruct (bind _ _) as [[[preds XT] es]|e] eqn:Eb; [|discriminate]. apply bind_ok in Eb. destruct Eb as [second [E1 E2]].
    destruct (bind (one_each preds) _) as [[p score]|e] eqn:Es; [|discriminate]. apply bind_ok in Es. destruct Es as [p' [E3 Es]].
    apply bind_ok in Es. destruct Es as [sc [E4 Es]]. injection Es as -> ->.
    destruct t as [m|]; [|discriminate]. destruct XT as [x|]; [|discriminate]. destruct (sc_use_numba c); [discriminate|].
    destruct (mapM _ _) as [rs|e] eqn:Em; [|discriminate]. intros H. injection H as <- <- <-.
    exists fs1, w, m, second, preds, x, es, p, score, rs. repeat split; auto.
  Qed.

  (** The second-order matrix covers every pair in the support of a new point. *)
  Lemma second_covers order buf (m : matrix R) n k : rect m n k -> (0 < n)%nat -> (0 < k)%nat -> schedule n order -> length buf = n ->
    exists s, predict_second order buf (SDense m) = Ok (S2Dense s) /\ rect s n n /\
      forall a b, (a < n)%nat -> (b < n)%nat ->
        (mget false s a b = true <-> exists i, (i < k)%nat /\ 0 < mget 0 m a i /\ 0 < mget 0 m b i).
  Proof.
    intros Hm Hn Hk HS Hb. set (nb := mmap positive m). assert (Hnb : rect nb n k) by (apply rect_mmap; auto).
    assert (Ec : ncols nb = k) by (apply (rect_ncols nb n k); auto).
    assert (HT : rect (transpose false k nb) k n) by (apply transpose_rect; auto).
    assert (Ec' : ncols (transpose false k nb) = n) by (apply (rect_ncols _ k n); auto).
    eexists. unfold predict_second, second_order_neighbour. fold nb. rewrite Ec. rewrite (second_order_dense_eq n) by auto.
    split; [reflexivity|]. split.
    - split; [apply tabulate_length|]. apply Forall_forall. intros row Hr. apply in_tabulate in Hr as [i [Hi <-]].
      rewrite second_order_row_length. auto.
    - intros a b Ha Hb'. unfold mget at 1. rewrite tabulate_nth by auto. rewrite second_order_row_spec.
      + assert (E : length (transpose false k nb) = k) by apply HT. rewrite E.
        assert (G : forall a i, (a < n)%nat -> (i < k)%nat -> mget false nb a i = true <-> 0 < mget 0 m a i).
        { intros a' i' Ha' Hi'. unfold nb. rewrite (mmap_get positive m 0 false n k) by auto. unfold positive. apply Rltb_true. }
        split.
        * intros (i & Hi & H1 & H2). exists i. split; auto. split; apply G; auto.
          rewrite <- (transpose_get false nb n k) by auto. exact H2.
        * intros (i & Hi & H1 & H2). exists i. split; auto. split; [apply G; auto|].
          change (mget false (transpose false k nb) i b = true). rewrite (transpose_get false nb n k) by auto. apply G; auto.
      + rewrite (rect_row nb n k) by auto. symmetry; apply HT.
      + lia.
  Qed.

  Lemma support_in n (U : matrix R) i k : In k (support n U i) <-> (k < n)%nat /\ 0 < mget 0 U k i.
  Proof. unfold support. rewrite filter_In, in_seq, Rltb_true. split; intros; split; try tauto; lia. Qed.
  Lemma support_nonzero n k (U : matrix R) i : rect U n k -> (i < k)%nat ->
    nonzero (map positive (nth i (transpose 0 k U) [])) = support n U i.
  Proof.
    intros HU Hi. assert (HT : rect (transpose 0 k U) k n) by (apply transpose_rect; auto).
    rewrite nonzero_filter, map_length, (rect_row _ k n i HT Hi). apply filter_ext_in. intros j Hj. apply in_seq in Hj.
    rewrite (nth_map_in _ _ _ 0) by (rewrite (rect_row _ k n i HT Hi); lia). unfold positive.
    change (nth j (nth i (transpose 0 k U) []) 0) with (mget 0 (transpose 0 k U) i j).
    rewrite (transpose_get 0 U n k) by (auto; lia). reflexivity.
  Qed.

  Lemma base_weights_rect c W n : rect W n n -> exists W0, predict_base_weights c (SDense W) = SDense W0 /\ rect W0 n n /\
    forall j k, (j < n)%nat -> (k < n)%nat -> mget 0 W0 j k = if sc_leave_local_out c && (k =? j)%nat then 0 else mget 0 W j k.
  Proof.
    intros HW. unfold predict_base_weights. destruct (sc_leave_local_out c).
    - exists (fill_diagonal 0 W). split; [reflexivity|]. split; [apply fill_diagonal_rect; auto|]. intros j k Hj Hk.
      unfold mget. rewrite fill_diagonal_nth by (destruct HW; lia). cbn [andb]. destruct (Nat.eqb_spec k j) as [->|H].
      + rewrite list_set_nth_eq; auto. rewrite (rect_row _ _ _ _ HW Hj). auto.
      + rewrite list_set_nth_neq by auto. reflexivity.
    - exists W. auto.
  Qed.

  Lemma lookup_row f e (X : matrix R) idx q k : NoDup idx -> In k idx -> q = map (f e) (map (fun k => nth k X []) idx) ->
    lookup idx q k = f (e : est) (nth k X []).
  Proof.
    intros Hn Hk ->. rewrite map_map. revert Hn Hk. induction idx as [|a idx IH]; intros Hn Hk; [destruct Hk|].
    unfold lookup. cbn [map combine find fst]. destruct (Nat.eqb_spec a k) as [->|Ha]; [reflexivity|].
    inversion Hn; subst. destruct Hk as [->|Hk]; [congruence|]. apply IH; auto.
  Qed.

  Variable f : est -> list R -> R.
  Hypothesis Hrow : rowwise predict_est f.

  Lemma predict_stacking_row mm bases x p :
    predict_stacking est predict_est meta predict_meta (StackingEstimator est meta (MFitted meta mm) bases) [x] = Ok p ->
    exists q, predict_meta mm [map (fun e => f e x) bases] = Ok q /\ p = map Fin q.
  Proof.
    unfold predict_stacking. cbn [se_bases se_meta]. intros H. apply bind_ok in H. destruct H as [cols [H1 H]].
    assert (E : cols = map (fun e => [f e x]) bases).
    { apply mapM_ok_iff in H1. clear H. induction H1 as [|e c bs cols He HF IH]; [reflexivity|]. cbn [map]. f_equal; auto.
      apply Hrow in He. exact He. }
    destruct (_ || _) eqn:Ec in H; [discriminate|]. apply orb_false_elim in Ec. destruct Ec as [Ec _]. apply Nat.eqb_neq in Ec.
    subst cols. destruct bases as [|e0 bases]; [cbn in Ec; lia|]. cbn [map ncols length] in H. cbn [predict_model] in H.
    apply bind_ok in H. destruct H as [q [H2 H]]. injection H as <-. exists q. split; auto.
    rewrite <- H2. f_equal. unfold transpose, tabulate. change (ncols ([f e0 x] :: map (fun e => [f e x]) bases)) with 1%nat. cbn [seq map nth]. f_equal. f_equal.
    rewrite map_map. reflexivity.
  Qed.

  Theorem new_predictions r c fs s0 X y v Xp vp W U fs1 fs2 s out :
    let n := length X in
    let k := length Xp in
    wm fs v v = (fs1, Ok (SDense W)) -> wm fs1 v vp = (fs2, Ok (SDense U)) -> rect W n n -> rect U n k -> (0 < k)%nat ->
    schedule n (r_second r) -> length (r_buffer r) = n -> (forall k', patches cpu c = Some k' -> schedule k' (r_base r)) ->
    spredict r c fs s0 X y v Xp vp = (s, fs2, Ok out) ->
    exists es, ss_base_list est meta s = Some es /\ length es = n /\ length out = k /\
      (forall j e, nth_error es j = Some e -> plain_base fit_est (sc_leave_local_out c) X y n W j e) /\
      forall i, (i < k)%nat -> exists bases p,
        let T := support n U i in
        Forall2 (fun j e => nth_error es j = Some e) T bases /\ nth i out [] = map Fin p /\
        new_prediction fit_meta predict_meta f (sc_alpha c) X y T (map (fun t => mget 0 U t i) T) bases (nth i Xp []) p.
  Proof.
    intros n k Hw HU RW RU Hk HS Hb HP H. apply spredict_inv in H.
    destruct H as (fs1' & w & m & second & preds & x & es & p & score & rs & C1 & C2 & C3 & C4 & C5 & C6 & C7 & C8 & C9 & -> & C10 & _).
    rewrite Hw in C2. injection C2 as <- <-. rewrite HU in C3. injection C3 as <-.
    apply check_ok in C1. destruct C1 as (Hy & Hn & _). fold n in Hn, Hy.
    destruct (second_covers (r_second r) (r_buffer r) U n k) as (s2 & E2 & R2 & S2); auto.
    rewrite E2 in C4. injection C4 as <-.
    destruct (base_weights_rect c W n RW) as (W0 & E0 & R0 & G0). rewrite E0 in C5.
    destruct (fit_bases_dense fit_est predict_est (r_base r) X y W0 s2 (patches cpu c) n preds (XDense x) es) as (qs & rows & HB & EX & HM); auto.
    injection EX as <-. destruct HB as (L1 & L2 & L3 & HB). destruct HM as (L4 & HM).
    exists es. split; [auto|]. split; [auto|].
    apply mapM_seq in C9. destruct C9 as [L5 C9]. split; [rewrite map_length; auto|].
    assert (EncU : ncols U = k) by (apply (rect_ncols U n k); auto). rewrite EncU in C9.
    split.
    - intros j e He. destruct (HB j e He) as (B1 & _).
      assert (Hj : (j < n)%nat) by (rewrite <- L3; apply nth_error_Some; congruence).
      unfold plain_base. rewrite <- B1.
      assert (EF : filter (fun k0 => negb (Reqb (mget 0 W j k0) 0) && negb (sc_leave_local_out c && (k0 =? j)%nat)) (seq 0 n) =
        filter (fun k0 => Rnonzero (mget 0 W0 j k0)) (seq 0 n)).
      { apply filter_ext_in. intros t Ht. apply in_seq in Ht. rewrite G0 by lia. unfold Rnonzero.
        destruct (sc_leave_local_out c && (t =? j)%nat).
        - rewrite (proj2 (Reqb_true 0 0) eq_refl). apply andb_false_r.
        - apply andb_true_r. }
      cbv zeta. rewrite EF. f_equal. apply map_ext_in. intros t Ht. apply filter_In in Ht. destruct Ht as [Ht1 Ht2]. apply in_seq in Ht1.
      rewrite G0 in * by lia. destruct (sc_leave_local_out c && (t =? j)%nat); auto.
      exfalso. unfold Rnonzero in Ht2. rewrite (proj2 (Reqb_true 0 0) eq_refl) in Ht2. discriminate.
    - intros i Hi. specialize (C9 i ([], StackingEstimator est meta (MLinear meta [] NaN) []) Hi).
      destruct (nth i rs _) as [pi sei] eqn:Er.
      assert (HT : rect (transpose 0 k U) k n) by (apply transpose_rect; auto).
      unfold predict_task in C9. rewrite (getitem_lt []) in C9 by (destruct HT; lia). cbn [bind] in C9.
      apply bind_ok in C9. destruct C9 as [mm [M1 C9]]. rewrite (getitem_lt []) in C9 by (fold k; lia). cbn [bind] in C9.
      apply bind_ok in C9. destruct C9 as [q [M2 C9]]. injection C9 as -> <-.
      apply predict_stacking_row in M2. destruct M2 as [p' [M2 ->]].
      rewrite (support_nonzero n k U i RU Hi) in M1.
      set (bases := select (map positive (nth i (transpose 0 k U) [])) es) in *.
      assert (HF : Forall2 (fun j e => nth_error es j = Some e) (support n U i) bases).
      { rewrite <- (support_nonzero n k U i RU Hi). apply select_nth_error.
        rewrite map_length, (rect_row _ k n i HT Hi). auto. }
      exists bases, p'. cbv zeta. split; [exact HF|]. split.
      { rewrite (nth_map_in _ _ _ ([], StackingEstimator est meta (MLinear meta [] NaN) [])) by lia. rewrite Er. reflexivity. }
      exists mm. split; [|exact M2]. rewrite <- M1.
      assert (ED : map (fun t => map (fun e => f e (nth t X [])) bases) (support n U i) =
                   map (fun t => map (fun j => mget 0 x j t) (support n U i)) (support n U i)).
      { apply map_ext_in. intros t Ht. apply support_in in Ht. destruct Ht as [Ht1 Ht2].
        assert (Gn : forall T bs, (forall j, In j T -> In j (support n U i)) -> Forall2 (fun j e => nth_error es j = Some e) T bs ->
          map (fun e => f e (nth t X [])) bs = map (fun j => mget 0 x j t) T).
        { intros T bs HI HF'. induction HF' as [|j e T bs He HF' IH]; [reflexivity|]. cbn [map]. f_equal; [|apply IH; intros; apply HI; right; auto].
          assert (Hj := HI j (or_introl eq_refl)). apply support_in in Hj. destruct Hj as [Hj1 Hj2].
          rewrite HM by auto. symmetry. destruct (HB j e He) as (_ & _ & B3). apply Hrow in B3.
          eapply lookup_row; [apply nonzero_NoDup| |exact B3].
          rewrite nonzero_filter, (rect_row s2 n n j R2 Hj1). apply filter_In. split; [apply in_seq; lia|].
          change (mget false s2 j t = true). apply S2; auto. exists i. auto. }
        apply Gn; auto. }
      rewrite ED. f_equal. unfold take. apply map_ext_in. intros t Ht. apply support_in in Ht. destruct Ht as [Ht1 Ht2].
      change (nth t (nth i (transpose 0 k U) []) 0) with (mget 0 (transpose 0 k U) i t).
      rewrite (transpose_get 0 U n k) by auto. reflexivity.
  Qed.

  Lemma bases_fun (es es' : list est) T bs bs' : es = es' ->
    Forall2 (fun j e => nth_error es j = Some e) T bs -> Forall2 (fun j e => nth_error es' j = Some e) T bs' -> bs = bs'.
  Proof.
    intros <- H. revert bs'. induction H; intros bs' H'; inversion H'; subst; [reflexivity|]. f_equal; [congruence|auto].
  Qed.

  (** A prediction does not depend on the rest of the batch. *)
  Theorem new_batch_independent r r' c fs fs' s0 s0' X y v Xp Xp' vp vp' W U U' fs1 fs1' fs2 fs2' s s' out out' i i' :
    let n := length X in
    wm fs v v = (fs1, Ok (SDense W)) -> wm fs1 v vp = (fs2, Ok (SDense U)) ->
    wm fs' v v = (fs1', Ok (SDense W)) -> wm fs1' v vp' = (fs2', Ok (SDense U')) ->
    rect W n n -> rect U n (length Xp) -> rect U' n (length Xp') ->
    schedule n (r_second r) -> length (r_buffer r) = n -> (forall k', patches cpu c = Some k' -> schedule k' (r_base r)) ->
    schedule n (r_second r') -> length (r_buffer r') = n -> (forall k', patches cpu c = Some k' -> schedule k' (r_base r')) ->
    spredict r c fs s0 X y v Xp vp = (s, fs2, Ok out) -> spredict r' c fs' s0' X y v Xp' vp' = (s', fs2', Ok out') ->
    (i < length Xp)%nat -> (i' < length Xp')%nat -> nth i Xp [] = nth i' Xp' [] ->
    (forall t, (t < n)%nat -> mget 0 U t i = mget 0 U' t i') ->
    nth i out [] = nth i' out' [].
  Proof.
    intros n A1 A2 A1' A2' RW RU RU' S1 S2 S3 S1' S2' S3' H H' Hi Hi' EX EU.
    destruct (new_predictions r c fs s0 X y v Xp vp W U fs1 fs2 s out) as (es & _ & L1 & _ & B1 & P1); auto; [lia|].
    destruct (new_predictions r' c fs' s0' X y v Xp' vp' W U' fs1' fs2' s' out') as (es' & _ & L1' & _ & B1' & P1'); auto; [lia|].
    fold n in L1, B1, P1, L1', B1', P1'.
    assert (Ees : es = es').
    { apply nth_error_ext. intros j. destruct (Nat.lt_ge_cases j n) as [Hj|Hj];
        [|rewrite !(proj2 (nth_error_None _ _)) by lia; reflexivity].
      destruct (nth_error es j) as [e|] eqn:E1; [|apply nth_error_None in E1; lia].
      destruct (nth_error es' j) as [e'|] eqn:E2; [|apply nth_error_None in E2; lia].
      apply B1 in E1. apply B1' in E2. unfold plain_base in *. congruence. }
    destruct (P1 i Hi) as (bs & p & F1 & E1 & m & M1 & M2). destruct (P1' i' Hi') as (bs' & p' & F1' & E1' & m' & M1' & M2').
    assert (ES : support n U i = support n U' i').
    { unfold support. apply filter_ext_in. intros t Ht. apply in_seq in Ht. rewrite EU by lia. reflexivity. }
    rewrite <- ES in *. pose proof (bases_fun es es' _ _ _ Ees F1 F1'). subst bs'.
    assert (Ew : map (fun t => mget 0 U t i) (support n U i) = map (fun t => mget 0 U' t i') (support n U i)).
    { apply map_ext_in. intros t Ht. apply support_in in Ht. apply EU. tauto. }
    rewrite Ew in M1. rewrite M1 in M1'. injection M1' as <-. rewrite <- EX in M2'. rewrite M2 in M2'. injection M2' as <-. congruence.
  Qed.
End Predict.

Section Failures.
  Context {est meta : Type}.
  Variable fit_est : nat -> matrix R -> list R -> list R -> result est.
  Variable predict_est : est -> matrix R -> result (list R).
  Variable fit_meta : R -> nat -> matrix R -> list R -> list R -> result meta.
  Variable predict_meta : meta -> matrix R -> result (list R).
  Variable cpu : nat.
  Variable wm : filesystem -> list coords -> list coords -> filesystem * result swts.
  Notation spredict := (spredict est fit_est predict_est meta fit_meta predict_meta cpu wm).

  Theorem predict_raises r c fs s0 X y v Xp vp :
    sc_use_numba c = true \/ (exists fs1 w cu, wm fs v v = (fs1, w) /\ snd (wm fs1 v vp) = Ok (SSparse cu)) \/
    (exists fs1 cw, wm fs v v = (fs1, Ok (SSparse cw))) ->
    raises (snd (spredict r c fs s0 X y v Xp vp)).
  Proof.
    intros H. destruct (spredict r c fs s0 X y v Xp vp) as [[s fs2] [out|e]] eqn:E; [|eexists; reflexivity]. exfalso.
    apply spredict_inv in E.
    destruct E as (fs1' & w & m & second & preds & x & es & p & score & rs & C1 & C2 & C3 & C4 & C5 & C6 & C7 & C8 & _).
    destruct H as [H|[(fs1 & w0 & cu & H1 & H2)|(fs1 & cw & H)]].
    - congruence.
    - rewrite C2 in H1. injection H1 as <- <-. rewrite C3 in H2. discriminate.
    - rewrite C2 in H. injection H as <- ->. unfold predict_second in C4. injection C4 as <-.
      unfold predict_base_weights, fit_bases in C5. destruct (patches cpu c); [|discriminate].
      destruct (sc_leave_local_out c); discriminate.
  Qed.

  (** predict_by_fit replaces the local estimators, but not stacking_predict_. *)
  Theorem predict_replaces r c fs s0 X y v Xp vp s fs2 out :
    spredict r c fs s0 X y v Xp vp = (s, fs2, Ok out) ->
    exists es ses, ss_base_list est meta s = Some es /\
      ss_local_list est meta s = Some (LStacking est meta ses) /\ length ses = length Xp /\ length out = length Xp /\
      ss_stacking_predict est meta s = ss_stacking_predict est meta s0 /\
      ss_llocv_stacking est meta s = ss_llocv_stacking est meta s0 /\
      ss_local_indices est meta s = ss_local_indices est meta s0 /\
      ss_cache_estimator est meta s = ss_cache_estimator est meta s0.
  Proof.
    intros H. assert (H' := H). apply spredict_inv in H'. destruct H' as
     (fs1' & w & m & second & preds & x & es & p & score & rs & C1 & C2 & C3 & C4 & C5 & C6 & C7 & C8 & C9 & -> & C10 & C11 & C12 & C13 & C14 & C15).
    apply mapM_seq in C9. destruct C9 as [L _].
    exists es, (map snd rs). rewrite !map_length. split; [exact C10|]. split; [exact C11|]. split; [exact L|]. split; [exact L|].
    unfold StackingPredict.spredict in H. rewrite C1 in H. rewrite C2 in H. rewrite C3 in H.
    destruct (bind _ _) as [[[preds' XT] es']|e]; [|discriminate].
    destruct (bind (one_each preds') _) as [[p' score']|e]; [|discriminate].
    destruct XT; [|discriminate]. destruct (sc_use_numba c); [discriminate|].
    destruct (mapM _ _); [|discriminate]. injection H as <- _. repeat split; reflexivity.
  Qed.

  (** No schedule changes the outcome. *)
  Theorem predict_any_schedule r r' c fs s0 X y v Xp vp W U fs1 fs2 :
    let n := length X in
    wm fs v v = (fs1, Ok (SDense W)) -> wm fs1 v vp = (fs2, Ok (SDense U)) ->
    schedule n (r_second r) -> length (r_buffer r) = n -> schedule n (r_second r') -> length (r_buffer r') = n ->
    (forall k', patches cpu c = Some k' -> schedule k' (r_base r)) -> (forall k', patches cpu c = Some k' -> schedule k' (r_base r')) ->
    forall s out, spredict r c fs s0 X y v Xp vp = (s, fs2, Ok out) -> spredict r' c fs s0 X y v Xp vp = (s, fs2, Ok out).
  Proof.
    intros n H1 H2 S1 B1 S2 B2 S3 S4 s out H. unfold StackingPredict.spredict in *.
    destruct (check_X_y X y) as [[]|]; [|discriminate]. rewrite H1, H2 in *.
    assert (E : predict_second (r_second r) (r_buffer r) (SDense U) = predict_second (r_second r') (r_buffer r') (SDense U)).
    { unfold predict_second, second_order_neighbour. rewrite !(second_order_dense_eq n) by auto. reflexivity. }
    rewrite <- E. destruct (predict_second _ _ _) as [second|e]; [|discriminate]. cbn [bind] in *.
    destruct (fit_bases est fit_est predict_est (r_base r) X y (predict_base_weights c (SDense W)) second (patches cpu c)) as [o|e] eqn:EB; [|discriminate].
    assert (EB' : fit_bases est fit_est predict_est (r_base r') X y (predict_base_weights c (SDense W)) second (patches cpu c) = Ok o).
    { destruct (patches cpu c) as [k|]; [|discriminate]. destruct k as [|k].
      - exfalso. unfold fit_bases, run_batches, array_split in EB. destruct (predict_base_weights c (SDense W)), second; discriminate.
      - revert EB. apply fit_bases_any; auto; lia. }
    rewrite EB'. exact H.
  Qed.
End Failures.
