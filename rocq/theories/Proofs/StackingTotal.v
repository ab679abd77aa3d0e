(** When a stacking fit succeeds. *)
From Coq Require Import Lra Sorting.Sorted.
From Verif.Model Require Import Base Ext Csr Neighbour Distance WeightModel NumbaImpl Stacking.
From Verif.Spec Require Import KernelSpec NeighbourSpec WeightModelSpec StackingSpec StackingTotalSpec.
From Verif.Proofs Require Import ListFacts KernelFacts CsrFacts ShrinkFacts NeighbourFacts SampleFacts WeightModelFacts
  NeighbourProps WeightModelProps StackingCsr StackingFacts StackingMeta StackingProps StackingClaims FitProps.
Open Scope nat_scope.
Open Scope R_scope.

Lemma Forall2_seq {B} (P : nat -> B -> Prop) (l : list B) : forall k,
  (forall i b, nth_error l i = Some b -> P (k + i)%nat b) -> Forall2 P (seq k (length l)) l.
Proof.
  induction l as [|x l IH]; intros k H; [constructor|]. cbn [length seq]. constructor.
  - specialize (H 0%nat x eq_refl). rewrite Nat.add_0_r in H. exact H.
  - apply IH. intros i b Hb. specialize (H (S i) b Hb). rewrite Nat.add_succ_r in H. exact H.
Qed.

Lemma nth_error_combine {A B} (l : list A) (l' : list B) i p : nth_error (combine l l') i = Some p ->
  nth_error l i = Some (fst p) /\ nth_error l' i = Some (snd p).
Proof.
  revert l' i. induction l as [|a l IH]; intros [|b l'] [|i] H; try discriminate.
  - injection H as <-. auto.
  - apply (IH l' i H).
Qed.

Lemma map_fst_combine {A B} (l : list A) (l' : list B) : length l = length l' -> map fst (combine l l') = l.
Proof. revert l'. induction l; intros [|b l'] H; try discriminate; [reflexivity|]. cbn. f_equal. apply IHl. simpl in H. lia. Qed.
Lemma map_snd_combine {A B} (l : list A) (l' : list B) : length l = length l' -> map snd (combine l l') = l'.
Proof. revert l'. induction l; intros [|b l'] H; try discriminate; [reflexivity|]. cbn. f_equal. apply IHl. simpl in H. lia. Qed.

Lemma nth_error_nth_eq {A} (l : list A) i x d : nth_error l i = Some x -> nth i l d = x /\ (i < length l)%nat.
Proof. intros H. split; [apply nth_error_nth; auto|]. apply nth_error_Some. congruence. Qed.

Lemma length_concat {A} (l : list (list A)) : length (concat l) = list_sum (map (@length A) l).
Proof. induction l as [|x l IH]; [reflexivity|]. cbn. rewrite app_length, IH. reflexivity. Qed.
Lemma form_ncols {A} (d : A) isz m n c : csr_form d isz m n c -> c_ncols c = n.
Proof. intros ->. reflexivity. Qed.
Lemma nth_firstn' {A} (d : A) l : forall n i, (i < n)%nat -> nth i (firstn n l) d = nth i l d.
Proof. induction l as [|x l IH]; intros [|n] [|i] H; try lia; cbn; auto. apply IH. lia. Qed.
Lemma Forall2_nth' {A B} (P : A -> B -> Prop) da db l l' : length l = length l' ->
  (forall i, (i < length l)%nat -> P (nth i l da) (nth i l' db)) -> Forall2 P l l'.
Proof.
  revert l'. induction l as [|a l IH]; intros [|b l'] HL H; try discriminate; constructor; [apply (H 0%nat); cbn; lia|].
  apply IH; [simpl in HL; lia|]. intros i Hi. apply (H (S i)). cbn. lia.
Qed.
Lemma mapM_total' {A B} (f : A -> result B) l : (forall x, In x l -> exists b, f x = Ok b) -> exists bs, mapM f l = Ok bs.
Proof.
  induction l as [|x l IH]; intros H; [exists []; reflexivity|]. destruct (H x (or_introl eq_refl)) as [b Hb].
  destruct IH as [bs Hbs]; [intros; apply H; right; auto|]. exists (b :: bs). cbn. rewrite Hb. cbn. rewrite Hbs. reflexivity.
Qed.

Section Total.
  Context {est meta : Type}.
  Variable fit_est : nat -> matrix R -> list R -> list R -> result est.
  Variable predict_est : est -> matrix R -> result (list R).
  Variable fit_meta : R -> nat -> matrix R -> list R -> list R -> result meta.
  Variable predict_meta : meta -> matrix R -> result (list R).
  Variable solve : matrix R -> list R -> result (list R).
  Context {G : Type}.
  Variable seed0 : G.
  Variable choice : G -> list nat -> nat -> G * list nat.
  Variable cpu : nat.
  Variable wm : filesystem -> list coords -> list coords -> filesystem * result swts.
  Notation sfit := (sfit est fit_est predict_est meta fit_meta predict_meta solve G seed0 choice cpu wm).
  Notation fit_bases := (fit_bases est fit_est predict_est).
  Notation base_result := (base_result fit_est predict_est).
  Notation ref_task := (ref_task fit_est predict_est).

  Lemma sfit_intro r c g fs s0 X y coords given w g1 Lm g2 locs w' second preds XT es p score g3 ps scores ses score' :
    let LT := transpose_mask Lm in
    let wl := zero_leave_out LT w in
    let ys := take 0 y locs in
    check_X_y X y = Ok tt -> real_weights wm fs coords given w ->
    leave_out_sample G seed0 choice r c g w = Ok (g1, Lm) ->
    sample_locations G choice g1 (sc_sample_local_rate c) (length X) = Ok (g2, locs) ->
    shrink_w (r_shrink r) (sc_meta_shrink c) w = (w', Ok tt) ->
    second_w (r_second r) (r_buffer r) (positive_w w') LT = Ok second ->
    fit_bases (r_base r) X y (if sc_leave_local_out c then clear_diag wl else wl) second (patches cpu c) = Ok (preds, XT, es) ->
    one_each preds = Ok p -> r2_score ys p = Ok score ->
    fit_metas est meta fit_meta predict_meta solve G choice r c g2 (length X) y w' (clear_mask_diag (positive_w w')) Lm XT es = Ok (g3, (ps, scores, ses)) ->
    r2_score ys ps = Ok score' ->
    so_result est meta G (sfit r c g fs s0 X y coords given) = Ok tt.
  Proof.
    intros LT wl ys H1 Hreal H2 H3 H4 H5 H6 H7 H8 H9 H10. unfold Stacking.sfit. rewrite H1.
    destruct Hreal as [->|(-> & v & -> & Hv)].
    - assert (E : forall (A : Type) (a b : A), (match coords with Some _ => a | None => a end) = a) by (intros; destruct coords; auto).
      destruct coords; rewrite H2, H3, H4; cbn [bind]; fold LT; rewrite H5; cbn [bind]; fold wl; rewrite H6; cbn [bind]; rewrite H7; cbn [bind];
        fold ys; rewrite H8; cbn [bind]; rewrite H9; cbn [bind fst snd]; rewrite H10; reflexivity.
    - destruct (wm fs v v) as [fs' w0]. cbn [snd] in Hv. subst w0.
      rewrite H2, H3, H4; cbn [bind]; fold LT; rewrite H5; cbn [bind]; fold wl; rewrite H6; cbn [bind]; rewrite H7; cbn [bind];
        fold ys; rewrite H8; cbn [bind]; rewrite H9; cbn [bind fst snd]; rewrite H10; reflexivity.
  Qed.

  (** ** Base stage *)
  Lemma base_batches_total X y n m idx order k (task : nat -> result ((list R * list R) * est)) preds qs es :
    (0 < k)%nat -> schedule k order -> (forall i, (i < n)%nat -> task i = ref_task X y n m idx i) ->
    base_result X y n m idx preds qs es ->
    run_batches order (seq 0 n) k task = Ok (combine preds qs, es).
  Proof.
    intros Hk HS Ht (L1 & L2 & L3 & H). apply run_batches_iff; auto.
    assert (Lc : length (combine preds qs) = n) by (rewrite combine_length; lia).
    exists (combine (combine preds qs) es). split; [|rewrite map_fst_combine, map_snd_combine by lia; auto].
    apply mapM_ok_iff. assert (Ln : length (combine (combine preds qs) es) = n) by (rewrite combine_length; lia).
    rewrite <- Ln at 1. apply Forall2_seq. intros i b Hb. cbn [Nat.add].
    apply nth_error_combine in Hb. destruct Hb as [Hb He]. apply nth_error_combine in Hb. destruct Hb as [Hp Hq].
    assert (Hi : (i < n)%nat) by (rewrite <- L3; apply nth_error_Some; congruence).
    destruct (H i (snd b) He) as (F1 & F2 & F3).
    rewrite (nth_error_nth _ _ [] Hp) in F2. rewrite (nth_error_nth _ _ [] Hq) in F3.
    rewrite Ht by auto. unfold StackingFacts.ref_task, Stacking.fit_base. rewrite F1. cbn [bind]. rewrite F2. cbn [bind]. rewrite F3. cbn [bind].
    destruct b as [[pp q] e]. reflexivity.
  Qed.

  Hypothesis Hone : one_per_row predict_est.

  Lemma base_lengths X y n m idx preds qs es j : base_result X y n m idx preds qs es -> (j < n)%nat -> length (nth j qs []) = length (idx j).
  Proof.
    intros (L1 & L2 & L3 & H) Hj. destruct (nth_error es j) as [e|] eqn:Ee; [|apply nth_error_None in Ee; lia].
    destruct (H j e Ee) as (_ & _ & H3). apply Hone in H3. rewrite H3, map_length. reflexivity.
  Qed.

  Lemma fit_bases_dense_total order X y m s k n preds qs es : length X = n -> length y = n -> rect m n n -> rect s n n ->
    (0 < k)%nat -> schedule k order ->
    base_result X y n m (fun i => nonzero (nth i s [])) preds qs es ->
    exists rows, fit_bases order X y (SDense m) (S2Dense s) (Some k) = Ok (preds, XDense rows, es).
  Proof.
    intros HX Hy Hm Hs Hk HS Hb. assert (Lm : length m = n) by apply Hm. assert (Ls : length s = n) by apply Hs.
    pose proof (base_batches_total X y n m (fun i => nonzero (nth i s [])) order k (base_task_dense est fit_est predict_est X y m s) preds qs es Hk HS
      (fun i Hi => base_task_dense_ref fit_est predict_est X y m s n i HX Hy Hm Hs Hi) Hb) as E.
    unfold Stacking.fit_bases. rewrite Lm, E. cbn [bind fst snd].
    pose proof Hb as (L1 & L2 & L3 & _).
    rewrite map_snd_combine, map_fst_combine by lia.
    assert (HM : exists rows, mapM (fun e => meta_row n (fst e) (snd e)) (combine s qs) = Ok rows).
    { apply mapM_total'. intros [a b] Hin. apply In_nth_error in Hin. destruct Hin as [j Hj]. apply nth_error_combine in Hj. cbn [fst snd] in *.
      destruct Hj as [Hj1 Hj2]. assert (Hj : (j < n)%nat) by (rewrite <- L2; apply nth_error_Some; congruence).
      pose proof (base_lengths _ _ _ _ _ _ _ _ j Hb Hj) as Hl. rewrite (nth_error_nth _ _ [] Hj2), (nth_error_nth _ _ [] Hj1), nonzero_length in Hl.
      unfold meta_row. rewrite Hl, Nat.eqb_refl. eexists; reflexivity. }
    destruct HM as [rows HM]. exists rows. rewrite HM. reflexivity.
  Qed.

  Lemma base_result_fun X y n m idx preds qs qs' es :
    base_result X y n m idx preds qs es -> base_result X y n m idx preds qs' es -> qs = qs'.
  Proof.
    intros (L1 & L2 & L3 & H) (_ & L2' & _ & H'). apply (list_eq_nth []); [lia|]. intros j Hj.
    destruct (nth_error es j) as [e|] eqn:Ee; [|apply nth_error_None in Ee; lia].
    destruct (H j e Ee) as (_ & _ & E1). destruct (H' j e Ee) as (_ & _ & E2). congruence.
  Qed.

  Lemma fit_bases_dense_full order X y m s k n preds qs es : length X = n -> length y = n -> rect m n n -> rect s n n ->
    (0 < k)%nat -> schedule k order ->
    base_result X y n m (fun i => nonzero (nth i s [])) preds qs es ->
    exists rows, fit_bases order X y (SDense m) (S2Dense s) (Some k) = Ok (preds, XDense rows, es) /\
      meta_ok (XDense rows) n (fun i => nonzero (nth i s [])) qs.
  Proof.
    intros HX Hy Hm Hs Hk HS Hb. destruct (fit_bases_dense_total order X y m s k n preds qs es HX Hy Hm Hs Hk HS Hb) as [rows E].
    exists rows. split; [exact E|].
    destruct (fit_bases_dense fit_est predict_est order X y m s (Some k) n preds (XDense rows) es HX Hy Hm Hs) as (qs' & rows' & Hb' & E' & Hm'); auto.
    { intros k' Hk'. injection Hk' as <-. exact HS. }
    rewrite (base_result_fun _ _ _ _ _ _ _ _ _ Hb Hb'). exact Hm'.
  Qed.

  Lemma fit_bases_sparse_full order X y m c (s : csr nat) k n idx preds qs es : length X = n -> length y = n -> rect m n n -> csr_form 0 zeroR m n c ->
    (forall i, (i < n)%nat -> row_indices s i = idx i) -> (forall i k', In k' (idx i) -> (k' < n)%nat) ->
    c_indptr s = indptr_from 0 (map idx (seq 0 n)) -> c_indices s = concat (map idx (seq 0 n)) -> c_indices s <> [] ->
    (0 < k)%nat -> schedule k order ->
    base_result X y n m idx preds qs es ->
    exists cx, fit_bases order X y (SSparse c) (S2Sparse s) (Some k) = Ok (preds, XSparse cx, es) /\
      meta_ok (XSparse cx) n idx qs /\ c_ncols cx = S (list_max (concat (map idx (seq 0 n)))).
  Proof.
    intros HX Hy Hm F Hs Hlt Hptr Hind Hne Hk HS Hb.
    assert (Hns : c_nrows s = n).
    { unfold c_nrows. rewrite Hptr, indptr_from_length, map_length, seq_length. lia. }
    pose proof (form_nrows _ _ _ _ _ F) as Hc.
    pose proof (base_batches_total X y n m idx order k (base_task_sparse est fit_est predict_est X y c s) preds qs es Hk HS) as E.
    assert (E1 : exists cx, fit_bases order X y (SSparse c) (S2Sparse s) (Some k) = Ok (preds, XSparse cx, es)).
    { unfold Stacking.fit_bases. rewrite Hc, (proj1 Hm), E; auto;
        [|intros i Hi; apply base_task_sparse_ref; auto; intros; eapply Hlt; eauto].
      cbn [bind fst snd]. pose proof Hb as (L1 & L2 & L3 & _). rewrite map_snd_combine, map_fst_combine by lia.
      assert (El : length (concat qs) = length (c_indices s)).
      { rewrite Hind, !length_concat. f_equal. apply (list_eq_nth 0%nat); [rewrite !map_length, seq_length; auto|].
        intros j Hj. rewrite map_length in Hj. rewrite map_map. rewrite (nth_map_in (@length R) _ _ []) by lia.
        rewrite (nth_map_in _ _ _ 0%nat) by (rewrite seq_length; lia). rewrite seq_nth by lia. cbn [Nat.add].
        apply (base_lengths _ _ _ _ _ _ _ _ _ Hb). lia. }
      rewrite El, Nat.eqb_refl. cbn [negb]. unfold csr_infer. destruct (c_indices s) as [|a l]; [congruence|]. eexists. reflexivity. }
    destruct E1 as [cx E1]. exists cx. split; [exact E1|].
    destruct (fit_bases_sparse fit_est predict_est Hone order X y m c s (Some k) n idx preds (XSparse cx) es HX Hy Hm F Hs Hlt Hptr) as (qs' & cx' & Hb' & E2 & Hm' & Hnc); auto.
    { intros k' Hk'. injection Hk' as <-. exact HS. }
    injection E2 as <-. rewrite (base_result_fun _ _ _ _ _ _ _ _ _ Hb Hb'). rewrite Hind in Hnc. auto.
  Qed.

  (** ** Meta stage *)
  Lemma meta_loop_total {A} (task : G -> nat -> result (G * A)) is ras : Forall2 (fun i a => forall g, exists g', task g i = Ok (g', a)) is ras ->
    forall g, exists g', meta_loop G task g is = Ok (g', ras).
  Proof.
    induction 1 as [|i a is ras H HF IH]; intros g; [exists g; reflexivity|].
    destruct (H g) as [g1 E1]. destruct (IH g1) as [g2 E2]. exists g2. cbn [meta_loop]. rewrite E1. cbn [bind fst snd]. rewrite E2. reflexivity.
  Qed.

  Lemma one_each_single ps : one_each (map (fun x => [x]) ps) = Ok ps.
  Proof. unfold one_each. induction ps as [|x ps IH]; [reflexivity|]. cbn [map mapM bind]. rewrite IH. reflexivity. Qed.

  Hypothesis Hchoice : valid_choice choice.

  Lemma sample_estimators_total g rate n i sample : (i < length sample)%nat -> nth i sample false = true ->
    (forall r, rate = Some r -> -1 < r <= 1) -> exists g' sample', sample_estimators G choice g rate n i sample = Ok (g', sample').
  Proof.
    intros Hi Hb Hr. unfold sample_estimators. destruct rate as [r|]; [|eauto]. specialize (Hr r eq_refl).
    rewrite (getitem_lt false) by auto. rewrite Hb. cbn [bind]. change (nonzero [true]) with [0%nat]. cbn [length]. change (INR 1) with 1. rewrite Rmult_1_l.
    assert (H1 : (Rceil r <= 1)%Z) by (apply SortFacts.Rceil_le; lra).
    assert (H2 : (-1 < Rceil r)%Z) by (apply SortFacts.Rceil_ge; lra).
    unfold draw. cbn [length]. replace ((Rceil r <? 0)%Z || (Z.of_nat 1 <? Rceil r)%Z) with false; [cbn [bind]; eauto|].
    symmetry. apply orb_false_intro; apply Z.ltb_ge; lia.
  Qed.

  Lemma sample_estimators_rate g r n i sample g' sample' : (i < length sample)%nat -> nth i sample false = true ->
    sample_estimators G choice g (Some r) n i sample = Ok (g', sample') -> -1 < r <= 1.
  Proof.
    intros Hi Hb H. unfold sample_estimators in H.
    rewrite (getitem_lt false) in H by auto. rewrite Hb in H. cbn [bind] in H. change (nonzero [true]) with [0%nat] in H. cbn [length] in H.
    change (INR 1) with 1 in H. rewrite Rmult_1_l in H. unfold draw in H. cbn [length] in H.
    destruct ((Rceil r <? 0)%Z || (Z.of_nat 1 <? Rceil r)%Z) eqn:E; [discriminate|]. apply orb_false_elim in E. destruct E as [E1 E2].
    apply Z.ltb_ge in E1, E2. pose proof (SortFacts.Rceil_spec r) as [S1 S2].
    apply IZR_le in E1, E2. cbn in E1, E2. lra.
  Qed.

  Lemma Forall2_nth_fun (es : list est) l a b : Forall2 (fun j e => nth_error es j = Some e) l a -> Forall2 (fun j e => nth_error es j = Some e) l b -> a = b.
  Proof. apply Forall2_fun. intros; congruence. Qed.

  Lemma meta_dense_total c m W' L rows (es : list est) n qs y g i p mm bases :
    rect W' n n -> rect L n n -> mget false L i i = true -> length es = n -> length y = n -> (i < n)%nat ->
    (forall r, sc_estimator_rate c = Some r -> -1 < r <= 1) ->
    meta_ok (XDense rows) n (evaluated n W' L) qs ->
    let C := used_bases c (SDense m) n L i in
    let T := meta_points n W' i in
    let entry j k := lookup (evaluated n W' L j) (nth j qs []) k in
    Forall2 (fun j e => nth_error es j = Some e) C bases ->
    fit_meta (sc_alpha c) (length C) (map (fun k => map (fun j => entry j k) C) T) (map (fun k => nth k y 0) T) (map (mget 0 W' i) T) = Ok mm ->
    predict_meta mm [map (fun j => entry j i) C] = Ok p ->
    exists g', meta_task_dense est meta fit_meta predict_meta G choice (sc_alpha c) (sc_estimator_rate c) y W' (candidates W') L rows es g i
      = Ok (g', (p, StackingEstimator est meta (MFitted meta mm) bases)).
  Proof.
    intros HW HL Hd He Hy Hi Hr [Hrr Hm] C T entry HB H2 H3. unfold meta_task_dense. rewrite Hrr.
    destruct (sample_estimators_total g (sc_estimator_rate c) n i (nth i L [])) as (g1 & sample & H1); auto.
    { rewrite (rect_row L n n i HL Hi). auto. }
    assert (Hn : (0 < n)%nat) by lia.
    destruct (sample_estimators_ok choice Hchoice _ _ _ _ _ _ _ c Hn Hd (rect_row L n n i HL Hi) eq_refl Hi H1) as (Ls & Es & _).
    rewrite H1. cbn [bind fst snd]. rewrite (meta_points_nonzero W' n i HW Hi).
    assert (EC : nonzero sample = C).
    { rewrite Es. unfold C, used_bases. destruct (sc_estimator_rate c); auto. rewrite (nonzero_row L n) by auto. reflexivity. }
    assert (HC : forall j, In j C -> (j < n)%nat).
    { intros j Hj. rewrite <- EC in Hj. apply in_nonzero_lt in Hj. lia. }
    rewrite EC. fold T.
    assert (E1 : map (fun k => map (fun j => mget 0 rows j k) C) T = map (fun k => map (fun j => entry j k) C) T).
    { apply map_ext. intros k. apply map_ext_in. intros j Hj. apply Hm. auto. }
    assert (E2 : map (fun j => mget 0 rows j i) C = map (fun j => entry j i) C).
    { apply map_ext_in. intros j Hj. apply Hm. auto. }
    rewrite E1, E2. change (take 0 y T) with (map (fun k => nth k y 0) T). change (take 0 (nth i W' []) T) with (map (mget 0 W' i) T).
    rewrite H2. cbn [bind]. rewrite H3. cbn [bind]. exists g1. do 4 f_equal.
    apply (Forall2_nth_fun es C); auto. rewrite <- EC. apply select_nth_error. lia.
  Qed.

  Lemma csr_take_total c i idx : (i < c_nrows c)%nat -> (forall j, In j idx -> (j < c_ncols c)%nat) -> csr_take c i idx = Ok (map (csr_get c i) idx).
  Proof.
    intros Hi Hj. unfold csr_take. replace (c_nrows c <=? i)%nat with false by (symmetry; apply Nat.leb_gt; auto). cbn [orb].
    replace (forallb (fun j => (j <? c_ncols c)%nat) idx) with true; [reflexivity|]. symmetry. apply forallb_forall. intros j H. apply Nat.ltb_lt. auto.
  Qed.

  Lemma take_checked_total {A} (l : list A) idx v : Forall2 (fun j e => nth_error l j = Some e) idx v -> take_checked l idx = Ok v.
  Proof.
    intros H. apply mapM_ok_iff. induction H; constructor; auto. apply getitem_ok. auto.
  Qed.

  Lemma meta_sparse_total c m W' cW' L cL cn cx (es : list est) n qs y g i p mm bases :
    rect W' n n -> csr_form 0 zeroR W' n cW' -> rect L n n -> csr_mask L n cL -> csr_mask (candidates W') n cn ->
    length es = n -> length y = n -> (i < n)%nat ->
    meta_ok (XSparse cx) n (evaluated n W' L) qs -> (n <= c_ncols cx)%nat ->
    (forall j, (j < n)%nat -> length (nth j qs []) = length (evaluated n W' L j)) ->
    let C := used_bases c (SSparse m) n L i in
    let T := meta_points n W' i in
    let entry j k := lookup (evaluated n W' L j) (nth j qs []) k in
    Forall2 (fun j e => nth_error es j = Some e) C bases ->
    fit_meta (sc_alpha c) (length C) (map (fun k => map (fun j => entry j k) C) T) (map (fun k => nth k y 0) T) (map (mget 0 W' i) T) = Ok mm ->
    predict_meta mm [map (fun j => entry j i) C] = Ok p ->
    meta_task_sparse est meta fit_meta predict_meta G (sc_alpha c) y cW' cn cL cx es g i = Ok (g, (p, StackingEstimator est meta (MFitted meta mm) bases)).
  Proof.
    intros HW FW HL FL Fn He Hy Hi Hm Hnc Hq C T entry HB H2 H3. unfold meta_task_sparse.
    rewrite (points_row_indices W' n cn i) by auto. fold T.
    assert (EC : C = meta_bases n L i) by (unfold C, used_bases; destruct (sc_estimator_rate c); auto).
    assert (El : row_indices cL i = C) by (rewrite EC; apply mask_row_indices; auto).
    rewrite El. pose proof Hm as [Hcx Hm'].
    assert (HC : forall j, In j C -> (j < n)%nat) by (intros j Hj; rewrite EC in Hj; apply meta_bases_in in Hj; tauto).
    assert (HT : forall k, In k T -> (k < n)%nat) by (intros k Hk; apply meta_points_in in Hk; tauto).
    rewrite (mapM_all_ok _ (fun j => map (fun k => entry j k) T)).
    2:{ intros j Hj. rewrite csr_take_total by (rewrite ?Hcx; auto; intros k Hk; specialize (HT k Hk); lia). f_equal. apply map_ext. intros k.
        rewrite csr_get_lookup. destruct (Hm' j (HC j Hj)) as [-> ->]. reflexivity. }
    cbn [bind]. rewrite (take_checked_ok 0) by (rewrite Hy; auto). cbn [bind].
    rewrite csr_take_total.
    2:{ rewrite (form_nrows _ _ _ _ _ FW). destruct HW; lia. }
    2:{ rewrite (form_ncols _ _ _ _ _ FW). auto. }
    cbn [bind]. rewrite transpose_map. change (take 0 y T) with (map (fun k => nth k y 0) T).
    replace (map (csr_get cW' i) T) with (map (mget 0 W' i) T) by (apply map_ext; intros k; symmetry; apply (form_get W' n); auto).
    rewrite H2. cbn [bind].
    assert (Et : c_nrows (csr_transpose cx) = c_ncols cx) by (unfold csr_transpose; rewrite c_nrows_of_rows, tabulate_length; reflexivity).
    assert (Et' : c_ncols (csr_transpose cx) = c_nrows cx) by reflexivity.
    rewrite csr_take_total; [|rewrite Et; lia|rewrite Et', Hcx; auto]. cbn [bind].
    replace (map (csr_get (csr_transpose cx) i) C) with (map (fun j => entry j i) C).
    2:{ apply map_ext_in. intros j Hj. symmetry. apply (csr_get_transpose cx n (evaluated n W' L)); auto; [lia|]. intros; apply evaluated_NoDup. }
    rewrite H3. cbn [bind]. rewrite (take_checked_total es C bases) by auto. reflexivity.
  Qed.

  Lemma meta_numba_total c m garbage W' cW' L cL cn cx n qs y i coef b :
    rect W' n n -> csr_form 0 zeroR W' n cW' -> rect L n n -> csr_mask L n cL -> csr_mask (candidates W') n cn ->
    (forall k, (k < n)%nat -> 0 <= mget 0 W' i k) -> length y = n -> (i < n)%nat ->
    meta_ok (XSparse cx) n (evaluated n W' L) qs ->
    (forall j, (j < n)%nat -> length (nth j qs []) = length (evaluated n W' L j)) ->
    let C := used_bases c (SSparse m) n L i in
    let T := meta_points n W' i in
    let entry j k := lookup (evaluated n W' L j) (nth j qs []) k in
    let input j := if existsb (Nat.eqb i) (evaluated n W' L j) then entry j i else last (nth j qs []) garbage in
    ridge_cholesky solve (length C) (map (fun k => map (fun j => entry j k) C) T) (map (fun k => nth k y 0) T)
       (sc_alpha c) (map (mget 0 W' i) T) = Ok (coef, Fin b) ->
    row_indices cL i = C /\
    exists score, meta_task_numba solve (sc_alpha c) garbage y cW' cn cL cx i = Ok (coef, Fin b, Fin (dot (map input C) coef + b), score).
  Proof.
    intros HW FW HL FL Fn Hpos Hy Hi Hm Hq C T entry input H. unfold meta_task_numba.
    rewrite (points_row_indices W' n cn i) by auto.
    assert (EC : C = meta_bases n L i) by (unfold C, used_bases; destruct (sc_estimator_rate c); auto).
    assert (El : row_indices cL i = C) by (rewrite EC; apply mask_row_indices; auto).
    split; [exact El|]. rewrite El. fold T.
    assert (HC : forall j, In j C -> (j < n)%nat) by (intros j Hj; rewrite EC in Hj; apply meta_bases_in in Hj; tauto).
    assert (ET : filter (fun k => negb (k =? i)%nat) T = T).
    { apply filter_all. intros k Hk. apply meta_points_in in Hk. apply negb_true_iff, Nat.eqb_neq. tauto. }
    rewrite ET.
    assert (HT : StronglySorted lt T) by (apply filter_sorted, seq_sorted).
    destruct Hm as [Hcx Hm].
    assert (EX : map (fun j => fill_left (length T) (map snd (filter (fun e => existsb (Nat.eqb (fst e)) T) (combine (row_indices cx j) (row_data cx j))))) C =
                 map (fun j => map (fun k => entry j k) T) C).
    { apply map_ext_in. intros j Hj. destruct (Hm j (HC j Hj)) as [-> ->]. apply numba_row; auto.
      - apply evaluated_sorted.
      - intros k Hk. apply (meta_points_evaluated n W' L i j k); auto. rewrite <- EC. auto. }
    rewrite EX, transpose_map.
    assert (EW : map snd (filter (fun e => negb (fst e =? i)%nat) (combine (row_indices cW' i) (row_data cW' i))) = map (mget 0 W' i) T).
    { rewrite (form_row_data _ _ _ _ _ i FW) by (destruct HW; lia).
      rewrite (form_row_indices _ _ _ _ _ i FW) by (destruct HW; lia).
      rewrite <- (map_id (filter _ (seq 0 n))) at 1.
      rewrite (combine_map_map (fun k => k) (fun j => nth j (nth i W' []) 0)), filter_map_comm, map_map, filter_filter. cbn [fst snd].
      unfold T, meta_points. rewrite (filter_ext_in (fun k => Rltb 0 (mget 0 W' i k) && negb (k =? i)%nat)
         (fun x => negb (zeroR (nth x (nth i W' []) 0)) && negb (x =? i)%nat)); [reflexivity|].
      intros k Hk. apply in_seq in Hk. f_equal. specialize (Hpos k ltac:(lia)). unfold mget in *. unfold zeroR.
      destruct (Req_EM_T (nth k (nth i W' []) 0) 0) as [E|E].
      - rewrite E. rewrite (proj2 (Reqb_true 0 0)) by auto. apply Rltb_false. lra.
      - rewrite (proj2 (Reqb_false _ _)) by auto. apply Rltb_true. lra. }
    rewrite EW.
    assert (Ex : map (fun j => nth (break_index i (row_indices cx j)) (row_data cx j) garbage) C = map input C).
    { apply map_ext_in. intros j Hj. destruct (Hm j (HC j Hj)) as [-> ->]. apply break_lookup; auto. }
    rewrite Ex. change (take 0 y T) with (map (fun k => nth k y 0) T). rewrite H. cbn [bind eadd]. eexists. reflexivity.
  Qed.

  Lemma second_sparse order (buf : matrix bool) W' L cw' cL n : rect W' n n -> rect L n n -> csr_form 0 zeroR W' n cw' -> csr_mask L n cL -> (0 < n)%nat ->
    schedule n order -> length buf = n ->
    let rows := map (evaluated n W' L) (seq 0 n) in
    second_order_neighbour_csr order (csr_where positive cw') (csr_transpose cL) =
    csr_infer (map (fun _ => 1%nat) (concat rows)) (concat rows) (indptr_from 0 rows).
  Proof.
    intros HW HL FW FL Hn HS Hb rows.
    assert (FT : csr_mask (transpose false n L) n (csr_transpose cL)) by (apply csr_transpose_form; auto).
    assert (HT : rect (transpose false n L) n n) by (apply transpose_rect; auto).
    assert (HP : rect (mmap positive W') n n) by (apply rect_mmap; auto).
    assert (FP : csr_mask (mmap positive W') n (csr_where positive cw')) by (apply (csr_where_form W' n); auto).
    pose proof (second_order_sparse_eq false false negb negb n (mmap positive W') (transpose false n L) (csr_where positive cw') (csr_transpose cL)
          order buf HP HT FP FT HS Hb) as Esp.
    rewrite !negb_negb_mmap in Esp.
    destruct (second_order_spec n order buf (mmap positive W') (transpose false n L) HP HT HS Hb) as [HR2 _].
    assert (Em : map nonzero (second_order_dense order buf (mmap positive W') (transpose false n L)) = rows).
    { apply (list_eq_nth []); [unfold rows; rewrite !map_length, seq_length; apply HR2|]. intros j Hj. rewrite map_length in Hj.
      assert (j < n)%nat by (destruct HR2; lia). unfold rows.
      rewrite (nth_map_in _ _ _ []) by auto. rewrite (nth_map_in _ _ _ 0%nat) by (rewrite seq_length; auto). rewrite seq_nth by auto. apply second_eq; auto. }
    rewrite Em in Esp. unfold second_order_neighbour_csr. rewrite Esp.
    assert (Hl : length rows = n) by (unfold rows; rewrite map_length, seq_length; auto).
    destruct rows; [simpl in Hl; lia|reflexivity].
  Qed.

  Lemma in_evaluated_all n W' L k : (forall i, (i < n)%nat -> mget false L i i = true) -> (k < n)%nat ->
    In k (concat (map (evaluated n W' L) (seq 0 n))) <-> exists i, (i < n)%nat /\ 0 < mget 0 W' i k.
  Proof.
    intros Hd Hk. rewrite in_concat. split.
    - intros (row & Hrow & Hin). apply in_map_iff in Hrow. destruct Hrow as (j & <- & Hj). apply filter_In in Hin. destruct Hin as [_ Hin].
      apply existsb_exists in Hin. destruct Hin as (i & Hi & Hb). apply in_seq in Hi. apply andb_prop in Hb. destruct Hb as [_ Hb].
      apply Rltb_true in Hb. exists i. split; [lia|auto].
    - intros (i & Hi & Hp). exists (evaluated n W' L i). split; [apply in_map, in_seq; lia|]. apply (evaluated_in n W' L i); auto.
  Qed.
  Lemma evaluated_all_lt n W' L k : In k (concat (map (evaluated n W' L) (seq 0 n))) -> (k < n)%nat.
  Proof. rewrite in_concat. intros (row & Hrow & Hin). apply in_map_iff in Hrow. destruct Hrow as (j & <- & Hj). eapply evaluated_lt; eauto. Qed.

  Lemma list_max_in l : l <> [] -> In (list_max l) l.
  Proof.
    induction l as [|a l IH]; [congruence|]. intros _. cbn [list_max fold_right]. change (fold_right Nat.max 0%nat l) with (list_max l).
    destruct l as [|b l]; [left; cbn; lia|]. destruct (Nat.max_spec a (list_max (b :: l))) as [[_ ->]|[_ ->]]; [right; apply IH; discriminate|left; auto].
  Qed.
  Lemma list_max_le' l k : In k l -> (k <= list_max l)%nat.
  Proof. intros H. pose proof (proj1 (list_max_le l (list_max l)) (le_n _)) as F. rewrite Forall_forall in F. auto. Qed.

  Lemma r2_total y p : length y = length p -> y <> [] -> exists s, r2_score y p = Ok s.
  Proof. intros H Hn. unfold r2_score. rewrite H, Nat.eqb_refl. cbn [negb]. destruct y as [|a [|b y]]; [congruence|eauto|eauto]. Qed.
  Lemma r2_length y p s : r2_score y p = Ok s -> length y = length p.
  Proof. unfold r2_score. destruct (Nat.eqb_spec (length y) (length p)); [auto|discriminate]. Qed.

  Lemma locations_total g rate n : (forall q, rate = Some q -> trunc (q * INR n) = Z.of_nat n) ->
    exists g' locs, sample_locations G choice g rate n = Ok (g', locs) /\ length locs = n.
  Proof.
    intros H. unfold sample_locations. destruct rate as [q|]; [|exists g, (seq 0 n); rewrite seq_length; auto].
    rewrite (H q eq_refl). unfold draw. rewrite seq_length.
    replace ((Z.of_nat n <? 0)%Z || (Z.of_nat n <? Z.of_nat n)%Z) with false by (symmetry; apply orb_false_intro; apply Z.ltb_ge; lia).
    rewrite Nat2Z.id. cbn [bind]. do 2 eexists. split; [reflexivity|].
    destruct (Hchoice g (seq 0 n) n) as [HL _]; [rewrite seq_length; auto|]. rewrite <- (Permutation_length (sort_nat_perm _)). exact HL.
  Qed.
  Lemma locations_length g q n g' locs : sample_locations G choice g (Some q) n = Ok (g', locs) -> Z.of_nat (length locs) = trunc (q * INR n).
  Proof.
    unfold sample_locations. intros H. apply bind_ok in H. destruct H as [[g1 l] [H1 H]]. injection H as <- <-. cbn [fst snd].
    unfold draw in H1. rewrite seq_length in H1.
    destruct ((trunc (q * INR n) <? 0)%Z || (Z.of_nat n <? trunc (q * INR n))%Z) eqn:E; [discriminate|]. apply orb_false_elim in E. destruct E as [E1 E2].
    apply Z.ltb_ge in E1, E2. injection H1 as H1.
    destruct (Hchoice g (seq 0 n) (Z.to_nat (trunc (q * INR n)))) as [HL _]; [rewrite seq_length; lia|]. rewrite H1 in HL. cbn [snd] in HL.
    rewrite <- (Permutation_length (sort_nat_perm _)). lia.
  Qed.

  Lemma leave_out_total r c g w W n q : valid_rates c -> holds_real w W n -> (0 < n)%nat -> schedule n (r_sample r) ->
    sc_leave_out_rate c = Some q -> exists g1 Lm, leave_out_sample G seed0 choice r c g w = Ok (g1, Lm).
  Proof.
    intros (Hr1 & Hr2 & _) [HW Hw] Hn HS Eq. unfold leave_out_sample. rewrite Eq.
    destruct Hw as [->|[cw [-> F]]].
    - destruct (candidate_exists (sc_leave_out_shrink c) W) as [Ws HWs]; [auto|].
      destruct (sample_neighbour_sound G seed0 choice (r_sample r) g W Ws q (sc_leave_out_shrink c) n) as (g' & L' & E & _); auto.
      rewrite E. cbn [bind]. eauto.
    - destruct (sample_sparse_agrees G seed0 choice (r_sample r) g W cw q (sc_leave_out_shrink c) n) as (g' & L & cL & H1 & H2 & H3); auto.
      rewrite H2. cbn [bind]. eauto.
  Qed.

  Lemma shrink_total order rate w W n : (forall q, rate = Some q -> 0 <= q <= 1) -> holds_real w W n -> schedule n order ->
    exists w', shrink_w order rate w = (w', Ok tt).
  Proof.
    intros Hq [HW Hw] HS. assert (HL : length W = n) by apply HW. unfold shrink_w. destruct rate as [q|]; [|eauto].
    specialize (Hq q eq_refl). destruct Hw as [->|[cw [-> F]]].
    - rewrite neighbour_shrink_ok by (auto; congruence). eauto.
    - destruct (shrink_csr_form q order W n n cw Hq HW F HS) as [c' [E1 E2]]. unfold neighbour_shrink_csr. rewrite E1. eauto.
  Qed.

  Lemma batches_iff c : has_batches cpu c <-> exists k, patches cpu c = Some k /\ (0 < k)%nat.
  Proof.
    unfold has_batches, patches. destruct (sc_n_jobs c), (sc_n_patches c); split; try tauto; try (intros H; eexists; split; [reflexivity|exact H]);
    intros (k & E & H); try discriminate; injection E as <-; auto.
  Qed.

  Lemma stacked_base_result garbage c w X y n W L W' es ps0 qs ps ses : rect W n n -> rect L n n ->
    stacked fit_est predict_est fit_meta predict_meta solve garbage c w X y n W L W' es ps0 qs ps ses ->
    base_result X y n (zeroed (transpose false n L) W) (evaluated n W' L) (map (fun x => [x]) ps0) (firstn n (qs ++ repeat [] n)) es /\
    forall j, nth j (firstn n (qs ++ repeat [] n)) [] = if (j <? n)%nat then nth j qs [] else [].
  Proof.
    intros HW HL [Hnum Hb Hm]. destruct Hnum as (L1 & L2 & L3 & L4).
    assert (Hn : forall j, nth j (firstn n (qs ++ repeat [] n)) [] = if (j <? n)%nat then nth j qs [] else []).
    { intros j. destruct (Nat.ltb_spec j n) as [Hj|Hj].
      - rewrite nth_firstn' by auto. destruct (Nat.lt_ge_cases j (length qs)); [rewrite app_nth1 by auto; reflexivity|].
        rewrite app_nth2 by auto. rewrite (nth_overflow qs) by auto. apply nth_repeat.
      - apply nth_overflow. rewrite firstn_length. lia. }
    split; [|exact Hn].
    split; [rewrite map_length; auto|]. split; [rewrite firstn_length, app_length, repeat_length; lia|]. split; [auto|].
    intros j e He. assert (Hj : (j < n)%nat) by (rewrite <- L1; apply nth_error_Some; congruence).
    destruct (Hb j e He) as (B1 & B2 & B3). destruct (training_eq n W L j HW HL Hj) as [T1 T2]. cbv zeta. rewrite T1, T2.
    split; [exact B1|]. split; [rewrite (nth_map_in _ _ _ 0) by lia; exact B2|].
    rewrite Hn. destruct (Nat.ltb_spec j n); [exact B3|lia].
  Qed.

  Theorem sfit_total r c g fs s0 X y coords given w W :
    let n := length X in
    valid_runtime r n (patches cpu c) -> valid_rates c ->
    real_weights wm fs coords given w -> holds_real w W n ->
    (sc_use_numba c = true -> forall i k, (i < n)%nat -> (k < n)%nat -> 0 <= mget 0 W i k) ->
    valid_data X y -> keeps_all c n -> has_batches cpu c ->
    (exists L W' es ps0 qs ps ses,
      leave_outs seed0 choice c W L /\ shrunk_weights (sc_meta_shrink c) W W' /\ storable c w n W' /\
      stacked fit_est predict_est fit_meta predict_meta solve (r_garbage r) c w X y n W L W' es ps0 qs ps ses) ->
    so_result est meta G (sfit r c g fs s0 X y coords given) = Ok tt.
  Proof.
    intros n (HS1 & HS2 & HS3 & Hbuf & HS4) Hrates Hreal Hw Hpos Hdata Hkeep Hbat (L & W' & es & ps0 & qs & ps & ses & HLo & HW' & Hsto & Hst).
    pose proof Hdata as Hdata'. apply (proj2 (check_iff X y)) in Hdata. pose proof (check_ok X y Hdata) as (Ly & Hn & _ & _). fold n in Ly, Hn.
    apply batches_iff in Hbat. destruct Hbat as (k & Hk & Hk0). specialize (HS4 k Hk).
    pose proof HLo as (q & _ & _ & _ & Hq & _).
    destruct (leave_out_total r c g w W n q Hrates Hw Hn HS1 Hq) as (g1 & Lm & E1).
    destruct (leave_out_stage seed0 choice Hchoice r c g w W n g1 Lm Hrates Hw Hn HS1 E1) as (L0 & HLo0 & HLd & HLs).
    pose proof (leave_outs_unique _ _ _ _ _ _ HLo HLo0). subst L0.
    pose proof (clear_diag_stage seed0 choice Hchoice r c g w W n g1 Lm Hrates Hw Hn HS1 E1) as Ecl.
    assert (Hr3 : forall q, sc_meta_shrink c = Some q -> 0 <= q <= 1) by apply Hrates.
    destruct (shrink_total (r_shrink r) (sc_meta_shrink c) w W n Hr3 Hw HS2) as (w' & E3).
    destruct (shrink_stage (r_shrink r) (sc_meta_shrink c) w W n w' Hr3 Hw HS2 E3) as (W0 & HW0 & HW'2 & Hwd & Hws).
    pose proof (shrunk_unique _ _ _ _ HW' HW0). subst W0.
    destruct Hw as [HW Hw]. destruct (leave_outs_shape seed0 choice c W L n Hchoice Hrates HW Hn HLo) as [HL Hdiag].
    destruct (locations_total g1 (sc_sample_local_rate c) n Hkeep) as (g2 & locs & E2 & Llocs).
    assert (HT : rect (transpose false n L) n n) by (apply transpose_rect; auto).
    assert (HP : rect (mmap positive W') n n) by (apply rect_mmap; auto).
    pose proof (zeroed_rect _ _ _ HT HW) as HZ.
    assert (Hps : forall i k, sc_use_numba c = true -> (i < n)%nat -> (k < n)%nat -> 0 <= mget 0 W' i k).
    { intros i k' Hu Hi Hk'. destruct (shrunk_get _ W W' n i k' Hr3 HW HW') as [E|E]; rewrite E; [apply Hpos; auto|lra]. }
    destruct (stacked_base_result _ _ _ _ _ _ _ _ _ _ _ _ _ _ HW HL Hst) as [Hbase Hqn].
    set (qs' := firstn n (qs ++ repeat [] n)) in *.
    destruct Hst as [(Le & Lp & Lps & Lses) _ Hmt].
    set (ys := take 0 y locs).
    assert (Lys : length ys = n) by (unfold ys, take; rewrite map_length; auto).
    assert (Hys : ys <> []) by (intros E; rewrite E in Lys; simpl in Lys; lia).
    destruct (r2_total ys ps0) as [score Esc]; [lia|auto|].
    destruct (r2_total ys ps) as [score' Esc']; [lia|auto|].
    assert (Hlen : forall j, (j < n)%nat -> length (nth j qs' []) = length (evaluated n W' L j)).
    { intros j Hj. apply (base_lengths _ _ _ _ _ _ _ _ j Hbase Hj). }
    assert (Hqs : forall j, (j < n)%nat -> nth j qs' [] = nth j qs []).
    { intros j Hj. rewrite Hqn. destruct (Nat.ltb_spec j n); [reflexivity|lia]. }
    assert (Hused : forall i j, (i < n)%nat -> In j (used_bases c w n L i) -> (j < n)%nat).
    { intros i j Hi Hj. unfold used_bases in Hj. destruct (sc_estimator_rate c) as [q0|]; [destruct w; [|apply meta_bases_in in Hj; tauto]|apply meta_bases_in in Hj; tauto].
      destruct (Z.to_nat (Rceil q0)) as [|z]; [destruct Hj|]. cbn [firstn] in Hj. destruct Hj as [<-|Hj]; [lia|]. destruct z; destruct Hj. }
    assert (Hentry : forall i T, (i < n)%nat ->
      map (fun k => map (fun j => lookup (evaluated n W' L j) (nth j qs' []) k) (used_bases c w n L i)) T =
      map (fun k => map (fun j => lookup (evaluated n W' L j) (nth j qs []) k) (used_bases c w n L i)) T).
    { intros i T Hi. apply map_ext. intros k0. apply map_ext_in. intros j Hj. rewrite Hqs by eauto. reflexivity. }
    assert (Hentry1 : forall i, (i < n)%nat ->
      map (fun j => lookup (evaluated n W' L j) (nth j qs' []) i) (used_bases c w n L i) =
      map (fun j => lookup (evaluated n W' L j) (nth j qs []) i) (used_bases c w n L i)).
    { intros i Hi. apply map_ext_in. intros j Hj. rewrite Hqs by eauto. reflexivity. }
    assert (HF : forall task, (forall i p se, nth_error ps i = Some p -> nth_error ses i = Some se -> forall g0, exists g', task g0 i = Ok (g', ([p], se))) ->
      forall g0, exists g', meta_loop G task g0 (seq 0 n) = Ok (g', combine (map (fun x => [x]) ps) ses)).
    { intros task Ht. apply meta_loop_total.
      assert (Ln : length (combine (map (fun x => [x]) ps) ses) = n) by (rewrite combine_length, map_length; lia).
      rewrite <- Ln. apply Forall2_seq. intros i [pp se] Hb. cbn [Nat.add]. apply nth_error_combine in Hb. cbn [fst snd] in Hb. destruct Hb as [Hb1 Hb2].
      rewrite nth_error_map in Hb1. destruct (nth_error ps i) as [p0|] eqn:Ep; [|discriminate]. injection Hb1 as <-. apply Ht; auto. }
    destruct Hw as [->|[cw [-> F]]].
    - (* dense *)
      destruct Hsto as [Hnb Hest].
      destruct (second_order_spec n (r_second r) (r_buffer r) (mmap positive W') (transpose false n L) HP HT HS3 Hbuf) as [HR2 _].
      set (S2 := second_order_dense (r_second r) (r_buffer r) (mmap positive W') (transpose false n L)) in *.
      assert (Hidx : forall j, (j < n)%nat -> nonzero (nth j S2 []) = evaluated n W' L j) by (intros j Hj; apply second_eq; auto).
      assert (Hbase2 : base_result X y n (zeroed (transpose false n L) W) (fun i => nonzero (nth i S2 [])) (map (fun x => [x]) ps0) qs' es).
      { destruct Hbase as (B1 & B2 & B3 & Hb). split; [auto|]. split; [auto|]. split; [auto|]. intros j e He.
        assert (Hj : (j < n)%nat) by (rewrite <- B3; apply nth_error_Some; congruence). rewrite Hidx by auto. apply Hb; auto. }
      destruct (fit_bases_dense_full (r_base r) X y _ S2 k n _ qs' es eq_refl (eq_sym Ly) HZ HR2 Hk0 HS4 Hbase2) as (rows & Efb & Hmeta).
      assert (Hmeta' : meta_ok (XDense rows) n (evaluated n W' L) qs').
      { destruct Hmeta as [M1 M2]. split; auto. intros j k' Hj. rewrite <- Hidx by auto. apply M2; auto. }
      destruct (HF (meta_task_dense est meta fit_meta predict_meta G choice (sc_alpha c) (sc_estimator_rate c) y W' (candidates W') L rows es)) with (g0 := g2) as [g3 Eml].
      { intros i p se Hp Hse g0. assert (Hi : (i < n)%nat) by (rewrite <- Lps; apply nth_error_Some; congruence).
        destruct (Hmt i Hi) as (m & bases & M1 & M2 & M3). rewrite Hnb in M3. cbn [andb meta_fitted] in M3. destruct M3 as (mm & M3 & -> & M4).
        rewrite M1 in Hse. injection Hse as <-. rewrite (nth_error_nth _ _ 0 Hp) in M4.
        apply (meta_dense_total c W W' L rows es n qs' y g0 i [p] mm bases); auto; [rewrite Hentry by auto; exact M3|rewrite Hentry1 by auto; exact M4]. }
      apply (sfit_intro r c g fs s0 X y coords given (SDense W) g1 Lm g2 locs w' (S2Dense S2) (map (fun x => [x]) ps0) (XDense rows) es ps0 score g3 ps None ses score'); auto.
      + rewrite (Hwd eq_refl), (HLd eq_refl). cbn [positive_w transpose_mask second_w]. rewrite (rect_ncols L n n HL Hn). reflexivity.
      + rewrite Ecl, (HLd eq_refl). cbn [transpose_mask zero_leave_out]. rewrite (rect_ncols L n n HL Hn), Hk. destruct (sc_leave_local_out c); exact Efb.
      + apply one_each_single.
      + rewrite (Hwd eq_refl), (HLd eq_refl). cbn [positive_w clear_mask_diag]. unfold fit_metas. rewrite Hnb. fold (candidates W'). fold n. rewrite Eml. cbn [bind fst snd].
        rewrite map_fst_combine, map_snd_combine by (rewrite map_length; lia). rewrite one_each_single. reflexivity.
    - (* sparse *)
      destruct (HLs cw eq_refl) as (cL & -> & FL). destruct (Hws cw eq_refl) as (cw' & -> & FW').
      assert (FT : csr_mask (transpose false n L) n (csr_transpose cL)) by (apply csr_transpose_form; auto).
      destruct (zero_leave_out_form _ _ _ _ _ HT HW FT F) as (cl & El & Fl).
      assert (FP : csr_mask (mmap positive W') n (csr_where positive cw')) by (apply (csr_where_form W' n); auto).
      assert (Fn : csr_mask (candidates W') n (remove_diagonal (csr_where positive cw'))) by (apply remove_diagonal_form; auto).
      pose proof (second_sparse (r_second r) (r_buffer r) W' L cw' cL n HW'2 HL FW' FL Hn HS3 Hbuf) as E2s. cbv zeta in E2s.
      set (rows := map (evaluated n W' L) (seq 0 n)) in *.
      assert (Hne : concat rows <> []).
      { intros E. unfold storable in Hsto. destruct (sc_use_numba c).
        - destruct Hsto as (i & k' & Hi & Hk' & Hp). assert (In k' (concat rows)) as Hin by (apply in_evaluated_all; eauto). rewrite E in Hin. destruct Hin.
        - destruct Hsto as (i & Hi & Hp). assert (In (n - 1)%nat (concat rows)) as Hin by (apply in_evaluated_all; eauto; lia). rewrite E in Hin. destruct Hin. }
      set (c2 := Csr (map (fun _ => 1%nat) (concat rows)) (concat rows) (indptr_from 0 rows) (S (list_max (concat rows)))).
      assert (E2' : second_order_neighbour_csr (r_second r) (csr_where positive cw') (csr_transpose cL) = Ok c2).
      { rewrite E2s. unfold csr_infer, c2. destruct (concat rows); [congruence|reflexivity]. }
      assert (H2 : forall i, (i < n)%nat -> row_indices c2 i = evaluated n W' L i).
      { intros i Hi. unfold row_indices, row_slice, c2. cbn [c_indices c_indptr]. unfold rows.
        rewrite slice_concat by (rewrite map_length, seq_length; auto).
        rewrite (nth_map_in _ _ _ 0%nat) by (rewrite seq_length; auto). rewrite seq_nth by auto. reflexivity. }
      destruct (fit_bases_sparse_full (r_base r) X y _ cl c2 k n (evaluated n W' L) _ qs' es eq_refl (eq_sym Ly) HZ Fl H2
        (fun i k' Hk' => evaluated_lt n W' L i k' Hk') eq_refl eq_refl Hne Hk0 HS4 Hbase) as (cx & Efb & Hmeta & Hnc). fold rows in Hnc.
      assert (Hfm : exists g3 scores, fit_metas est meta fit_meta predict_meta solve G choice r c g2 n y (SSparse cw') (MSparse (remove_diagonal (csr_where positive cw'))) (MSparse cL) (XSparse cx) es
                    = Ok (g3, (ps, scores, ses))).
      { unfold fit_metas. unfold storable in Hsto. destruct (sc_use_numba c) eqn:Enb.
        - assert (HT' : forall i, (i < n)%nat -> exists coef b score bases,
            meta_task_numba solve (sc_alpha c) (r_garbage r) y cw' (remove_diagonal (csr_where positive cw')) cL cx i = Ok (coef, Fin b, Fin (nth i ps 0), score) /\
            nth_error ses i = Some (StackingEstimator est meta (MLinear meta coef (Fin b)) bases) /\
            Forall2 (fun j e => nth_error es j = Some e) (row_indices cL i) bases).
          { intros i Hi. destruct (Hmt i Hi) as (m & bases & M1 & M2 & M3). cbn [andb meta_fitted] in M3. destruct M3 as (coef & b & M3 & -> & M4).
            destruct (meta_numba_total c cw (r_garbage r) W' cw' L cL (remove_diagonal (csr_where positive cw')) cx n qs' y i coef b) as (El' & sc & Et); auto.
            { rewrite Hentry by auto. exact M3. }
            exists coef, b, sc, bases. rewrite El'. repeat split; auto. rewrite Et, M4. do 6 f_equal.
            apply map_ext_in. intros j Hj. rewrite Hqs by eauto. destruct (existsb (Nat.eqb i) (evaluated n W' L j)); reflexivity. }
          assert (HR : exists rs, mapM (meta_task_numba solve (sc_alpha c) (r_garbage r) y cw' (remove_diagonal (csr_where positive cw')) cL cx) (seq 0 n) = Ok rs).
          { apply mapM_total'. intros i Hi. apply in_seq in Hi. destruct (HT' i ltac:(lia)) as (coef & b & sc & bases & Et & _). eauto. }
          destruct HR as [rs HR]. rewrite HR. cbn [bind]. destruct (mapM_seq _ _ _ HR) as [Lrs Hrs].
          assert (HR2 : mapM (fun e : list R * ext * ext * R => match snd (fst e) with Fin v => Ok v | _ => Raise ValueError end) rs = Ok ps).
          { apply mapM_ok_iff. apply Forall2_nth' with (da := ([], NaN, NaN, 0)) (db := 0); [lia|]. intros i Hi. rewrite Lrs in Hi.
            specialize (Hrs i ([], NaN, NaN, 0) Hi). destruct (HT' i Hi) as (coef & b & sc & bases & Et & _). rewrite Et in Hrs. injection Hrs as <-. reflexivity. }
          rewrite HR2. cbn [bind].
          match goal with |- exists g3 scores, (s <- mapM ?f _ ;; _) = _ => assert (HR3 : mapM f (seq 0 n) = Ok ses) end.
          { apply mapM_ok_iff. rewrite <- Lses. apply Forall2_seq. intros i se Hse. cbn [Nat.add].
            assert (Hi : (i < n)%nat) by (rewrite <- Lses; apply nth_error_Some; congruence).
            specialize (Hrs i ([], NaN, NaN, 0) Hi). destruct (HT' i Hi) as (coef & b & sc & bases & Et & E' & HB). rewrite Et in Hrs. injection Hrs as Hrs.
            rewrite (take_checked_total _ _ _ HB). cbn [bind]. rewrite (getitem_lt ([], NaN, NaN, 0)) by lia. rewrite <- Hrs. cbn [bind fst snd]. congruence. }
          rewrite HR3. cbn [bind]. eauto.
        - destruct Hsto as (i0 & Hi0 & Hp0).
          assert (Hcols : (n <= c_ncols cx)%nat).
          { assert (In (n - 1)%nat (concat rows)) as Hin by (apply in_evaluated_all; eauto; lia). apply list_max_le' in Hin. lia. }
          destruct (HF (meta_task_sparse est meta fit_meta predict_meta G (sc_alpha c) y cw' (remove_diagonal (csr_where positive cw')) cL cx es)) with (g0 := g2) as [g3 Eml].
          { intros i p se Hp Hse g0. assert (Hi : (i < n)%nat) by (rewrite <- Lps; apply nth_error_Some; congruence).
            destruct (Hmt i Hi) as (m & bases & M1 & M2 & M3). cbn [andb meta_fitted] in M3. destruct M3 as (mm & M3 & -> & M4).
            rewrite M1 in Hse. injection Hse as <-. rewrite (nth_error_nth _ _ 0 Hp) in M4. exists g0.
            apply (meta_sparse_total c cw W' cw' L cL _ cx es n qs' y g0 i [p] mm bases); auto; [rewrite Hentry by auto; exact M3|rewrite Hentry1 by auto; exact M4]. }
          rewrite Eml. cbn [bind fst snd]. rewrite map_fst_combine, map_snd_combine by (rewrite map_length; lia). rewrite one_each_single. cbn [bind]. eauto. }
      destruct Hfm as (g3 & scores & Hfm).
      apply (sfit_intro r c g fs s0 X y coords given (SSparse cw) g1 (MSparse cL) g2 locs (SSparse cw') (S2Sparse c2) (map (fun x => [x]) ps0) (XSparse cx) es ps0 score g3 ps scores ses score'); auto.
      + cbn [positive_w transpose_mask second_w]. rewrite E2'. reflexivity.
      + rewrite Ecl. cbn [transpose_mask]. rewrite El, Hk. destruct (sc_leave_local_out c); exact Efb.
      + apply one_each_single.
  Qed.

  Theorem sfit_conditions r c g fs s0 X y coords given w W W' :
    let n := length X in
    valid_runtime r n (patches cpu c) -> valid_rates c ->
    real_weights wm fs coords given w -> holds_real w W n ->
    so_result est meta G (sfit r c g fs s0 X y coords given) = Ok tt ->
    shrunk_weights (sc_meta_shrink c) W W' ->
    valid_data X y /\ keeps_all c n /\ has_batches cpu c /\ storable c w n W'.
  Proof.
    intros n (HS1 & HS2 & HS3 & Hbuf & HS4) Hrates Hreal Hw Hok HW'.
    destruct (sfit_inv fit_est predict_est fit_meta predict_meta solve seed0 choice cpu wm r c g fs s0 X y coords given Hok) as
      (w0 & g1 & Lm & g2 & locs & w' & second & preds & XT & es & p & score & g3 & ps & scores & ses & score' & H).
    cbv zeta in H. fold n in H.
    destruct H as (HC & Hreal0 & E1 & E2 & E3 & E4 & E5 & E6 & E7 & E8 & E9 & _).
    assert (w0 = w) by (eapply real_weights_fun; eauto). subst w0. destruct (check_ok X y HC) as (Ly & Hn & _ & _). fold n in Ly, Hn.
    assert (Ecl : (if sc_leave_local_out c then clear_diag (zero_leave_out (transpose_mask Lm) w) else zero_leave_out (transpose_mask Lm) w)
                  = zero_leave_out (transpose_mask Lm) w).
    { destruct (sc_leave_local_out c); auto. apply (clear_diag_stage seed0 choice Hchoice r c g w W n g1 Lm); auto. }
    rewrite Ecl in E5. clear Ecl.
    destruct (leave_out_stage seed0 choice Hchoice r c g w W n g1 Lm Hrates Hw Hn HS1 E1) as (L & HLo & HLd & HLs).
    assert (Hr3 : forall q, sc_meta_shrink c = Some q -> 0 <= q <= 1) by apply Hrates.
    destruct (shrink_stage (r_shrink r) (sc_meta_shrink c) w W n w' Hr3 Hw HS2 E3) as (W0 & HW0 & HW'2 & Hwd & Hws).
    pose proof (shrunk_unique _ _ _ _ HW' HW0). subst W0.
    destruct Hw as [HW Hw]. destruct (leave_outs_shape seed0 choice c W L n Hchoice Hrates HW Hn HLo) as [HL Hdiag].
    assert (HT : rect (transpose false n L) n n) by (apply transpose_rect; auto).
    assert (HP : rect (mmap positive W') n n) by (apply rect_mmap; auto).
    pose proof (zeroed_rect _ _ _ HT HW) as HZ.
    assert (Hbat : exists k, patches cpu c = Some k /\ (0 < k)%nat).
    { destruct (patches cpu c) as [k|]; [|discriminate]. exists k. split; auto. destruct k; [exfalso|lia].
      unfold Stacking.fit_bases in E5. destruct (zero_leave_out (transpose_mask Lm) w), second; try discriminate. }
    assert (Hlp : length p = n /\ True).
    { split; auto. destruct Hbat as (k & Hk & Hk0). rewrite Hk in E5.
      assert (Lpr : length preds = n).
      { destruct Hw as [->|[cw [-> F]]].
        - rewrite (HLd eq_refl) in *. rewrite (Hwd eq_refl) in *. cbn [transpose_mask positive_w second_w zero_leave_out] in E4, E5.
          rewrite (rect_ncols L n n HL Hn) in E4, E5. injection E4 as <-. fold (zeroed (transpose false n L) W) in E5.
          destruct (second_order_spec n (r_second r) (r_buffer r) (mmap positive W') (transpose false n L) HP HT HS3 Hbuf) as [HR2 _].
          destruct (fit_bases_dense fit_est predict_est (r_base r) X y _ _ _ n preds XT es eq_refl (eq_sym Ly) HZ HR2 (fun k' E => HS4 k' (eq_trans Hk E)) E5) as (qs & rows & (Lq & _) & _). exact Lq.
        - destruct (HLs cw eq_refl) as (cL & -> & FL). cbn [transpose_mask] in E5.
          assert (FT : csr_mask (transpose false n L) n (csr_transpose cL)) by (apply csr_transpose_form; auto).
          destruct (zero_leave_out_form _ _ _ _ _ HT HW FT F) as (cl & El & Fl). rewrite El in E5.
          unfold Stacking.fit_bases in E5. destruct second as [s|s]; [discriminate|]. apply bind_ok in E5. destruct E5 as [[a b] [R1 E5]].
          apply run_batches_iff in R1; auto. destruct R1 as (rs & R1 & -> & ->). cbn [fst snd] in E5.
          destruct (negb _) in E5; [discriminate|]. apply bind_ok in E5. destruct E5 as [cx [_ E5]]. injection E5 as <- _ _.
          rewrite !map_length. apply mapM_length in R1. rewrite R1, seq_length, (form_nrows _ _ _ _ _ Fl). apply HZ. }
      apply one_each_ok in E6. lia. }
    destruct Hlp as [Lp _].
    split; [apply (proj1 (check_iff X y)); auto|].
    split.
    { intros q Hq. rewrite Hq in E2. apply locations_length in E2. apply r2_length in E7. unfold take in E7. rewrite map_length in E7. lia. }
    split; [apply batches_iff; auto|].
    destruct Hw as [->|[cw [-> F]]].
    - rewrite (HLd eq_refl), (Hwd eq_refl) in E8. cbn [positive_w clear_mask_diag] in E8. unfold fit_metas in E8. unfold storable.
      destruct (sc_use_numba c); [discriminate|]. split; [reflexivity|]. intros q Hq.
      destruct XT as [x|x]; [|discriminate]. apply bind_ok in E8. destruct E8 as [[g4 rs] [E8 _]].
      destruct (meta_loop_ok _ _ _ _ _ E8) as [Lrs Hrs]. rewrite seq_length in Lrs, Hrs.
      destruct (Hrs 0%nat ([], StackingEstimator est meta (MLinear meta [] NaN) []) Hn) as (ga & gb & Ht). rewrite seq_nth in Ht by auto. cbn [Nat.add] in Ht.
      unfold meta_task_dense in Ht. apply bind_ok in Ht. destruct Ht as [[g5 sample] [H1 _]]. rewrite Hq in H1.
      eapply sample_estimators_rate; [| |exact H1]; [rewrite (rect_row L n n 0 HL Hn); auto|apply (Hdiag 0%nat Hn)].
    - destruct (HLs cw eq_refl) as (cL & -> & FL). destruct (Hws cw eq_refl) as (cw' & -> & FW').
      cbn [transpose_mask positive_w second_w clear_mask_diag] in E4, E5, E8.
      assert (FT : csr_mask (transpose false n L) n (csr_transpose cL)) by (apply csr_transpose_form; auto).
      destruct (zero_leave_out_form _ _ _ _ _ HT HW FT F) as (cl & El & Fl). rewrite El in E5.
      pose proof (second_sparse (r_second r) (r_buffer r) W' L cw' cL n HW'2 HL FW' FL Hn HS3 Hbuf) as E2s. cbv zeta in E2s.
      rewrite E2s in E4. set (rows := map (evaluated n W' L) (seq 0 n)) in *. clear E2s.
      assert (Hne : concat rows <> []) by (intros E; rewrite E in E4; discriminate).
      assert (E4' : second = S2Sparse (Csr (map (fun _ => 1%nat) (concat rows)) (concat rows) (indptr_from 0 rows) (S (list_max (concat rows))))).
      { unfold csr_infer in E4. destruct (concat rows); [congruence|]. injection E4 as <-. reflexivity. }
      subst second. unfold storable. unfold fit_metas in E8. destruct (sc_use_numba c).
      + pose proof (list_max_in _ Hne) as Hin. pose proof (evaluated_all_lt _ _ _ _ Hin) as Hlt. apply in_evaluated_all in Hin; auto. destruct Hin as (i & Hi & Hp). eauto.
      + destruct XT as [x|cx]; [discriminate|]. apply bind_ok in E8. destruct E8 as [[g4 rs] [E8 _]].
        destruct (meta_loop_ok _ _ _ _ _ E8) as [Lrs Hrs]. rewrite seq_length in Lrs, Hrs.
        destruct (Hrs (n - 1)%nat ([], StackingEstimator est meta (MLinear meta [] NaN) [])) as (ga & gb & Ht); [lia|]. rewrite seq_nth in Ht by lia. cbn [Nat.add] in Ht.
        unfold meta_task_sparse in Ht. do 4 (apply bind_ok in Ht; destruct Ht as [? [_ Ht]]). apply bind_ok in Ht. destruct Ht as [v [Ht _]].
        apply csr_take_ok in Ht. destruct Ht as [_ Ht]. unfold csr_transpose in Ht. rewrite c_nrows_of_rows, tabulate_length in Ht.
        assert (Hnc : c_ncols cx = S (list_max (concat rows))).
        { unfold Stacking.fit_bases in E5. destruct (patches cpu c); [|discriminate]. apply bind_ok in E5. destruct E5 as [[a b] [_ E5]].
          cbn [c_indices c_indptr] in E5. destruct (negb _) in E5; [discriminate|]. apply bind_ok in E5. destruct E5 as [cx' [Ei E5]]. injection E5 as _ <- _.
          unfold csr_infer in Ei. destruct (concat rows); [discriminate|]. injection Ei as <-. reflexivity. }
        pose proof (list_max_in _ Hne) as Hin. pose proof (evaluated_all_lt _ _ _ _ Hin) as Hlt.
        assert (Em : list_max (concat rows) = (n - 1)%nat) by lia. rewrite Em in Hin.
        apply in_evaluated_all in Hin; auto; lia.
  Qed.

  Theorem sfit_iff r c g fs s0 X y coords given w W :
    let n := length X in
    valid_runtime r n (patches cpu c) -> valid_rates c ->
    real_weights wm fs coords given w -> holds_real w W n ->
    (sc_use_numba c = true -> forall i k, (i < n)%nat -> (k < n)%nat -> 0 <= mget 0 W i k) ->
    so_result est meta G (sfit r c g fs s0 X y coords given) = Ok tt <->
    valid_data X y /\ keeps_all c n /\ has_batches cpu c /\
    exists L W' es ps0 qs ps ses,
      leave_outs seed0 choice c W L /\ shrunk_weights (sc_meta_shrink c) W W' /\ storable c w n W' /\
      stacked fit_est predict_est fit_meta predict_meta solve (r_garbage r) c w X y n W L W' es ps0 qs ps ses.
  Proof.
    intros n HR Hrates Hreal Hw Hpos. split.
    - intros Hok.
      destruct (sfit_stacked fit_est predict_est fit_meta predict_meta solve seed0 choice cpu wm Hchoice Hone r c g fs s0 X y coords given w W HR Hrates Hreal Hw Hpos Hok)
        as (L & W' & es & ps0 & qs & ps & ses & H1 & H2 & H3 & _).
      destruct (sfit_conditions r c g fs s0 X y coords given w W W' HR Hrates Hreal Hw Hok H2) as (C1 & C2 & C3 & C4).
      repeat split; auto. exists L, W', es, ps0, qs, ps, ses. auto.
    - intros (C1 & C2 & C3 & HE). apply (sfit_total r c g fs s0 X y coords given w W); auto.
  Qed.
End Total.
