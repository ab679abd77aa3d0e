(** When predict_by_fit of the stacking model returns. *)
From Coq Require Import Lra Sorting.Sorted.
From Verif.Model Require Import Base Ext Csr Neighbour Distance WeightModel NumbaImpl Stacking StackingPredict.
From Verif.Spec Require Import KernelSpec NeighbourSpec WeightModelSpec StackingSpec StackingTotalSpec.
From Verif.Proofs Require Import ListFacts KernelFacts CsrFacts ShrinkFacts NeighbourFacts SampleFacts WeightModelFacts
  NeighbourProps WeightModelProps StackingCsr StackingFacts StackingMeta StackingProps StackingClaims StackingClaims2 StackingTotal StackingUsual StackingPredictProps.
Open Scope nat_scope.
Open Scope R_scope.

Lemma filter_not_nil {A} (f : A -> bool) l : filter f l <> [] <-> exists x, In x l /\ f x = true.
Proof.
  split.
  - intros H. destruct (filter f l) as [|x t] eqn:E; [congruence|]. exists x. apply filter_In. rewrite E. left. reflexivity.
  - intros (x & Hx) E. apply filter_In in Hx. rewrite E in Hx. destruct Hx.
Qed.

Lemma some_batches cpu c : has_batches cpu c <-> exists k, patches cpu c = Some k /\ (0 < k)%nat.
Proof.
  unfold has_batches, patches. destruct (sc_n_jobs c), (sc_n_patches c); split; try tauto; try (intros H; eexists; split; [reflexivity|exact H]);
  intros (k & E & H); try discriminate; injection E as <-; auto.
Qed.

Lemma in_support n (U : matrix R) i k : In k (support n U i) <-> (k < n)%nat /\ 0 < mget 0 U k i.
Proof. unfold support. rewrite filter_In, in_seq, Rltb_true. split; intros; split; try tauto; lia. Qed.

Section Total.
  Context {est meta : Type}.
  Variable fit_est : nat -> matrix R -> list R -> list R -> result est.
  Variable predict_est : est -> matrix R -> result (list R).
  Variable fit_meta : R -> nat -> matrix R -> list R -> list R -> result meta.
  Variable predict_meta : meta -> matrix R -> result (list R).
  Variable cpu : nat.
  Variable wm : filesystem -> list coords -> list coords -> filesystem * result swts.
  Notation spredict := (spredict est fit_est predict_est meta fit_meta predict_meta cpu wm).
  Notation task := (predict_task est predict_est meta fit_meta predict_meta).
  Hypothesis Hest : needs_data fit_est predict_est.
  Hypothesis Hmeta : needs_design fit_meta predict_meta.

  Lemma one_each_total ps : one_each (map (fun p => [p]) ps) = Ok ps.
  Proof. unfold one_each. rewrite mapM_map. rewrite (mapM_all_ok _ (fun p => p)); [rewrite map_id; reflexivity|]. reflexivity. Qed.

  Theorem spredict_iff r c fs s0 X y v Xp vp W U fs1 fs2 :
    let n := length X in
    let k := length Xp in
    wm fs v v = (fs1, Ok (SDense W)) -> wm fs1 v vp = (fs2, Ok (SDense U)) -> rect W n n -> rect U n k -> (0 < k)%nat ->
    schedule n (r_second r) -> length (r_buffer r) = n -> (forall k', patches cpu c = Some k' -> schedule k' (r_base r)) ->
    (exists out, snd (spredict r c fs s0 X y v Xp vp) = Ok out) <->
    valid_data X y /\ has_batches cpu c /\ sc_use_numba c = false /\
    (forall j, (j < n)%nat -> exists t, (t < n)%nat /\ mget 0 W j t <> 0 /\ ~ (sc_leave_local_out c = true /\ t = j)) /\
    (forall j, (j < n)%nat -> exists i, (i < k)%nat /\ 0 < mget 0 U j i) /\
    (forall i, (i < k)%nat -> exists j, (j < n)%nat /\ 0 < mget 0 U j i).
  Proof.
    intros n k Hw HU RW RU Hk HS Hb HP. destruct Hest as (E1 & E2 & E3 & E4). destruct Hmeta as (M1 & M2 & M3 & M4).
    destruct (base_weights_rect c W n RW) as (W0 & EW0 & R0 & G0).
    assert (HT : rect (transpose 0 k U) k n) by (apply transpose_rect; auto).
    assert (HW0 : forall j, (j < n)%nat -> filter (fun t => Rnonzero (mget 0 W0 j t)) (seq 0 n) <> [] <->
       exists t, (t < n)%nat /\ mget 0 W j t <> 0 /\ ~ (sc_leave_local_out c = true /\ t = j)).
    { intros j Hj. rewrite filter_not_nil. split; intros (t & H).
      - exists t. destruct H as [Ht H]. apply in_seq in Ht. rewrite G0 in H by lia. unfold Rnonzero in H.
        destruct (sc_leave_local_out c && (t =? j)%nat) eqn:Ea; [rewrite (proj2 (Reqb_true 0 0) eq_refl) in H; discriminate|].
        split; [lia|]. split; [intros E0; rewrite E0, (proj2 (Reqb_true 0 0) eq_refl) in H; discriminate|].
        intros [Ea1 Ea2]. subst t. rewrite Ea1, Nat.eqb_refl in Ea. discriminate.
      - destruct H as (Ht & H1 & H2). exists t. split; [apply in_seq; lia|]. rewrite G0 by lia.
        destruct (sc_leave_local_out c && (t =? j)%nat) eqn:Ea.
        + exfalso. apply andb_prop in Ea. destruct Ea as [Ea Eb]. apply Nat.eqb_eq in Eb. tauto.
        + unfold Rnonzero. rewrite (proj2 (Reqb_false _ _) H1). reflexivity. }
    split.
    - intros [out Ho]. destruct (spredict r c fs s0 X y v Xp vp) as [[s fs2'] o] eqn:H. cbn [snd] in Ho. subst o.
      apply spredict_inv in H.
      destruct H as (fs1' & w & m & second & preds & x & es & p & score & rs & C1 & C2 & C3 & C4 & C5 & C6 & C7 & C8 & C9 & -> & C10 & _).
      rewrite Hw in C2. injection C2 as <- <-. rewrite HU in C3. injection C3 as _ <-.
      assert (HD : valid_data X y) by (apply FitProps.check_iff; exact C1).
      apply check_ok in C1. destruct C1 as (Hy & Hn & _). fold n in Hn, Hy.
      destruct (second_covers (r_second r) (r_buffer r) U n k) as (s2 & Es2 & R2 & S2); auto.
      rewrite Es2 in C4. injection C4 as <-. rewrite EW0 in C5.
      assert (HB : has_batches cpu c).
      { apply some_batches. unfold fit_bases in C5. destruct (patches cpu c) as [[|k']|]; [exfalso|exists (S k'); split; [reflexivity|lia]|discriminate].
        unfold run_batches, array_split in C5. discriminate. }
      destruct (fit_bases_dense fit_est predict_est (r_base r) X y W0 s2 (patches cpu c) n preds (XDense x) es) as (qs & rows & Hbr & EX & HM); auto.
      destruct Hbr as (L1 & L2 & L3 & Hbr).
      split; [exact HD|]. split; [exact HB|]. split; [exact C8|]. split; [|split].
      + intros j Hj. apply HW0; auto. intros E. destruct (nth_error es j) as [e|] eqn:Ee; [|apply nth_error_None in Ee; lia].
        destruct (Hbr j e Ee) as (B1 & _). rewrite E in B1. apply E1 in B1. exact B1.
      + intros j Hj. destruct (nth_error es j) as [e|] eqn:Ee; [|apply nth_error_None in Ee; lia].
        destruct (Hbr j e Ee) as (_ & _ & B3). assert (Hne : map (fun t => nth t X []) (nonzero (nth j s2 [])) <> []) by (apply (E3 e); eexists; exact B3).
        destruct (nonzero (nth j s2 [])) as [|t l] eqn:En; [contradiction Hne; reflexivity|].
        assert (Hin : In t (nonzero (nth j s2 []))) by (rewrite En; left; reflexivity).
        rewrite nonzero_filter, (rect_row s2 n n j R2 Hj) in Hin. apply filter_In in Hin. destruct Hin as [Ht Hin]. apply in_seq in Ht.
        change (mget false s2 j t = true) in Hin. apply S2 in Hin; auto; [|lia]. destruct Hin as (i & Hi & H1 & _). exists i. auto.
      + intros i Hi. apply mapM_seq in C9. destruct C9 as [L5 C9]. specialize (C9 i ([], StackingEstimator est meta (MLinear meta [] NaN) []) Hi).
        rewrite (rect_ncols U n k) in C9 by auto. unfold predict_task in C9. rewrite (getitem_lt []) in C9 by (destruct HT; lia). cbn [bind] in C9.
        apply bind_ok in C9. destruct C9 as [mm [F1 _]]. rewrite (support_nonzero n k U i RU Hi) in F1.
        destruct (support n U i) as [|t l] eqn:En; [apply M1 in F1; destruct F1|].
        exists t. apply in_support. rewrite En. left. reflexivity.
    - intros (HD & HB & Hnb & H1 & H2 & H3). apply some_batches in HB. destruct HB as (k' & Ek & Hk').
      pose proof (proj2 (FitProps.check_iff X y) HD) as C1. pose proof C1 as C1'. apply check_ok in C1'. destruct C1' as (Hy & Hn & _). fold n in Hn, Hy.
      destruct (second_covers (r_second r) (r_buffer r) U n k) as (s2 & Es2 & R2 & S2); auto.
      destruct (list_choice (fun j e => fit_est j (map (fun t => nth t X []) (filter (fun t => Rnonzero (mget 0 W0 j t)) (seq 0 n)))
         (map (fun t => nth t y 0) (filter (fun t => Rnonzero (mget 0 W0 j t)) (seq 0 n))) (map (mget 0 W0 j) (filter (fun t => Rnonzero (mget 0 W0 j t)) (seq 0 n))) = Ok e) n)
        as (es & Les & Hes).
      { intros j Hj. apply E2; rewrite ?map_length; auto. apply map_not_nil. apply HW0; auto. }
      destruct (list_choice (fun j p => forall e, nth_error es j = Some e -> predict_est e [nth j X []] = Ok [p]) n) as (ps0 & Lps0 & Hps0).
      { intros j Hj. destruct (nth_error es j) as [e|] eqn:Ee; [|apply nth_error_None in Ee; lia].
        destruct (proj2 (E3 e [nth j X []])) as [p Hp]; [discriminate|]. pose proof (E4 _ _ _ Hp) as Hl. cbn in Hl.
        destruct p as [|a [|b p]]; try discriminate. exists a. intros e' He'. congruence. }
      destruct (list_choice (fun j q => forall e, nth_error es j = Some e -> predict_est e (map (fun t => nth t X []) (nonzero (nth j s2 []))) = Ok q) n) as (qs & Lqs & Hqs).
      { intros j Hj. destruct (nth_error es j) as [e|] eqn:Ee; [|apply nth_error_None in Ee; lia].
        destruct (proj2 (E3 e (map (fun t => nth t X []) (nonzero (nth j s2 []))))) as [p Hp]; [|exists p; intros e' He'; congruence].
        apply map_not_nil. rewrite nonzero_filter, (rect_row s2 n n j R2 Hj). apply filter_not_nil. exists j. split; [apply in_seq; lia|].
        change (mget false s2 j j = true). apply S2; auto. destruct (H2 j Hj) as (i & Hi & Hp). exists i. auto. }
      destruct (fit_bases_dense_total fit_est predict_est E4 (r_base r) X y W0 s2 k' n (map (fun p => [p]) ps0) qs es) as [rows ER]; auto.
      { split; [rewrite map_length; auto|]. split; [auto|]. split; [auto|]. intros j e Hj. cbv zeta.
        assert (Hjn : (j < n)%nat) by (rewrite <- Les; apply nth_error_Some; congruence). split; [apply Hes; auto|]. split.
        - rewrite (nth_map_in _ _ _ 0) by lia. apply (Hps0 j (nth j ps0 0)); auto. apply nth_error_nth'. lia.
        - apply (Hqs j (nth j qs [])); auto. apply nth_error_nth'. lia. }
      unfold StackingPredict.spredict. rewrite C1, Hw, HU, Es2. cbn [bind]. rewrite EW0, Ek, ER. rewrite one_each_total. cbn [bind].
      destruct (r2_total y ps0) as [sc Esc]; [lia|destruct y; [cbn in Hy; lia|discriminate]|]. rewrite Esc. cbn [bind]. rewrite Hnb.
      destruct (mapM_total' (task (sc_alpha c) y (transpose 0 (ncols U) U) rows es Xp) (seq 0 (length Xp))) as [rs Ers]; [|rewrite Ers; eexists; reflexivity].
      intros i Hi. apply in_seq in Hi. assert (Hik : (i < k)%nat) by (unfold k; lia). rewrite (rect_ncols U n k) by auto.
      unfold predict_task. rewrite (getitem_lt []) by (destruct HT; lia). cbn [bind]. rewrite (support_nonzero n k U i RU Hik).
      assert (Hne : support n U i <> []).
      { destruct (H3 i Hik) as (j & Hj). apply in_support in Hj. intros E. rewrite E in Hj. destruct Hj. }
      edestruct M3 as [m Em]; [| | | | |rewrite Em]; try (unfold take; rewrite ?map_length; reflexivity).
      { apply map_not_nil. exact Hne. }
      { destruct (support n U i); [congruence|cbn; lia]. }
      { intros row Hrow. apply in_map_iff in Hrow. destruct Hrow as (t & <- & _). rewrite map_length. reflexivity. }
      cbn [bind]. rewrite (getitem_lt []) by lia. cbn [bind].
      assert (HP' : exists q, predict_stacking est predict_est meta predict_meta
          (StackingEstimator est meta (MFitted meta m) (select (map positive (nth i (transpose 0 k U) [])) es)) [nth i Xp []] = Ok q).
      { unfold predict_stacking. cbn [se_bases se_meta].
        set (bs := select _ es).
        assert (Hbs : bs <> []).
        { intros E0. assert (HF : Forall2 (fun j e => nth_error es j = Some e) (support n U i) bs).
          { unfold bs. rewrite <- (support_nonzero n k U i RU Hik). apply select_nth_error. rewrite map_length, (rect_row _ k n i HT Hik). auto. }
          rewrite E0 in HF. inversion HF. congruence. }
        assert (HC : exists cols, mapM (fun e => predict_est e [nth i Xp []]) bs = Ok (map (fun a => [a]) cols) /\ length cols = length bs).
        { clear -E3 E4. clearbody bs. induction bs as [|e bs IH]; [exists []; auto|]. destruct IH as (cols & IH & IL).
          destruct (proj2 (E3 e [nth i Xp []])) as [p Hp]; [discriminate|]. pose proof (E4 _ _ _ Hp) as Hl. destruct p as [|a [|b p]]; try discriminate.
          exists (a :: cols). cbn [mapM map]. rewrite Hp. cbn [bind]. rewrite IH. split; [reflexivity|cbn; lia]. }
        destruct HC as (cols & HC & HL). rewrite HC. cbn [bind]. rewrite map_length, HL. destruct bs as [|e0 bs]; [congruence|]. cbn [length Nat.eqb orb].
        destruct cols as [|a cols]; [discriminate|].
        change (ncols (map (fun a0 => [a0]) (a :: cols))) with 1%nat.
        assert (Hall : forallb (fun c0 : list R => (length c0 =? 1)%nat) (map (fun a0 => [a0]) (a :: cols)) = true).
        { apply forallb_forall. intros z Hz. apply in_map_iff in Hz. destruct Hz as (z' & <- & _). reflexivity. }
        rewrite Hall. cbn [negb]. unfold transpose, tabulate. cbn [seq map predict_model].
        destruct (M4 m (map (fun r0 : list R => nth 0 r0 0) ([a] :: map (fun a0 => [a0]) cols))) as [q Hq].
        cbn [map] in Hq. rewrite Hq. eexists. reflexivity. }
      destruct HP' as [q HP']. rewrite HP'. eexists. reflexivity.
  Qed.
End Total.
