From Coq Require Import Lra Psatz Sorting.Sorted.
From Verif.Model Require Import Base Ext Sort Csr Neighbour Distance WeightModel Inspect Ale.
From Verif.Spec Require Import KernelSpec InspectSpec AleSpec.
From Verif.Proofs Require Import ListFacts SumFacts KernelFacts SortFacts CsrFacts AdaptiveFacts WeightFacts NeighbourFacts WeightModelFacts StackingFacts InspectProps InspectProps3 AleFacts AleGrid AleProps.
Open Scope nat_scope.
Open Scope R_scope.

Lemma ok_pair {A B} (a a' : A) (b b' : B) : Ok (a, b) = Ok (a', b') -> a = a' /\ b = b'. Proof. intros H. inversion H. auto. Qed.

Section Ale2.
  Variable store : R -> R.
  Notation wale := (weighted_ale store).

  Lemma fv_length X f : length (feature_values X f) = length X. Proof. apply map_length. Qed.
  Lemma fv_nth X f i : (i < length X)%nat -> nth i (feature_values X f) 0 = mget 0 X i f.
  Proof. intros Hi. unfold feature_values, mget. rewrite (nth_map_in _ _ _ []) by auto. reflexivity. Qed.

  Lemma set_column_length X f vs : length vs = length X -> length (set_column store X f vs) = length X.
  Proof. intros H. unfold set_column. rewrite map2_length. lia. Qed.
  Lemma set_column_nth X f vs i : length vs = length X -> (i < length X)%nat -> nth i (set_column store X f vs) [] = list_set (nth i X []) f (store (nth i vs 0)).
  Proof. intros H Hi. unfold set_column. rewrite (map2_nth _ _ _ _ [] 0) by lia. reflexivity. Qed.

  Lemma moved_rows X N F f m q shift : rect X N F -> (f < F)%nat -> (0 <= m)%Z -> proper_grid m (feature_values X f) q ->
    moved store X f q shift (set_column store X f (map (fun i => nth (i - shift) q 0) (bin_indices q (feature_values X f)))).
  Proof.
    intros HX Hf Hm Hg. set (idx := bin_indices q (feature_values X f)).
    assert (HI : length idx = length X) by (unfold idx, bin_indices; rewrite map_length; apply fv_length).
    assert (HLm : length (map (fun i => nth (i - shift) q 0) idx) = length X) by (rewrite map_length; auto).
    split; [apply set_column_length; auto|]. intros i k Hi Hk Hb. rewrite set_column_nth by auto. rewrite list_set_length. split; auto.
    intros j Hj. unfold mget at 1. rewrite set_column_nth by auto. destruct (Nat.eqb_spec j f) as [-> | Hjf].
    - rewrite list_set_nth_eq by auto. rewrite (nth_map_in _ _ _ 0%nat) by lia.
      assert (E : (nth i idx 0 =? k)%nat = true) by (unfold idx; rewrite (idx_bin _ _ _ Hg) by (rewrite ?fv_length; auto); rewrite fv_nth by auto; auto).
      apply Nat.eqb_eq in E. rewrite E. reflexivity.
    - rewrite list_set_nth_neq by auto. reflexivity.
  Qed.

  (** An Ok result of the grid lookup means a proper grid. *)
  Lemma lookup_proper values m q nq highs : (0 <= m)%Z -> adaptive_grid values m = Ok (q, nq) ->
    mapM (fun i => getitem q i) (bin_indices q values) = Ok highs -> proper_grid m values q.
  Proof.
    intros Hm Hg Hh. destruct values as [|x0 rest] eqn:Ev; [discriminate|]. rewrite <- Ev in *. assert (Hne : values <> []) by congruence.
    destruct (mapM_getitem 0 _ _ _ Hh) as [_ Hr].
    assert (HL : (2 <= length q)%nat).
    { assert (Hin : In (bin_of q x0) (bin_indices q values)) by (rewrite bin_indices_map, Ev; left; reflexivity).
      specialize (Hr _ Hin). unfold bin_of in Hr. cbv zeta in Hr. destruct (Nat.eqb_spec (searchsorted q x0) 0); lia. }
    destruct (Nat.le_gt_cases 3 (length values)) as [H3 | H3].
    - apply (adaptive_proper values m q nq); auto. destruct (adaptive_ok values m q nq H3 Hg) as (n & _ & _ & Hq & Hmin & Hmax & _).
      exists (nth 0 q 0), (nth (length q - 1) q 0). split; [apply Hmin|]. split; [apply Hmax|].
      pose proof (SSlt_nth q 0 (length q - 1) (proj1 Hq) ltac:(lia)). lra.
    - pose proof (adaptive_degenerate values m q nq (or_introl H3) Hg). lia.
  Qed.

  Lemma wale_inv X N F f pred w norm m q a : rect X N F -> (0 < N)%nat -> (0 <= m)%Z ->
    wale X f pred (Some w) norm m = Ok (q, a) -> is_ale store X f pred w norm m q a /\ (f < F)%nat /\ length w = N.
  Proof.
    intros HX HN Hm H. unfold weighted_ale in H.
    apply bind_ok in H as (values & Hc & H). destruct (column_ok _ _ _ _ _ HX HN Hc) as [Hf ->].
    apply bind_ok in H as ((q0 & nq) & Hg & H). cbn [fst] in H.
    set (values := feature_values X f) in *. set (idx := bin_indices q0 values) in *.
    apply bind_ok in H as (low & Hl & H). apply bind_ok in H as (high & Hh & H).
    apply bind_ok in H as (p_low & Hpl & H). apply bind_ok in H as (p_high & Hph & H).
    apply bind_ok in H as (d & Hd & H). apply bind_ok in H as (bl & Hbl & H). cbn [bind] in H.
    apply bind_ok in H as (bw & Hbw & H). apply bind_ok in H as (base & Hbase & H). apply bind_ok in H as (avg & Havg & H).
    pose proof (lookup_proper values m q0 nq high Hm Hg Hh) as HP.
    assert (HLX : length X = N) by apply HX. assert (HV : length values = N) by (unfold values; rewrite fv_length; auto).
    assert (HI : length idx = N) by (unfold idx; rewrite (idx_length _ _); auto).
    apply mapM_ok_iff in Hl. 
    assert (El : low = map (fun i => nth (i - 1) q0 0) idx).
    { clear -Hl. induction Hl as [|i x l l' Hx _ IH]; auto. simpl. apply getitem_ok in Hx. rewrite (nth_error_nth _ _ 0 Hx), IH. reflexivity. }
    destruct (mapM_getitem 0 _ _ _ Hh) as [Eh _]. fold idx in Eh.
    assert (Eh' : high = map (fun i => nth (i - 0) q0 0) idx) by (rewrite Eh; apply map_ext; intros; f_equal; lia).
    unfold minus_arrays in Hd. destruct (Nat.eqb_spec (length p_high) (length p_low)) as [HLp | ]; [|discriminate]. injection Hd as <-.
    assert (HLl : length p_low = N).
    { unfold mask_index in Hbl. rewrite map_length, HI in Hbl. destruct (Nat.eqb_spec N (length p_low)); [auto|discriminate]. }
    assert (HLw : length w = N).
    { unfold mask_index in Hbw. rewrite map_length, HI in Hbw. destruct (Nat.eqb_spec N (length w)); [auto|discriminate]. }
    pose proof HP as (Hs & HL2 & _).
    unfold idx in Hbl, Hbw. rewrite (mask_members values q0 m HP 0) in Hbl, Hbw by (auto; try lia; congruence). injection Hbl as <-. injection Hbw as <-.
    apply average_ok in Hbase; [|rewrite !map_length; auto].
    unfold idx in Havg. rewrite (keys values q0 m Hm HP) in Havg.
    assert (Hav : length avg = (length q0 - 1)%nat /\ forall k, (1 <= k < length q0)%nat ->
       average_of (map (fun i => nth i w 0) (members q0 k values)) (map (fun i => nth i p_high 0 - nth i p_low 0) (members q0 k values)) (nth (k - 1) avg 0)).
    { split; [apply mapM_length in Havg; rewrite seq_length in Havg; auto|]. intros k Hk.
      apply mapM_ok_iff in Havg. pose proof (Forall2_len _ _ _ Havg) as HLa. rewrite seq_length in HLa.
      pose proof (Forall2_nth _ _ _ 0%nat 0 (k - 1)%nat Havg) as Hx. rewrite seq_length, seq_nth in Hx by lia.
      replace (1 + (k - 1))%nat with k in Hx by lia. specialize (Hx ltac:(lia)). cbv zeta in Hx.
      rewrite (mask_members values q0 m HP 0) in Hx by (auto; rewrite map2_length; lia). cbn [bind] in Hx.
      rewrite (mask_members values q0 m HP 0) in Hx by (auto; lia). cbn [bind] in Hx.
      apply average_ok in Hx; [|rewrite !map_length; auto].
      assert (E : map (fun i => nth i (map2 Rminus p_high p_low) 0) (members q0 k values) = map (fun i => nth i p_high 0 - nth i p_low 0) (members q0 k values)).
      { apply map_ext_in. intros i Hi. apply filter_In in Hi as [Hi _]. apply in_seq in Hi. apply (map2_nth _ _ _ _ 0 0); lia. }
      rewrite E in Hx. exact Hx. }
    destruct Hav as [HLa Hav]. set (acc := 0 :: cumsum avg) in *.
    assert (HLacc : length acc = length q0) by (unfold acc, cumsum; simpl; rewrite cumsum_from_length; lia).
    assert (Hstep : forall k, (1 <= k < length q0)%nat -> nth k acc 0 - nth (k - 1) acc 0 = nth (k - 1) avg 0).
    { intros k Hk. destruct k as [|k]; [lia|]. unfold acc, cumsum. rewrite cumsum_from_step by lia. replace (S k - 1)%nat with k by lia. lra. }
    assert (Hmv : forall c, length (map (fun x => x + c) acc) = length q0 /\ forall k, (1 <= k < length q0)%nat ->
       nth k (map (fun x => x + c) acc) 0 - nth (k - 1) (map (fun x => x + c) acc) 0 = nth (k - 1) avg 0).
    { intros c. split; [rewrite map_length; auto|]. intros k Hk. rewrite !(nth_map_in _ _ _ 0) by lia. rewrite <- Hstep by auto. ring. }
    assert (Hrest : q = q0 /\ exists c, a = map (fun x => x + c) acc /\ (norm = false -> c = base) /\ (norm = true -> centred q0 values a)).
    { destruct norm.
      - apply bind_ok in H as (ale0 & Ht & H). apply ok_pair in H as [<- <-]. split; auto. exists (- ale0). split; [apply map_ext; intros; ring|]. split; [discriminate|].
        intros _. apply (centre values q0 m HP); auto.
      - apply ok_pair in H as [<- <-]. split; auto. exists base. split; auto. split; auto. discriminate. }
    destruct Hrest as (-> & c & Ea & Hc1 & Hc2). split; [|auto].
    split; [exact HP|]. split; [rewrite Ea; apply Hmv|].
    exists (set_column store X f low), (set_column store X f high), p_low, p_high.
    split; [rewrite El; apply (moved_rows X N F f m); auto|]. split; [rewrite Eh'; apply (moved_rows X N F f m); auto|].
    split; auto. split; auto. split; [lia|]. split; [lia|]. split; [|split; auto].
    - intros k Hk. fold values. rewrite Ea, (proj2 (Hmv c) k Hk). apply Hav; auto.
    - intros En. rewrite Ea, (Hc1 En). replace (nth 0 (map (fun x => x + base) acc) 0) with base; [exact Hbase|]. unfold acc. simpl. ring.
  Qed.

  Lemma mapM_exists {A B} (g : A -> result B) l : (forall x, In x l -> exists y, g x = Ok y) -> exists ys, mapM g l = Ok ys.
  Proof.
    induction l as [|x l IH]; intros H; simpl; [eauto|]. destruct (H x) as (y & ->); [left; auto|]. destruct IH as (ys & ->); [intros; apply H; right; auto|]. simpl. eauto.
  Qed.

  Lemma bin_count_members q k values : bin_count q k values = length (members q k values).
  Proof.
    unfold bin_count, members. induction values as [|v l IH] using rev_ind; auto. rewrite filter_app, !app_length, IH, seq_app, filter_app, app_length. simpl.
    f_equal.
    - f_equal. apply filter_ext_in. intros i Hi. apply in_seq in Hi. rewrite app_nth1; auto. lia.
    - rewrite app_nth2, Nat.sub_diag by lia. simpl. destruct (in_bin q k v); auto.
  Qed.

  Lemma bin_count_le q k values : (bin_count q k values <= length values)%nat.
  Proof. unfold bin_count. induction values as [|v l IH]; simpl; auto. destruct (in_bin q k v); simpl; lia. Qed.

  Lemma members_ne values q m k : (0 <= m)%Z -> proper_grid m values q -> (1 <= k < length q)%nat -> members q k values <> [].
  Proof.
    intros Hm (_ & _ & _ & _ & Hfl) Hk E. specialize (Hfl k Hk). rewrite bin_count_members, E in Hfl. simpl in Hfl. lia.
  Qed.

  Lemma Rsum_pos l : l <> [] -> (forall x, In x l -> 0 < x) -> 0 < Rsum l.
  Proof.
    intros Hne H. destruct l as [|x l]; [congruence|]. pose proof (Rsum_ge_elem (x :: l) x ltac:(intros; apply Rlt_le, H; auto) ltac:(left; auto)).
    pose proof (H x ltac:(left; auto)). lra.
  Qed.

  (** When the pieces are fine, weighted_ale returns. *)
  Lemma wale_total X N F f pred w norm m : rect X N F -> (f < F)%nat -> (3 <= N)%nat -> (0 <= m < Z.of_nat N)%Z ->
    (exists x y, In x (feature_values X f) /\ In y (feature_values X f) /\ x <> y) ->
    (forall rows, length rows = N -> exists p, pred rows = Ok p /\ length p = N) ->
    length w = N -> (forall i, (i < N)%nat -> 0 < nth i w 0) ->
    exists q a, wale X f pred (Some w) norm m = Ok (q, a).
  Proof.
    intros HX Hf HN Hm Hnc Hp HLw Hw. pose proof HX as [HLX _]. set (values := feature_values X f) in *.
    assert (HV : length values = N) by (unfold values; rewrite fv_length; auto).
    unfold weighted_ale, column. rewrite (rect_ncols X N F) by (auto; lia). destruct (Nat.ltb_spec f F); [|lia]. cbn [bind]. change (map (fun x => nth f x 0) X) with values.
    destruct (adaptive_grid values m) as [[q nq]|e] eqn:Hg.
    2:{ exfalso. assert (Hr : raises (adaptive_grid values m)) by (exists e; auto). apply adaptive_raises in Hr; lia. }
    cbn [bind fst]. pose proof (adaptive_proper values m q nq ltac:(lia) Hnc Hg) as HP.
    destruct HP as (Hs & HL2 & HP'). assert (HP : proper_grid m values q) by (split; [exact Hs|split; [exact HL2|exact HP']]). clear HP'.
    set (idx := bin_indices q values). assert (HI : length idx = N) by (unfold idx; rewrite idx_length; auto).
    assert (G : forall s, exists l, mapM (fun i => getitem q (i - s)) idx = Ok l /\ length l = N).
    { intros s. assert (E : mapM (fun i => getitem q (i - s)) idx = Ok (map (fun i => nth (i - s) q 0) idx)).
      { apply mapM_ok_iff. assert (Hr : forall i, In i idx -> (i - s < length q)%nat) by (intros i Hi; apply (idx_range values q m HP) in Hi; lia).
        clear -Hr. induction idx as [|i l IH]; simpl; constructor; [apply getitem_lt; apply Hr; left; auto|apply IH; intros; apply Hr; right; auto]. }
      exists (map (fun i => nth (i - s) q 0) idx). split; auto. rewrite map_length; auto. }
    destruct (G 1%nat) as (low & -> & HLl). cbn [bind].
    assert (Eh : exists high, mapM (fun i => getitem q i) idx = Ok high /\ length high = N).
    { destruct (G 0%nat) as (high & E & Hh). exists high. split; auto. rewrite <- E. apply mapM_ext. intros; f_equal; lia. }
    destruct Eh as (high & -> & HLh). cbn [bind].
    destruct (Hp (set_column store X f low)) as (pl & -> & HLpl); [rewrite set_column_length; lia|]. cbn [bind].
    destruct (Hp (set_column store X f high)) as (ph & -> & HLph); [rewrite set_column_length; lia|]. cbn [bind].
    unfold minus_arrays. rewrite HLph, HLpl, Nat.eqb_refl. cbn [bind].
    unfold idx. rewrite !(mask_members values q m HP 0) by (auto; lia). cbn [bind].
    assert (Avg : forall v k, (1 <= k < length q)%nat -> exists r, average (map (fun i => nth i v 0) (members q k values)) (map (fun i => nth i w 0) (members q k values)) = Ok r).
    { intros v k Hk. set (ws := map _ _) at 2. set (vs := map _ _). exists (Rsum (map2 Rmult ws vs) / Rsum ws).
      apply average_ok; [unfold ws, vs; rewrite !map_length; auto|]. unfold average_of. split; [|field].
      all: apply Rgt_not_eq; apply (Rsum_pos ws).
      all: try (unfold ws; intros E; apply map_eq_nil in E; apply (members_ne values q m k) in E; auto; lia).
      all: intros x Hx; unfold ws in Hx; apply in_map_iff in Hx as (i & <- & Hi); apply filter_In in Hi as [Hi _]; apply in_seq in Hi; apply Hw; lia. }
    destruct (Avg pl 1%nat) as (base & ->); [lia|]. cbn [bind].
    rewrite (keys values q m ltac:(lia) HP).
    match goal with |- context [mapM ?g (seq 1 (length q - 1))] => assert (Ea : exists avg, mapM g (seq 1 (length q - 1)) = Ok avg) end.
    { apply mapM_exists. intros k Hk. apply in_seq in Hk. cbv zeta.
      rewrite (mask_members values q m HP 0) by (try lia; rewrite map2_length; lia). cbn [bind].
      rewrite (mask_members values q m HP 0) by (try lia). cbn [bind]. apply Avg. lia. }
    destruct Ea as (avg & Ea). rewrite Ea. cbn [bind]. destruct norm; [|eauto].
    destruct (trapezoid_ok values q m HP (0 :: cumsum avg)) as (t & ->).
    { apply mapM_length in Ea. rewrite seq_length in Ea. simpl. unfold cumsum. rewrite cumsum_from_length. lia. }
    cbn [bind]. eauto.
  Qed.

  Lemma average_const w v c a : length v = length w -> (forall i, (i < length v)%nat -> nth i v 0 = c) -> average_of w v a -> a = c.
  Proof.
    intros HL Hv [Hn Ha]. assert (E : Rsum (map2 Rmult w v) = c * Rsum w).
    { clear Hn Ha. revert w HL. induction v as [|x v IH]; intros [|y w] HL; cbn in *; try lia; try ring.
      rewrite IH by (try lia; intros i Hi; apply (Hv (Datatypes.S i)); lia). pose proof (Hv 0%nat ltac:(lia)) as E. cbn in E. rewrite E. change (fold_right Rplus 0 w) with (Rsum w). ring. }
    rewrite E in Ha. nra.
  Qed.

  Lemma members_in q k values i : In i (members q k values) -> (i < length values)%nat /\ in_bin q k (nth i values 0) = true.
  Proof. intros H. apply filter_In in H as [Hi H]. apply in_seq in Hi. split; auto. lia. Qed.

  Lemma map_nth_in {A} (g : nat -> A) l i d : (i < length l)%nat -> nth i (map g l) d = g (nth i l 0%nat).
  Proof. intros H. apply (nth_map_in _ _ _ 0%nat); auto. Qed.

  (** A predictor that is a function of the feature plus something not depending on it. *)
  Lemma ale_additive X N F f g h pred w norm m q a : rect X N F -> (f < F)%nat ->
    (forall rows, pred rows = Ok (map (fun z => g (nth f z 0) + h z) rows)) -> independent_of f h ->
    is_ale store X f pred w norm m q a ->
    exists c, (forall k, (k < length q)%nat -> nth k a 0 = g (store (nth k q 0)) + c) /\
      (norm = false -> average_of (map (fun i => nth i w 0) (members q 1 (feature_values X f))) (map (fun i => h (nth i X [])) (members q 1 (feature_values X f))) c).
  Proof.
    intros HX Hf Hpred Hind (HP & HLa & low & high & pl & ph & Hlow & Hhigh & Epl & Eph & _ & _ & Hinc & Hb & _).
    pose proof HX as [HLX Hrows]. rewrite Hpred in Epl, Eph. injection Epl as <-. injection Eph as <-.
    set (values := feature_values X f) in *. assert (HV : length values = N) by (unfold values; rewrite fv_length; auto).
    assert (Hrow : forall s rows i k, moved store X f q s rows -> (1 <= k < length q)%nat -> In i (members q k values) ->
        nth i (map (fun z => g (nth f z 0) + h z) rows) 0 = g (store (nth (k - s) q 0)) + h (nth i X [])).
    { intros s rows i k [HLr Hr] Hk Hi. apply members_in in Hi as [Hi Hb']. rewrite HV in Hi.
      rewrite (nth_map_in _ _ _ []) by lia. unfold values in Hb'. rewrite fv_nth in Hb' by lia.
      destruct (Hr i k ltac:(lia) Hk Hb') as [HLi Hz].
      assert (HFi : length (nth i X []) = F) by (apply (rect_row X N F); auto).
      f_equal.
      - specialize (Hz f ltac:(lia)). rewrite Nat.eqb_refl in Hz. unfold mget in Hz. rewrite Hz. auto.
      - apply Hind; auto. intros j Hj. destruct (Nat.lt_ge_cases j F) as [HjF | HjF].
        + specialize (Hz j ltac:(lia)). rewrite (proj2 (Nat.eqb_neq j f)) in Hz by auto. exact Hz.
        + rewrite !nth_overflow by lia. auto. }
    assert (Hd : forall k, (1 <= k < length q)%nat -> nth k a 0 - nth (k - 1) a 0 = g (store (nth k q 0)) - g (store (nth (k - 1) q 0))).
    { intros k Hk. eapply average_const; [| |apply (Hinc k Hk)]; [rewrite !map_length; auto|].
      intros i Hi. rewrite map_length in Hi. rewrite map_nth_in by auto. assert (Hin : In (nth i (members q k values) 0%nat) (members q k values)) by (apply nth_In; auto).
      rewrite (Hrow 1%nat low _ k Hlow Hk Hin), (Hrow 0%nat high _ k Hhigh Hk Hin). rewrite Nat.sub_0_r. ring. }
    exists (nth 0 a 0 - g (store (nth 0 q 0))). split.
    - induction k as [|k IH]; intros Hk; [ring|]. specialize (IH ltac:(lia)). specialize (Hd (Datatypes.S k) ltac:(lia)). replace (Datatypes.S k - 1)%nat with k in Hd by lia. lra.
    - intros En. specialize (Hb En). pose proof HP as (_ & HL2 & _). destruct Hb as [Hn Hb]. split; [exact Hn|].
      set (mem := members q 1 values) in *.
      assert (E : Rsum (map2 Rmult (map (fun i => nth i w 0) mem) (map (fun i => nth i (map (fun z => g (nth f z 0) + h z) low) 0) mem)) =
                  g (store (nth 0 q 0)) * Rsum (map (fun i => nth i w 0) mem) + Rsum (map2 Rmult (map (fun i => nth i w 0) mem) (map (fun i => h (nth i X [])) mem))).
      { assert (Hm : forall i, In i mem -> nth i (map (fun z => g (nth f z 0) + h z) low) 0 = g (store (nth 0 q 0)) + h (nth i X [])).
        { intros i Hi. apply (Hrow 1%nat low i 1%nat Hlow ltac:(lia) Hi). }
        clear -Hm. induction mem as [|i l IH]; [cbn; ring|]. cbn [map map2]. rewrite !Rsum_cons, IH by (intros; apply Hm; right; auto). rewrite Hm by (left; auto). ring. }
      rewrite E in Hb. lra.
  Qed.

  (** The two variants have the same shape. *)
  Lemma wale_shift X N F f pred w m q a q' a' : rect X N F -> (0 < N)%nat -> (0 <= m)%Z ->
    wale X f pred (Some w) false m = Ok (q, a) -> wale X f pred (Some w) true m = Ok (q', a') ->
    q' = q /\ exists c, a' = map (fun x => x + c) a.
  Proof.
    intros HX HN Hm. unfold weighted_ale. repeat (match goal with |- bind ?x _ = _ -> _ => destruct x as [?|]; [cbn [bind]|discriminate] end).
    intros H H'. apply ok_pair in H as [<- <-]. apply bind_ok in H' as (t & _ & H'). apply ok_pair in H' as [<- <-]. split; auto.
    match goal with |- context [map (fun a => a + ?b) _] => exists (- t - b) end. rewrite map_map. apply map_ext. intros; ring.
  Qed.

  Lemma wale_none X f pred norm m : raises (wale X f pred None norm m).
  Proof.
    unfold weighted_ale. repeat (match goal with |- raises (bind ?x _) => destruct x as [?|]; [cbn [bind]|eexists; reflexivity] end).
    all: eexists; reflexivity.
  Qed.

  Lemma raises_dec {A} (x : result A) : raises x \/ exists v, x = Ok v.
  Proof. destruct x; [right; eauto|left; eexists; reflexivity]. Qed.

  Lemma wale_few X N F f pred w norm m : rect X N F -> (0 < N)%nat -> (0 <= m)%Z ->
    (Z.of_nat N <= m)%Z \/ (N < 3)%nat \/ (exists c, forall i, (i < N)%nat -> mget 0 X i f = c) \/ (F <= f)%nat \/ (exists l, w = Some l /\ length l <> N) ->
    raises (wale X f pred w norm m).
  Proof.
    intros HX HN Hm Hc. destruct (raises_dec (wale X f pred w norm m)) as [|[[q a] H]]; auto. exfalso.
    destruct w as [w|]; [|exact (proj1 (raises_not_ok _) (wale_none X f pred norm m) _ H)].
    destruct (wale_inv X N F f pred w norm m q a HX HN Hm H) as ((HP & _) & Hf & HLw).
    pose proof HX as [HLX _]. assert (HV : length (feature_values X f) = N) by (rewrite fv_length; auto).
    unfold weighted_ale in H. apply bind_ok in H as (values & Hcol & H). destruct (column_ok _ _ _ _ _ HX HN Hcol) as [_ ->].
    apply bind_ok in H as ((q0 & nq) & Hg & H). cbn [fst] in H. apply bind_ok in H as (low & Hl & H). apply bind_ok in H as (high & Hh & H).
    pose proof (lookup_proper _ m q0 nq high Hm Hg Hh) as HP0.
    destruct Hc as [Hc | [Hc | [[c Hc] | [Hc | (l & E & Hc)]]]]; try lia.
    - assert (Hr : raises (adaptive_grid (feature_values X f) m)) by (apply adaptive_raises; lia). exact (proj1 (raises_not_ok _) Hr _ Hg).
    - pose proof (adaptive_degenerate _ m q0 nq (or_introl (eq_ind_r (fun n => (n < 3)%nat) Hc HV)) Hg). destruct HP0 as (_ & HL2 & _). lia.
    - destruct HP0 as (Hs & HL2 & [Hi _] & [Hj _] & _). pose proof (SSlt_nth q0 0 (length q0 - 1) Hs ltac:(lia)) as Hlt.
      assert (Hcc : forall v, In v (feature_values X f) -> v = c).
      { intros v Hv. apply (In_nth _ _ 0) in Hv as (i & Hi' & <-). rewrite fv_nth by lia. apply Hc. lia. }
      rewrite (Hcc _ Hi), (Hcc _ Hj) in Hlt. lra.
    - inversion E. subst. auto.
  Qed.

  Lemma wale_additive X N F f g h pred w norm m q a : rect X N F -> (0 < N)%nat -> (0 <= m)%Z ->
    (forall rows, pred rows = Ok (map (fun z => g (nth f z 0) + h z) rows)) -> independent_of f h ->
    wale X f pred (Some w) norm m = Ok (q, a) ->
    exists c, (forall k, (k < length q)%nat -> nth k a 0 = g (store (nth k q 0)) + c) /\
      (norm = false -> average_of (map (fun i => nth i w 0) (members q 1 (feature_values X f))) (map (fun i => h (nth i X [])) (members q 1 (feature_values X f))) c).
  Proof.
    intros HX HN Hm Hp Hi H. destruct (wale_inv X N F f pred w norm m q a HX HN Hm H) as (HA & Hf & _). apply (ale_additive X N F f g h pred w norm m q a); auto.
  Qed.

  Lemma wale_additive_float X N F f g h pred w norm m q a : (forall v, store v = v) -> rect X N F -> (0 < N)%nat -> (0 <= m)%Z ->
    (forall rows, pred rows = Ok (map (fun z => g (nth f z 0) + h z) rows)) -> independent_of f h ->
    wale X f pred (Some w) norm m = Ok (q, a) ->
    exists c, (forall k, (k < length q)%nat -> nth k a 0 = g (nth k q 0) + c) /\
      (norm = false -> average_of (map (fun i => nth i w 0) (members q 1 (feature_values X f))) (map (fun i => h (nth i X [])) (members q 1 (feature_values X f))) c).
  Proof.
    intros Hs HX HN Hm Hp Hi H. destruct (wale_additive X N F f g h pred w norm m q a HX HN Hm Hp Hi H) as (c & A & B). exists c. split; auto.
    intros k Hk. rewrite A, Hs by auto. reflexivity.
  Qed.

  Lemma wale_flat X N F f h pred w norm m q a : rect X N F -> (0 < N)%nat -> (0 <= m)%Z ->
    (forall rows, pred rows = Ok (map h rows)) -> independent_of f h ->
    wale X f pred (Some w) norm m = Ok (q, a) ->
    forall k l, (k < length q)%nat -> (l < length q)%nat -> nth k a 0 = nth l a 0.
  Proof.
    intros HX HN Hm Hp Hi H k l Hk Hl. destruct (wale_additive X N F f (fun _ => 0) h pred w norm m q a HX HN Hm) as (c & A & _); auto.
    - intros rows. rewrite Hp. f_equal. apply map_ext. intros; ring.
    - rewrite (A k Hk), (A l Hl). reflexivity.
  Qed.

  Lemma wale_centred X N F f pred w m q a : rect X N F -> (0 < N)%nat -> (0 <= m)%Z ->
    wale X f pred (Some w) true m = Ok (q, a) -> centred q (feature_values X f) a.
  Proof.
    intros HX HN Hm H. destruct (wale_inv X N F f pred w true m q a HX HN Hm H) as ((_ & _ & l & h & pl & ph & _ & _ & _ & _ & _ & _ & _ & _ & Hc) & _). auto.
  Qed.
End Ale2.

Lemma wale_additive_int X N F f g h pred w norm m q a : let store v := IZR (trunc v) in rect X N F -> (0 < N)%nat -> (0 <= m)%Z ->
  (forall rows, pred rows = Ok (map (fun z => g (nth f z 0) + h z) rows)) -> independent_of f h ->
  weighted_ale store X f pred (Some w) norm m = Ok (q, a) ->
  exists c, forall k, (k < length q)%nat -> nth k a 0 = g (IZR (trunc (nth k q 0))) + c.
Proof.
  intros store HX HN Hm Hp Hi H. destruct (wale_additive store X N F f g h pred w norm m q a HX HN Hm Hp Hi H) as (c & A & _). exists c. exact A.
Qed.
