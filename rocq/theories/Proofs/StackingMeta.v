(** The meta stage of a stacking fit. *)
From Coq Require Import Lra Sorting.Sorted.
From Verif.Model Require Import Base Ext Csr Neighbour Distance WeightModel NumbaImpl Stacking.
From Verif.Spec Require Import KernelSpec NeighbourSpec StackingSpec.
From Verif.Proofs Require Import ListFacts KernelFacts CsrFacts ShrinkFacts NeighbourFacts SampleFacts WeightModelFacts
  NeighbourProps WeightModelProps StackingCsr StackingFacts.
Open Scope nat_scope.
Open Scope R_scope.

Lemma nonzero_row (M : matrix bool) n i : rect M n n -> (i < n)%nat ->
  nonzero (nth i M []) = filter (fun j => mget false M i j) (seq 0 n).
Proof. intros HM Hi. rewrite nonzero_filter, (rect_row M n n i HM Hi). reflexivity. Qed.

Lemma meta_points_nonzero W n i : rect W n n -> (i < n)%nat -> nonzero (nth i (candidates W) []) = meta_points n W i.
Proof.
  intros HW Hi. rewrite (nonzero_row _ n) by (auto; apply candidates_rect; auto). apply filter_ext_in. intros j Hj. apply in_seq in Hj.
  unfold mget. rewrite (candidates_nth W n i j) by (auto; lia). reflexivity.
Qed.

Lemma evaluated_lt n W L j k : In k (evaluated n W L j) -> (k < n)%nat.
Proof. intros H. apply filter_In in H. destruct H as [H _]. apply in_seq in H. lia. Qed.
Lemma evaluated_in n W L i j k : (i < n)%nat -> (k < n)%nat -> mget false L i j = true -> 0 < mget 0 W i k ->
  In k (evaluated n W L j).
Proof.
  intros Hi Hk H1 H2. apply filter_In. split; [apply in_seq; lia|]. apply existsb_exists. exists i.
  split; [apply in_seq; lia|]. rewrite H1. apply Rltb_true in H2. rewrite H2. reflexivity.
Qed.
Lemma evaluated_sorted n W L j : StronglySorted lt (evaluated n W L j).
Proof. apply filter_sorted, seq_sorted. Qed.
Lemma evaluated_NoDup n W L j : NoDup (evaluated n W L j).
Proof. apply StronglySorted_lt_NoDup, evaluated_sorted. Qed.
Lemma meta_points_in n W i k : In k (meta_points n W i) <-> (k < n)%nat /\ 0 < mget 0 W i k /\ k <> i.
Proof.
  unfold meta_points. rewrite filter_In, in_seq, andb_true_iff, Rltb_true, negb_true_iff, Nat.eqb_neq. split; intros; repeat split; try tauto; lia.
Qed.
Lemma meta_bases_in n L i j : In j (meta_bases n L i) <-> (j < n)%nat /\ mget false L i j = true.
Proof. unfold meta_bases. rewrite filter_In, in_seq. split; intros; repeat split; try tauto; lia. Qed.
Lemma meta_points_evaluated n W L i j k : (i < n)%nat -> In j (meta_bases n L i) -> In k (meta_points n W i) -> In k (evaluated n W L j).
Proof.
  intros Hi Hj Hk. apply meta_bases_in in Hj. apply meta_points_in in Hk. apply (evaluated_in n W L i); tauto.
Qed.

Lemma fill_left_exact vals n : length vals = n -> fill_left n vals = vals.
Proof. intros <-. unfold fill_left. rewrite firstn_app, Nat.sub_diag, firstn_all. cbn [firstn]. apply app_nil_r. Qed.

Lemma filter_sublist idx nb : StronglySorted lt idx -> StronglySorted lt nb -> (forall k, In k nb -> In k idx) ->
  filter (fun k => existsb (Nat.eqb k) nb) idx = nb.
Proof.
  intros H1 H2 H. apply StronglySorted_lt_ext; auto; [apply filter_sorted; auto|].
  intros k. rewrite filter_In, existsb_in. split; [tauto|auto].
Qed.

Lemma numba_row idx q nb : StronglySorted lt idx -> StronglySorted lt nb -> (forall k, In k nb -> In k idx) -> length q = length idx ->
  fill_left (length nb) (map snd (filter (fun e => existsb (Nat.eqb (fst e)) nb) (combine idx q))) = map (lookup idx q) nb.
Proof.
  intros H1 H2 H Hq. rewrite <- (lookup_self idx q) at 1 by (auto; apply StronglySorted_lt_NoDup; auto).
  assert (E : combine idx (map (lookup idx q) idx) = map (fun k => (k, lookup idx q k)) idx).
  { rewrite <- (map_id idx) at 1. apply (combine_map_map (fun k => k) (lookup idx q)). }
  rewrite E, filter_map_comm, map_map. cbn [fst snd]. rewrite filter_sublist by auto.
  apply fill_left_exact. apply map_length.
Qed.

Lemma break_lookup i idx : forall q garbage, length q = length idx ->
  nth (break_index i idx) q garbage = if existsb (Nat.eqb i) idx then lookup idx q i else last q garbage.
Proof.
  induction idx as [|x idx IH]; intros q garbage Hq; destruct q as [|v q]; try discriminate; [reflexivity|].
  cbn [break_index existsb]. unfold lookup. cbn [combine find fst].
  rewrite (Nat.eqb_sym i x). destruct (Nat.eqb_spec x i) as [->|Hx]; [reflexivity|]. cbn [orb].
  destruct idx as [|x' idx']; [destruct q; [reflexivity|discriminate]|].
  cbn [nth]. rewrite IH by (simpl in *; lia). fold (lookup (x' :: idx') q i).
  destruct (existsb (Nat.eqb i) (x' :: idx')); [reflexivity|]. destruct q; [discriminate|reflexivity].
Qed.

Section Meta.
  Context {est meta : Type}.
  Variable fit_meta : R -> nat -> matrix R -> list R -> list R -> result meta.
  Variable predict_meta : meta -> matrix R -> result (list R).
  Variable solve : matrix R -> list R -> result (list R).
  Context {G : Type}.
  Variable choice : G -> list nat -> nat -> G * list nat.
  Hypothesis Hchoice : valid_choice choice.

  Lemma put_first n : (0 < n)%nat -> nonzero (put (repeat false n) [0%nat] [true]) = [0%nat].
  Proof.
    destruct n; [lia|]. intros _. cbn [repeat put combine fold_left list_set fst snd].
    unfold nonzero. cbn [nonzero_from]. f_equal. rewrite nonzero_from_shift.
    assert (E : nonzero (repeat false n) = []).
    { rewrite nonzero_filter. clear. induction (seq 0 (length (repeat false n))) as [|a l IH]; [reflexivity|]. cbn [filter].
      destruct (Nat.lt_ge_cases a n); [rewrite nth_repeat|rewrite nth_overflow by (rewrite repeat_length; auto)]; auto. }
    rewrite E. reflexivity.
  Qed.

  Lemma sample_estimators_ok g rate n i sample g' sample' c : (0 < n)%nat -> nth i sample false = true -> length sample = n ->
    sc_estimator_rate c = rate -> (i < n)%nat ->
    sample_estimators G choice g rate n i sample = Ok (g', sample') ->
    length sample' = n /\
    nonzero sample' = match rate with Some r => firstn (Z.to_nat (Rceil r)) [0%nat] | None => nonzero sample end
    /\ (rate = None -> g' = g).
  Proof.
    intros Hn Hi HL Hc Hlt H. unfold sample_estimators in H. destruct rate as [r|]; [|injection H as <- <-; auto].
    rewrite (getitem_lt false) in H by lia. rewrite Hi in H. cbn [bind] in H.
    apply bind_ok in H. destruct H as [[g1 d] [H1 H]]. cbn [fst snd] in H. injection H as <- <-.
    split; [rewrite put_length, repeat_length; auto|]. split; [|discriminate].
    change (nonzero [true]) with [0%nat] in H1. cbn [length] in H1. change (INR 1) with 1 in H1. rewrite Rmult_1_l in H1.
    unfold draw in H1. destruct (_ || _) eqn:E in H1; [discriminate|]. apply orb_false_elim in E. destruct E as [E1 E2].
    apply Z.ltb_ge in E1. apply Z.ltb_ge in E2. cbn [length] in E2. injection H1 as H1.
    assert (Hs : (Z.to_nat (Rceil r) <= length [0%nat])%nat) by (cbn [length]; lia).
    destruct (Hchoice g [0%nat] (Z.to_nat (Rceil r)) Hs) as [HL1 [rest HP]]. rewrite H1 in HL1, HP. cbn [snd] in HL1, HP.
    destruct (Z.to_nat (Rceil r)) as [|[|k]] eqn:Ek; [| |cbn [length] in Hs; lia].
    - destruct d; [|discriminate]. cbn [map firstn]. unfold put. cbn [combine fold_left].
      rewrite nonzero_filter. clear. induction (seq 0 (length (repeat false n))) as [|a l IH]; [reflexivity|]. cbn [filter].
      destruct (Nat.lt_ge_cases a n); [rewrite nth_repeat|rewrite nth_overflow by (rewrite repeat_length; auto)]; auto.
    - destruct d as [|a [|b d]]; try discriminate. cbn [app] in HP.
      assert (a = 0%nat).
      { assert (In a [0%nat]) as Ha by (eapply Permutation_in; [symmetry; exact HP|left; auto]). destruct Ha as [<-|[]]; auto. }
      subst a. cbn [map]. rewrite put_first by auto. reflexivity.
  Qed.

  Lemma select_nth_error {A} mask (l : list A) : length mask = length l ->
    Forall2 (fun j e => nth_error l j = Some e) (nonzero mask) (select mask l).
  Proof.
    revert l. induction mask as [|b mask IH]; intros [|x l] H; try discriminate; [constructor|].
    unfold nonzero. cbn [nonzero_from select]. rewrite nonzero_from_shift.
    assert (F : Forall2 (fun j e => nth_error (x :: l) j = Some e) (map (Nat.add 1) (nonzero mask)) (select mask l)).
    { specialize (IH l ltac:(simpl in H; lia)). induction IH; [constructor|]. cbn [map]. constructor; auto. }
    destruct b; [constructor; auto|auto].
  Qed.

  Lemma meta_dense_ok c m W' L rows (es : list est) n qs y g i g' p se :
    rect W' n n -> rect L n n -> mget false L i i = true -> length es = n -> length y = n -> (i < n)%nat ->
    meta_ok (XDense rows) n (evaluated n W' L) qs ->
    meta_task_dense est meta fit_meta predict_meta G choice (sc_alpha c) (sc_estimator_rate c) y W' (candidates W') L rows es g i = Ok (g', (p, se)) ->
    exists mm bases,
      let C := used_bases c (SDense m) n L i in
      let T := meta_points n W' i in
      let entry j k := lookup (evaluated n W' L j) (nth j qs []) k in
      se = StackingEstimator est meta (MFitted meta mm) bases /\
      Forall2 (fun j e => nth_error es j = Some e) C bases /\
      fit_meta (sc_alpha c) (length C) (map (fun k => map (fun j => entry j k) C) T) (map (fun k => nth k y 0) T) (map (mget 0 W' i) T) = Ok mm /\
      predict_meta mm [map (fun j => entry j i) C] = Ok p.
  Proof.
    intros HW HL Hd He Hy Hi [Hr Hm] H. unfold meta_task_dense in H. rewrite Hr in H.
    apply bind_ok in H. destruct H as [[g1 sample] [H1 H]]. cbn [fst snd] in H.
    assert (Hn : (0 < n)%nat) by lia.
    destruct (sample_estimators_ok _ _ _ _ _ _ _ c Hn Hd (rect_row L n n i HL Hi) eq_refl Hi H1) as (Ls & Es & _).
    rewrite (meta_points_nonzero W' n i HW Hi) in H.
    assert (EC : nonzero sample = used_bases c (SDense m) n L i).
    { rewrite Es. unfold used_bases. destruct (sc_estimator_rate c); auto. rewrite (nonzero_row L n) by auto. reflexivity. }
    rewrite EC in H. apply bind_ok in H. destruct H as [mm [H2 H]]. apply bind_ok in H. destruct H as [p' [H3 H]].
    injection H as <- <- <-. exists mm, (select sample es). cbv zeta.
    assert (HC : forall j, In j (used_bases c (SDense m) n L i) -> (j < n)%nat).
    { intros j Hj. rewrite <- EC in Hj. apply in_nonzero_lt in Hj. lia. }
    split; [reflexivity|]. split; [rewrite <- EC; apply select_nth_error; lia|]. split.
    - rewrite <- H2. f_equal. apply map_ext. intros k. apply map_ext_in. intros j Hj. symmetry. apply Hm. auto.
    - rewrite <- H3. do 2 f_equal. apply map_ext_in. intros j Hj. symmetry. apply Hm. auto.
  Qed.

  Lemma csr_take_ok c i idx v : csr_take c i idx = Ok v -> v = map (csr_get c i) idx /\ (i < c_nrows c)%nat.
  Proof.
    unfold csr_take. destruct (_ || _) eqn:E; [discriminate|]. apply orb_false_elim in E. destruct E as [E _].
    apply Nat.leb_gt in E. intros H. injection H as <-. auto.
  Qed.

  Lemma take_checked_inv {A} (l : list A) idx v : take_checked l idx = Ok v -> Forall2 (fun j e => nth_error l j = Some e) idx v.
  Proof.
    intros H. apply mapM_ok_iff in H. induction H; constructor; auto. apply getitem_ok. auto.
  Qed.

  Lemma csr_get_transpose cx n (idx : nat -> list nat) qs i j : meta_ok (XSparse cx) n idx qs -> (i < c_ncols cx)%nat -> (j < n)%nat ->
    (forall j, NoDup (idx j)) -> (forall j, (j < n)%nat -> length (nth j qs []) = length (idx j)) ->
    csr_get (csr_transpose cx) i j = lookup (idx j) (nth j qs []) i.
  Proof.
    intros [Hn H] Hi Hj HN HL. rewrite csr_get_lookup.
    unfold csr_transpose. set (rows := tabulate (c_ncols cx) _).
    assert (Hr : (i < length rows)%nat) by (unfold rows; rewrite tabulate_length; auto).
    rewrite row_indices_of_rows, row_data_of_rows by auto. unfold lookup at 1. rewrite combine_fst_snd.
    unfold rows. rewrite tabulate_nth by auto. clear rows Hr.
    assert (E : csr_rows cx = map (fun j => combine (idx j) (nth j qs [])) (seq 0 n)).
    { unfold csr_rows. rewrite Hn. apply map_ext_in. intros k Hk. apply in_seq in Hk. destruct (H k ltac:(lia)) as [-> ->]. reflexivity. }
    rewrite E. clear E. unfold mapi.
    assert (G0 : forall m k, (k <= j)%nat -> (j < k + m)%nat -> (k + m <= n)%nat ->
      find (fun e => (fst e =? j)%nat)
        (concat (mapi_from k (fun i0 r => map (fun e => (i0, snd e)) (filter (fun e => (fst e =? i)%nat) r)) (map (fun j => combine (idx j) (nth j qs [])) (seq k m)))) =
      match find (fun e => (fst e =? i)%nat) (combine (idx j) (nth j qs [])) with Some e => Some (j, snd e) | None => None end).
    { induction m as [|m IH]; intros k H1 H2 H3; [lia|]. cbn [seq map mapi_from concat].
      assert (Hfa : forall {A} (p : A -> bool) l l', find p (l ++ l') = match find p l with Some x => Some x | None => find p l' end).
      { clear. intros A p l l'. induction l; simpl; auto. destruct (p a); auto. }
      rewrite Hfa. destruct (Nat.eq_dec k j) as [->|Hk].
      - set (l := combine (idx j) (nth j qs [])).
        assert (F1 : find (fun e => (fst e =? j)%nat) (map (fun e : nat * R => (j, snd e)) (filter (fun e => (fst e =? i)%nat) l)) =
                     match find (fun e => (fst e =? i)%nat) l with Some e => Some (j, snd e) | None => None end).
        { clear. induction l as [|a l IHl]; [reflexivity|]. cbn [filter find]. destruct (fst a =? i)%nat; cbn [map find fst]; [rewrite Nat.eqb_refl; reflexivity|exact IHl]. }
        rewrite F1. destruct (find (fun e => (fst e =? i)%nat) l); [reflexivity|].
        assert (F2 : forall rs k', (j < k')%nat -> find (fun e => (fst e =? j)%nat)
          (concat (mapi_from k' (fun i0 (r : list (nat * R)) => map (fun e => (i0, snd e)) (filter (fun e => (fst e =? i)%nat) r)) rs)) = None).
        { clear -Hfa. induction rs as [|r rs IHr]; intros k' Hk'; [reflexivity|]. cbn [mapi_from concat]. rewrite Hfa.
          assert (F3 : find (fun e => (fst e =? j)%nat) (map (fun e : nat * R => (k', snd e)) (filter (fun e => (fst e =? i)%nat) r)) = None).
          { induction (filter (fun e => (fst e =? i)%nat) r) as [|a l IHl]; [reflexivity|]. cbn [map find fst].
            destruct (Nat.eqb_spec k' j); [lia|auto]. }
          rewrite F3. apply IHr. lia. }
        apply F2. lia.
      - assert (F3 : find (fun e => (fst e =? j)%nat) (map (fun e : nat * R => (k, snd e)) (filter (fun e => (fst e =? i)%nat) (combine (idx k) (nth k qs [])))) = None).
        { induction (filter (fun e => (fst e =? i)%nat) (combine (idx k) (nth k qs []))) as [|a l IHl]; [reflexivity|]. cbn [map find fst].
          destruct (Nat.eqb_spec k j); [lia|auto]. }
        rewrite F3. apply IH; lia. }
    rewrite G0 by lia. unfold lookup. destruct (find _ (combine (idx j) (nth j qs []))); reflexivity.
  Qed.

  Lemma mask_row_indices M n cm i : rect M n n -> csr_mask M n cm -> (i < n)%nat -> row_indices cm i = filter (fun j => mget false M i j) (seq 0 n).
  Proof.
    intros HM F Hi. rewrite (form_row_indices _ _ _ _ _ i F) by (destruct HM; lia).
    apply filter_ext. intros j. apply negb_involutive.
  Qed.

  Lemma points_row_indices W n cn i : rect W n n -> csr_mask (candidates W) n cn -> (i < n)%nat -> row_indices cn i = meta_points n W i.
  Proof.
    intros HW F Hi. rewrite (mask_row_indices (candidates W) n cn i) by (auto; apply candidates_rect; auto).
    rewrite <- (nonzero_row _ n) by (auto; apply candidates_rect; auto). apply meta_points_nonzero; auto.
  Qed.

  Lemma mapM_all {A B} (f : A -> result B) (h : A -> B) l v : mapM f l = Ok v -> (forall x y, In x l -> f x = Ok y -> y = h x) -> v = map h l.
  Proof.
    intros H. apply mapM_ok_iff in H. induction H; intros Hh; [reflexivity|]. cbn [map]. f_equal; [apply Hh; [left; auto|auto]|].
    apply IHForall2. intros; apply Hh; [right; auto|auto].
  Qed.

  Lemma meta_sparse_ok c m W' cW' L cL cn cx (es : list est) n qs y g i g' p se :
    rect W' n n -> csr_form 0 zeroR W' n cW' -> rect L n n -> csr_mask L n cL -> csr_mask (candidates W') n cn ->
    length es = n -> length y = n -> (i < n)%nat ->
    meta_ok (XSparse cx) n (evaluated n W' L) qs ->
    (forall j, (j < n)%nat -> length (nth j qs []) = length (evaluated n W' L j)) ->
    meta_task_sparse est meta fit_meta predict_meta G (sc_alpha c) y cW' cn cL cx es g i = Ok (g', (p, se)) ->
    exists mm bases,
      let C := used_bases c (SSparse m) n L i in
      let T := meta_points n W' i in
      let entry j k := lookup (evaluated n W' L j) (nth j qs []) k in
      se = StackingEstimator est meta (MFitted meta mm) bases /\
      Forall2 (fun j e => nth_error es j = Some e) C bases /\
      fit_meta (sc_alpha c) (length C) (map (fun k => map (fun j => entry j k) C) T) (map (fun k => nth k y 0) T) (map (mget 0 W' i) T) = Ok mm /\
      predict_meta mm [map (fun j => entry j i) C] = Ok p.
  Proof.
    intros HW FW HL FL Fn He Hy Hi Hm Hq H. unfold meta_task_sparse in H.
    rewrite (points_row_indices W' n cn i) in H by auto.
    assert (EC : used_bases c (SSparse m) n L i = meta_bases n L i) by (unfold used_bases; destruct (sc_estimator_rate c); auto).
    assert (El : row_indices cL i = meta_bases n L i) by (apply mask_row_indices; auto).
    rewrite El in H. rewrite EC. set (C := meta_bases n L i) in *. set (T := meta_points n W' i) in *.
    assert (HC : forall j, In j C -> (j < n)%nat) by (intros j Hj; apply meta_bases_in in Hj; tauto).
    apply bind_ok in H. destruct H as [XT [H1 H]]. apply bind_ok in H. destruct H as [yf [H2 H]].
    apply bind_ok in H. destruct H as [wf [H3 H]]. apply bind_ok in H. destruct H as [mm [H4 H]].
    apply bind_ok in H. destruct H as [x [H5 H]]. apply bind_ok in H. destruct H as [p' [H6 H]].
    apply bind_ok in H. destruct H as [bs [H7 H]]. injection H as <- <- <-.
    destruct Hm as [Hcx Hm].
    assert (EX : XT = map (fun j => map (fun k => lookup (evaluated n W' L j) (nth j qs []) k) T) C).
    { apply (mapM_all _ _ _ _ H1). intros j v Hj Hv. apply csr_take_ok in Hv. destruct Hv as [-> _]. apply map_ext. intros k.
      rewrite csr_get_lookup. destruct (Hm j (HC j Hj)) as [-> ->]. reflexivity. }
    rewrite EX, transpose_map in H4.
    assert (EY : yf = map (fun k => nth k y 0) T).
    { rewrite (take_checked_ok 0) in H2; [injection H2 as <-; reflexivity|]. intros k Hk. apply meta_points_in in Hk. lia. }
    assert (EW : wf = map (mget 0 W' i) T).
    { apply csr_take_ok in H3. destruct H3 as [-> _]. apply map_ext. intros k. apply (form_get W' n); auto. }
    assert (Ex : x = map (fun j => lookup (evaluated n W' L j) (nth j qs []) i) C).
    { apply csr_take_ok in H5. destruct H5 as [-> H5]. apply map_ext_in. intros j Hj.
      unfold csr_transpose in H5. rewrite c_nrows_of_rows, tabulate_length in H5.
      apply (csr_get_transpose cx n (evaluated n W' L)); auto; [split; auto|]. intros; apply evaluated_NoDup. }
    exists mm, bs. cbv zeta. split; [reflexivity|]. split; [apply take_checked_inv; auto|].
    rewrite EY, EW in H4. rewrite Ex in H6. split; [exact H4|exact H6].
  Qed.

  Lemma meta_numba_ok c m garbage W' cW' L cL cn cx n qs y i coef b v score :
    rect W' n n -> csr_form 0 zeroR W' n cW' -> rect L n n -> csr_mask L n cL -> csr_mask (candidates W') n cn ->
    (forall k, (k < n)%nat -> 0 <= mget 0 W' i k) -> length y = n -> (i < n)%nat ->
    meta_ok (XSparse cx) n (evaluated n W' L) qs ->
    (forall j, (j < n)%nat -> length (nth j qs []) = length (evaluated n W' L j)) ->
    meta_task_numba solve (sc_alpha c) garbage y cW' cn cL cx i = Ok (coef, b, Fin v, score) ->
    let C := used_bases c (SSparse m) n L i in
    let T := meta_points n W' i in
    let entry j k := lookup (evaluated n W' L j) (nth j qs []) k in
    let input j := if existsb (Nat.eqb i) (evaluated n W' L j) then entry j i else last (nth j qs []) garbage in
    row_indices cL i = C /\
    exists b', b = Fin b' /\
    ridge_cholesky solve (length C) (map (fun k => map (fun j => entry j k) C) T) (map (fun k => nth k y 0) T)
       (sc_alpha c) (map (mget 0 W' i) T) = Ok (coef, Fin b') /\ v = dot (map input C) coef + b'.
  Proof.
    intros HW FW HL FL Fn Hpos Hy Hi Hm Hq H. unfold meta_task_numba in H. cbv zeta.
    rewrite (points_row_indices W' n cn i) in H by auto.
    assert (EC : used_bases c (SSparse m) n L i = meta_bases n L i) by (unfold used_bases; destruct (sc_estimator_rate c); auto).
    assert (El : row_indices cL i = meta_bases n L i) by (apply mask_row_indices; auto).
    rewrite El in *. rewrite EC. split; [reflexivity|]. set (C := meta_bases n L i) in *. set (T := meta_points n W' i) in *.
    assert (HC : forall j, In j C -> (j < n)%nat) by (intros j Hj; apply meta_bases_in in Hj; tauto).
    assert (ET : filter (fun k => negb (k =? i)%nat) T = T).
    { apply filter_all. intros k Hk. apply meta_points_in in Hk. apply negb_true_iff, Nat.eqb_neq. tauto. }
    rewrite ET in H.
    assert (HT : StronglySorted lt T) by (apply filter_sorted, seq_sorted).
    destruct Hm as [Hcx Hm].
    assert (EX : map (fun j => fill_left (length T) (map snd (filter (fun e => existsb (Nat.eqb (fst e)) T) (combine (row_indices cx j) (row_data cx j))))) C =
                 map (fun j => map (fun k => lookup (evaluated n W' L j) (nth j qs []) k) T) C).
    { apply map_ext_in. intros j Hj. destruct (Hm j (HC j Hj)) as [-> ->]. apply numba_row; auto.
      - apply evaluated_sorted.
      - intros k Hk. apply (meta_points_evaluated n W' L i j k); auto. }
    rewrite EX, transpose_map in H.
    assert (EW : map snd (filter (fun e => negb (fst e =? i)%nat) (combine (row_indices cW' i) (row_data cW' i))) = map (mget 0 W' i) T).
    { rewrite (form_row_data _ _ _ _ _ i FW) by (destruct HW; lia).
      rewrite (form_row_indices _ _ _ _ _ i FW) by (destruct HW; lia).
      rewrite <- (map_id (filter _ (seq 0 n))) at 1.
      rewrite (combine_map_map (fun k => k) (fun j => nth j (nth i W' []) 0)), filter_map_comm, map_map, filter_filter. cbn [fst snd].
      unfold T, meta_points. rewrite (filter_ext_in (fun k => Rltb 0 (mget 0 W' i k) && negb (k =? i)%nat)
         (fun x => negb (zeroR (nth x (nth i W' []) 0)) && negb (x =? i)%nat)); [reflexivity|].
      intros k Hk. apply in_seq in Hk. f_equal. specialize (Hpos k ltac:(lia)). unfold mget in *. unfold zeroR.
      destruct (Req_EM_T (nth k (nth i W' []) 0) 0) as [E|E].
      - rewrite E. rewrite (proj2 (Reqb_true 0 0)) by auto. apply Rltb_false. lra.
      - rewrite (proj2 (Reqb_false _ _)) by auto. apply Rltb_true. lra. }
    rewrite EW in H.
    assert (Ex : map (fun j => nth (break_index i (row_indices cx j)) (row_data cx j) garbage) C =
                 map (fun j => if existsb (Nat.eqb i) (evaluated n W' L j) then lookup (evaluated n W' L j) (nth j qs []) i else last (nth j qs []) garbage) C).
    { apply map_ext_in. intros j Hj. destruct (Hm j (HC j Hj)) as [-> ->]. apply break_lookup; auto. }
    rewrite Ex in H. apply bind_ok in H. destruct H as [[co b0] [H1 H]]. injection H as <- <- H _.
    destruct b0 as [b'| | |]; cbn [eadd] in H; try discriminate.
    exists b'. split; [reflexivity|]. split; [exact H1|]. congruence.
  Qed.
End Meta.
