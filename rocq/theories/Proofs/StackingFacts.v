(** The stages of a stacking fit. *)
From Coq Require Import Lra Sorting.Sorted.
From Verif.Model Require Import Base Ext Csr Neighbour Distance WeightModel NumbaImpl Stacking.
From Verif.Spec Require Import KernelSpec NeighbourSpec StackingSpec.
From Verif.Proofs Require Import ListFacts KernelFacts CsrFacts ShrinkFacts NeighbourFacts SampleFacts WeightModelFacts
  NeighbourProps WeightModelProps StackingCsr.
Open Scope nat_scope.
Open Scope R_scope.

Lemma mapM_seq {A} (f : nat -> result A) n ys : mapM f (seq 0 n) = Ok ys ->
  length ys = n /\ forall i d, (i < n)%nat -> f i = Ok (nth i ys d).
Proof.
  intros H. pose proof (mapM_length _ _ _ H) as HL. rewrite seq_length in HL. split; auto.
  apply mapM_ok_iff in H. intros i d Hi.
  assert (G : forall l ys, Forall2 (fun x y => f x = Ok y) l ys -> forall i, (i < length l)%nat -> f (nth i l 0%nat) = Ok (nth i ys d)).
  { clear. induction 1; intros [|i] Hi; simpl in *; try lia; auto. apply IHForall2; lia. }
  specialize (G _ _ H i). rewrite seq_length, seq_nth in G by auto. auto.
Qed.

Section Stages.
  Context {est meta : Type}.
  Variable fit_est : nat -> matrix R -> list R -> list R -> result est.
  Variable predict_est : est -> matrix R -> result (list R).
  Variable fit_meta : R -> nat -> matrix R -> list R -> list R -> result meta.
  Variable predict_meta : meta -> matrix R -> result (list R).
  Variable solve : matrix R -> list R -> result (list R).
  Context {G : Type}.
  Variable seed0 : G.
  Variable choice : G -> list nat -> nat -> G * list nat.
  Hypothesis Hchoice : valid_choice choice.
  Hypothesis Hone : one_per_row predict_est.

  Notation fit_base := (fit_base est fit_est predict_est).
  Notation fit_bases := (fit_bases est fit_est predict_est).

  (** The base task for an observation, with the index lists spelt out. *)
  Definition ref_task (X : matrix R) (y : list R) (n : nat) (m : matrix R) (idx : nat -> list nat) (i : nat) :=
    let T := filter (fun k => Rnonzero (mget 0 m i k)) (seq 0 n) in
    fit_base i (map (fun k => nth k X []) T) (map (fun k => nth k y 0) T) (map (mget 0 m i) T)
      (map (fun k => nth k X []) (idx i)) (nth i X []).

  Lemma mask_index_take {A} (d : A) mask l : length mask = length l -> mask_index mask l = Ok (take d l (nonzero mask)).
  Proof. intros H. unfold mask_index. rewrite (proj2 (Nat.eqb_eq _ _) H). rewrite (select_take d) by lia. reflexivity. Qed.

  Lemma take_checked_ok {A} (d : A) l idx : (forall k, In k idx -> (k < length l)%nat) -> take_checked l idx = Ok (take d l idx).
  Proof.
    intros H. unfold take_checked, take. induction idx as [|k idx IH]; [reflexivity|]. cbn [mapM map].
    rewrite (getitem_lt d) by (apply H; left; auto). cbn [bind]. rewrite IH by (intros; apply H; right; auto). reflexivity.
  Qed.

  Lemma base_task_dense_ref X y m s n i : length X = n -> length y = n -> rect m n n -> rect s n n -> (i < n)%nat ->
    base_task_dense est fit_est predict_est X y m s i = ref_task X y n m (fun i => nonzero (nth i s [])) i.
  Proof.
    intros HX Hy Hm Hs Hi. unfold base_task_dense, ref_task.
    assert (Lm : length m = n) by apply Hm. assert (Ls : length s = n) by apply Hs.
    rewrite (getitem_lt []) by lia. cbn [bind]. rewrite (getitem_lt []) by lia. cbn [bind].
    pose proof (rect_row m n n i Hm Hi) as Hr. pose proof (rect_row s n n i Hs Hi) as Hr'.
    rewrite (mask_index_take []) by (rewrite map_length; lia). cbn [bind].
    rewrite (mask_index_take 0) by (rewrite map_length; lia). cbn [bind].
    rewrite (mask_index_take 0) by (rewrite map_length; lia). cbn [bind].
    rewrite (getitem_lt []) by lia. cbn [bind]. rewrite (mask_index_take []) by lia. cbn [bind].
    unfold take. rewrite nonzero_filter, map_length, Hr.
    rewrite (filter_ext_in (fun j => nth j (map Rnonzero (nth i m [])) false) (fun k => Rnonzero (mget 0 m i k))).
    - reflexivity.
    - intros k Hk. apply in_seq in Hk. unfold mget. rewrite (nth_map_in _ _ _ 0) by lia. reflexivity.
  Qed.

  Lemma base_task_sparse_ref X y m c (s : csr nat) n i idx : length X = n -> length y = n -> rect m n n -> csr_form 0 zeroR m n c ->
    c_nrows s = n -> row_indices s i = idx i -> (forall k, In k (idx i) -> (k < n)%nat) -> (i < n)%nat ->
    base_task_sparse est fit_est predict_est X y c s i = ref_task X y n m idx i.
  Proof.
    intros HX Hy Hm F Hs Ei Hidx Hi. unfold base_task_sparse, ref_task.
    assert (Lm : length m = n) by apply Hm. pose proof (form_nrows _ _ _ _ _ F) as Hc.
    unfold c_nrows in Hc, Hs.
    rewrite (getitem_lt 0%nat) by lia. cbn [bind]. rewrite (getitem_lt 0%nat) by lia. cbn [bind]. rewrite (getitem_lt []) by lia. cbn [bind].
    assert (Fz : csr_mask (mmap Rnonzero m) n (csr_where Rnonzero c)).
    { apply csr_where_form_gen; auto. apply Rnonzero_false. reflexivity. }
    assert (E1 : row_indices (csr_where Rnonzero c) i = filter (fun k => Rnonzero (mget 0 m i k)) (seq 0 n)).
    { rewrite (form_row_indices _ _ _ _ _ i Fz) by (unfold mmap; rewrite map_length; lia).
      apply filter_ext_in. intros k Hk. apply in_seq in Hk. rewrite negb_involutive.
      apply (mmap_get Rnonzero m 0 false n n i k); auto; lia. }
    assert (E2 : row_data c i = map (mget 0 m i) (filter (fun k => Rnonzero (mget 0 m i k)) (seq 0 n))).
    { rewrite (form_row_data _ _ _ _ _ i F) by lia. rewrite (form_row_indices _ _ _ _ _ i F) by lia. reflexivity. }
    rewrite E1, E2, Ei.
    rewrite (take_checked_ok []) by (intros k Hk; apply filter_In in Hk; destruct Hk as [Hk _]; apply in_seq in Hk; lia). cbn [bind].
    rewrite (take_checked_ok 0) by (intros k Hk; apply filter_In in Hk; destruct Hk as [Hk _]; apply in_seq in Hk; lia). cbn [bind].
    rewrite (take_checked_ok []) by (intros k Hk; rewrite HX; auto). cbn [bind]. reflexivity.
  Qed.

  (** What the base stage yields. *)
  Definition base_result (X : matrix R) (y : list R) (n : nat) (m : matrix R) (idx : nat -> list nat)
      (preds qs : list (list R)) (es : list est) : Prop :=
    length preds = n /\ length qs = n /\ length es = n /\
    forall j e, nth_error es j = Some e ->
      let T := filter (fun k => Rnonzero (mget 0 m j k)) (seq 0 n) in
      fit_est j (map (fun k => nth k X []) T) (map (fun k => nth k y 0) T) (map (mget 0 m j) T) = Ok e /\
      predict_est e [nth j X []] = Ok (nth j preds []) /\
      predict_est e (map (fun k => nth k X []) (idx j)) = Ok (nth j qs []).

  Lemma base_batches X y n m idx order k (task : nat -> result ((list R * list R) * est)) r :
    schedule k order -> (forall i, (i < n)%nat -> task i = ref_task X y n m idx i) ->
    run_batches order (seq 0 n) k task = Ok r ->
    base_result X y n m idx (map fst (fst r)) (map snd (fst r)) (snd r).
  Proof.
    intros HS Ht H. destruct (Nat.eq_dec k 0) as [->|Hk].
    { unfold run_batches, array_split in H. discriminate. }
    destruct r as [a b]. apply run_batches_iff in H; auto; [|lia]. destruct H as [rs [H [-> ->]]].
    rewrite (mapM_ext task (ref_task X y n m idx)) in H by (intros i Hi; apply in_seq in Hi; apply Ht; lia).
    apply mapM_seq in H. destruct H as [HL H]. unfold base_result. cbn [fst snd]. rewrite !map_length. repeat split; auto;
    (assert (Hj : nth_error (map snd rs) j = Some e) by assumption;
     assert (Hn : (j < n)%nat) by (apply nth_error_Some_lt in Hj || (assert (nth_error (map snd rs) j <> None) as Hj' by congruence; apply nth_error_Some in Hj'; rewrite map_length in Hj'; lia));
     specialize (H j ([], [], e) Hn);
     assert (Ee : snd (nth j rs ([], [], e)) = e) by (rewrite nth_error_map in Hj; rewrite (nth_error_nth' rs ([], [], e)) in Hj by lia; cbn in Hj; congruence);
     unfold ref_task, Stacking.fit_base in H; apply bind_ok in H; destruct H as [e1 [H1 H]];
     apply bind_ok in H; destruct H as [p1 [H2 H]]; apply bind_ok in H; destruct H as [q1 [H3 H]]; injection H as H;
     rewrite <- H in Ee; cbn [snd] in Ee; subst e1).
    - exact H1.
    - rewrite map_map. rewrite (nth_map_in _ _ _ ([], [], e)) by lia. rewrite <- H. exact H2.
    - rewrite map_map. rewrite (nth_map_in _ _ _ ([], [], e)) by lia. rewrite <- H. exact H3.
  Qed.

  (** X_meta_T as rows of looked-up predictions. *)
  Definition meta_ok (XT : meta_matrix) (n : nat) (idx : nat -> list nat) (qs : list (list R)) : Prop :=
    match XT with
    | XDense m => length m = n /\ forall j k, (j < n)%nat -> mget 0 m j k = lookup (idx j) (nth j qs []) k
    | XSparse c => c_nrows c = n /\ forall j, (j < n)%nat -> row_indices c j = idx j /\ row_data c j = nth j qs []
    end.

  Lemma fit_bases_dense order X y m s k n preds XT es : length X = n -> length y = n -> rect m n n -> rect s n n ->
    (forall k', k = Some k' -> schedule k' order) ->
    fit_bases order X y (SDense m) (S2Dense s) k = Ok (preds, XT, es) ->
    exists qs rows, base_result X y n m (fun i => nonzero (nth i s [])) preds qs es /\
      XT = XDense rows /\ meta_ok XT n (fun i => nonzero (nth i s [])) qs.
  Proof.
    intros HX Hy Hm Hs HS H. unfold Stacking.fit_bases in H. destruct k as [k|]; [|discriminate].
    assert (Lm : length m = n) by apply Hm. assert (Ls : length s = n) by apply Hs. rewrite Lm in H.
    apply bind_ok in H. destruct H as [r [H1 H]]. apply bind_ok in H. destruct H as [rows [H2 H]]. injection H as <- <- <-.
    apply (base_batches X y n m (fun i => nonzero (nth i s []))) in H1; auto;
      [|intros i Hi; apply base_task_dense_ref; auto].
    exists (map snd (fst r)), rows. split; [exact H1|]. split; [reflexivity|]. destruct H1 as (L1 & L2 & L3 & H1).
    assert (Lc : length (combine s (map snd (fst r))) = n) by (rewrite combine_length; lia).
    split; [rewrite (mapM_length _ _ _ H2); auto|].
    intros j k0 Hj. apply mapM_ok_iff in H2.
    assert (Hr : meta_row n (nth j s []) (nth j (map snd (fst r)) []) = Ok (nth j rows [])).
    { assert (G1 : forall l ys, Forall2 (fun x y => meta_row n (fst x) (snd x) = Ok y) l ys -> forall i, (i < length l)%nat ->
        meta_row n (fst (nth i l ([], []))) (snd (nth i l ([], []))) = Ok (nth i ys [])).
      { clear. induction 1; intros [|i] Hi; simpl in *; try lia; auto. apply IHForall2; lia. }
      specialize (G1 _ _ H2 j). rewrite Lc in G1. rewrite combine_nth in G1 by lia. apply G1; auto. }
    unfold meta_row in Hr. destruct (Nat.eqb_spec (length (nth j (map snd (fst r)) [])) (count_true (nth j s []))) as [E|E]; [|discriminate].
    injection Hr as Hr. unfold mget. rewrite <- Hr. apply put_lookup.
    - apply nonzero_NoDup.
    - intros i Hi. apply in_nonzero_lt in Hi. rewrite (rect_row s n n j Hs Hj) in Hi. auto.
    - rewrite nonzero_length. auto.
  Qed.

  Lemma fit_bases_sparse order X y m c (s : csr nat) k n idx preds XT es : length X = n -> length y = n -> rect m n n -> csr_form 0 zeroR m n c ->
    (forall i, (i < n)%nat -> row_indices s i = idx i) -> (forall i k', In k' (idx i) -> (k' < n)%nat) ->
    c_indptr s = indptr_from 0 (map idx (seq 0 n)) ->
    (forall k', k = Some k' -> schedule k' order) ->
    fit_bases order X y (SSparse c) (S2Sparse s) k = Ok (preds, XT, es) ->
    exists qs cx, base_result X y n m idx preds qs es /\ XT = XSparse cx /\ meta_ok XT n idx qs /\
      c_ncols cx = S (list_max (c_indices s)).
  Proof.
    intros HX Hy Hm F Hs Hlt Hptr HS H. unfold Stacking.fit_bases in H. destruct k as [k|]; [|discriminate].
    assert (Hns : c_nrows s = n).
    { unfold c_nrows. rewrite Hptr, indptr_from_length, map_length, seq_length. lia. }
    pose proof (form_nrows _ _ _ _ _ F) as Hc. rewrite Hc, (proj1 Hm) in H.
    apply bind_ok in H. destruct H as [r [H1 H]].
    apply (base_batches X y n m idx) in H1; auto;
      [|intros i Hi; apply base_task_sparse_ref; auto; intros; eapply Hlt; eauto].
    destruct (negb (length (concat (map snd (fst r))) =? length (c_indices s))%nat) eqn:E; [discriminate|].
    apply bind_ok in H. destruct H as [cx [H2 H]]. injection H as <- <- <-.
    exists (map snd (fst r)), cx. split; [exact H1|]. split; [reflexivity|].
    destruct H1 as (L1 & L2 & L3 & H1).
    unfold csr_infer in H2. destruct (c_indices s) as [|i0 l0] eqn:Ei; [discriminate|]. injection H2 as <-.
    assert (Hq : forall j, (j < n)%nat -> length (nth j (map snd (fst r)) []) = length (idx j)).
    { intros j Hj. destruct (nth_error (snd r) j) as [e|] eqn:Ee; [|apply nth_error_None in Ee; lia].
      destruct (H1 j e Ee) as (_ & _ & H3). apply Hone in H3. rewrite H3, map_length. reflexivity. }
    assert (Hp2 : indptr_from 0 (map idx (seq 0 n)) = indptr_from 0 (map snd (fst r))).
    { apply indptr_from_lengths. apply (list_eq_nth 0%nat); [rewrite !map_length, seq_length; rewrite map_length in L2; auto|].
      intros j Hj. rewrite !map_length, seq_length in Hj. rewrite map_map.
      rewrite (nth_map_in _ _ _ 0%nat) by (rewrite seq_length; auto). rewrite seq_nth by auto. cbn [Nat.add].
      rewrite (nth_map_in (@length R) _ _ []) by lia. symmetry. apply Hq; auto. }
    split.
    - split; [unfold c_nrows; cbn [c_indptr]; rewrite Hptr, indptr_from_length, map_length, seq_length; lia|].
      intros j Hj. split.
      + rewrite <- (Hs j Hj). unfold row_indices, row_slice. cbn [c_indices c_indptr]. rewrite Ei. reflexivity.
      + unfold row_data, row_slice. cbn [c_data c_indptr]. rewrite Hptr, Hp2. apply slice_concat. lia.
    - reflexivity.
  Qed.

  (** ** The meta loop *)
  Lemma meta_loop_ok {A} (task : G -> nat -> result (G * A)) is : forall g g' rs,
    meta_loop G task g is = Ok (g', rs) ->
    length rs = length is /\
    forall k d, (k < length is)%nat -> exists g1 g2, task g1 (nth k is 0%nat) = Ok (g2, nth k rs d).
  Proof.
    induction is as [|i is IH]; intros g g' rs H; cbn [meta_loop] in H.
    - injection H as <- <-. split; [reflexivity|]. intros k d Hk. simpl in Hk. lia.
    - apply bind_ok in H. destruct H as [a [H1 H]]. apply bind_ok in H. destruct H as [b [H2 H]]. injection H as <- <-.
      destruct b as [g2 rs']. destruct (IH _ _ _ H2) as [HL IH']. cbn [fst snd]. split; [simpl; lia|].
      intros [|k] d Hk; simpl in Hk.
      + exists g, (fst a). cbn [nth]. rewrite H1. destruct a; reflexivity.
      + cbn [nth]. apply IH'. lia.
  Qed.

  Lemma one_each_ok preds ps : one_each preds = Ok ps -> length ps = length preds /\
    forall i, (i < length preds)%nat -> nth i preds [] = [nth i ps 0].
  Proof.
    intros H. split; [apply (mapM_length _ _ _ H)|]. apply mapM_ok_iff in H. induction H as [|p x l ps Hx HF IH]; intros i Hi; simpl in Hi; [lia|].
    destruct i; cbn [nth]; [|apply IH; lia]. destruct p as [|a [|b p]]; congruence.
  Qed.
End Stages.
