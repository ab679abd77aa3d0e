From Coq Require Import Lra Psatz.
From Verif.Model Require Import Base Ext Sort Csr Neighbour Distance WeightModel.
From Verif.Spec Require Import KernelSpec NeighbourSpec WeightModelSpec.
From Verif.Proofs Require Import ListFacts KernelFacts SortFacts CsrFacts NeighbourFacts ShrinkFacts SampleFacts.
Require Import Sorting.Sorted.
Open Scope nat_scope.
Open Scope R_scope.

(** ** parallel *)
Lemma parallel_slots {A} (tasks : list (result A)) order : forall slots out,
  fold_left (fun acc k => slots <- acc ;; r <- nth k tasks (Raise IndexError) ;; Ok (list_set slots k (Some r)))
    order (Ok slots) = Ok out ->
  length out = length slots /\
  (forall k, In k order -> exists r, nth k tasks (Raise IndexError) = Ok r) /\
  forall k, (k < length slots)%nat -> nth k out None =
    if in_dec Nat.eq_dec k order then match nth k tasks (Raise IndexError) with Ok r => Some r | Raise _ => None end else nth k slots None.
Proof.
  induction order as [|x order IH]; intros slots out H; cbn [fold_left] in H.
  - injection H as <-. split; auto. split; [intros k []|]. intros k Hk. reflexivity.
  - cbn [bind] in H. destruct (nth x tasks (Raise IndexError)) as [r|e] eqn:Ex; cbn [bind] in H.
    + apply IH in H as (H1 & H2 & H3). rewrite list_set_length in H1. split; auto. split.
      * intros k [<-|Hk]; eauto.
      * intros k Hk. rewrite H3 by (rewrite list_set_length; auto).
        destruct (in_dec Nat.eq_dec k order) as [Hi|Hi]; destruct (in_dec Nat.eq_dec k (x :: order)) as [Hj|Hj];
          try (exfalso; apply Hj; right; exact Hi); auto.
        -- destruct Hj as [->|Hj]; [|contradiction]. rewrite list_set_nth_eq by auto. rewrite Ex. reflexivity.
        -- rewrite list_set_nth_neq; auto. intros ->. apply Hj. left; auto.
    + exfalso. clear -H. induction order; simpl in H; [discriminate|auto].
Qed.

Lemma parallel_total {A} (tasks : list (result A)) order :
  (forall k, In k order -> exists r, nth k tasks (Raise IndexError) = Ok r) -> forall slots,
  exists out, fold_left (fun acc k => slots <- acc ;; r <- nth k tasks (Raise IndexError) ;; Ok (list_set slots k (Some r)))
    order (Ok slots) = Ok out.
Proof.
  induction order as [|x order IH]; intros H slots; simpl; [eauto|].
  destruct (H x) as [r Hr]; [left; auto|]. rewrite Hr. cbn [bind]. apply IH. intros k Hk. apply H. right; auto.
Qed.

Lemma schedule_in n order k : schedule n order -> (In k order <-> (k < n)%nat).
Proof.
  intros H. split; intros Hk.
  - apply (Permutation_in _ H) in Hk. apply in_seq in Hk. lia.
  - apply (Permutation_in _ (Permutation_sym H)). apply in_seq. lia.
Qed.

Lemma parallel_ok {A} (tasks : list (result A)) order rs :
  schedule (length tasks) order ->
  (parallel order tasks = Ok rs <-> Forall2 (fun t r => t = Ok r) tasks rs).
Proof.
  intros HS. unfold parallel. split.
  - intros H. apply bind_ok in H as [slots [H1 H2]]. apply parallel_slots in H1 as (HL & Hin & Hn).
    rewrite repeat_length in HL, Hn. apply mapM_ok_iff in H2. pose proof (Forall2_len _ _ _ H2) as HL2.
    assert (Hall : forall k, (k < length tasks)%nat -> exists r, nth k tasks (Raise IndexError) = Ok r /\ nth k slots None = Some r).
    { intros k Hk. destruct (Hin k) as [r Hr]; [apply (schedule_in _ _ _ HS); auto|]. exists r. split; auto.
      rewrite Hn by auto. destruct (in_dec Nat.eq_dec k order) as [|Hno]; [rewrite Hr; auto|].
      exfalso. apply Hno. apply (schedule_in _ _ _ HS); auto. }
    clear -HL H2 Hall. revert tasks HL Hall. induction H2 as [|s r slots rs Hs _ IH]; intros [|t tasks] HL Hall; simpl in HL; try lia; constructor.
    + destruct (Hall 0%nat) as [r' [H1 H2]]; [simpl; lia|]. simpl in *. subst. congruence.
    + apply IH; [lia|]. intros k Hk. apply (Hall (S k)). simpl. lia.
  - intros HF.
    assert (Hall : forall k, In k order -> exists r, nth k tasks (Raise IndexError) = Ok r).
    { intros k Hk. apply (schedule_in _ _ _ HS) in Hk. clear HS. revert k Hk. induction HF; intros [|k] Hk; simpl in *; try lia; eauto. apply IHHF; lia. }
    destruct (parallel_total tasks order Hall (repeat None (length tasks))) as [out Hout]. rewrite Hout. cbn [bind].
    apply parallel_slots in Hout as (HL & Hin & Hn). rewrite repeat_length in HL, Hn. apply mapM_ok_iff.
    assert (Hn' : forall k, (k < length tasks)%nat -> nth k out None = match nth k tasks (Raise IndexError) with Ok r => Some r | Raise _ => None end).
    { intros k Hk. rewrite Hn by auto. destruct (in_dec Nat.eq_dec k order) as [|Hno]; auto.
      exfalso. apply Hno. apply (schedule_in _ _ _ HS); auto. }
    clear -HF HL Hn'. revert out HL Hn'. induction HF as [|t r tasks rs Ht _ IH]; intros [|o out] HL Hn'; simpl in HL; try lia; constructor.
    + specialize (Hn' 0%nat). simpl in Hn'. rewrite Hn' by lia. subst. reflexivity.
    + apply IH; [lia|]. intros k Hk. apply (Hn' (S k)). simpl. lia.
Qed.

(** ** array_split *)
Lemma split_sizes_concat {A} sizes : forall (l : list A), fold_right Nat.add 0%nat sizes = length l ->
  concat (split_sizes sizes l) = l.
Proof.
  induction sizes as [|s ss IH]; intros l H; simpl in *.
  - destruct l; simpl in *; [auto|lia].
  - rewrite IH by (rewrite skipn_length; lia). apply firstn_skipn.
Qed.
Lemma split_sizes_length {A} sizes : forall (l : list A), length (split_sizes sizes l) = length sizes.
Proof. induction sizes; intros; simpl; auto. Qed.
Lemma sum_repeat k a : fold_right Nat.add 0%nat (repeat a k) = (k * a)%nat.
Proof. induction k; simpl; lia. Qed.
Lemma array_split_ok {A} (l : list A) k : (0 < k)%nat ->
  exists bs, array_split l k = Ok bs /\ length bs = k /\ concat bs = l.
Proof.
  intros Hk. unfold array_split. destruct (Nat.eqb_spec k 0); [lia|]. eexists. split; [reflexivity|].
  pose proof (Nat.div_mod (length l) k) as Hd. pose proof (Nat.mod_upper_bound (length l) k) as Hm.
  split.
  - rewrite split_sizes_length, app_length, !repeat_length. lia.
  - apply split_sizes_concat. rewrite fold_right_app, !sum_repeat.
    assert (E : forall l x, fold_right Nat.add x l = (fold_right Nat.add 0 l + x)%nat) by (induction l0; intros; simpl; auto; rewrite IHl0; lia).
    rewrite E, sum_repeat. specialize (Hd ltac:(lia)). specialize (Hm ltac:(lia)).
    generalize dependent (length l / k)%nat. generalize dependent (length l mod k)%nat. intros. nia.
Qed.

(** ** batches *)
Lemma mapM_concat {A B} (f : A -> result B) bs : forall rss,
  Forall2 (fun b rs => mapM f b = Ok rs) bs rss -> mapM f (concat bs) = Ok (concat rss).
Proof.
  induction bs as [|b bs IH]; intros rss H; inversion H; subst; simpl; auto.
  rewrite mapM_app. rewrite H2. cbn [bind]. rewrite (IH _ H4). reflexivity.
Qed.
Lemma mapM_concat_inv {A B} (f : A -> result B) bs : forall rs, mapM f (concat bs) = Ok rs ->
  exists rss, Forall2 (fun b rs => mapM f b = Ok rs) bs rss /\ rs = concat rss.
Proof.
  induction bs as [|b bs IH]; intros rs H; simpl in H.
  - injection H as <-. exists []. split; auto.
  - rewrite mapM_app in H. destruct (mapM f b) as [r1|] eqn:E1; cbn [bind] in H; [|discriminate].
    destruct (mapM f (concat bs)) as [r2|] eqn:E2; cbn [bind] in H; [|discriminate].
    destruct (IH r2 eq_refl) as [rss [H1 ->]]. exists (r1 :: rss). split; [constructor; auto|]. simpl. congruence.
Qed.

Lemma run_batches_iff {A B} order locs k (task : nat -> result (A * B)) a b :
  (0 < k)%nat -> schedule k order ->
  (run_batches order locs k task = Ok (a, b) <->
   exists rs, mapM task locs = Ok rs /\ a = map fst rs /\ b = map snd rs).
Proof.
  intros Hk HS. unfold run_batches. destruct (array_split_ok locs k Hk) as (bs & E & HL & HC). rewrite E. cbn [bind].
  set (t := fun b => r <- mapM task b ;; Ok (map fst r, map snd r)).
  assert (HS' : schedule (length (map t bs)) order) by (rewrite map_length, HL; auto).
  split.
  - intros H. apply bind_ok in H as [prs [H1 H2]]. apply (parallel_ok _ _ _ HS') in H1. injection H2 as <- <-.
    assert (H3 : exists rss, Forall2 (fun b rs => mapM task b = Ok rs) bs rss /\ prs = map (fun r => (map fst r, map snd r)) rss).
    { clear -H1. revert prs H1. induction bs as [|b bs IH]; intros prs H; inversion H; subst.
      - exists []. split; auto.
      - unfold t in H2. apply bind_ok in H2 as [r [Hr Hy]]. injection Hy as <-.
        destruct (IH _ H4) as [rss [Ha ->]]. exists (r :: rss). split; [constructor; auto|reflexivity]. }
    destruct H3 as [rss [H3 ->]]. exists (concat rss). rewrite <- HC. split; [apply mapM_concat; auto|].
    rewrite !map_map, !concat_map. simpl. auto.
  - intros (rs & H & -> & ->). rewrite <- HC in H. apply mapM_concat_inv in H as [rss [HF ->]].
    assert (H1 : parallel order (map t bs) = Ok (map (fun r => (map fst r, map snd r)) rss)).
    { apply (parallel_ok _ _ _ HS'). clear -HF. induction HF as [|b r bs rss Hb _ IH]; simpl; constructor; auto.
      unfold t. rewrite Hb. reflexivity. }
    rewrite H1. cbn [bind]. rewrite !map_map, !concat_map. reflexivity.
Qed.

(** ** diagonal of CSR matrices *)
Lemma remove_diagonal_form {A} (d : A) isz M n c : isz d = true -> rect M n n -> csr_form d isz M n c ->
  csr_form d isz (fill_diagonal d M) n (remove_diagonal c).
Proof.
  intros Hd HR Hc. rewrite csr_form_eq in *. subst c. unfold remove_diagonal.
  rewrite csr_rows_of_rows. cbn [c_ncols csr_of_rows]. f_equal.
  assert (HL : length M = n) by apply HR.
  apply (list_eq_nth []).
  - rewrite mapi_length, !map_length, fill_diagonal_length. auto.
  - intros i Hi. rewrite mapi_length, map_length in Hi.
    rewrite (mapi_nth _ _ _ [] []) by (rewrite map_length; auto). rewrite !(nth_map_in _ _ _ []) by (rewrite ?fill_diagonal_length; auto).
    rewrite fill_diagonal_nth by auto.
    assert (Hrow : length (nth i M []) = n) by (apply (rect_row M n n); auto; lia).
    unfold crow. rewrite filter_map_comm. cbn [fst]. rewrite filter_filter.
    rewrite (filter_ext_in (fun j => negb (isz (nth j (list_set (nth i M []) i d) d)))
      (fun j => negb (isz (nth j (nth i M []) d)) && negb (j =? i)%nat)).
    + apply map_ext_in. intros j Hj. apply filter_In in Hj as [_ Hj]. apply Bool.andb_true_iff in Hj as [_ Hj].
      destruct (Nat.eqb_spec j i); [discriminate|]. rewrite list_set_nth_neq by auto. reflexivity.
    + intros j Hj. apply in_seq in Hj. destruct (Nat.eqb_spec j i) as [->|Hne].
      * rewrite list_set_nth_eq by lia. rewrite Hd, Bool.andb_false_r. reflexivity.
      * rewrite list_set_nth_neq by auto. rewrite Bool.andb_true_r. reflexivity.
Qed.

Lemma filter_all {A} (p : A -> bool) l : (forall x, In x l -> p x = true) -> filter p l = l.
Proof. induction l as [|x l IH]; simpl; intros H; auto. rewrite H by auto. rewrite IH; auto. Qed.

Lemma eliminate_zeros_form {A} (d : A) isz M n c : csr_form d isz M n c -> eliminate_zeros isz c = c.
Proof.
  intros Hc. rewrite csr_form_eq in Hc. subst c. unfold eliminate_zeros. rewrite csr_rows_of_rows. cbn [c_ncols csr_of_rows]. f_equal.
  rewrite map_map. apply map_ext. intros row. apply filter_all. intros [j v] Hin. unfold crow in Hin.
  apply in_map_iff in Hin as [k [Hk Hin]]. injection Hk as <- <-. apply filter_In in Hin. simpl. tauto.
Qed.

Lemma eis_zero_0 : eis_zero (Fin 0) = true.
Proof. simpl. apply Reqb_true. reflexivity. Qed.

Lemma holds_clear w W n : holds w W n -> holds (clear_diagonal w) (fill_diagonal (Fin 0) W) n.
Proof.
  intros [HR H]. split; [apply fill_diagonal_rect; auto|]. destruct H as [->|[c [-> Hc]]]; [left; reflexivity|right].
  eexists. split; [reflexivity|]. pose proof (remove_diagonal_form (Fin 0) eis_zero W n c eis_zero_0 HR Hc) as H.
  rewrite (eliminate_zeros_form _ _ _ _ _ H). exact H.
Qed.

Definition effective_weights (lo : bool) (W : matrix ext) : matrix ext := if lo then fill_diagonal (Fin 0) W else W.
Lemma effective_weights_get lo W n i j : rect W n n -> (i < n)%nat -> (j < n)%nat ->
  mget (Fin 0) (effective_weights lo W) i j = used_weight lo W i j.
Proof.
  intros HR Hi Hj. unfold effective_weights, used_weight. destruct lo; simpl; [|reflexivity].
  assert (HL : length W = n) by apply HR. unfold mget. rewrite fill_diagonal_nth by lia.
  destruct (Nat.eqb_spec i j) as [->|Hne].
  - apply list_set_nth_eq. rewrite (rect_row W n n); auto.
  - rewrite list_set_nth_neq by auto. reflexivity.
Qed.
Lemma effective_weights_rect lo W n : rect W n n -> rect (effective_weights lo W) n n.
Proof. intros H. destruct lo; simpl; auto. apply fill_diagonal_rect; auto. Qed.
Lemma holds_effective (lo : bool) w W n : holds w W n -> holds (if lo then clear_diagonal w else w) (effective_weights lo W) n.
Proof. intros H. destruct lo; simpl; auto. apply holds_clear; auto. Qed.

Section Tasks.
  Variable est : Type.
  Variable fit_est : nat -> matrix R -> list R -> list ext -> result est.
  Variable predict_est : est -> matrix R -> result (list R).
  Notation fle := (fit_local_estimator est fit_est predict_est).
  Notation dtask := (dense_task est fit_est predict_est).
  Notation stask := (sparse_task est fit_est predict_est).

  Definition task (X : matrix R) (y : list R) (ests : list nat) (w : weights) (Xp : matrix R) (cache : bool) :=
    match w with WDense m => dtask X y ests m Xp cache | WSparse m => stask X y ests m Xp cache end.

  Definition nz (row : list ext) (n : nat) : list nat := filter (fun j => negb (eis_zero (nth j row (Fin 0)))) (seq 0 n).

  Lemma nonzero_nz row n : length row = n -> nonzero (map ext_nonzero row) = nz row n.
  Proof.
    intros HL. rewrite nonzero_filter, map_length, HL. unfold nz. apply filter_ext_in. intros j Hj. apply in_seq in Hj.
    rewrite (nth_map_in _ _ _ (Fin 0)) by lia. reflexivity.
  Qed.

  Definition simple_task (X : matrix R) (y : list R) (W : matrix ext) (n : nat) (c : nat) (i : nat) (x : list R) (cache : bool) :=
    let T := nz (nth i W []) n in
    fle c (take (@nil R) X T) (take 0 y T) (take (Fin 0) (nth i W []) T) x cache.

  Lemma take_checked_ok {A} (d : A) l idx : (forall i, In i idx -> (i < length l)%nat) -> take_checked l idx = Ok (take d l idx).
  Proof.
    intros H. unfold take_checked, take. apply mapM_all_ok. intros x Hx. apply getitem_lt. auto.
  Qed.

  Lemma task_simple X y N W w n ests Xp cache i c x r :
    rect W r n -> (w = WDense W \/ exists cs, w = WSparse cs /\ csr_form (Fin 0) eis_zero W n cs) ->
    length X = n -> length y = n -> (i < r)%nat -> N = n ->
    getitem ests i = Ok c -> getitem Xp i = Ok x ->
    task X y ests w Xp cache i = simple_task X y W N c i x cache.
  Proof.
    intros HR Hw HX Hy Hi -> Hc Hx. assert (HL : length W = r) by apply HR.
    assert (Hrow : length (nth i W []) = n) by (apply (rect_row W r n); auto).
    unfold simple_task. destruct Hw as [->|[cs [-> Hcs]]]; cbn [task].
    - unfold dense_task. rewrite Hc. cbn [bind]. rewrite (getitem_lt []) by lia. cbn [bind]. rewrite Hx. cbn [bind].
      unfold mask_index. rewrite map_length, Hrow, HX, Hy. rewrite Nat.eqb_refl. cbn [bind].
      rewrite (select_take (@nil R) _ X), (select_take 0 _ y), (select_take (Fin 0) _ (nth i W [])) by (rewrite map_length; lia).
      rewrite (nonzero_nz _ n) by auto. reflexivity.
    - unfold sparse_task. rewrite Hc. cbn [bind].
      assert (E1 : exists v, getitem (c_indptr cs) (S i) = Ok v).
      { rewrite csr_form_eq in Hcs. subst cs. simpl. eexists. apply (getitem_lt 0%nat). rewrite indptr_from_length, map_length. lia. }
      destruct E1 as [v ->]. cbn [bind]. rewrite Hx. cbn [bind].
      assert (E2 : row_indices (csr_where ext_nonzero cs) i = nz (nth i W []) n).
      { rewrite csr_form_eq in Hcs. subst cs. unfold csr_where. rewrite csr_rows_of_rows. cbn [c_ncols csr_of_rows].
        rewrite row_indices_of_rows by (rewrite !map_length; lia). rewrite (nth_map_in _ _ _ []) by (rewrite map_length; lia).
        rewrite (nth_map_in _ _ _ []) by lia. unfold crow. rewrite filter_map_comm, map_map. cbn [fst snd].
        rewrite filter_filter, map_map. cbn [fst]. rewrite map_id. unfold nz. apply filter_ext. intros j. unfold ext_nonzero.
        destruct (negb (eis_zero (nth j (nth i W []) (Fin 0)))); reflexivity. }
      assert (E3 : row_data cs i = take (Fin 0) (nth i W []) (nz (nth i W []) n)).
      { rewrite csr_form_eq in Hcs. subst cs. rewrite row_data_of_rows by (rewrite map_length; lia).
        rewrite (nth_map_in _ _ _ []) by lia. unfold crow, take, nz. rewrite map_map. reflexivity. }
      rewrite E2, E3.
      assert (Hlt : forall j, In j (nz (nth i W []) n) -> (j < n)%nat) by (intros j Hj; apply filter_In in Hj as [Hj _]; apply in_seq in Hj; lia).
      rewrite (take_checked_ok (@nil R)) by (intros; rewrite HX; auto). cbn [bind].
      rewrite (take_checked_ok 0) by (intros; rewrite Hy; auto). reflexivity.
  Qed.

  Lemma nz_training lo W n i : rect W n n -> (i < n)%nat ->
    nz (nth i (effective_weights lo W) []) n = training_set lo W n i.
  Proof.
    intros HR Hi. unfold nz, training_set. apply filter_ext_in. intros j Hj. apply in_seq in Hj.
    rewrite <- (effective_weights_get lo W n i j) by (auto; lia). reflexivity.
  Qed.

  Lemma simple_task_ok X y lo W n i x cache p e : rect W n n -> (i < n)%nat ->
    (simple_task X y (effective_weights lo W) n i i x cache = Ok (p, e) <->
     exists e0, local_model fit_est X y lo W n i e0 /\ predict_est e0 [x] = Ok p /\ e = if cache then Some e0 else None).
  Proof.
    intros HR Hi. unfold simple_task. rewrite nz_training by auto.
    assert (EW : take (Fin 0) (nth i (effective_weights lo W) []) (training_set lo W n i) = map (used_weight lo W i) (training_set lo W n i)).
    { unfold take. apply map_ext_in. intros j Hj. apply filter_In in Hj as [Hj _]. apply in_seq in Hj.
      apply (effective_weights_get lo W n i j); auto; lia. }
    rewrite EW. unfold fit_local_estimator, local_model, take. split.
    - intros H. apply bind_ok in H as [e0 [H1 H2]]. apply bind_ok in H2 as [p0 [H2 H3]]. injection H3 as <- <-. exists e0. auto.
    - intros (e0 & H1 & H2 & ->). rewrite H1. cbn [bind]. rewrite H2. reflexivity.
  Qed.
End Tasks.
