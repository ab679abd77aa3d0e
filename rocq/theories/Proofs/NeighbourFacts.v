From Verif.Model Require Import Base Sort Csr Neighbour.
From Verif.Spec Require Import NeighbourSpec.
From Verif.Proofs Require Import ListFacts CsrFacts.
Require Import Sorting.Sorted.
Open Scope nat_scope.

(** ** second order, dense *)
Lemma sum_zero l : fold_right Nat.add 0 l = 0 <-> forall x, In x l -> x = 0.
Proof.
  induction l as [|y l IH]; simpl; [tauto|]. split.
  - intros H x [<-|Hx]; [lia|]. apply IH; auto; lia.
  - intros H. rewrite (H y) by auto. apply IH. auto.
Qed.

Lemma second_order_row_length N r : length (second_order_row N r) = ncols N.
Proof. apply tabulate_length. Qed.

Lemma second_order_row_spec (N : matrix bool) r j :
  length r = length N -> j < ncols N ->
  (nth j (second_order_row N r) false = true <->
   exists k, k < length N /\ nth k r false = true /\ nth j (nth k N []) false = true).
Proof.
  intros HL Hj. unfold second_order_row. rewrite tabulate_nth by auto.
  rewrite Bool.negb_true_iff, Nat.eqb_neq. rewrite sum_zero. split.
  - intros H. 
    assert (Hex : exists row, In row (select r N) /\ nth j row false = true).
    { clear HL Hj. revert H. induction (select r N) as [|row l IH]; intros H.
      - exfalso; apply H. intros x [].
      - destruct (nth j row false) eqn:E; [exists row; simpl; auto|].
        destruct IH as [row' [H1 H2]].
        + intros Hz. apply H. intros x [<-|Hx]; [rewrite E; reflexivity|auto].
        + exists row'; simpl; auto. }
    destruct Hex as [row [Hin Hj']]. apply in_select in Hin as [k [H1 H2]].
    exists k. split; [apply nth_error_Some; unfold matrix in *; congruence|]. split.
    + apply (nth_error_nth _ _ _ H1).
    + rewrite (nth_error_nth N k [] H2). auto.
  - intros [k [Hk [H1 H2]]] H. 
    assert (Hin : In (nth k N []) (select r N)).
    { apply in_select. exists k. split; [|apply nth_error_nth'; auto].
      rewrite (nth_error_nth' _ false) by lia. congruence. }
    specialize (H (b2n (nth j (nth k N []) false))). rewrite H2 in H. simpl in H.
    assert (1 = 0); [|lia]. apply H. apply in_map_iff. exists (nth k N []). rewrite H2. auto.
Qed.

Lemma second_order_dense_eq n order buf (N L : matrix bool) :
  schedule n order -> length buf = n ->
  second_order_dense order buf N L = tabulate n (fun i => second_order_row N (nth i L [])).
Proof. intros H1 H2. unfold second_order_dense. apply (prange_schedule n); auto. Qed.

Lemma rect_ncols {A} (m : matrix A) r c : rect m r c -> 0 < r -> ncols m = c.
Proof. intros [H1 H2] Hr. destruct m as [|x m]; simpl in H1; [lia|]. inversion H2; auto. Qed.

Lemma second_order_spec n order buf (N L : matrix bool) :
  rect N n n -> rect L n n -> schedule n order -> length buf = n ->
  let S := second_order_dense order buf N L in
  rect S n n /\
  forall i j, i < n -> j < n ->
    (mget false S i j = true <-> exists k, k < n /\ mget false L i k = true /\ mget false N k j = true).
Proof.
  intros HN HL HS Hb. cbv zeta. rewrite (second_order_dense_eq n) by auto. split.
  - split; [apply tabulate_length|]. apply Forall_forall. intros row Hr. apply in_tabulate in Hr as [i [Hi <-]].
    rewrite second_order_row_length. apply (rect_ncols N n n); auto. lia.
  - intros i j Hi Hj. unfold mget at 1. rewrite tabulate_nth by auto.
    assert (Hc : ncols N = n) by (apply (rect_ncols N n n); auto; lia).
    rewrite second_order_row_spec.
    + assert (E : length N = n) by apply HN. rewrite E. reflexivity.
    + rewrite (rect_row L n n) by auto. symmetry; apply HN.
    + lia.
Qed.

(** ** second order, sparse *)
Lemma mark_nth l : forall m j, nth j (fold_left (fun m j => list_set m j true) l m) false =
  (nth j m false || (existsb (Nat.eqb j) l && (j <? length m)))%bool.
Proof.
  induction l as [|x l IH]; intros m j; simpl; [rewrite Bool.orb_false_r; auto|].
  rewrite IH, list_set_length. destruct (Nat.eqb_spec j x) as [->|Hne].
  - destruct (Nat.ltb_spec x (length m)) as [H|H].
    + rewrite list_set_nth_eq by auto. simpl. rewrite Bool.orb_true_r. reflexivity.
    + simpl. rewrite !(nth_overflow) by (rewrite ?list_set_length; auto). rewrite Bool.andb_false_r. reflexivity.
  - rewrite list_set_nth_neq by auto. reflexivity.
Qed.
Lemma mark_length l : forall m, length (fold_left (fun m j => list_set m j true) l m) = length m.
Proof. induction l as [|x l IH]; intros m; simpl; auto. rewrite IH, list_set_length. auto. Qed.

Lemma mark2_length (f : nat -> list nat) ks : forall m,
  length (fold_left (fun m k => fold_left (fun m j => list_set m j true) (f k) m) ks m) = length m.
Proof. induction ks as [|k ks IH]; intros m; simpl; auto. rewrite IH, mark_length. auto. Qed.

Lemma mark2_nth (f : nat -> list nat) ks : forall m j,
  nth j (fold_left (fun m k => fold_left (fun m j => list_set m j true) (f k) m) ks m) false =
  (nth j m false || (existsb (fun k => existsb (Nat.eqb j) (f k)) ks && (j <? length m)))%bool.
Proof.
  induction ks as [|k ks IH]; intros m j; simpl; [rewrite Bool.orb_false_r; auto|].
  rewrite IH, mark_nth, mark_length.
  destruct (nth j m false), (existsb (Nat.eqb j) (f k)), (j <? length m), (existsb (fun k => existsb (Nat.eqb j) (f k)) ks); reflexivity.
Qed.

Lemma second_order_indices_dense {A B} (dA : A) (dB : B) zA zB n (Nm : matrix A) (Lm : matrix B) cN cL i :
  rect Nm n n -> rect Lm n n -> i < n ->
  csr_form dA zA Nm n cN -> csr_form dB zB Lm n cL ->
  second_order_indices n cN cL i =
  nonzero (second_order_row (mmap (fun x => negb (zA x)) Nm) (map (fun x => negb (zB x)) (nth i Lm []))).
Proof.
  intros HN HL Hi FN FL. unfold second_order_indices. f_equal. apply (list_eq_nth false).
  - rewrite mark2_length, repeat_length, second_order_row_length. symmetry.
    apply (rect_ncols _ n n); [apply rect_mmap; auto|lia].
  - intros j Hj. rewrite mark2_length, repeat_length in Hj. rewrite mark2_nth.
    rewrite nth_repeat, repeat_length. simpl. destruct (Nat.ltb_spec j n) as [_|]; [|lia]. rewrite Bool.andb_true_r.
    assert (HNl : length Nm = n) by apply HN. assert (HLl : length Lm = n) by apply HL.
    apply Bool.eq_iff_eq_true. rewrite second_order_row_spec.
    + rewrite existsb_exists. split.
      * intros [k [Hk He]]. apply existsb_exists in He as [j' [Hj' Ej]]. apply Nat.eqb_eq in Ej; subst j'.
        rewrite (form_row_indices dB zB Lm n) in Hk by (auto; lia). apply filter_In in Hk as [Hk1 Hk2]. apply in_seq in Hk1.
        rewrite (form_row_indices dA zA Nm n) in Hj' by (auto; lia). apply filter_In in Hj' as [Hj1 Hj2].
        exists k. unfold mmap. rewrite map_length. split; [lia|]. split.
        -- rewrite (nth_map_in _ _ _ dB) by (rewrite (rect_row Lm n n); auto; lia). auto.
        -- rewrite (nth_map_in _ _ _ []) by lia. rewrite (nth_map_in _ _ _ dA) by (rewrite (rect_row Nm n n); auto; lia). auto.
      * intros [k [Hk [H1 H2]]]. unfold mmap in *. rewrite map_length in Hk.
        rewrite (nth_map_in _ _ _ dB) in H1 by (rewrite (rect_row Lm n n); auto; lia).
        rewrite (nth_map_in _ _ _ []) in H2 by lia. rewrite (nth_map_in _ _ _ dA) in H2 by (rewrite (rect_row Nm n n); auto; lia).
        exists k. rewrite (form_row_indices dB zB Lm n) by (auto; lia). split; [apply filter_In; split; auto; apply in_seq; lia|].
        apply existsb_exists. exists j. rewrite Nat.eqb_refl. split; auto.
        rewrite (form_row_indices dA zA Nm n) by (auto; lia). apply filter_In; split; auto. apply in_seq; lia.
    + rewrite map_length. unfold mmap. rewrite map_length. rewrite (rect_row Lm n n); auto.
    + rewrite (rect_ncols _ n n); [auto|apply rect_mmap; auto|lia].
Qed.

Lemma second_order_sparse_eq {A B} (dA : A) (dB : B) zA zB n (Nm : matrix A) (Lm : matrix B) cN cL order buf :
  rect Nm n n -> rect Lm n n -> csr_form dA zA Nm n cN -> csr_form dB zB Lm n cL ->
  schedule n order -> length buf = n ->
  second_order_sparse order cN cL =
  map nonzero (second_order_dense order buf (mmap (fun x => negb (zA x)) Nm) (mmap (fun x => negb (zB x)) Lm)).
Proof.
  intros HN HL FN FL HS Hb. unfold second_order_sparse.
  rewrite (form_nrows dA zA Nm n cN FN). assert (E : length Nm = n) by apply HN. rewrite E.
  rewrite (prange_schedule n) by (auto; apply repeat_length).
  rewrite (second_order_dense_eq n) by auto. rewrite map_tabulate. apply tabulate_ext. intros i Hi.
  rewrite (second_order_indices_dense dA dB zA zB n Nm Lm) by auto. f_equal. f_equal.
  unfold mmap. rewrite (nth_map_in _ _ _ []); auto. assert (length Lm = n) by apply HL. lia.
Qed.

Lemma nonzero_rows_form n (S : matrix bool) (c : csr bool) : rect S n n -> csr_mask S n c ->
  c_indices c = concat (map nonzero S) /\ c_indptr c = indptr_from 0 (map nonzero S).
Proof.
  intros HR ->. fold (crow false negb n).
  assert (E : forall row, In row S -> map fst (crow false negb n row) = nonzero row).
  { intros row Hin. rewrite crow_fst, nonzero_filter. destruct HR as [_ HF]. rewrite Forall_forall in HF. rewrite (HF row Hin).
    apply filter_ext. intros; apply Bool.negb_involutive. }
  simpl. split.
  - rewrite concat_map, map_map. f_equal. apply map_ext_in; auto.
  - apply indptr_from_lengths. rewrite !map_map. apply map_ext_in. intros row Hin.
    rewrite <- (E row Hin), map_length. reflexivity.
Qed.

Lemma list_max_in l : l <> [] -> In (list_max l) l.
Proof.
  induction l as [|a l IH]; intros H; [contradiction|]. simpl.
  destruct l as [|b l']; [left; simpl; lia|].
  destruct (Nat.max_spec a (list_max (b :: l'))) as [[_ E]|[_ E]]; rewrite E; [right|left; auto].
  apply IH. discriminate.
Qed.

Lemma second_order_csr_spec {A B} (dA : A) (dB : B) zA zB n (Nm : matrix A) (Lm : matrix B) cN cL order buf :
  rect Nm n n -> rect Lm n n -> csr_form dA zA Nm n cN -> csr_form dB zB Lm n cL ->
  schedule n order -> length buf = n ->
  let S := second_order_dense order buf (mmap (fun x => negb (zA x)) Nm) (mmap (fun x => negb (zB x)) Lm) in
  forall cS, csr_mask S n cS ->
  ((forall i j, i < n -> j < n -> mget false S i j = false) -> raises (second_order_neighbour_csr order cN cL)) /\
  ((exists i j, i < n /\ j < n /\ mget false S i j = true) ->
   exists c, second_order_neighbour_csr order cN cL = Ok c /\
     c_indices c = c_indices cS /\ c_indptr c = c_indptr cS /\
     Forall (fun v => v = 1) (c_data c) /\ length (c_data c) = length (c_indices c) /\
     c_ncols c <= n /\
     (c_ncols c = n <-> exists i, i < n /\ mget false S i (n - 1) = true)).
Proof.
  intros HN HL FN FL HS Hb S cS HcS.
  assert (HRS : rect S n n).
  { subst S. apply (second_order_spec n order buf); auto; apply rect_mmap; auto. }
  destruct (nonzero_rows_form n S cS HRS HcS) as [E1 E2].
  assert (ES : second_order_sparse order cN cL = map nonzero S)
    by (subst S; apply (second_order_sparse_eq dA dB zA zB n); auto).
  unfold second_order_neighbour_csr. rewrite ES.
  assert (HIn : forall j, In j (concat (map nonzero S)) <-> exists i, i < n /\ mget false S i j = true).
  { intros j. rewrite in_concat. split.
    - intros [l [Hl Hj]]. apply in_map_iff in Hl as [row [<- Hrow]].
      apply (In_nth _ _ []) in Hrow as [i [Hi <-]]. apply in_nonzero_nth in Hj. exists i. split; [|exact Hj].
      assert (length S = n) by apply HRS. unfold matrix in *. lia.
    - intros [i [Hi H]]. exists (nonzero (nth i S [])). split.
      + apply in_map, nth_In. assert (length S = n) by apply HRS. unfold matrix in *. lia.
      + apply in_nonzero_nth. exact H. }
  split.
  - intros Hall. assert (Hnil : concat (map nonzero S) = []).
    { destruct (concat (map nonzero S)) as [|j l] eqn:E; auto. exfalso.
      destruct (proj1 (HIn j) (or_introl eq_refl)) as [i [Hi Hj]].
      assert (Hjn : j < n).
      { destruct (Nat.lt_ge_cases j n); auto. unfold mget in Hj. rewrite nth_overflow in Hj; [discriminate|].
        rewrite (rect_row S n n); auto. }
      rewrite Hall in Hj by auto. discriminate. }
    rewrite Hnil. destruct (map nonzero S); eexists; reflexivity.
  - intros [i [j [Hi [Hj Hij]]]].
    assert (Hj' : In j (concat (map nonzero S))) by (apply HIn; eauto).
    destruct (concat (map nonzero S)) as [|x l] eqn:E; [destruct Hj'|]. 
    assert (Hne : map nonzero S <> []) by (intros H; rewrite H in E; discriminate).
    destruct (map nonzero S) as [|r rs] eqn:Em; [contradiction|]. cbn [csr_infer].
    eexists. split; [reflexivity|]. cbn [c_indices c_indptr c_data c_ncols].
    rewrite <- Em in *. rewrite <- E in *.
    assert (Hb1 : forall y, In y (concat (map nonzero S)) -> y < n).
    { intros y Hy. apply HIn in Hy as [i' [Hi' Hy]].
      destruct (Nat.lt_ge_cases y n); auto. unfold mget in Hy. rewrite nth_overflow in Hy; [discriminate|].
      rewrite (rect_row S n n); auto. }
    split; [auto|]. split; [auto|]. split; [apply Forall_forall; intros v Hv; apply in_map_iff in Hv as [? [<- _]]; auto|].
    split; [apply map_length|].
    assert (Hmax : In (list_max (concat (map nonzero S))) (concat (map nonzero S))).
    { apply list_max_in. rewrite E. discriminate. }
    assert (Hle : forall y, In y (concat (map nonzero S)) -> y <= list_max (concat (map nonzero S))).
    { intros y Hy. pose proof (proj1 (list_max_le (concat (map nonzero S)) _) (le_n _)) as HF.
      rewrite Forall_forall in HF. auto. }
    split; [apply Hb1 in Hmax; lia|]. split.
    + intros He. rewrite HIn in Hmax. destruct Hmax as [i' [Hi' Hm]]. exists i'. split; auto.
      replace (n - 1) with (list_max (concat (map nonzero S))) by lia. auto.
    + intros [i' [Hi' Hm]]. assert (In (n - 1) (concat (map nonzero S))) by (apply HIn; eauto).
      apply Hle in H. apply Hb1 in Hmax. lia.
Qed.
