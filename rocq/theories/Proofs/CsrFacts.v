From Verif.Model Require Import Base Csr Neighbour.
From Verif.Spec Require Import NeighbourSpec.
From Verif.Proofs Require Import ListFacts.
Require Import Sorting.Sorted.
Open Scope nat_scope.

Lemma indptr_from_length {A} s (rows : list (list A)) : length (indptr_from s rows) = S (length rows).
Proof. revert s; induction rows; intros; simpl; auto. Qed.

Lemma indptr_from_nth {A} s (rows : list (list A)) i : i <= length rows ->
  nth i (indptr_from s rows) 0 = s + length (concat (firstn i rows)).
Proof.
  revert s i; induction rows as [|r rows IH]; intros s [|i] H; simpl in *; try lia.
  rewrite IH by lia. rewrite app_length. lia.
Qed.

Lemma indptr_from_lengths {A B} s (rows : list (list A)) (rows' : list (list B)) :
  map (@length A) rows = map (@length B) rows' -> indptr_from s rows = indptr_from s rows'.
Proof.
  revert s rows'; induction rows as [|r rows IH]; intros s [|r' rows'] H; simpl in *; try discriminate; auto.
  inversion H. rewrite H1. f_equal. auto.
Qed.

Lemma concat_split {A} (rows : list (list A)) i : i < length rows ->
  concat rows = (concat (firstn i rows) ++ nth i rows [] ++ concat (skipn (S i) rows))%list.
Proof.
  revert i; induction rows as [|r rows IH]; intros [|i] H; simpl in *; try lia; auto.
  rewrite (IH i) at 1 by lia. rewrite app_assoc. reflexivity.
Qed.

Lemma slice_concat {A} (rows : list (list A)) i : i < length rows ->
  slice (concat rows) (nth i (indptr_from 0 rows) 0) (nth (S i) (indptr_from 0 rows) 0) = nth i rows [].
Proof.
  intros H. rewrite !indptr_from_nth by lia. rewrite (concat_split rows i H) at 1.
  assert (E : firstn (S i) rows = (firstn i rows ++ [nth i rows []])%list).
  { clear -H. revert i H; induction rows as [|r rows IH]; intros [|i] H; simpl in *; try lia; auto. f_equal. apply IH; lia. }
  rewrite E, concat_app, app_length. simpl. rewrite app_nil_r. unfold slice.
  set (a := concat (firstn i rows)). set (b := nth i rows []). set (c := concat (skipn (S i) rows)).
  replace (length a + length b - length a) with (length b) by lia.
  rewrite skipn_app, skipn_all, Nat.sub_diag. simpl. rewrite firstn_app, Nat.sub_diag, firstn_all. simpl.
  apply app_nil_r.
Qed.

Lemma concat_map {A B} (f : A -> B) rows : map f (concat rows) = concat (map (map f) rows).
Proof. induction rows; simpl; auto. rewrite map_app, IHrows. reflexivity. Qed.

Lemma row_slice_of_rows {A B} n (rows : list (list (nat * A))) (f : nat * A -> B) i : i < length rows ->
  row_slice (csr_of_rows n rows) (map f (concat rows)) i = map f (nth i rows []).
Proof.
  intros H. unfold row_slice, csr_of_rows; simpl. rewrite concat_map.
  rewrite (indptr_from_lengths 0 rows (map (map f) rows)).
  - rewrite slice_concat by (rewrite map_length; auto). 
    change (@nil B) with (map f []). apply map_nth.
  - rewrite map_map. apply map_ext. intros; rewrite map_length; auto.
Qed.

Lemma c_nrows_of_rows {A} n (rows : list (list (nat * A))) : c_nrows (csr_of_rows n rows) = length rows.
Proof. unfold c_nrows, csr_of_rows; simpl. rewrite indptr_from_length. lia. Qed.

Lemma row_indices_of_rows {A} n (rows : list (list (nat * A))) i : i < length rows ->
  row_indices (csr_of_rows n rows) i = map fst (nth i rows []).
Proof. intros H. unfold row_indices. apply (row_slice_of_rows n rows fst i H). Qed.
Lemma row_data_of_rows {A} n (rows : list (list (nat * A))) i : i < length rows ->
  row_data (csr_of_rows n rows) i = map snd (nth i rows []).
Proof. intros H. unfold row_data. apply (row_slice_of_rows n rows snd i H). Qed.

Lemma combine_fst_snd {A B} (l : list (A * B)) : combine (map fst l) (map snd l) = l.
Proof. induction l as [|[a b] l IH]; simpl; auto. rewrite IH; auto. Qed.

Lemma csr_rows_of_rows {A} n (rows : list (list (nat * A))) : csr_rows (csr_of_rows n rows) = rows.
Proof.
  unfold csr_rows. rewrite c_nrows_of_rows. symmetry. rewrite (tabulate_of_list [] rows) at 1.
  apply tabulate_ext. intros i Hi. rewrite row_indices_of_rows, row_data_of_rows, combine_fst_snd by auto. reflexivity.
Qed.

(** ** prange *)
Lemma prange_rows_nth {A} order (body : nat -> A -> A) d buf j :
  NoDup order -> j < length buf ->
  nth j (prange_rows order body d buf) d = if in_dec Nat.eq_dec j order then body j (nth j buf d) else nth j buf d.
Proof.
  unfold prange_rows. revert buf. induction order as [|i order IH]; intros buf Hnd Hj; [reflexivity|].
  inversion Hnd as [|x y Hi Hnd']; subst. cbn [fold_left].
  rewrite IH by (auto; rewrite list_set_length; auto).
  destruct (Nat.eq_dec i j) as [->|Hne].
  - destruct (in_dec Nat.eq_dec j order); [contradiction|].
    destruct (in_dec Nat.eq_dec j (j :: order)) as [_|H]; [|exfalso; apply H; left; auto].
    rewrite list_set_nth_eq by auto. reflexivity.
  - rewrite list_set_nth_neq by auto.
    destruct (in_dec Nat.eq_dec j order) as [H|H], (in_dec Nat.eq_dec j (i :: order)) as [H'|H']; auto.
    + exfalso; apply H'; right; auto.
    + exfalso. destruct H'; auto.
Qed.

Lemma prange_rows_length {A} order (body : nat -> A -> A) d buf : length (prange_rows order body d buf) = length buf.
Proof.
  unfold prange_rows. revert buf. induction order as [|i order IH]; intros buf; auto.
  cbn [fold_left]. rewrite IH, list_set_length. reflexivity.
Qed.

Lemma prange_schedule {A} n order (body : nat -> A -> A) d buf :
  schedule n order -> length buf = n ->
  prange_rows order body d buf = tabulate n (fun i => body i (nth i buf d)).
Proof.
  intros HS HL. apply (list_eq_nth d).
  - rewrite prange_rows_length, tabulate_length; auto.
  - intros j Hj. rewrite prange_rows_length, HL in Hj.
    assert (Hnd : NoDup order) by (eapply Permutation_NoDup; [apply Permutation_sym; exact HS|apply seq_NoDup]).
    rewrite prange_rows_nth by (auto; lia). rewrite tabulate_nth by auto.
    destruct (in_dec Nat.eq_dec j order) as [_|H]; auto. exfalso; apply H.
    apply (Permutation_in _ (Permutation_sym HS)). apply in_seq. lia.
Qed.

(** ** CSR form of a dense matrix *)
Definition crow {A} (d : A) (isz : A -> bool) (n : nat) (row : list A) : list (nat * A) :=
  map (fun j => (j, nth j row d)) (filter (fun j => negb (isz (nth j row d))) (seq 0 n)).

Lemma csr_form_eq {A} (d : A) isz m n c : csr_form d isz m n c <-> c = csr_of_rows n (map (crow d isz n) m).
Proof. reflexivity. Qed.

Lemma crow_fst {A} (d : A) isz n row :
  map fst (crow d isz n row) = filter (fun j => negb (isz (nth j row d))) (seq 0 n).
Proof. unfold crow. rewrite map_map. simpl. apply map_id. Qed.

Lemma nth_map_in {A B} (f : A -> B) l i da db : i < length l -> nth i (map f l) db = f (nth i l da).
Proof. intros H. rewrite (nth_indep _ db (f da)) by (rewrite map_length; auto). apply map_nth. Qed.

Lemma form_row_indices {A} (d : A) isz m n c i : csr_form d isz m n c -> i < length m ->
  row_indices c i = filter (fun j => negb (isz (nth j (nth i m []) d))) (seq 0 n).
Proof.
  intros -> H. fold (crow d isz n). rewrite row_indices_of_rows by (rewrite map_length; auto).
  rewrite (nth_map_in _ _ _ [] []) by auto. apply crow_fst.
Qed.
Lemma form_nrows {A} (d : A) isz m n c : csr_form d isz m n c -> c_nrows c = length m.
Proof. intros ->. rewrite c_nrows_of_rows, map_length. reflexivity. Qed.

Lemma nonzero_filter mask : nonzero mask = filter (fun j => nth j mask false) (seq 0 (length mask)).
Proof.
  apply StronglySorted_lt_ext.
  - apply nonzero_sorted.
  - assert (H : forall k n, StronglySorted lt (seq k n)).
    { intros k n; revert k; induction n; intros k; simpl; constructor; auto. apply Forall_forall. intros x Hx. apply in_seq in Hx. lia. }
    specialize (H 0 (length mask)). induction H as [|x l H IH HF]; simpl; [constructor|].
    destruct (nth x mask false); auto. constructor; auto. apply Forall_forall. intros y Hy.
    rewrite Forall_forall in HF. apply HF. apply filter_In in Hy. tauto.
  - intros x. rewrite in_nonzero_nth, filter_In, in_seq. split.
    + intros H. split; auto. split; [lia|]. destruct (Nat.lt_ge_cases x (length mask)); auto. rewrite nth_overflow in H; auto. discriminate.
    + tauto.
Qed.

Lemma seq_sorted k n : StronglySorted lt (seq k n).
Proof. revert k; induction n; intros k; simpl; constructor; auto. apply Forall_forall. intros x Hx. apply in_seq in Hx. lia. Qed.
Lemma filter_sorted {A} (R : A -> A -> Prop) p l : StronglySorted R l -> StronglySorted R (filter p l).
Proof.
  induction 1 as [|x l H IH HF]; simpl; [constructor|]. destruct (p x); auto. constructor; auto.
  apply Forall_forall. intros y Hy. rewrite Forall_forall in HF. apply HF. apply filter_In in Hy. tauto.
Qed.
