From Coq Require Import Lra Psatz Sorting.Sorted.
From Verif.Model Require Import Base Sort.
From Verif.Spec Require Import KernelSpec.
From Verif.Proofs Require Import ListFacts KernelFacts.
Open Scope R_scope.

Lemma insert_perm x l : Permutation (x :: l) (insert x l).
Proof.
  induction l as [|y ys IH]; simpl; auto.
  destruct (Rleb x y); auto.
  eapply perm_trans; [apply perm_swap|]. constructor; auto.
Qed.

Lemma sortR_perm l : Permutation l (sortR l).
Proof.
  induction l as [|x xs IH]; simpl; auto.
  eapply perm_trans; [|apply insert_perm]. constructor; auto.
Qed.

Lemma sortR_length l : length (sortR l) = length l.
Proof. symmetry; apply Permutation_length, sortR_perm. Qed.

Lemma insert_sorted x l : StronglySorted Rle l -> StronglySorted Rle (insert x l).
Proof.
  induction 1 as [|y ys Hs IH HF]; simpl.
  - repeat constructor.
  - destruct (Rleb x y) eqn:E.
    + apply Rleb_true in E. constructor; [constructor; auto|].
      constructor; auto. revert HF; apply Forall_impl; intros; lra.
    + apply Rleb_false in E. constructor; auto.
      apply Forall_forall. intros z Hz.
      apply (Permutation_in _ (Permutation_sym (insert_perm x ys))) in Hz.
      destruct Hz as [->|Hz]; [lra|]. rewrite Forall_forall in HF; auto.
Qed.

Lemma sortR_sorted l : StronglySorted Rle (sortR l).
Proof. induction l; simpl; [constructor|]. apply insert_sorted; auto. Qed.

Lemma sorted_perm_eq l l' :
  StronglySorted Rle l -> StronglySorted Rle l' -> Permutation l l' -> l = l'.
Proof.
  intros Hs. revert l'. induction Hs as [|x xs Hs IH HF]; intros l' Hs' HP.
  - apply Permutation_nil in HP; auto.
  - destruct Hs' as [|y ys Hs' HF']; [apply Permutation_sym, Permutation_nil in HP; discriminate|].
    rewrite Forall_forall in HF, HF'.
    assert (x = y).
    { apply Rle_antisym.
      - assert (Hy : In y (x :: xs)) by (apply (Permutation_in _ (Permutation_sym HP)); left; auto).
        destruct Hy as [->|Hy]; [lra|auto].
      - assert (Hx : In x (y :: ys)) by (apply (Permutation_in _ HP); left; auto).
        destruct Hx as [->|Hx]; [lra|auto]. }
    subst y. f_equal. apply IH; auto. apply Permutation_cons_inv in HP; auto.
Qed.

Lemma sortR_unique l l' : Permutation l l' -> sortR l = sortR l'.
Proof.
  intros H. apply sorted_perm_eq; try apply sortR_sorted.
  eapply perm_trans; [apply Permutation_sym, sortR_perm|]. eapply perm_trans; [exact H|apply sortR_perm].
Qed.

Lemma sorted_nth_le s i j d :
  StronglySorted Rle s -> (i <= j)%nat -> (j < length s)%nat -> nth i s d <= nth j s d.
Proof.
  intros Hs. revert i j. induction Hs as [|x xs Hs IH HF]; intros i j Hij Hj; simpl in *; [lia|].
  destruct i as [|i], j as [|j]; try lia; try lra.
  - rewrite Forall_forall in HF. apply HF. apply nth_In; lia.
  - apply IH; lia.
Qed.

(** ** counting *)
Lemma count_perm p l l' : Permutation l l' -> count p l = count p l'.
Proof.
  unfold count. induction 1; simpl; auto.
  - destruct (p x); simpl; auto.
  - destruct (p x), (p y); simpl; auto.
  - congruence.
Qed.

Lemma count_app p l l' : count p (l ++ l') = (count p l + count p l')%nat.
Proof. unfold count. induction l; simpl; auto. destruct (p a); simpl; lia. Qed.

Lemma count_all p l : (forall x, In x l -> p x = true) -> count p l = length l.
Proof.
  unfold count. induction l as [|x xs IH]; intros H; simpl; auto.
  rewrite (H x) by (left; auto). simpl. rewrite IH; auto. intros; apply H; right; auto.
Qed.

Lemma count_none p l : (forall x, In x l -> p x = false) -> count p l = 0%nat.
Proof.
  unfold count. induction l as [|x xs IH]; intros H; simpl; auto.
  rewrite (H x) by (left; auto). apply IH. intros; apply H; right; auto.
Qed.

Lemma count_le_length p l : (count p l <= length l)%nat.
Proof. unfold count. induction l; simpl; auto. destruct (p a); simpl; lia. Qed.

Lemma count_impl p q l : (forall x, In x l -> p x = true -> q x = true) -> (count p l <= count q l)%nat.
Proof.
  unfold count. induction l as [|x xs IH]; intros H; simpl; auto.
  assert (IH' : (length (filter p xs) <= length (filter q xs))%nat) by (apply IH; intros; apply H; auto; right; auto).
  destruct (p x) eqn:E.
  - rewrite (H x (or_introl eq_refl) E). simpl; lia.
  - destruct (q x); simpl; lia.
Qed.

Lemma in_firstn {A} (x : A) n l : In x (firstn n l) -> In x l.
Proof. intros H. rewrite <- (firstn_skipn n l). apply in_or_app; auto. Qed.

Lemma in_firstn_nth (d : R) x n l : In x (firstn n l) -> exists i, (i < n)%nat /\ (i < length l)%nat /\ nth i l d = x.
Proof.
  revert l; induction n as [|n IH]; intros l; simpl; [intros []|].
  destruct l as [|y ys]; simpl; [intros []|]. intros [->|H].
  - exists 0%nat; repeat split; auto; lia.
  - destruct (IH ys H) as [i [H1 [H2 H3]]]. exists (S i); repeat split; auto; lia.
Qed.

Lemma in_skipn_nth (d : R) x n l : In x (skipn n l) -> exists i, (n <= i)%nat /\ (i < length l)%nat /\ nth i l d = x.
Proof.
  revert l; induction n as [|n IH]; intros l; simpl.
  - intros H. apply (In_nth _ _ d) in H as [i [H1 H2]]. exists i; repeat split; auto; lia.
  - destruct l as [|y ys]; simpl; [intros []|]. intros H.
    destruct (IH ys H) as [i [H1 [H2 H3]]]. exists (S i); repeat split; auto; lia.
Qed.

(** The element at sorted position [k] is the (k+1)-th smallest. *)
Lemma sorted_kth l k :
  (k < length l)%nat -> kth_smallest l (S k) (nth k (sortR l) 0).
Proof.
  intros Hk. set (s := sortR l). set (v := nth k s 0).
  assert (Hl : length s = length l) by apply sortR_length.
  assert (Hs : StronglySorted Rle s) by apply sortR_sorted.
  repeat split.
  - apply (Permutation_in _ (Permutation_sym (sortR_perm l))). apply nth_In. fold s; lia.
  - rewrite (count_perm _ l s) by apply sortR_perm.
    rewrite <- (firstn_skipn (S k) s), count_app.
    rewrite (count_all _ (firstn (S k) s)).
    + rewrite firstn_length. lia.
    + intros x Hx. apply Rleb_true. apply (in_firstn_nth 0) in Hx as [i [H1 [H2 <-]]].
      apply sorted_nth_le; auto; lia.
  - rewrite (count_perm _ l s) by apply sortR_perm.
    rewrite <- (firstn_skipn k s), count_app.
    rewrite (count_none _ (skipn k s)).
    + pose proof (count_le_length (fun x => Rltb x v) (firstn k s)). rewrite firstn_length in H. lia.
    + intros x Hx. apply Rltb_false. apply (in_skipn_nth 0) in Hx as [i [H1 [H2 <-]]].
      apply sorted_nth_le; auto; lia.
Qed.

Lemma kth_smallest_unique l k v w : kth_smallest l k v -> kth_smallest l k w -> v = w.
Proof.
  intros [_ [A1 A2]] [_ [B1 B2]].
  destruct (Rtotal_order v w) as [H|[H|H]]; auto; exfalso.
  - assert (count (fun x => Rleb x v) l <= count (fun x => Rltb x w) l)%nat.
    { apply count_impl. intros x _ Hx. apply Rleb_true in Hx. apply Rltb_true. lra. }
    lia.
  - assert (count (fun x => Rleb x w) l <= count (fun x => Rltb x v) l)%nat.
    { apply count_impl. intros x _ Hx. apply Rleb_true in Hx. apply Rltb_true. lra. }
    lia.
Qed.

Lemma partition_at_ok row k v :
  partition_at row k = Ok v <-> (k < length row)%nat /\ kth_smallest row (S k) v.
Proof.
  unfold partition_at. destruct (nth_error (sortR row) k) as [w|] eqn:E.
  - assert (Hk : (k < length row)%nat).
    { rewrite <- sortR_length. apply nth_error_Some. congruence. }
    pose proof (sorted_kth row k Hk) as Hs. rewrite (nth_error_nth _ _ 0 E) in Hs.
    split.
    + intros H; inversion H; subst; auto.
    + intros [_ H]. f_equal. eapply kth_smallest_unique; eauto.
  - apply nth_error_None in E. rewrite sortR_length in E.
    split; [discriminate|]. intros [H _]. lia.
Qed.

Lemma partition_at_raises row k : raises (partition_at row k) <-> (length row <= k)%nat.
Proof.
  unfold partition_at. destruct (nth_error (sortR row) k) as [w|] eqn:E.
  - assert (Hk : (k < length row)%nat).
    { rewrite <- sortR_length. apply nth_error_Some. congruence. }
    split; [intros [e H]; discriminate|lia].
  - apply nth_error_None in E. rewrite sortR_length in E. split; auto. intros _; eexists; reflexivity.
Qed.

(** ** floor and ceiling *)
Lemma Rfloor_spec x : IZR (Rfloor x) <= x < IZR (Rfloor x) + 1.
Proof. unfold Rfloor. pose proof (base_Int_part x). lra. Qed.

Lemma Rfloor_unique x z : IZR z <= x < IZR z + 1 -> Rfloor x = z.
Proof.
  intros H. pose proof (Rfloor_spec x).
  assert (IZR (Rfloor x) < IZR (z + 1)) by (rewrite plus_IZR; lra).
  assert (IZR z < IZR (Rfloor x + 1)) by (rewrite plus_IZR; lra).
  apply lt_IZR in H1, H2. lia.
Qed.

Lemma Rfloor_IZR z : Rfloor (IZR z) = z.
Proof. apply Rfloor_unique; lra. Qed.

Lemma Rceil_spec x : x <= IZR (Rceil x) < x + 1.
Proof.
  unfold Rceil. pose proof (Rfloor_spec (- x)) as H. unfold Rfloor in H.
  rewrite opp_IZR. lra.
Qed.

Lemma Rceil_le x z : x <= IZR z -> (Rceil x <= z)%Z.
Proof.
  intros H. pose proof (Rceil_spec x).
  assert (IZR (Rceil x) < IZR (z + 1)) by (rewrite plus_IZR; lra). apply lt_IZR in H1. lia.
Qed.

Lemma Rceil_ge x z : IZR z < x -> (z < Rceil x)%Z.
Proof. intros H. pose proof (Rceil_spec x). apply lt_IZR. lra. Qed.

Lemma Rceil_IZR z : Rceil (IZR z) = z.
Proof. unfold Rceil. rewrite <- opp_IZR. pose proof (Rfloor_IZR (-z)). unfold Rfloor in *. lia. Qed.

Lemma Rceil_mono x y : x <= y -> (Rceil x <= Rceil y)%Z.
Proof. intros H. apply Rceil_le. pose proof (Rceil_spec y). lra. Qed.

Lemma Rfloor_mono x y : x <= y -> (Rfloor x <= Rfloor y)%Z.
Proof.
  intros H. pose proof (Rfloor_spec x). pose proof (Rfloor_spec y).
  assert (IZR (Rfloor x) < IZR (Rfloor y + 1)) by (rewrite plus_IZR; lra). apply lt_IZR in H2. lia.
Qed.

Lemma Rfloor_nonneg x : 0 <= x -> (0 <= Rfloor x)%Z.
Proof. intros H. replace 0%Z with (Rfloor 0). apply Rfloor_mono; auto. apply (Rfloor_IZR 0). Qed.

(** ** quantiles *)
Lemma avi_cases s v :
  s <> [] ->
  (v < 0 /\ at_virtual_index s v = nth 0 s 0) \/
  (0 <= v /\ INR (length s - 1) <= v /\ at_virtual_index s v = nth (length s - 1) s 0) \/
  (exists i, (S i < length s)%nat /\ INR i <= v < INR i + 1 /\
     at_virtual_index s v = nth i s 0 + (nth (S i) s 0 - nth i s 0) * (v - INR i)).
Proof.
  intros Hs. unfold at_virtual_index.
  destruct (Rltb v 0) eqn:E1; [apply Rltb_true in E1; left; auto|].
  apply Rltb_false in E1.
  destruct (Rleb (INR (length s - 1)) v) eqn:E2; [apply Rleb_true in E2; right; left; auto|].
  apply Rleb_false in E2. right; right.
  pose proof (Rfloor_spec v) as Hf. pose proof (Rfloor_nonneg v E1) as Hn.
  exists (Z.to_nat (Rfloor v)).
  assert (Ei : INR (Z.to_nat (Rfloor v)) = IZR (Rfloor v)) by (rewrite INR_IZR_INZ, Z2Nat.id; auto).
  rewrite Ei. split; [|split; auto].
  apply INR_lt. rewrite S_INR, Ei.
  assert (H : IZR (Rfloor v) < INR (length s - 1)) by lra.
  rewrite INR_IZR_INZ in H. apply lt_IZR in H.
  assert ((Z.of_nat (length s - 1) = Z.of_nat (length s) - 1)%Z).
  { destruct s; [contradiction|]. simpl length. lia. }
  rewrite INR_IZR_INZ, <- plus_IZR. apply IZR_lt. lia.
Qed.

Lemma avi_bounds s v :
  StronglySorted Rle s -> s <> [] ->
  nth 0 s 0 <= at_virtual_index s v <= nth (length s - 1) s 0.
Proof.
  intros Hs Hne.
  assert (Hl : (0 < length s)%nat) by (destruct s; [contradiction|simpl; lia]).
  assert (H0 : nth 0 s 0 <= nth (length s - 1) s 0) by (apply sorted_nth_le; auto; lia).
  destruct (avi_cases s v Hne) as [[_ ->]|[[_ [_ ->]]|[i [Hi [Hv ->]]]]]; try lra.
  assert (nth 0 s 0 <= nth i s 0) by (apply sorted_nth_le; auto; lia).
  assert (nth i s 0 <= nth (S i) s 0) by (apply sorted_nth_le; auto; lia).
  assert (nth (S i) s 0 <= nth (length s - 1) s 0) by (apply sorted_nth_le; auto; lia).
  split; nra.
Qed.

Lemma avi_mono s v w :
  StronglySorted Rle s -> s <> [] -> v <= w -> at_virtual_index s v <= at_virtual_index s w.
Proof.
  intros Hs Hne Hvw.
  assert (Hl : (0 < length s)%nat) by (destruct s; [contradiction|simpl; lia]).
  pose proof (avi_bounds s v Hs Hne) as Bv. pose proof (avi_bounds s w Hs Hne) as Bw.
  destruct (avi_cases s v Hne) as [[Hv Ev]|[[Hv [Hv' Ev]]|[i [Hi [Hv Ev]]]]]; [lra| |].
  - destruct (avi_cases s w Hne) as [[Hw Ew]|[[Hw [Hw' Ew]]|[j [Hj [Hw Ew]]]]]; try lra.
    exfalso. assert (INR j + 1 <= INR (length s - 1)).
    { rewrite <- S_INR. apply le_INR. lia. } lra.
  - destruct (avi_cases s w Hne) as [[Hw Ew]|[[Hw [Hw' Ew]]|[j [Hj [Hw Ew]]]]]; try lra.
    { pose proof (pos_INR i). lra. }
    rewrite Ev, Ew.
    assert (Hij : (i <= j)%nat).
    { apply Nat.lt_succ_r. apply INR_lt. rewrite S_INR. lra. }
    assert (Hi1 : nth i s 0 <= nth (S i) s 0) by (apply sorted_nth_le; auto; lia).
    assert (Hj1 : nth j s 0 <= nth (S j) s 0) by (apply sorted_nth_le; auto; lia).
    destruct (Nat.eq_dec i j) as [->|Hne'].
    + assert (v - INR j <= w - INR j) by lra. nra.
    + assert (nth (S i) s 0 <= nth j s 0) by (apply sorted_nth_le; auto; lia).
      assert (nth i s 0 + (nth (S i) s 0 - nth i s 0) * (v - INR i) <= nth (S i) s 0) by nra.
      assert (nth j s 0 <= nth j s 0 + (nth (S j) s 0 - nth j s 0) * (w - INR j)) by nra.
      lra.
Qed.

Lemma avi_INR s k : (k < length s)%nat -> at_virtual_index s (INR k) = nth k s 0.
Proof.
  intros Hk. assert (Hne : s <> []) by (intros ->; simpl in Hk; lia).
  destruct (avi_cases s (INR k) Hne) as [[H E]|[[_ [H E]]|[i [Hi [H E]]]]]; rewrite E.
  - pose proof (pos_INR k); lra.
  - apply INR_le in H. f_equal. lia.
  - assert (i = k).
    { assert (INR i < INR (S k)) by (rewrite S_INR; lra). assert (INR k < INR (S i)) by (rewrite S_INR; lra).
      apply INR_lt in H0, H1. lia. }
    subst. ring.
Qed.

Lemma quantile_with_ok virt l q v :
  quantile_with virt l q = Ok v <->
  0 <= q <= 1 /\ l <> [] /\ v = at_virtual_index (sortR l) (virt (length l) q).
Proof.
  unfold quantile_with. destruct (Rltb q 0) eqn:E1; simpl.
  { apply Rltb_true in E1. split; [discriminate|lra]. }
  destruct (Rltb 1 q) eqn:E2.
  { apply Rltb_true in E2. split; [discriminate|lra]. }
  apply Rltb_false in E1, E2.
  destruct l as [|x xs].
  - split; [discriminate|]. intros [_ [H _]]; contradiction.
  - split.
    + intros H; inversion H; subst. repeat split; auto. discriminate.
    + intros [_ [_ ->]]; reflexivity.
Qed.

Lemma sortR_nil l : sortR l = [] <-> l = [].
Proof.
  split; [|intros ->; auto]. intros H. destruct l; auto.
  pose proof (sortR_length (r :: l)). rewrite H in H0. discriminate.
Qed.

Lemma sortR_min l x : In x l -> nth 0 (sortR l) 0 <= x.
Proof.
  intros H. apply (Permutation_in _ (sortR_perm l)) in H. apply (In_nth _ _ 0) in H as [i [Hi <-]].
  apply sorted_nth_le; auto. apply sortR_sorted. lia.
Qed.
Lemma sortR_max l x : In x l -> x <= nth (length l - 1) (sortR l) 0.
Proof.
  intros H. apply (Permutation_in _ (sortR_perm l)) in H. apply (In_nth _ _ 0) in H as [i [Hi <-]].
  rewrite sortR_length in Hi.
  apply sorted_nth_le. apply sortR_sorted. lia. rewrite sortR_length; lia.
Qed.
Lemma sortR_in l i : (i < length l)%nat -> In (nth i (sortR l) 0) l.
Proof.
  intros H. apply (Permutation_in _ (Permutation_sym (sortR_perm l))). apply nth_In.
  rewrite sortR_length; auto.
Qed.
