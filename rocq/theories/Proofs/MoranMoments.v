(** Mean and variance of Moran's I over all rearrangements of the observations. *)
From Coq Require Import Lra Psatz Permutation.
From Verif.Model Require Import Base Ext Moran.
From Verif.Spec Require Import MoranSpec.
From Verif.Proofs Require Import ListFacts SumFacts NeighbourFacts CsrFacts MoranFacts MoranProps.
Open Scope nat_scope.
Open Scope R_scope.

Definition pick (p : list nat) (t : list nat) : list nat := map (fun i => nth i p 0%nat) t.

Lemma pick_id p n : length p = n -> pick p (sq n) = p.
Proof. intros <-. symmetry. apply (list_tab 0%nat). Qed.

Lemma NoDup_app_intro {A} (l l' : list A) : NoDup l -> NoDup l' -> (forall x, In x l -> In x l' -> False) -> NoDup (l ++ l').
Proof.
  intros Hl Hl' H. induction Hl as [|x l Hx Hl IH]; simpl; auto. constructor.
  - rewrite in_app_iff. intros [Hi | Hi]; [auto|apply (H x); [left; auto|auto]].
  - apply IH. intros y Hy. apply H. right; auto.
Qed.

Section Perms.
Variable n : nat.
Variable Ps : list (list nat).
Hypothesis HPs : all_permutations n Ps.

Lemma perm_len p : In p Ps -> length p = n.
Proof. intros H. apply HPs in H. rewrite (Permutation_length H). apply seq_length. Qed.

Lemma perm_in p i : In p Ps -> (i < n)%nat -> (nth i p 0 < n)%nat.
Proof.
  intros H Hi. pose proof (perm_len p H). apply HPs in H. assert (Hin : In (nth i p 0%nat) (sq n)) by (eapply Permutation_in; [exact H|apply nth_In; lia]).
  apply in_seq in Hin. lia.
Qed.

Lemma pick_perm p tau : In p Ps -> Permutation tau (sq n) -> In (pick p tau) Ps.
Proof.
  intros H Ht. pose proof (perm_len p H) as HL. apply HPs. apply HPs in H. eapply Permutation_trans; [|exact H].
  rewrite <- (pick_id p n HL) at 2. apply Permutation_map, Ht.
Qed.

Lemma pick_inj p q tau : In p Ps -> In q Ps -> Permutation tau (sq n) -> pick p tau = pick q tau -> p = q.
Proof.
  intros Hp Hq Ht E. apply (list_eq_nth 0%nat); [rewrite !perm_len; auto|]. rewrite (perm_len p Hp). intros i Hi.
  assert (Hin : In i tau) by (eapply Permutation_in; [apply Permutation_sym; exact Ht|apply in_seq; lia]).
  apply (In_nth _ _ 0%nat) in Hin as (k & Hk & Ek).
  assert (E' : nth k (pick p tau) 0%nat = nth k (pick q tau) 0%nat) by (rewrite E; auto).
  unfold pick in E'. rewrite !(nth_map_in _ _ _ 0%nat) in E' by auto. rewrite Ek in E'. exact E'.
Qed.

Lemma NoDup_map_on {A B} (f : A -> B) l : (forall x y, In x l -> In y l -> f x = f y -> x = y) -> NoDup l -> NoDup (map f l).
Proof.
  intros Hf. induction 1 as [|x l Hx Hl IH]; simpl; constructor.
  - intros Hin. apply in_map_iff in Hin as (y & E & Hy). apply Hx. rewrite <- (Hf y x); auto; [right; auto|left; auto].
  - apply IH. intros; apply Hf; auto; right; auto.
Qed.

Lemma shuffle_perms tau : Permutation tau (sq n) -> Permutation (map (fun p => pick p tau) Ps) Ps.
Proof.
  intros Ht. apply NoDup_Permutation_bis.
  - apply NoDup_map_on; [|apply HPs]. intros p q Hp Hq. apply pick_inj; auto.
  - rewrite map_length. auto.
  - intros q Hq. apply in_map_iff in Hq as (p & <- & Hp). apply pick_perm; auto.
Qed.

Notation mean := (mean_over Ps).

Lemma mean_ext F G : (forall p, In p Ps -> F p = G p) -> mean F = mean G.
Proof. intros H. unfold mean_over. f_equal. apply Rsum_map_ext. auto. Qed.
Lemma mean_scal c F : mean (fun p => c * F p) = c * mean F.
Proof. unfold mean_over. rewrite Rsum_map_scal. unfold Rdiv. ring. Qed.
Lemma mean_plus F G : mean (fun p => F p + G p) = mean F + mean G.
Proof. unfold mean_over. rewrite Rsum_map_plus. unfold Rdiv. ring. Qed.
Lemma mean_sum k (F : list nat -> nat -> R) : sum_n k (fun l => mean (fun p => F p l)) = mean (fun p => sum_n k (F p)).
Proof.
  unfold mean_over, sum_n, Rdiv. rewrite (Rsum_map_scal_r (/ INR (length Ps))). rewrite Rsum_swap. reflexivity.
Qed.

Lemma Ps_nonempty : (0 < length Ps)%nat.
Proof. assert (H : In (sq n) Ps) by (apply HPs, Permutation_refl). destruct Ps; [destruct H|simpl; lia]. Qed.

Lemma mean_const c : mean (fun _ => c) = c.
Proof. unfold mean_over. rewrite Rsum_map_const. field. apply not_0_INR. pose proof Ps_nonempty. lia. Qed.

(** Only the number of distinct positions matters. *)
Definition rest (t : list nat) : list nat := filter (fun i => negb (existsb (Nat.eqb i) t)) (sq n).

Lemma rest_in t i : In i (rest t) <-> (i < n)%nat /\ ~ In i t.
Proof.
  unfold rest. rewrite filter_In, in_seq. split.
  - intros [H1 H2]. split; [lia|]. intros Hin. apply negb_true_iff in H2. assert (H3 : existsb (Nat.eqb i) t = true) by (apply existsb_exists; exists i; split; auto; apply Nat.eqb_refl). congruence.
  - intros [H1 H2]. split; [lia|]. apply negb_true_iff. destruct (existsb (Nat.eqb i) t) eqn:E; auto. apply existsb_exists in E as (x & Hx & Ex). apply Nat.eqb_eq in Ex. subst. contradiction.
Qed.

Lemma extend t : NoDup t -> (forall i, In i t -> (i < n)%nat) -> Permutation (t ++ rest t) (sq n).
Proof.
  intros Hnd Hlt. apply NoDup_Permutation.
  - apply NoDup_app_intro; auto. apply NoDup_filter, seq_NoDup. intros x Hx Hr. apply rest_in in Hr. tauto.
  - apply seq_NoDup.
  - intros x. rewrite in_app_iff, rest_in, in_seq. split; [intros [H | H]; [specialize (Hlt x H); lia|lia]|]. intros H. destruct (in_dec Nat.eq_dec x t); [auto|right; split; [lia|auto]].
Qed.

Lemma positions (G : list nat -> R) t : NoDup t -> (forall i, In i t -> (i < n)%nat) -> mean (fun p => G (pick p t)) = mean (fun p => G (firstn (length t) p)).
Proof.
  intros Hnd Hlt. pose proof (extend t Hnd Hlt) as Ht. unfold mean_over. f_equal.
  rewrite <- (Rsum_perm _ _ (Permutation_map (fun p => G (firstn (length t) p)) (shuffle_perms _ Ht))). rewrite map_map. apply Rsum_map_ext. intros p Hp. f_equal.
  unfold pick. rewrite map_app, firstn_app, map_length, Nat.sub_diag, firstn_O, app_nil_r. rewrite firstn_all2 by (rewrite map_length; auto). reflexivity.
Qed.

Lemma positions2 (G : list nat -> R) t t' : NoDup t -> (forall i, In i t -> (i < n)%nat) -> NoDup t' -> (forall i, In i t' -> (i < n)%nat) -> length t = length t' ->
  mean (fun p => G (pick p t)) = mean (fun p => G (pick p t')).
Proof. intros H1 H2 H3 H4 E. rewrite !positions by auto. rewrite E. reflexivity. Qed.

Lemma split_sum t c F : NoDup t -> (forall i, In i t -> (i < n)%nat) -> (forall i, (i < n)%nat -> ~ In i t -> F i = c) ->
  sum_n n F = Rsum (map F t) + (INR n - INR (length t)) * c.
Proof.
  intros Hnd Hlt Hc. pose proof (extend t Hnd Hlt) as Ht. unfold sum_n. rewrite <- (Rsum_perm _ _ (Permutation_map F Ht)), map_app, Rsum_app. f_equal.
  rewrite (Rsum_map_ext F (fun _ => c)) by (intros i Hi; apply rest_in in Hi; apply Hc; tauto). rewrite Rsum_map_const. f_equal.
  pose proof (Permutation_length Ht) as HL. rewrite app_length, seq_length in HL. rewrite <- HL, plus_INR. ring.
Qed.

(** ** moments of the rearranged deviations *)
Variable u : nat -> R.
Hypothesis Hu : sum_n n u = 0.
Notation a p i := (u (nth i p 0%nat)).
Notation m2 := (sum_n n (fun i => u i ^ 2)).
Notation m4 := (sum_n n (fun i => u i ^ 4)).
Notation x := (INR n).

Lemma sum_a f p : In p Ps -> sum_n n (fun i => f (a p i)) = sum_n n (fun i => f (u i)).
Proof.
  intros H. pose proof (perm_len p H) as HL. apply HPs in H. unfold sum_n.
  assert (E : map (fun i => f (a p i)) (sq n) = map (fun i => f (u i)) p) by (transitivity (map (fun i => f (u i)) (pick p (sq n))); [unfold pick; rewrite map_map; reflexivity|rewrite pick_id by auto; reflexivity]).
  rewrite E. apply Rsum_perm, Permutation_map, H.
Qed.

Lemma one_position f i : (i < n)%nat -> x * mean (fun p => f (a p i)) = sum_n n (fun j => f (u j)).
Proof.
  intros Hi. assert (E : sum_n n (fun j => mean (fun p => f (a p j))) = sum_n n (fun j => f (u j))).
  { rewrite (mean_sum n (fun p j => f (a p j))). rewrite (mean_ext _ (fun _ => sum_n n (fun j => f (u j)))) by (intros p Hp; apply sum_a; auto). apply mean_const. }
  rewrite <- E. rewrite (sum_n_ext _ _ (fun _ => mean (fun p => f (a p i)))).
  - unfold sum_n. rewrite Rsum_map_const, seq_length. reflexivity.
  - intros j Hj. apply (positions2 (fun q => f (u (nth 0 q 0%nat))) [j] [i]); auto; try (repeat constructor; simpl; tauto); intros k [<- | []]; auto.
Qed.

(** The sum over one more position, with the others fixed. *)
Lemma last_zero' (g : list nat -> R) : sum_n n (fun l => mean (fun p => g p * a p l)) = 0.
Proof.
  rewrite (mean_sum n (fun p l => g p * a p l)). rewrite (mean_ext _ (fun _ => 0)); [apply mean_const|]. intros p Hp. rewrite sum_n_scal.
  rewrite (sum_a (fun t => t) p Hp). change (sum_n n (fun i => u i)) with (sum_n n u). rewrite Hu. ring.
Qed.

Ltac nodup := repeat (constructor; [simpl; intuition congruence|]); try constructor.
Ltac bnd := simpl; intros ? HH; repeat (destruct HH as [<- | HH]; [assumption|]); destruct HH.

Lemma two f i j i' j' : (i < n)%nat -> (j < n)%nat -> i <> j -> (i' < n)%nat -> (j' < n)%nat -> i' <> j' ->
  mean (fun p => f (a p i) (a p j)) = mean (fun p => f (a p i') (a p j')).
Proof.
  intros. apply (positions2 (fun q => f (u (nth 0 q 0%nat)) (u (nth 1 q 0%nat))) [i; j] [i'; j']); auto; first [solve [nodup] | solve [bnd]].
Qed.
Lemma three f i j k i' j' k' : (i < n)%nat -> (j < n)%nat -> (k < n)%nat -> i <> j -> i <> k -> j <> k ->
  (i' < n)%nat -> (j' < n)%nat -> (k' < n)%nat -> i' <> j' -> i' <> k' -> j' <> k' ->
  mean (fun p => f (a p i) (a p j) (a p k)) = mean (fun p => f (a p i') (a p j') (a p k')).
Proof.
  intros. apply (positions2 (fun q => f (u (nth 0 q 0%nat)) (u (nth 1 q 0%nat)) (u (nth 2 q 0%nat))) [i; j; k] [i'; j'; k']); auto; first [solve [nodup] | solve [bnd]].
Qed.
Lemma four f i j k l l' : (i < n)%nat -> (j < n)%nat -> (k < n)%nat -> (l < n)%nat -> (l' < n)%nat -> i <> j -> i <> k -> j <> k ->
  l <> i -> l <> j -> l <> k -> l' <> i -> l' <> j -> l' <> k ->
  mean (fun p => f (a p i) (a p j) (a p k) (a p l)) = mean (fun p => f (a p i) (a p j) (a p k) (a p l')).
Proof.
  intros. apply (positions2 (fun q => f (u (nth 0 q 0%nat)) (u (nth 1 q 0%nat)) (u (nth 2 q 0%nat)) (u (nth 3 q 0%nat))) [i; j; k; l] [i; j; k; l']); auto; first [solve [nodup] | solve [bnd]].
Qed.

Lemma E11 i j : (i < n)%nat -> (j < n)%nat -> i <> j -> (x - 1) * mean (fun p => a p i * a p j) = - (m2 / x).
Proof.
  intros Hi Hj Hij. assert (Hx : x <> 0) by (apply not_0_INR; lia).
  pose proof (last_zero' (fun p => a p i)) as Z. rewrite (split_sum [i] (mean (fun p => a p i * a p j))) in Z; [|nodup|bnd|].
  - cbn [map length] in Z. rewrite Rsum_cons, Rsum_nil in Z. pose proof (one_position (fun t => t ^ 2) i Hi) as O.
    rewrite (mean_ext (fun p => a p i * a p i) (fun p => a p i ^ 2)) in Z by (intros; ring).
    assert (O' : mean (fun p => a p i ^ 2) = m2 / x) by (rewrite <- O; field; auto). rewrite O' in Z. change (INR 1) with 1 in Z. lra.
  - intros l Hl Hn. simpl in Hn. apply (two (fun s t => s * t)); auto.
Qed.

Lemma E31 i j : (i < n)%nat -> (j < n)%nat -> i <> j -> (x - 1) * mean (fun p => a p i ^ 3 * a p j) = - (m4 / x).
Proof.
  intros Hi Hj Hij. assert (Hx : x <> 0) by (apply not_0_INR; lia).
  pose proof (last_zero' (fun p => a p i ^ 3)) as Z. rewrite (split_sum [i] (mean (fun p => a p i ^ 3 * a p j))) in Z; [|nodup|bnd|].
  - cbn [map length] in Z. rewrite Rsum_cons, Rsum_nil in Z. pose proof (one_position (fun t => t ^ 4) i Hi) as O.
    rewrite (mean_ext (fun p => a p i ^ 3 * a p i) (fun p => a p i ^ 4)) in Z by (intros; ring).
    assert (O' : mean (fun p => a p i ^ 4) = m4 / x) by (rewrite <- O; field; auto). rewrite O' in Z. change (INR 1) with 1 in Z. lra.
  - intros l Hl Hn. simpl in Hn. apply (two (fun s t => s ^ 3 * t)); auto.
Qed.

Lemma E22 i j : (i < n)%nat -> (j < n)%nat -> i <> j -> (x - 1) * mean (fun p => a p i ^ 2 * a p j ^ 2) = m2 * m2 / x - m4 / x.
Proof.
  intros Hi Hj Hij. assert (Hx : x <> 0) by (apply not_0_INR; lia).
  assert (Z : sum_n n (fun l => mean (fun p => a p i ^ 2 * a p l ^ 2)) = m2 * m2 / x).
  { rewrite (mean_sum n (fun p l => a p i ^ 2 * a p l ^ 2)). rewrite (mean_ext _ (fun p => m2 * a p i ^ 2)).
    - rewrite mean_scal. pose proof (one_position (fun t => t ^ 2) i Hi) as O. assert (O' : mean (fun p => a p i ^ 2) = m2 / x) by (rewrite <- O; field; auto). rewrite O'. field; auto.
    - intros p Hp. rewrite sum_n_scal. rewrite (sum_a (fun t => t ^ 2) p Hp). ring. }
  rewrite (split_sum [i] (mean (fun p => a p i ^ 2 * a p j ^ 2))) in Z; [|nodup|bnd|].
  - cbn [map length] in Z. rewrite Rsum_cons, Rsum_nil in Z. pose proof (one_position (fun t => t ^ 4) i Hi) as O.
    rewrite (mean_ext (fun p => a p i ^ 2 * a p i ^ 2) (fun p => a p i ^ 4)) in Z by (intros; ring).
    assert (O' : mean (fun p => a p i ^ 4) = m4 / x) by (rewrite <- O; field; auto). rewrite O' in Z. change (INR 1) with 1 in Z. lra.
  - intros l Hl Hn. simpl in Hn. apply (two (fun s t => s ^ 2 * t ^ 2)); auto.
Qed.

Lemma E211 i j k : (i < n)%nat -> (j < n)%nat -> (k < n)%nat -> i <> j -> i <> k -> j <> k ->
  (x - 1) * (x - 2) * mean (fun p => a p i ^ 2 * a p j * a p k) = 2 * (m4 / x) - m2 * m2 / x.
Proof.
  intros Hi Hj Hk Hij Hik Hjk. assert (Hx : x <> 0) by (apply not_0_INR; lia).
  pose proof (last_zero' (fun p => a p i ^ 2 * a p j)) as Z. rewrite (split_sum [i; j] (mean (fun p => a p i ^ 2 * a p j * a p k))) in Z; [|nodup|bnd|].
  - cbn [map length] in Z. rewrite !Rsum_cons, Rsum_nil in Z. change (INR 2) with 2 in Z.
    rewrite (mean_ext (fun p => a p i ^ 2 * a p j * a p i) (fun p => a p i ^ 3 * a p j)) in Z by (intros; ring).
    rewrite (mean_ext (fun p => a p i ^ 2 * a p j * a p j) (fun p => a p i ^ 2 * a p j ^ 2)) in Z by (intros; ring).
    pose proof (E31 i j Hi Hj Hij). pose proof (E22 i j Hi Hj Hij). 
    set (z3 := mean (fun p => a p i ^ 2 * a p j * a p k)) in *. set (z2 := mean (fun p => a p i ^ 2 * a p j ^ 2)) in *. set (z1 := mean (fun p => a p i ^ 3 * a p j)) in *.
    assert ((x - 2) * z3 = - z1 - z2) by lra. replace ((x - 1) * (x - 2) * z3) with ((x - 1) * ((x - 2) * z3)) by ring. rewrite H1. lra.
  - intros l Hl Hn. simpl in Hn. apply (three (fun s t r => s ^ 2 * t * r)); auto.
Qed.

Lemma E1111 i j k l : (i < n)%nat -> (j < n)%nat -> (k < n)%nat -> (l < n)%nat -> i <> j -> i <> k -> j <> k -> l <> i -> l <> j -> l <> k ->
  (x - 1) * (x - 2) * (x - 3) * mean (fun p => a p i * a p j * a p k * a p l) = 3 * (m2 * m2 / x) - 6 * (m4 / x).
Proof.
  intros Hi Hj Hk Hl Hij Hik Hjk Hli Hlj Hlk.
  pose proof (last_zero' (fun p => a p i * a p j * a p k)) as Z. rewrite (split_sum [i; j; k] (mean (fun p => a p i * a p j * a p k * a p l))) in Z; [|nodup|bnd|].
  - cbn [map length] in Z. rewrite !Rsum_cons, Rsum_nil in Z. replace (INR 3) with 3 in Z by (simpl; ring).
    rewrite (mean_ext (fun p => a p i * a p j * a p k * a p i) (fun p => a p i ^ 2 * a p j * a p k)) in Z by (intros; ring).
    rewrite (mean_ext (fun p => a p i * a p j * a p k * a p j) (fun p => a p j ^ 2 * a p i * a p k)) in Z by (intros; ring).
    rewrite (mean_ext (fun p => a p i * a p j * a p k * a p k) (fun p => a p k ^ 2 * a p i * a p j)) in Z by (intros; ring).
    pose proof (E211 i j k Hi Hj Hk Hij Hik Hjk). pose proof (E211 j i k Hj Hi Hk ltac:(auto) Hjk Hik). pose proof (E211 k i j Hk Hi Hj ltac:(auto) ltac:(auto) Hij).
    set (z := mean (fun p => a p i * a p j * a p k * a p l)) in *.
    replace ((x - 1) * (x - 2) * (x - 3) * z) with ((x - 1) * (x - 2) * ((x - 3) * z)) by ring.
    match type of Z with ?q1 + (?q2 + (?q3 + 0)) + _ = 0 => assert (Z' : (x - 3) * z = - q1 - q2 - q3) by lra end. rewrite Z'. lra.
  - intros r Hr Hn. simpl in Hn. apply (four (fun s t q w => s * t * q * w)); auto; intros ->; tauto.
Qed.

(** ** first and second moment of the quadratic form *)
Variable v : nat -> nat -> R.
Hypothesis Hdiag : forall i, (i < n)%nat -> v i i = 0.
Definition Q (p : list nat) : R := sum_n n (fun i => sum_n n (fun j => v i j * a p i * a p j)).

Definition d (i j : nat) : R := if (i =? j)%nat then 1 else 0.
Lemma d_sum i f : (i < n)%nat -> sum_n n (fun k => d i k * f k) = f i.
Proof.
  intros Hi. rewrite (split_sum [i] 0); [|nodup|bnd|].
  - cbn [map length]. rewrite Rsum_cons, Rsum_nil. unfold d. rewrite Nat.eqb_refl. ring.
  - intros l Hl Hn. unfold d. simpl in Hn. destruct (Nat.eqb_spec i l); [tauto|ring].
Qed.

Lemma sum_n_plus f g : sum_n n (fun i => f i + g i) = sum_n n f + sum_n n g.
Proof. apply Rsum_map_plus. Qed.

Notation r i := (sum_n n (fun j => v i j)).
Notation c i := (sum_n n (fun j => v j i)).

Lemma inner A X Y i j : (i < n)%nat -> (j < n)%nat ->
  sum_n n (fun k => sum_n n (fun l => v k l * (A + (d i k + d j k + d i l + d j l) * X + (d i k * d j l + d i l * d j k) * Y))) =
  A * S0 n v + X * (r i + r j + c i + c j) + Y * (v i j + v j i).
Proof.
  intros Hi Hj.
  rewrite (sum_n_ext n _ (fun k => A * r k + X * (d i k * r k + d j k * r k + v k i + v k j) + Y * (d i k * v k j + d j k * v k i))).
  - rewrite !sum_n_plus, !sum_n_scal, !sum_n_plus. rewrite !(d_sum i), !(d_sum j) by auto. unfold S0. reflexivity.
  - intros k Hk. rewrite (sum_n_ext n _ (fun l => (A + d i k * X + d j k * X) * v k l + (X + d j k * Y) * (d i l * v k l) + (X + d i k * Y) * (d j l * v k l))) by (intros; ring).
    rewrite !sum_n_plus, !sum_n_scal, (d_sum i), (d_sum j) by auto. change (sum_n n (v k)) with (r k). ring.
Qed.

Lemma S1_eq : S1 n v = sum_n n (fun i => sum_n n (fun j => v i j * (v i j + v j i))).
Proof.
  unfold S1. assert (E : sum_n n (fun i => sum_n n (fun j => v j i ^ 2)) = sum_n n (fun i => sum_n n (fun j => v i j ^ 2))) by (symmetry; apply sum_n_swap).
  assert (E1 : sum_n n (fun i => sum_n n (fun j => (v i j + v j i) ^ 2)) = sum_n n (fun i => sum_n n (fun j => v i j ^ 2)) + 2 * sum_n n (fun i => sum_n n (fun j => v i j * v j i)) + sum_n n (fun i => sum_n n (fun j => v j i ^ 2))).
  { rewrite <- sum_n_scal, <- !sum_n_plus. apply sum_n_ext. intros i Hi. rewrite <- sum_n_scal, <- !sum_n_plus. apply sum_n_ext. intros; ring. }
  assert (E2 : sum_n n (fun i => sum_n n (fun j => v i j * (v i j + v j i))) = sum_n n (fun i => sum_n n (fun j => v i j ^ 2)) + sum_n n (fun i => sum_n n (fun j => v i j * v j i))).
  { rewrite <- sum_n_plus. apply sum_n_ext. intros i Hi. rewrite <- sum_n_plus. apply sum_n_ext. intros; ring. }
  rewrite E1, E2, E. field.
Qed.

Lemma outer A X Y :
  sum_n n (fun i => sum_n n (fun j => v i j * (A * S0 n v + X * (r i + r j + c i + c j) + Y * (v i j + v j i)))) = A * S0 n v ^ 2 + X * S2 n v + Y * S1 n v.
Proof.
  assert (E : forall i, (i < n)%nat -> sum_n n (fun j => v i j * (A * S0 n v + X * (r i + r j + c i + c j) + Y * (v i j + v j i))) =
    A * S0 n v * r i + X * (r i * r i + r i * c i) + X * sum_n n (fun j => v i j * (r j + c j)) + Y * sum_n n (fun j => v i j * (v i j + v j i))).
  { intros i Hi. rewrite (sum_n_ext n _ (fun j => (A * S0 n v + X * (r i + c i)) * v i j + X * (v i j * (r j + c j)) + Y * (v i j * (v i j + v j i)))) by (intros; ring).
    rewrite !sum_n_plus, !sum_n_scal. change (sum_n n (v i)) with (r i). ring. }
  rewrite (sum_n_ext _ _ _ E). rewrite !sum_n_plus, !sum_n_scal. rewrite <- S1_eq.
  rewrite (sum_n_swap n (fun i j => v i j * (r j + c j))).
  rewrite (sum_n_ext n (fun j => sum_n n (fun i => v i j * (r j + c j))) (fun j => c j * (r j + c j))) by (intros j Hj; unfold sum_n at 1; rewrite Rsum_map_scal_r; reflexivity).
  assert (E2 : S2 n v = sum_n n (fun i => r i * r i + r i * c i) + sum_n n (fun j => c j * (r j + c j))).
  { unfold S2. rewrite <- sum_n_plus. apply sum_n_ext. intros i Hi. rewrite sum_n_plus. change (sum_n n (v i)) with (r i). ring. }
  rewrite E2. fold (S0 n v). ring.
Qed.

Lemma mean_Q : (2 <= n)%nat -> mean Q = - (m2 / x) / (x - 1) * S0 n v.
Proof.
  intros Hn. assert (Hx : 2 <= x) by (pose proof (le_INR 2 n Hn) as H; simpl in H; lra).
  unfold Q. rewrite <- (mean_sum n (fun p i => sum_n n (fun j => v i j * a p i * a p j))). unfold S0. rewrite <- sum_n_scal. apply sum_n_ext. intros i Hi.
  rewrite <- (mean_sum n (fun p j => v i j * a p i * a p j)). rewrite <- sum_n_scal. apply sum_n_ext. intros j Hj.
  rewrite (mean_ext _ (fun p => v i j * (a p i * a p j))) by (intros; ring). rewrite mean_scal.
  destruct (Nat.eq_dec i j) as [-> | Hij]; [rewrite Hdiag by auto; ring|]. pose proof (E11 i j Hi Hj Hij) as E.
  assert (E' : mean (fun p => a p i * a p j) = - (m2 / x) / (x - 1)) by (apply (Rmult_eq_reg_l (x - 1)); [rewrite E; field; lra|lra]). rewrite E'. ring.
Qed.

Definition A2 : R := (m2 * m2 / x - m4 / x) / (x - 1).
Definition A3 : R := (2 * (m4 / x) - m2 * m2 / x) / ((x - 1) * (x - 2)).
Definition A4 : R := (3 * (m2 * m2 / x) - 6 * (m4 / x)) / ((x - 1) * (x - 2) * (x - 3)).

Lemma fourth i j k l : (4 <= n)%nat -> (i < n)%nat -> (j < n)%nat -> (k < n)%nat -> (l < n)%nat -> i <> j -> k <> l ->
  mean (fun p => a p i * a p j * a p k * a p l) = A4 + (d i k + d j k + d i l + d j l) * (A3 - A4) + (d i k * d j l + d i l * d j k) * (A2 - 2 * A3 + A4).
Proof.
  intros Hn Hi Hj Hk Hl Hij Hkl. assert (Hx : 4 <= x) by (pose proof (le_INR 4 n Hn) as H; simpl in H; lra).
  assert (P2 : forall i j, (i < n)%nat -> (j < n)%nat -> i <> j -> mean (fun p => a p i ^ 2 * a p j ^ 2) = A2).
  { intros i0 j0 ? ? ?. apply (Rmult_eq_reg_l (x - 1)); [|lra]. rewrite E22 by auto. unfold A2. field. lra. }
  assert (P3 : forall i j k, (i < n)%nat -> (j < n)%nat -> (k < n)%nat -> i <> j -> i <> k -> j <> k -> mean (fun p => a p i ^ 2 * a p j * a p k) = A3).
  { intros. apply (Rmult_eq_reg_l ((x - 1) * (x - 2))); [|nra]. rewrite E211 by auto. unfold A3. field. lra. }
  assert (H3 : (x - 1) * (x - 2) * (x - 3) <> 0) by (repeat apply Rmult_integral_contrapositive_currified; lra).
  assert (P4 : forall i j k l, (i < n)%nat -> (j < n)%nat -> (k < n)%nat -> (l < n)%nat -> i <> j -> i <> k -> j <> k -> l <> i -> l <> j -> l <> k -> mean (fun p => a p i * a p j * a p k * a p l) = A4).
  { intros. apply (Rmult_eq_reg_l ((x - 1) * (x - 2) * (x - 3))); [|auto]. rewrite E1111 by auto. unfold A4. field. lra. }
  unfold d. destruct (Nat.eqb_spec i k) as [Eik | Nik]; destruct (Nat.eqb_spec j k) as [Ejk | Njk]; try congruence;
    destruct (Nat.eqb_spec i l) as [Eil | Nil]; destruct (Nat.eqb_spec j l) as [Ejl | Njl]; try congruence.
  - subst. rewrite <- (P2 k l) by auto. replace (mean _) with (mean (fun p => a p k ^ 2 * a p l ^ 2)) by (apply mean_ext; intros; ring). ring.
  - subst. rewrite <- (P3 k j l) by auto. replace (mean _) with (mean (fun p => a p k ^ 2 * a p j * a p l)) by (apply mean_ext; intros; ring). ring.
  - subst. rewrite <- (P2 k l) by auto. replace (mean _) with (mean (fun p => a p k ^ 2 * a p l ^ 2)) by (apply mean_ext; intros; ring). ring.
  - subst. rewrite <- (P3 k i l) by auto. replace (mean _) with (mean (fun p => a p k ^ 2 * a p i * a p l)) by (apply mean_ext; intros; ring). ring.
  - subst. rewrite <- (P3 l j k) by auto. replace (mean _) with (mean (fun p => a p l ^ 2 * a p j * a p k)) by (apply mean_ext; intros; ring). ring.
  - subst. rewrite <- (P3 l i k) by auto. replace (mean _) with (mean (fun p => a p l ^ 2 * a p i * a p k)) by (apply mean_ext; intros; ring). ring.
  - rewrite P4 by auto. ring.
Qed.

Lemma mean_QQ : (4 <= n)%nat -> mean (fun p => Q p ^ 2) = A4 * S0 n v ^ 2 + (A3 - A4) * S2 n v + (A2 - 2 * A3 + A4) * S1 n v.
Proof.
  intros Hn. rewrite <- outer.
  rewrite (mean_ext _ (fun p => sum_n n (fun i => sum_n n (fun j => sum_n n (fun k => sum_n n (fun l => v i j * v k l * (a p i * a p j * a p k * a p l))))))).
  - rewrite <- (mean_sum n (fun p i => sum_n n (fun j => sum_n n (fun k => sum_n n (fun l => v i j * v k l * (a p i * a p j * a p k * a p l)))))).
    apply sum_n_ext. intros i Hi. rewrite <- (mean_sum n (fun p j => sum_n n (fun k => sum_n n (fun l => v i j * v k l * (a p i * a p j * a p k * a p l))))).
    apply sum_n_ext. intros j Hj. rewrite <- inner by auto. rewrite <- sum_n_scal. rewrite <- (mean_sum n (fun p k => sum_n n (fun l => v i j * v k l * (a p i * a p j * a p k * a p l)))).
    apply sum_n_ext. intros k Hk. rewrite <- sum_n_scal. rewrite <- (mean_sum n (fun p l => v i j * v k l * (a p i * a p j * a p k * a p l))).
    apply sum_n_ext. intros l Hl. rewrite mean_scal.
    destruct (Nat.eq_dec i j) as [-> | Hij]; [rewrite Hdiag by auto; ring|]. destruct (Nat.eq_dec k l) as [-> | Hkl]; [rewrite (Hdiag l) by auto; ring|].
    rewrite fourth by auto. ring.
  - intros p Hp. rewrite pow2_eq. unfold Q at 1. rewrite (Rmult_comm _ (Q p)). rewrite <- sum_n_scal. apply sum_n_ext. intros i Hi.
    rewrite <- sum_n_scal. apply sum_n_ext. intros j Hj. rewrite (Rmult_comm (Q p)). unfold Q. rewrite <- sum_n_scal. apply sum_n_ext. intros k Hk.
    rewrite <- sum_n_scal. apply sum_n_ext. intros; ring.
Qed.
End Perms.
