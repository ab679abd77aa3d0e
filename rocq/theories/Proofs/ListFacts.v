(** General lemmas on the list operations of [Model/Base.v]. *)
From Verif.Model Require Import Base.
Local Open Scope nat_scope.

(** ** result monad *)
Lemma bind_ok {A B} (m : result A) (f : A -> result B) b :
  bind m f = Ok b <-> exists a, m = Ok a /\ f a = Ok b.
Proof.
  destruct m as [a|e]; simpl; split.
  - intros H; exists a; auto.
  - intros [a' [H1 H2]]; inversion H1; subst; auto.
  - discriminate.
  - intros [a' [H1 _]]; discriminate.
Qed.

Lemma raises_not_ok {A} (m : result A) : raises m <-> forall a, m <> Ok a.
Proof.
  destruct m as [a|e]; split.
  - intros [e H]; discriminate.
  - intros H; exfalso; apply (H a); reflexivity.
  - intros _ a; discriminate.
  - intros _; exists e; reflexivity.
Qed.

Lemma mapM_ok_iff {A B} (f : A -> result B) l ys :
  mapM f l = Ok ys <-> Forall2 (fun x y => f x = Ok y) l ys.
Proof.
  revert ys; induction l as [|x xs IH]; intros ys; simpl.
  - split; intros H; inversion H; subst; constructor.
  - split.
    + intros H. apply bind_ok in H as [y [Hy H]]. apply bind_ok in H as [ys' [Hys H]].
      inversion H; subst. constructor; auto. apply IH; auto.
    + intros H; inversion H as [|? y ? ys' Hy Hys]; subst.
      rewrite Hy; simpl. apply IH in Hys. rewrite Hys. reflexivity.
Qed.

Lemma mapM_all_ok {A B} (f : A -> result B) (g : A -> B) l :
  (forall x, In x l -> f x = Ok (g x)) -> mapM f l = Ok (map g l).
Proof.
  induction l as [|x xs IH]; intros H; simpl; auto.
  rewrite (H x) by (left; auto); simpl. rewrite IH; auto.
  intros y Hy; apply H; right; auto.
Qed.

Lemma mapM_raises_iff {A B} (f : A -> result B) l :
  raises (mapM f l) <-> exists x, In x l /\ raises (f x).
Proof.
  induction l as [|x xs IH]; simpl.
  - split; [intros [e H]; discriminate | intros [x [[] _]]].
  - destruct (f x) as [y|e] eqn:Hx; simpl.
    + destruct (mapM f xs) as [ys|e'] eqn:Hxs; simpl.
      * split; [intros [e H]; discriminate|].
        intros [z [[<-|Hz] [e He]]]; [congruence|].
        assert (raises (Ok ys)) as [e' He'] by (apply IH; exists z; split; auto; exists e; auto).
        discriminate.
      * split; [intros _|intros _; exists e'; auto].
        destruct IH as [IH _]. destruct IH as [z [Hz He]]; [exists e'; auto|].
        exists z; auto.
    + split; [intros _|intros _; exists e; auto]. exists x; split; auto. exists e; auto.
Qed.

Lemma Forall2_len {A B} (P : A -> B -> Prop) l l' : Forall2 P l l' -> length l = length l'.
Proof. induction 1; simpl; auto. Qed.

Lemma mapM_length {A B} (f : A -> result B) l ys : mapM f l = Ok ys -> length ys = length l.
Proof. intros H; apply mapM_ok_iff in H. symmetry; eapply Forall2_len; eauto. Qed.

Lemma mapM_ext {A B} (f g : A -> result B) l :
  (forall x, In x l -> f x = g x) -> mapM f l = mapM g l.
Proof.
  induction l as [|x xs IH]; intros H; simpl; auto.
  rewrite (H x) by (left; auto). rewrite IH; auto. intros; apply H; right; auto.
Qed.

Lemma mapM_map {A B C} (f : B -> result C) (g : A -> B) l :
  mapM f (map g l) = mapM (fun x => f (g x)) l.
Proof. induction l as [|x xs IH]; simpl; auto. rewrite IH; reflexivity. Qed.

Lemma mapM_app {A B} (f : A -> result B) l l' :
  mapM f (l ++ l') = (a <- mapM f l ;; b <- mapM f l' ;; Ok (a ++ b)).
Proof.
  induction l as [|x xs IH]; simpl.
  - destruct (mapM f l'); reflexivity.
  - destruct (f x); simpl; auto. rewrite IH.
    destruct (mapM f xs); simpl; auto. destruct (mapM f l'); reflexivity.
Qed.

Lemma getitem_ok {A} (l : list A) i a : getitem l i = Ok a <-> nth_error l i = Some a.
Proof. unfold getitem; destruct (nth_error l i); split; intros H; inversion H; auto. Qed.

Lemma getitem_lt {A} (d : A) l i : i < length l -> getitem l i = Ok (nth i l d).
Proof.
  intros H. unfold getitem. rewrite (nth_error_nth' l d H). reflexivity.
Qed.

(** ** map2, mapi, tabulate *)
Lemma map2_length {A B C} (f : A -> B -> C) l l' :
  length (map2 f l l') = Nat.min (length l) (length l').
Proof. revert l'; induction l as [|x xs IH]; intros [|y ys]; simpl; auto. Qed.

Lemma map2_nth {A B C} (f : A -> B -> C) l l' i da db dc :
  i < length l -> i < length l' -> nth i (map2 f l l') dc = f (nth i l da) (nth i l' db).
Proof.
  revert l' i; induction l as [|x xs IH]; intros [|y ys] [|i] H H'; simpl in *; try lia; auto.
  apply IH; lia.
Qed.

Lemma map2_map {A B C A' B'} (f : A -> B -> C) (g : A' -> A) (h : B' -> B) l l' :
  map2 f (map g l) (map h l') = map2 (fun x y => f (g x) (h y)) l l'.
Proof. revert l'; induction l as [|x xs IH]; intros [|y ys]; simpl; f_equal; auto. Qed.

Lemma map_map2 {A B C D} (g : C -> D) (f : A -> B -> C) l l' :
  map g (map2 f l l') = map2 (fun x y => g (f x y)) l l'.
Proof. revert l'; induction l as [|x xs IH]; intros [|y ys]; simpl; f_equal; auto. Qed.

Lemma map2_ext_in {A B C} (f g : A -> B -> C) l l' :
  (forall x y, In x l -> In y l' -> f x y = g x y) -> map2 f l l' = map2 g l l'.
Proof.
  revert l'; induction l as [|x xs IH]; intros [|y ys] H; simpl; auto.
  f_equal; [apply H; left; auto|]. apply IH. intros; apply H; right; auto.
Qed.

Lemma map2_repeat_r {A B C} (f : A -> B -> C) l b n :
  length l <= n -> map2 f l (repeat b n) = map (fun x => f x b) l.
Proof.
  revert n; induction l as [|x xs IH]; intros [|n] H; simpl in *; auto; try lia.
  f_equal; apply IH; lia.
Qed.

Lemma map2_combine {A B C} (f : A -> B -> C) l l' :
  map2 f l l' = map (fun p => f (fst p) (snd p)) (combine l l').
Proof. revert l'; induction l as [|x xs IH]; intros [|y ys]; simpl; f_equal; auto. Qed.

Lemma mapi_from_length {A B} k (f : nat -> A -> B) l : length (mapi_from k f l) = length l.
Proof. revert k; induction l; simpl; auto. Qed.

Lemma mapi_from_nth {A B} k (f : nat -> A -> B) l i da db :
  i < length l -> nth i (mapi_from k f l) db = f (k + i) (nth i l da).
Proof.
  revert k i; induction l as [|x xs IH]; intros k [|i] H; simpl in *; try lia.
  - rewrite Nat.add_0_r; auto.
  - rewrite IH by lia. f_equal; lia.
Qed.

Lemma mapi_length {A B} (f : nat -> A -> B) l : length (mapi f l) = length l.
Proof. apply mapi_from_length. Qed.

Lemma mapi_nth {A B} (f : nat -> A -> B) l i da db :
  i < length l -> nth i (mapi f l) db = f i (nth i l da).
Proof. intros H. unfold mapi. rewrite (mapi_from_nth 0 f l i da db H). reflexivity. Qed.

Lemma tabulate_length {A} n (f : nat -> A) : length (tabulate n f) = n.
Proof. unfold tabulate. rewrite map_length, seq_length; auto. Qed.

Lemma tabulate_nth {A} n (f : nat -> A) i d : i < n -> nth i (tabulate n f) d = f i.
Proof.
  intros H. unfold tabulate. rewrite nth_indep with (d' := f 0).
  - rewrite map_nth, seq_nth; auto.
  - rewrite map_length, seq_length; auto.
Qed.

Lemma tabulate_ext {A} n (f g : nat -> A) :
  (forall i, i < n -> f i = g i) -> tabulate n f = tabulate n g.
Proof. intros H. unfold tabulate. apply map_ext_in. intros i Hi. apply in_seq in Hi. apply H; lia. Qed.

Lemma tabulate_S {A} n (f : nat -> A) : tabulate (S n) f = f 0 :: tabulate n (fun i => f (S i)).
Proof. unfold tabulate. simpl. f_equal. rewrite <- seq_shift, map_map. reflexivity. Qed.

Lemma in_tabulate {A} n (f : nat -> A) x : In x (tabulate n f) <-> exists i, i < n /\ f i = x.
Proof.
  unfold tabulate. rewrite in_map_iff. split.
  - intros [i [H1 H2]]. apply in_seq in H2. exists i; split; [lia|auto].
  - intros [i [H1 H2]]. exists i; split; auto. apply in_seq; lia.
Qed.

Lemma map_tabulate {A B} (g : A -> B) n f : map g (tabulate n f) = tabulate n (fun i => g (f i)).
Proof. unfold tabulate. rewrite map_map. reflexivity. Qed.

(** A list is determined by its length and entries. *)
Lemma list_eq_nth {A} (d : A) l l' :
  length l = length l' -> (forall i, i < length l -> nth i l d = nth i l' d) -> l = l'.
Proof.
  intros Hl H. apply (nth_ext l l' d d); auto.
Qed.

Lemma tabulate_of_list {A} (d : A) l : l = tabulate (length l) (fun i => nth i l d).
Proof.
  apply (list_eq_nth d); [rewrite tabulate_length; auto|].
  intros i Hi. rewrite tabulate_nth; auto.
Qed.

(** ** matrices *)
Lemma rect_row {A} (m : matrix A) r c i : rect m r c -> i < r -> length (nth i m []) = c.
Proof.
  intros [H1 H2] Hi. rewrite Forall_forall in H2. apply H2. apply nth_In. lia.
Qed.

Lemma rect_mmap {A B} (f : A -> B) m r c : rect m r c -> rect (mmap f m) r c.
Proof.
  intros [H1 H2]; split; unfold mmap.
  - rewrite map_length; auto.
  - rewrite Forall_map. revert H2. apply Forall_impl. intros row H; rewrite map_length; auto.
Qed.

Lemma mtab_rect {A} r c (f : nat -> nat -> A) : rect (mtab r c f) r c.
Proof.
  split; unfold mtab; [apply tabulate_length|].
  apply Forall_forall. intros row H. apply in_tabulate in H as [i [_ <-]]. apply tabulate_length.
Qed.

Lemma mtab_get {A} r c (f : nat -> nat -> A) d i j : i < r -> j < c -> mget d (mtab r c f) i j = f i j.
Proof. intros Hi Hj. unfold mget, mtab. rewrite tabulate_nth by auto. apply tabulate_nth; auto. Qed.

Lemma mmap_get {A B} (f : A -> B) m da db r c i j :
  rect m r c -> i < r -> j < c -> mget db (mmap f m) i j = f (mget da m i j).
Proof.
  intros Hr Hi Hj. unfold mget, mmap.
  rewrite nth_indep with (d' := map f []) by (rewrite map_length; destruct Hr; lia).
  rewrite map_nth.
  rewrite nth_indep with (d' := f da) by (rewrite map_length, (rect_row _ _ _ _ Hr Hi); auto).
  apply map_nth.
Qed.

Lemma matrix_eq {A} (d : A) m m' r c :
  rect m r c -> rect m' r c -> (forall i j, i < r -> j < c -> mget d m i j = mget d m' i j) -> m = m'.
Proof.
  intros H H' He. apply (list_eq_nth []).
  - destruct H, H'; congruence.
  - intros i Hi. pose proof (proj1 H) as Hl. rewrite Hl in Hi.
    apply (list_eq_nth d).
    + rewrite (rect_row m r c) by auto. rewrite (rect_row m' r c); auto.
    + intros j Hj. rewrite (rect_row m r c) in Hj by auto. apply He; auto.
Qed.

Lemma transpose_rect {A} (d : A) c m r : rect m r c -> rect (transpose d c m) c r.
Proof.
  intros [H1 H2]; split; unfold transpose; [apply tabulate_length|].
  apply Forall_forall. intros row H. apply in_tabulate in H as [j [_ <-]].
  rewrite map_length; auto.
Qed.

Lemma transpose_get {A} (d : A) m r c i j :
  rect m r c -> i < c -> j < r -> mget d (transpose d c m) i j = mget d m j i.
Proof.
  intros Hr Hi Hj. unfold mget, transpose. rewrite tabulate_nth by auto.
  rewrite nth_indep with (d' := nth i [] d) by (rewrite map_length; destruct Hr; lia).
  rewrite (map_nth (fun row => nth i row d)). reflexivity.
Qed.

(** ** masks *)
Lemma select_length {A} mask (l : list A) :
  length mask = length l -> length (select mask l) = count_true mask.
Proof.
  unfold count_true. revert l; induction mask as [|b bs IH]; intros [|x xs] H; simpl in *; try discriminate; auto.
  destruct b; simpl; rewrite IH; auto.
Qed.

Lemma in_select {A} mask (l : list A) x :
  In x (select mask l) <-> exists i, nth_error mask i = Some true /\ nth_error l i = Some x.
Proof.
  revert l; induction mask as [|b bs IH]; intros l; simpl.
  - split; [intros []|intros [i [H _]]; destruct i; discriminate].
  - destruct l as [|y ys]; simpl.
    + split; [intros []|intros [i [_ H]]; destruct i; discriminate].
    + split.
      * intros H. destruct b; [destruct H as [->|H]|].
        -- exists 0; auto.
        -- apply IH in H as [i H]. exists (S i); auto.
        -- apply IH in H as [i H]. exists (S i); auto.
      * intros [[|i] [H1 H2]]; simpl in *.
        -- inversion H1; inversion H2; subst. left; auto.
        -- assert (In x (select bs ys)) by (apply IH; exists i; auto).
           destruct b; [right|]; auto.
Qed.

Lemma select_agree {A} mask (l l' : list A) :
  length l = length l' ->
  (forall i, nth_error mask i = Some true -> nth_error l i = nth_error l' i) ->
  select mask l = select mask l'.
Proof.
  revert l l'; induction mask as [|b bs IH]; intros [|x xs] [|y ys] Hl H; simpl in *; try discriminate; auto.
  rewrite (IH xs ys).
  - destruct b; auto. specialize (H 0 eq_refl). simpl in H. inversion H; auto.
  - lia.
  - intros i Hi. apply (H (S i)); auto.
Qed.

Lemma select_map {A B} (f : A -> B) mask l : select mask (map f l) = map f (select mask l).
Proof.
  revert l; induction mask as [|b bs IH]; intros [|x xs]; simpl; auto.
  destruct b; simpl; rewrite IH; auto.
Qed.

Lemma nonzero_from_shift k mask : nonzero_from k mask = map (Nat.add k) (nonzero mask).
Proof.
  unfold nonzero. revert k; induction mask as [|b bs IH]; intros k; simpl; auto.
  assert (E : nonzero_from (S k) bs = map (Nat.add k) (nonzero_from 1 bs)).
  { rewrite (IH (S k)), (IH 1), map_map. apply map_ext; intros; lia. }
  destruct b; simpl; rewrite E; auto. f_equal; auto.
Qed.

Lemma in_nonzero mask i : In i (nonzero mask) <-> nth_error mask i = Some true.
Proof.
  unfold nonzero. revert i; induction mask as [|b bs IH]; intros i; simpl.
  - split; [intros []|destruct i; discriminate].
  - rewrite nonzero_from_shift. unfold nonzero. destruct b; simpl; rewrite in_map_iff; split.
    + intros [<-|[x [<- Hx]]]; simpl; auto. apply IH; auto.
    + destruct i; simpl; intros H; [left; auto|right]. exists i; split; auto. apply IH; auto.
    + intros [x [<- Hx]]; simpl. apply IH; auto.
    + destruct i; simpl; intros H; [discriminate|]. exists i; split; auto. apply IH; auto.
Qed.

Lemma in_nonzero_lt mask i : In i (nonzero mask) -> i < length mask.
Proof. intros H; apply in_nonzero in H. apply nth_error_Some. congruence. Qed.

Lemma in_nonzero_nth mask i : In i (nonzero mask) <-> nth i mask false = true.
Proof.
  rewrite in_nonzero. split.
  - intros H. erewrite nth_error_nth by eauto. reflexivity.
  - intros H. destruct (nth_error mask i) as [b|] eqn:E.
    + erewrite nth_error_nth in H by eauto. subst; auto.
    + apply nth_error_None in E. rewrite nth_overflow in H by lia. discriminate.
Qed.

Lemma nonzero_length mask : length (nonzero mask) = count_true mask.
Proof.
  unfold count_true, nonzero. induction mask as [|b bs IH]; simpl; auto.
  rewrite nonzero_from_shift. destruct b; simpl; rewrite map_length; unfold nonzero in *; lia.
Qed.

Lemma select_take {A} (d : A) mask l :
  length mask <= length l -> select mask l = take d l (nonzero mask).
Proof.
  unfold nonzero, take. revert l; induction mask as [|b bs IH]; intros l H; simpl; auto.
  destruct l as [|x xs]; simpl in *; [lia|].
  rewrite nonzero_from_shift. unfold nonzero.
  destruct b; simpl; rewrite map_map; simpl; rewrite IH by lia; auto.
Qed.

Require Import Sorting.Sorted.

Lemma StronglySorted_map_lt (f : nat -> nat) l :
  (forall x y, x < y -> f x < f y) -> StronglySorted lt l -> StronglySorted lt (map f l).
Proof.
  intros Hf. induction 1 as [|x xs Hs IH HF]; simpl; constructor; auto.
  rewrite Forall_map. revert HF. apply Forall_impl. auto.
Qed.

Lemma nonzero_sorted mask : StronglySorted lt (nonzero mask).
Proof.
  unfold nonzero. induction mask as [|b bs IH]; simpl; [constructor|].
  rewrite nonzero_from_shift. unfold nonzero.
  assert (StronglySorted lt (map (Nat.add 1) (nonzero_from 0 bs))).
  { apply StronglySorted_map_lt; auto. intros; lia. }
  destruct b; auto. constructor; auto.
  rewrite Forall_map. apply Forall_forall. intros; lia.
Qed.

Lemma StronglySorted_lt_NoDup l : StronglySorted lt l -> NoDup l.
Proof.
  induction 1 as [|x xs Hs IH HF]; constructor; auto.
  intros Hin. rewrite Forall_forall in HF. specialize (HF x Hin). lia.
Qed.

Lemma nonzero_NoDup mask : NoDup (nonzero mask).
Proof. apply StronglySorted_lt_NoDup, nonzero_sorted. Qed.

(** Two strictly increasing lists with the same elements are equal. *)
Lemma StronglySorted_lt_ext l l' :
  StronglySorted lt l -> StronglySorted lt l' -> (forall x, In x l <-> In x l') -> l = l'.
Proof.
  intros Hs. revert l'. induction Hs as [|x xs Hs IH HF]; intros l' Hs' Hin.
  - destruct l' as [|y ys]; auto. exfalso. apply (proj2 (Hin y)); left; auto.
  - destruct Hs' as [|y ys Hs' HF'].
    + exfalso. apply (proj1 (Hin x)); left; auto.
    + rewrite Forall_forall in HF, HF'.
      assert (x = y).
      { destruct (proj1 (Hin x) (or_introl eq_refl)) as [->|Hx]; auto.
        destruct (proj2 (Hin y) (or_introl eq_refl)) as [->|Hy]; auto.
        specialize (HF y Hy). specialize (HF' x Hx). lia. }
      subst y. f_equal. apply IH; auto.
      intros z; split; intros Hz.
      * destruct (proj1 (Hin z) (or_intror Hz)) as [->|]; auto.
        specialize (HF z Hz). lia.
      * destruct (proj2 (Hin z) (or_intror Hz)) as [->|]; auto.
        specialize (HF' z Hz). lia.
Qed.

(** ** list_set *)
Lemma list_set_length {A} (l : list A) i v : length (list_set l i v) = length l.
Proof. revert i; induction l as [|x xs IH]; intros [|i]; simpl; auto. Qed.

Lemma list_set_nth_eq {A} (l : list A) i v d : i < length l -> nth i (list_set l i v) d = v.
Proof. revert i; induction l as [|x xs IH]; intros [|i] H; simpl in *; try lia; auto. apply IH; lia. Qed.

Lemma list_set_nth_neq {A} (l : list A) i j v d : i <> j -> nth j (list_set l i v) d = nth j l d.
Proof. revert i j; induction l as [|x xs IH]; intros [|i] [|j] H; simpl; auto; try lia. Qed.

Lemma Forall2_nth_intro {A B} (P : A -> B -> Prop) l l' da db :
  length l = length l' -> (forall i, i < length l -> P (nth i l da) (nth i l' db)) -> Forall2 P l l'.
Proof.
  revert l'. induction l as [|x l IH]; intros [|y l'] HL H; simpl in *; try lia; constructor.
  - apply (H 0); lia.
  - apply IH; [lia|]. intros i Hi. apply (H (S i)); lia.
Qed.

Lemma nth_error_skipn' {A} (l : list A) n k : nth_error (skipn n l) k = nth_error l (n + k).
Proof.
  revert l; induction n; intros l; simpl; auto. destruct l; simpl; auto. destruct k; auto.
Qed.
