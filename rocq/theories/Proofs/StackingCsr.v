(** Lemmas about CSR matrices used by the stacking model. *)
From Coq Require Import Lra Sorting.Sorted.
From Verif.Model Require Import Base Ext Csr Neighbour Distance WeightModel NumbaImpl Stacking.
From Verif.Spec Require Import KernelSpec NeighbourSpec StackingSpec.
From Verif.Proofs Require Import ListFacts KernelFacts CsrFacts ShrinkFacts NeighbourFacts SampleFacts WeightModelFacts.
Open Scope nat_scope.
Open Scope R_scope.

Lemma filter_seq_eqb j : forall n k, filter (fun i => (i =? j)%nat) (seq k n) = if ((k <=? j) && (j <? k + n))%nat then [j] else [].
Proof.
  induction n as [|n IH]; intros k; cbn [seq filter].
  - destruct (Nat.leb_spec k j), (Nat.ltb_spec j (k + 0)); cbn [andb]; try lia; reflexivity.
  - rewrite IH. destruct (Nat.eqb_spec k j) as [->|H].
    + destruct (Nat.leb_spec (S j) j); [lia|]. cbn [andb].
      destruct (Nat.leb_spec j j), (Nat.ltb_spec j (j + S n)); try lia; reflexivity.
    + destruct (Nat.leb_spec (S k) j), (Nat.ltb_spec j (S k + n)), (Nat.leb_spec k j), (Nat.ltb_spec j (k + S n)); try lia; reflexivity.
Qed.

Lemma crow_pick {A} (d : A) isz n row j : (j < n)%nat ->
  filter (fun e => (fst e =? j)%nat) (crow d isz n row) = if isz (nth j row d) then [] else [(j, nth j row d)].
Proof.
  intros Hj. unfold crow. rewrite filter_map_comm, filter_filter. cbn [fst].
  rewrite (filter_ext _ (fun i => (i =? j)%nat && negb (isz (nth i row d)))) by (intros; apply andb_comm).
  rewrite <- filter_filter. rewrite filter_seq_eqb. simpl Nat.leb. simpl Nat.add.
  destruct (Nat.ltb_spec j n); [|lia]. cbn [andb filter]. destruct (isz (nth j row d)); reflexivity.
Qed.

Lemma transpose_row_from {A} (d : A) isz n j (M : matrix A) : (j < n)%nat -> forall k,
  concat (mapi_from k (fun i r => map (fun e => (i, snd e)) (filter (fun e => (fst e =? j)%nat) r)) (map (crow d isz n) M)) =
  map (fun i => (i, nth j (nth (i - k) M []) d))
      (filter (fun i => negb (isz (nth j (nth (i - k) M []) d))) (seq k (length M))).
Proof.
  intros Hj. induction M as [|row M IH]; intros k; [reflexivity|].
  cbn [map mapi_from concat length seq filter]. rewrite IH, crow_pick by auto.
  rewrite Nat.sub_diag. cbn [nth].
  assert (E : forall i, In i (seq (S k) (length M)) -> nth (i - k) (row :: M) [] = nth (i - S k) M []).
  { intros i Hi. apply in_seq in Hi. replace (i - k)%nat with (S (i - S k)) by lia. reflexivity. }
  assert (E2 : map (fun i => (i, nth j (nth (i - S k) M []) d))
      (filter (fun i => negb (isz (nth j (nth (i - S k) M []) d))) (seq (S k) (length M))) =
    map (fun i => (i, nth j (nth (i - k) (row :: M) []) d))
      (filter (fun i => negb (isz (nth j (nth (i - k) (row :: M) []) d))) (seq (S k) (length M)))).
  { rewrite (filter_ext_in (fun i => negb (isz (nth j (nth (i - k) (row :: M) []) d)))
       (fun i => negb (isz (nth j (nth (i - S k) M []) d)))).
    - apply map_ext_in. intros i Hi. apply filter_In in Hi. rewrite E by tauto. reflexivity.
    - intros i Hi. rewrite E by auto. reflexivity. }
  rewrite E2. destruct (isz (nth j row d)); cbn [negb map app]; [reflexivity|].
  rewrite Nat.sub_diag. reflexivity.
Qed.

Lemma csr_transpose_form {A} (d : A) isz M r n c : rect M r n -> csr_form d isz M n c ->
  csr_form d isz (transpose d n M) r (csr_transpose c).
Proof.
  intros HR HF. apply csr_form_eq. rewrite csr_form_eq in HF. subst c. unfold csr_transpose.
  rewrite c_nrows_of_rows, map_length, csr_rows_of_rows. rewrite (proj1 HR). f_equal.
  cbn [c_ncols csr_of_rows]. unfold transpose, tabulate. rewrite map_map. apply map_ext_in. intros j Hj. apply in_seq in Hj.
  unfold mapi. rewrite transpose_row_from by lia. unfold crow.
  assert (E : forall i, nth i (map (fun row => nth j row d) M) d = nth j (nth i M []) d).
  { intros i. destruct (Nat.lt_ge_cases i (length M)).
    - rewrite (nth_map_in _ _ _ []) by auto. reflexivity.
    - rewrite nth_overflow by (rewrite map_length; auto). rewrite (nth_overflow M) by auto. destruct j; reflexivity. }
  rewrite (proj1 HR).
  rewrite (filter_ext _ (fun j0 => negb (isz (nth j0 (map (fun row => nth j row d) M) d)))).
  - apply map_ext. intros i. rewrite E, Nat.sub_0_r. reflexivity.
  - intros i. rewrite E, Nat.sub_0_r. reflexivity.
Qed.

Lemma csr_where_form_gen (p : R -> bool) (W : matrix R) n c : p 0 = false -> csr_form 0 zeroR W n c ->
  csr_mask (mmap p W) n (csr_where p c).
Proof.
  intros Hp HF. rewrite csr_form_eq in HF. subst c. unfold csr_mask. apply csr_form_eq.
  unfold csr_where. rewrite csr_rows_of_rows. cbn [c_ncols csr_of_rows]. f_equal. unfold mmap. rewrite !map_map.
  apply map_ext. intros row. unfold crow. rewrite filter_map_comm, map_map, filter_filter. cbn [fst snd].
  assert (E : forall j, nth j (map p row) false = p (nth j row 0)).
  { intros j. rewrite <- Hp. apply map_nth. }
  rewrite (filter_ext (fun j => negb (negb (nth j (map p row) false))) (fun x => negb (zeroR (nth x row 0)) && p (nth x row 0))).
  - apply map_ext_in. intros j Hj. apply filter_In in Hj. f_equal. rewrite E. symmetry.
    destruct Hj as [_ Hj]. apply andb_prop in Hj. tauto.
  - intros j. rewrite negb_involutive, E. unfold zeroR. destruct (Req_EM_T (nth j row 0) 0) as [H|H].
    + rewrite H, Hp. rewrite andb_false_r. reflexivity.
    + rewrite (proj2 (Reqb_false _ _)) by auto. reflexivity.
Qed.

Lemma existsb_in x l : existsb (Nat.eqb x) l = true <-> In x l.
Proof.
  rewrite existsb_exists. split.
  - intros [y [H1 H2]]. apply Nat.eqb_eq in H2. subst; auto.
  - intros H. exists x. split; auto. apply Nat.eqb_refl.
Qed.

Definition zeroed (L : matrix bool) (W : matrix R) : matrix R :=
  map2 (map2 (fun (b : bool) v => if b then 0 else v)) L W.
Lemma zeroed_rect L W n : rect L n n -> rect W n n -> rect (zeroed L W) n n.
Proof.
  intros [HL FL] [HW FW]. split; [unfold zeroed; rewrite map2_length; lia|].
  rewrite Forall_forall in *. intros row Hrow. apply (In_nth _ _ []) in Hrow. destruct Hrow as [i [Hi E]].
  unfold zeroed in Hi, E. rewrite map2_length in Hi. rewrite (map2_nth _ _ _ _ [] []) in E by lia. subst row.
  rewrite map2_length. rewrite (FL (nth i L [])), (FW (nth i W [])) by (apply nth_In; lia). lia.
Qed.
Lemma zeroed_get L W n i j : rect L n n -> rect W n n -> (i < n)%nat -> (j < n)%nat ->
  mget 0 (zeroed L W) i j = if mget false L i j then 0 else mget 0 W i j.
Proof.
  intros HL HW Hi Hj. pose proof (rect_row _ _ _ i HL Hi) as EL. pose proof (rect_row _ _ _ i HW Hi) as EW.
  destruct HL as [HL _], HW as [HW _]. unfold mget, zeroed.
  rewrite (map2_nth _ _ _ _ [] []) by lia. rewrite (map2_nth _ _ _ _ false 0) by lia. reflexivity.
Qed.

Lemma mapi_ext_in {A B} (f g : nat -> A -> B) l d : (forall i, (i < length l)%nat -> f i (nth i l d) = g i (nth i l d)) ->
  mapi f l = mapi g l.
Proof.
  intros H. destruct l as [|a l0] eqn:E; [reflexivity|]. rewrite <- E in *.
  assert (db : B) by (apply (f 0%nat), a).
  apply (list_eq_nth db); [rewrite !mapi_length; auto|]. intros i Hi. rewrite mapi_length in Hi.
  rewrite !(mapi_nth _ _ _ d) by auto. auto.
Qed.

Lemma zero_leave_out_form L W n cL c : rect L n n -> rect W n n -> csr_mask L n cL -> csr_form 0 zeroR W n c ->
  exists c', zero_leave_out (MSparse cL) (SSparse c) = SSparse c' /\ csr_form 0 zeroR (zeroed L W) n c'.
Proof.
  intros HL HW FL FW. eexists. split; [reflexivity|]. apply csr_form_eq. rewrite csr_form_eq in FW. subst c.
  rewrite csr_rows_of_rows. cbn [c_ncols csr_of_rows]. f_equal.
  pose proof (zeroed_rect L W n HL HW) as HZ.
  apply (list_eq_nth []); [rewrite mapi_length, !map_length; unfold zeroed; rewrite map2_length; destruct HL, HW; lia|].
  intros i Hi. rewrite mapi_length, map_length in Hi. assert (Hn : (i < n)%nat) by (destruct HW; lia).
  rewrite (mapi_nth _ _ _ [] []) by (rewrite map_length; auto).
  rewrite (nth_map_in _ _ _ [] []) by auto. rewrite (nth_map_in _ _ _ [] []) by (destruct HZ; lia).
  rewrite (form_row_indices _ _ _ _ _ i FL) by (destruct HL; lia).
  unfold crow. rewrite filter_map_comm, filter_filter. cbn [fst snd].
  assert (EZ : forall j, (j < n)%nat -> nth j (nth i (zeroed L W) []) 0 = if nth j (nth i L []) false then 0 else nth j (nth i W []) 0).
  { intros j Hj. apply (zeroed_get L W n i j); auto. }
  rewrite (filter_ext_in (fun j => negb (zeroR (nth j (nth i (zeroed L W) []) 0)))
    (fun x => negb (zeroR (nth x (nth i W []) 0)) &&
       (negb (existsb (Nat.eqb x) (filter (fun j => negb (negb (nth j (nth i L []) false))) (seq 0 n))) && Rnonzero (nth x (nth i W []) 0)))).
  - apply map_ext_in. intros j Hj. apply filter_In in Hj. destruct Hj as [Hj Hb]. apply in_seq in Hj. rewrite EZ by lia.
    destruct (nth j (nth i L []) false) eqn:E; [|reflexivity].
    exfalso. apply andb_prop in Hb. destruct Hb as [_ Hb]. apply andb_prop in Hb. destruct Hb as [Hb _].
    apply negb_true_iff in Hb. rewrite (proj2 (existsb_in _ _)) in Hb; [discriminate|].
    apply filter_In. split; [apply in_seq; lia|]. rewrite E. reflexivity.
  - intros j Hj. apply in_seq in Hj. rewrite EZ by lia. unfold Rnonzero, zeroR.
    destruct (existsb (Nat.eqb j) (filter (fun j => negb (negb (nth j (nth i L []) false))) (seq 0 n))) eqn:E.
    + apply existsb_in, filter_In in E. destruct E as [_ E]. rewrite negb_involutive in E. rewrite E.
      rewrite (proj2 (Reqb_true 0 0)) by auto. cbn [negb andb]. rewrite andb_false_r. reflexivity.
    + destruct (nth j (nth i L []) false) eqn:E'.
      * exfalso. rewrite (proj2 (existsb_in _ _)) in E; [discriminate|]. apply filter_In. split; [apply in_seq; lia|]. rewrite E'. reflexivity.
      * cbn [negb andb]. destruct (Reqb (nth j (nth i W []) 0) 0); reflexivity.
Qed.

(** ** lookup *)
Lemma lookup_map idx (f : nat -> R) k : In k idx -> lookup idx (map f idx) k = f k.
Proof.
  unfold lookup. induction idx as [|a idx IH]; intros H; [destruct H|]. cbn [map combine find fst].
  destruct (Nat.eqb_spec a k) as [->|Ha]; [reflexivity|]. destruct H as [->|H]; [congruence|]. auto.
Qed.
Lemma lookup_absent idx vals k : ~ In k idx -> lookup idx vals k = 0.
Proof.
  unfold lookup. revert vals. induction idx as [|a idx IH]; intros vals H; [reflexivity|]. destruct vals as [|v vals]; [reflexivity|].
  cbn [combine find fst]. destruct (Nat.eqb_spec a k) as [->|Ha]; [destruct H; left; auto|]. apply IH. intros Hk; apply H; right; auto.
Qed.
Lemma lookup_self idx : forall vals, NoDup idx -> length vals = length idx -> map (lookup idx vals) idx = vals.
Proof.
  induction idx as [|a idx IH]; intros [|v vals] HN HL; try discriminate; [reflexivity|].
  inversion HN as [|x l Ha HN']; subst. cbn [map]. f_equal.
  - unfold lookup. cbn [combine find fst]. rewrite Nat.eqb_refl. reflexivity.
  - transitivity (map (lookup idx vals) idx); [|apply IH; auto].
    apply map_ext_in. intros k Hk. unfold lookup. cbn [combine find fst].
    destruct (Nat.eqb_spec a k) as [->|]; [contradiction|reflexivity].
Qed.
Lemma put_lookup n idx vals k : NoDup idx -> (forall i, In i idx -> (i < n)%nat) -> length vals = length idx ->
  nth k (put (repeat 0 n) idx vals) 0 = lookup idx vals k.
Proof.
  intros HN HI HL. rewrite <- (lookup_self idx vals HN HL) at 1.
  rewrite put_map; auto; [|intros i Hi; rewrite repeat_length; auto].
  destruct (in_dec Nat.eq_dec k idx) as [H|H]; [reflexivity|]. rewrite lookup_absent by auto.
  destruct (Nat.lt_ge_cases k n); [apply nth_repeat|apply nth_overflow; rewrite repeat_length; auto].
Qed.

Lemma csr_get_lookup c i k : csr_get c i k = lookup (row_indices c i) (row_data c i) k.
Proof. reflexivity. Qed.

Lemma form_row_data {A} (d : A) isz m n c i : csr_form d isz m n c -> (i < length m)%nat ->
  row_data c i = map (fun j => nth j (nth i m []) d) (row_indices c i).
Proof.
  intros F H. rewrite (form_row_indices _ _ _ _ _ i F) by auto. rewrite csr_form_eq in F. subst c.
  rewrite row_data_of_rows by (rewrite map_length; auto). rewrite (nth_map_in _ _ _ [] []) by auto.
  unfold crow. rewrite map_map. reflexivity.
Qed.

Lemma form_get M n c i k : rect M n n -> csr_form 0 zeroR M n c -> (i < n)%nat -> csr_get c i k = mget 0 M i k.
Proof.
  intros HR F Hi. rewrite csr_get_lookup. assert (HL : length M = n) by apply HR.
  rewrite (form_row_data _ _ _ _ _ i F), (form_row_indices _ _ _ _ _ i F) by lia.
  set (idx := filter (fun j => negb (zeroR (nth j (nth i M []) 0))) (seq 0 n)).
  destruct (in_dec Nat.eq_dec k idx) as [H|H].
  - rewrite (lookup_map idx (fun j => nth j (nth i M []) 0)) by auto. reflexivity.
  - rewrite lookup_absent by auto. unfold mget. destruct (Nat.lt_ge_cases k n) as [Hk|Hk].
    + unfold idx in H. rewrite filter_In in H. destruct (zeroR (nth k (nth i M []) 0)) eqn:E.
      * unfold zeroR in E. apply Reqb_true in E. symmetry; exact E.
      * exfalso. apply H. split; [apply in_seq; lia|reflexivity].
    + symmetry. apply nth_overflow. rewrite (rect_row M n n i HR Hi). auto.
Qed.

(** [transpose] of a matrix given by rows and columns. *)
Lemma transpose_map {A} (d : A) (f : nat -> nat -> A) (rows cols : list nat) :
  transpose d (length cols) (map (fun j => map (f j) cols) rows) = map (fun k => map (fun j => f j k) rows) cols.
Proof.
  unfold transpose. apply (list_eq_nth []); [rewrite tabulate_length, map_length; auto|].
  intros i Hi. rewrite tabulate_length in Hi. rewrite tabulate_nth by auto. rewrite (nth_map_in _ _ _ 0%nat []) by auto.
  rewrite map_map. apply map_ext. intros j. rewrite (nth_map_in _ _ _ 0%nat) by auto. reflexivity.
Qed.
