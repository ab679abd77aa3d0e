From Coq Require Import Lra Psatz.
From Verif.Model Require Import Base Ext Sort Csr Neighbour.
From Verif.Spec Require Import KernelSpec NeighbourSpec.
From Verif.Proofs Require Import ListFacts KernelFacts SortFacts CsrFacts NeighbourFacts ShrinkFacts SampleFacts.
From Verif.Proofs Require AleFacts.
Require Import Sorting.Sorted.
Open Scope nat_scope.
Open Scope R_scope.

Lemma negb_negb_mmap (m : matrix bool) : mmap (fun x => negb (negb x)) m = m.
Proof.
  unfold mmap. rewrite <- (map_id m) at 2. apply map_ext. intros row. rewrite <- (map_id row) at 2.
  apply map_ext. apply Bool.negb_involutive.
Qed.

Lemma second_order_boolean_product n order buf (N L : matrix bool) :
  rect N n n -> rect L n n -> schedule n order -> length buf = n ->
  exists S : matrix bool, second_order_neighbour order buf N (Some L) = S /\ rect S n n /\
    forall i j, (i < n)%nat -> (j < n)%nat ->
      (mget false S i j = true <-> exists k, (k < n)%nat /\ mget false L i k = true /\ mget false N k j = true).
Proof. intros. eexists. split; [reflexivity|]. apply second_order_spec; auto. Qed.

Lemma second_order_default n order buf (N : matrix bool) :
  rect N n n -> schedule n order -> length buf = n ->
  exists S : matrix bool, second_order_neighbour order buf N None = S /\ rect S n n /\
    forall i j, (i < n)%nat -> (j < n)%nat ->
      (mget false S i j = true <-> exists k, (k < n)%nat /\ mget false N i k = true /\ mget false N k j = true).
Proof. intros. eexists. split; [reflexivity|]. apply second_order_spec; auto. Qed.

Lemma second_order_sparse_agrees n order buf (N L : matrix bool) cN cL :
  rect N n n -> rect L n n -> csr_mask N n cN -> csr_mask L n cL -> schedule n order -> length buf = n ->
  let S := second_order_neighbour order buf N (Some L) in
  (exists i j, (i < n)%nat /\ (j < n)%nat /\ mget false S i j = true) ->
  exists c cS, second_order_neighbour_csr order cN cL = Ok c /\ csr_mask S n cS /\
    c_indices c = c_indices cS /\ c_indptr c = c_indptr cS /\
    c_data c = map (fun _ => 1%nat) (c_indices c) /\
    forall i, (i < n)%nat ->
      StronglySorted lt (row_indices c i) /\
      forall j, In j (row_indices c i) <-> (j < n)%nat /\ mget false S i j = true.
Proof.
  intros HN HL FN FL HS Hb S Hex.
  pose proof (second_order_csr_spec false false negb negb n N L cN cL order buf HN HL FN FL HS Hb) as H.
  cbv zeta in H. rewrite !negb_negb_mmap in H.
  destruct (second_order_spec n order buf N L HN HL HS Hb) as [HSr _].
  specialize (H (csr_of_rows n (map (crow false negb n) S)) eq_refl). destruct H as [_ H].
  destruct (H Hex) as (c & Ec & H1 & H2 & H3 & H4 & _). exists c, (csr_of_rows n (map (crow false negb n) S)).
  split; [exact Ec|]. split; [reflexivity|]. split; [exact H1|]. split; [exact H2|]. split.
  - clear -H3 H4. revert H4. generalize (c_indices c). induction H3 as [|x l -> _ IH]; intros [|y l'] HL; simpl in *; try lia; auto.
    f_equal. apply IH. lia.
  - intros i Hi. unfold row_indices, row_slice. rewrite H1, H2.
    assert (HLS : length S = n) by apply HSr.
    fold (row_slice (csr_of_rows n (map (crow false negb n) S)) (c_indices (csr_of_rows n (map (crow false negb n) S))) i).
    fold (row_indices (csr_of_rows n (map (crow false negb n) S)) i).
    rewrite (form_row_indices false negb S n _ i) by (try lia; reflexivity). split.
    + apply filter_sorted, seq_sorted.
    + intros j. rewrite filter_In, in_seq, Bool.negb_involutive. unfold mget. split; intros [? ?]; split; auto; lia.
Qed.

Lemma second_order_sparse_empty n order buf (N L : matrix bool) cN cL :
  rect N n n -> rect L n n -> csr_mask N n cN -> csr_mask L n cL -> schedule n order -> length buf = n ->
  (forall i j, (i < n)%nat -> (j < n)%nat -> mget false (second_order_neighbour order buf N (Some L)) i j = false) ->
  raises (second_order_neighbour_csr order cN cL).
Proof.
  intros HN HL FN FL HS Hb Hall.
  pose proof (second_order_csr_spec false false negb negb n N L cN cL order buf HN HL FN FL HS Hb) as H.
  cbv zeta in H. rewrite !negb_negb_mmap in H.
  specialize (H (csr_of_rows n (map (crow false negb n) (second_order_dense order buf N L))) eq_refl). apply H. exact Hall.
Qed.

Lemma second_order_sparse_shape n order (N L : matrix bool) cN cL c :
  rect N n n -> rect L n n -> csr_mask N n cN -> csr_mask L n cL -> schedule n order ->
  second_order_neighbour_csr order cN cL = Ok c ->
  (c_ncols c <= n)%nat /\
  (c_ncols c = n <-> exists i k, (i < n)%nat /\ (k < n)%nat /\ mget false L i k = true /\ mget false N k (n - 1) = true).
Proof.
  intros HN HL FN FL HS Ec. set (buf := repeat (@nil bool) n). assert (Hb : length buf = n) by apply repeat_length.
  pose proof (second_order_csr_spec false false negb negb n N L cN cL order buf HN HL FN FL HS Hb) as H.
  cbv zeta in H. rewrite !negb_negb_mmap in H.
  destruct (second_order_spec n order buf N L HN HL HS Hb) as [HSr HSp].
  specialize (H (csr_of_rows n (map (crow false negb n) (second_order_dense order buf N L))) eq_refl). destruct H as [Hno H].
  destruct (existsb (fun i => existsb (fun j => mget false (second_order_dense order buf N L) i j) (seq 0 n)) (seq 0 n)) eqn:Ex.
  - apply existsb_exists in Ex as [i [Hi Ex]]. apply existsb_exists in Ex as [j [Hj Ex]]. apply in_seq in Hi, Hj.
    destruct H as (c' & Ec' & _ & _ & _ & _ & H5 & H6); [exists i, j; repeat split; auto; lia|].
    assert (c' = c) by congruence. subst c'. split; auto. rewrite H6. split.
    + intros (i' & Hi' & Ht). apply HSp in Ht; try lia. destruct Ht as (k & Hk & Ha & Hb'). exists i', k; auto.
    + intros (i' & k & Hi' & Hk & Ha & Hb'). exists i'. split; auto. apply HSp; try lia. exists k; auto.
  - destruct Hno as [e He].
    + intros i j Hi Hj. destruct (mget false (second_order_dense order buf N L) i j) eqn:Em; auto.
      rewrite <- Ex. symmetry. apply existsb_exists. exists i. split; [apply in_seq; lia|].
      apply existsb_exists. exists j. split; auto. apply in_seq; lia.
    + congruence.
Qed.

Lemma second_order_sparse_square n order (N L : matrix bool) cN cL :
  rect N n n -> rect L n n -> csr_mask N n cN -> csr_mask L n cL -> schedule n order -> (0 < n)%nat ->
  (forall i, (i < n)%nat -> mget false N i i = true) -> (forall i, (i < n)%nat -> mget false L i i = true) ->
  exists c, second_order_neighbour_csr order cN cL = Ok c /\ c_nrows c = n /\ c_ncols c = n.
Proof.
  intros HN HL FN FL HS Hn RN RL. set (buf := repeat (@nil bool) n). assert (Hb : length buf = n) by apply repeat_length.
  destruct (second_order_spec n order buf N L HN HL HS Hb) as [HSr HSp].
  destruct (second_order_sparse_agrees n order buf N L cN cL HN HL FN FL HS Hb) as (c & cS & Ec & F & H1 & H2 & _).
  { exists 0%nat, 0%nat. repeat split; auto. unfold second_order_neighbour. apply HSp; auto. exists 0%nat. auto. }
  exists c. split; [exact Ec|]. split.
  - unfold c_nrows. rewrite H2. fold (c_nrows cS). rewrite (form_nrows _ _ _ _ _ F). apply HSr.
  - apply (second_order_sparse_shape n order N L cN cL c); auto. exists (n - 1)%nat, (n - 1)%nat. repeat split; try lia; [apply RL; lia|apply RN; lia].
Qed.

(** Counter-example: nobody has the last point as a neighbour. *)
Definition exN : matrix bool := [[true; true; false]; [true; false; false]; [false; true; false]].
Definition exNc : csr bool := csr_of_rows 3 (map (crow false negb 3) exN).
Lemma exN_rect : rect exN 3 3. Proof. split; [reflexivity|repeat constructor]. Qed.
Lemma exN_mask : csr_mask exN 3 exNc. Proof. reflexivity. Qed.
Lemma sched3 : schedule 3 [2; 0; 1]%nat.
Proof. unfold schedule. simpl. apply perm_trans with (l' := [0; 2; 1]%nat); repeat constructor. Qed.
Lemma exN_shape : exists c, second_order_neighbour_csr [2; 0; 1]%nat exNc exNc = Ok c /\ c_nrows c = 3%nat /\ c_ncols c = 2%nat.
Proof. eexists. split; [reflexivity|]. split; reflexivity. Qed.
Lemma exN_second : second_order_neighbour [2; 0; 1]%nat [[]; []; []] exN None =
  [[true; true; false]; [true; true; false]; [true; false; false]].
Proof. reflexivity. Qed.

Lemma Forall2_map_r {A B} (P : A -> B -> Prop) (f : A -> B) l : (forall x, P x (f x)) -> Forall2 P l (map f l).
Proof. intros H. induction l; constructor; auto. Qed.

Lemma shrink_each_row order q (W : matrix R) :
  0 <= q <= 1 -> schedule (length W) order ->
  exists W' : matrix R, snd (neighbour_shrink order W q true true) = Ok (ShrunkWeights W') /\
    Forall2 (shrink_spec q) W W'.
Proof.
  intros Hq HS. exists (map (shrink_row q) W). rewrite neighbour_shrink_ok by auto. split; [reflexivity|].
  apply Forall2_map_r. intros. apply shrink_row_spec; auto.
Qed.

Lemma shrink_row_cut q row : 0 <= q <= 1 -> cut_row q row (shrink_row q row).
Proof.
  intros Hq. rewrite shrink_row_map. unfold cut_row. change (fun x => negb (Reqb x 0)) with Rnonzero.
  destruct (filter Rnonzero row) as [|v vals] eqn:E.
  - left. split; [reflexivity|]. rewrite <- (map_id row) at 2. apply map_ext. intros x. unfold keep_fn, below_quantile.
    destruct (Rnonzero x); reflexivity.
  - right. exists (at_virtual_index (sortR (v :: vals)) (virtual_linear (length (v :: vals)) q)).
    split; [apply AleFacts.avi_hf7; [discriminate|exact Hq]|]. apply map_ext. intros x. unfold keep_fn, below_quantile.
    unfold Rnonzero. destruct (Reqb x 0) eqn:Ex; [|reflexivity]. apply Reqb_true in Ex. subst x. cbn [negb andb].
    destruct (Rltb _ _); reflexivity.
Qed.
Lemma cut_row_unique q row a : 0 <= q <= 1 -> cut_row q row a -> a = shrink_row q row.
Proof.
  intros Hq Ha. destruct (shrink_row_cut q row Hq) as [[E1 E2]|(b & H1 & H2)].
  - destruct Ha as [[_ ->]|(b & H & _)]; [auto|]. destruct H as [H _]. contradiction.
  - destruct Ha as [[E _]|(b' & H & ->)]; [destruct H1 as [H _]; contradiction|].
    rewrite H2, (AleFacts.hf7_unique _ q b b' Hq H1 H). reflexivity.
Qed.
Lemma cut_rows q W W' : 0 <= q <= 1 -> Forall2 (cut_row q) W W' <-> W' = map (shrink_row q) W.
Proof.
  intros Hq. split.
  - induction 1 as [|x y W W' H _ IH]; [reflexivity|]. cbn. rewrite (cut_row_unique q x y Hq H), IH. reflexivity.
  - intros ->. apply Forall2_map_r. intros. apply shrink_row_cut; auto.
Qed.
Lemma shrunk_effective rate W W' : shrunk_weights rate W W' <->
  match rate with None => W' = W | Some q => 0 <= q <= 1 /\ W' = map (shrink_row q) W end.
Proof.
  destruct rate as [q|]; cbn; [|reflexivity]. split; intros [Hq H]; (split; [exact Hq|]); apply cut_rows in H; auto.
Qed.
Lemma shrink_threshold order q (W : matrix R) ret inplace : 0 <= q <= 1 -> schedule (length W) order ->
  exists W' : matrix R, shrunk_weights (Some q) W W' /\ (forall W'', shrunk_weights (Some q) W W'' -> W'' = W') /\
    neighbour_shrink order W q ret inplace =
      (if inplace then W' else W, Ok (if ret then ShrunkWeights W' else ShrunkMask (mmap (Rltb 0) W'))).
Proof.
  intros Hq HS. exists (map (shrink_row q) W). rewrite neighbour_shrink_ok by auto. split; [|split; [|reflexivity]].
  - apply shrunk_effective. auto.
  - intros W'' H. apply shrunk_effective in H. apply H.
Qed.

Lemma shrink_mask order q (W : matrix R) inplace :
  0 <= q <= 1 -> schedule (length W) order ->
  exists W' : matrix R, snd (neighbour_shrink order W q true inplace) = Ok (ShrunkWeights W') /\
    snd (neighbour_shrink order W q false inplace) = Ok (ShrunkMask (mmap (Rltb 0) W')).
Proof. intros Hq HS. exists (map (shrink_row q) W). rewrite !neighbour_shrink_ok by auto. split; reflexivity. Qed.

Lemma shrink_bad_rate order q (W : matrix R) ret inplace :
  ~ (0 <= q <= 1) -> W <> [] -> neighbour_shrink order W q ret inplace = (W, Raise ValueError).
Proof. apply neighbour_shrink_bad. Qed.

Lemma shrink_sparse_agrees order q (W : matrix R) r n c inplace :
  0 <= q <= 1 -> rect W r n -> csr_form 0 (fun x => Reqb x 0) W n c -> schedule r order ->
  exists (W' : matrix R) c',
    snd (neighbour_shrink order W q true inplace) = Ok (ShrunkWeights W') /\
    snd (neighbour_shrink_csr order c q true inplace) = Ok (ShrunkWeights c') /\
    csr_form 0 (fun x => Reqb x 0) W' n c' /\
    exists b cb, snd (neighbour_shrink order W q false inplace) = Ok (ShrunkMask b) /\
      snd (neighbour_shrink_csr order c q false inplace) = Ok (ShrunkMask cb) /\ csr_mask b n cb.
Proof.
  intros Hq HR HF HS. assert (HL : length W = r) by apply HR.
  destruct (shrink_csr_form q order W r n c Hq HR HF HS) as [c' [Ec Fc]].
  exists (map (shrink_row q) W), c'. rewrite !neighbour_shrink_ok by (auto; congruence).
  unfold neighbour_shrink_csr. rewrite Ec. repeat split; auto.
  eexists _, _. repeat split. apply (csr_where_form _ r); auto.
  split; [rewrite map_length; auto|]. rewrite Forall_map. destruct HR as [_ HR]. revert HR. apply Forall_impl.
  intros row <-. rewrite shrink_row_map. apply map_length.
Qed.

Lemma shrink_callers_matrix order q (W : matrix R) ret inplace :
  0 <= q <= 1 -> schedule (length W) order ->
  exists W' : matrix R, snd (neighbour_shrink order W q true inplace) = Ok (ShrunkWeights W') /\
    fst (neighbour_shrink order W q ret inplace) = if inplace then W' else W.
Proof. intros Hq HS. exists (map (shrink_row q) W). rewrite !neighbour_shrink_ok by auto. split; reflexivity. Qed.

Lemma shrink_callers_csr order q (W : matrix R) r n c ret inplace :
  0 <= q <= 1 -> rect W r n -> csr_form 0 (fun x => Reqb x 0) W n c -> schedule r order ->
  exists c', snd (neighbour_shrink_csr order c q true inplace) = Ok (ShrunkWeights c') /\
    fst (neighbour_shrink_csr order c q ret inplace) = if inplace then c' else c.
Proof.
  intros Hq HR HF HS. destruct (shrink_csr_form q order W r n c Hq HR HF HS) as [c' [Ec Fc]].
  exists c'. unfold neighbour_shrink_csr. rewrite Ec. split; [reflexivity|]. destruct inplace; reflexivity.
Qed.

Ltac rdec :=
  repeat match goal with
  | |- context[Rltb ?a ?b] => first [rewrite (proj2 (Rltb_true a b)) by lra | rewrite (proj2 (Rltb_false a b)) by lra]
  | |- context[Rleb ?a ?b] => first [rewrite (proj2 (Rleb_true a b)) by lra | rewrite (proj2 (Rleb_false a b)) by lra]
  | |- context[Reqb ?a ?b] => first [rewrite (proj2 (Reqb_true a b)) by lra | rewrite (proj2 (Reqb_false a b)) by lra]
  end.

Definition exW : matrix R := [[1; 3; 2; 0]; [0; 0; 0; 5]].
Lemma exW_shrunk : neighbour_shrink [1; 0]%nat exW 1 true true = ([[0; 3; 0; 0]; [0; 0; 0; 5]], Ok (ShrunkWeights [[0; 3; 0; 0]; [0; 0; 0; 5]])).
Proof.
  rewrite neighbour_shrink_ok; [|lra|unfold schedule; simpl; apply perm_swap].
  assert (E : map (shrink_row 1) exW = [[0; 3; 0; 0]; [0; 0; 0; 5]]).
  { unfold exW. cbn [map]. rewrite !shrink_row_map. unfold keep_fn, Rnonzero. cbn [map filter]. rdec. cbn [map filter negb].
    unfold below_quantile, at_virtual_index, virtual_linear. cbn [sortR insert length Nat.sub nth INR].
    rdec. cbn [insert length]. rdec. cbn [insert length Nat.sub nth INR]. rdec. cbn [nth andb]. rdec. reflexivity. }
  rewrite E. reflexivity.
Qed.
Lemma exW_cut : shrunk_weights (Some 1) exW [[0; 3; 0; 0]; [0; 0; 0; 5]].
Proof.
  apply shrunk_effective. split; [lra|]. pose proof exW_shrunk as H. rewrite neighbour_shrink_ok in H; [|lra|apply perm_swap].
  cbn [fst snd bind] in H. assert (E := f_equal fst H). symmetry. exact E.
Qed.

(** ** C28 *)
Lemma second_order_any_schedule n order order' buf buf' (N L : matrix bool) :
  schedule n order -> schedule n order' -> length buf = n -> length buf' = n ->
  second_order_neighbour order buf N (Some L) = second_order_neighbour order' buf' N (Some L).
Proof. intros. unfold second_order_neighbour. rewrite !(second_order_dense_eq n) by auto. reflexivity. Qed.

Lemma second_order_csr_any_schedule {A B} (N : csr A) (L : csr B) order order' :
  schedule (c_nrows N) order -> schedule (c_nrows N) order' ->
  second_order_neighbour_csr order N L = second_order_neighbour_csr order' N L.
Proof.
  intros H1 H2. unfold second_order_neighbour_csr, second_order_sparse.
  rewrite !(prange_schedule (c_nrows N)) by (auto; apply repeat_length). reflexivity.
Qed.

Lemma shrink_any_schedule order order' (W : matrix R) q ret inplace :
  schedule (length W) order -> schedule (length W) order' ->
  neighbour_shrink order W q ret inplace = neighbour_shrink order' W q ret inplace.
Proof.
  intros H1 H2. destruct (rate_ok q) eqn:E.
  - apply rate_ok_true in E. rewrite !neighbour_shrink_ok by auto. reflexivity.
  - unfold neighbour_shrink, shrink_dense. rewrite E. destruct W; reflexivity.
Qed.

Lemma shrink_csr_any_schedule order order' ncols rows q ret inplace :
  schedule (length rows) order -> schedule (length rows) order' ->
  neighbour_shrink_csr order (csr_of_rows ncols rows) q ret inplace =
  neighbour_shrink_csr order' (csr_of_rows ncols rows) q ret inplace.
Proof.
  intros H1 H2. destruct (rate_ok q) eqn:E.
  - apply rate_ok_true in E. unfold neighbour_shrink_csr. rewrite !shrink_csr_of_rows by auto. reflexivity.
  - unfold neighbour_shrink_csr, shrink_csr. rewrite E. reflexivity.
Qed.

(** Single element writes of all threads interleaved in any way: once every row
    has made its steps, the array is the one the row-by-row loop gives. *)
Lemma shrink_any_interleaving order q (W : matrix R) interleaving :
  0 <= q <= 1 -> schedule (length W) order ->
  (forall i, (i < length W)%nat -> (num_nonzero (nth i W []) < count_occ Nat.eq_dec interleaving i)%nat) ->
  snd (neighbour_shrink order W q true true) = Ok (ShrunkWeights (map fst (shrink_interleaved q interleaving W))).
Proof.
  intros Hq HS H. rewrite neighbour_shrink_ok by auto. rewrite shrink_interleaved_ok by auto. reflexivity.
Qed.

(** ** Sampling *)
Lemma candidate_effective shrink W Ws : shrunk_weights shrink W Ws -> effective shrink W Ws.
Proof. intros H. apply shrunk_effective in H. exact H. Qed.

Lemma sample_neighbour_sound G seed0 (choice : G -> list nat -> nat -> G * list nat) order g W Ws rate shrink n :
  valid_choice choice -> rect W n n -> (0 < n)%nat -> schedule n order -> 0 <= rate ->
  shrunk_weights shrink W Ws ->
  exists g' S, sample_neighbour G seed0 choice order g W rate shrink = Ok (g', S) /\ rect S n n /\
    forall i, (i < n)%nat ->
      let m := num_neighbours i (nth i Ws []) in
      sample_spec (Nat.min m (Nat.max 1 (Z.to_nat (Rceil (INR m * rate))))) i (nth i Ws []) (nth i S []).
Proof.
  intros Hc HR Hn HS Hr He. assert (HL : length W = n) by apply HR.
  apply (sample_sound G seed0 choice Hc order g W Ws rate shrink n); auto.
  apply candidate_effective; auto.
Qed.

Lemma sample_negative_rate G seed0 (choice : G -> list nat -> nat -> G * list nat) order g W rate n i :
  rect W n n -> (i < n)%nat -> INR (num_neighbours i (nth i W [])) * rate <= -1 ->
  raises (sample_neighbour G seed0 choice order g W rate None).
Proof.
  intros HR Hi Hm. unfold sample_neighbour. cbn [bind]. fold (candidates W).
  pose proof (candidates_rect W n HR) as HC. assert (HCl : length (candidates W) = n) by apply HC.
  assert (EC : map (fun row => sample_count rate (count_true row)) (candidates W) =
               map (fun r => sample_count rate (length r)) (map nonzero (candidates W))).
  { rewrite map_map. apply map_ext. intros row. rewrite nonzero_length. reflexivity. }
  rewrite EC.
  enough (H : forall rows g, (exists r, In r rows /\ INR (length r) * rate <= -1) ->
    raises (draw_rows G choice g rows (map (fun r => sample_count rate (length r)) rows))).
  { destruct (H (map nonzero (candidates W)) seed0) as [e He].
    - exists (nonzero (nth i (candidates W) [])). split; [apply in_map, nth_In; lia|]. rewrite (candidates_count W n i); auto.
    - rewrite He. exists e. reflexivity. }
  clear. induction rows as [|r rows IH]; intros g [x [Hin Hx]]; [destruct Hin|]. simpl.
  destruct Hin as [->|Hin].
  - exists ValueError. unfold draw. enough (Hneg : (sample_count rate (length x) < 0)%Z).
    { destruct (Z.ltb_spec (sample_count rate (length x)) 0); [reflexivity|lia]. }
    unfold sample_count. assert (Hc : (Rceil (INR (length x) * rate) < 0)%Z).
    { pose proof (Rceil_spec (INR (length x) * rate)) as Hs. apply lt_IZR. simpl. lra. }
    destruct (Z.eqb_spec (Rceil (INR (length x) * rate)) 0); [lia|].
    destruct (Z.ltb_spec (Z.of_nat (length x)) (Rceil (INR (length x) * rate))); lia.
  - destruct (draw G choice g r (sample_count rate (length r))) as [[g1 d]|e]; cbn [bind]; [|exists e; reflexivity].
    destruct (IH g1) as [e He]; [exists x; auto|]. cbn [fst]. rewrite He. exists e. reflexivity.
Qed.

Lemma sample_neighbour_reproducible G seed0 (choice : G -> list nat -> nat -> G * list nat) order order' g g' W rate shrink :
  schedule (length W) order -> schedule (length W) order' ->
  sample_neighbour G seed0 choice order g W rate shrink = sample_neighbour G seed0 choice order' g' W rate shrink.
Proof.
  intros H1 H2. unfold sample_neighbour. destruct shrink as [q|]; [|reflexivity].
  rewrite (shrink_any_schedule order order') by auto. reflexivity.
Qed.
Lemma sample_neighbour_csr_reproducible G seed0 (choice : G -> list nat -> nat -> G * list nat) order order' g g' ncols rows rate shrink :
  schedule (length rows) order -> schedule (length rows) order' ->
  sample_neighbour_csr G seed0 choice order g (csr_of_rows ncols rows) rate shrink =
  sample_neighbour_csr G seed0 choice order' g' (csr_of_rows ncols rows) rate shrink.
Proof.
  intros H1 H2. unfold sample_neighbour_csr. destruct shrink as [q|]; [|reflexivity].
  rewrite (shrink_csr_any_schedule order order') by auto. reflexivity.
Qed.

Lemma sample_sparse_agrees G seed0 (choice : G -> list nat -> nat -> G * list nat) order g W c rate shrink n :
  valid_choice choice -> rect W n n -> (0 < n)%nat -> csr_form 0 (fun x => Reqb x 0) W n c ->
  schedule n order -> 0 <= rate -> (forall q, shrink = Some q -> 0 <= q <= 1) ->
  exists g' S cS, sample_neighbour G seed0 choice order g W rate shrink = Ok (g', S) /\
    sample_neighbour_csr G seed0 choice order g c rate shrink = Ok (g', cS) /\ csr_mask S n cS.
Proof.
  intros Hc HR Hn HF HS Hr Hq. apply (sample_csr_agrees G seed0 choice Hc order g W c rate shrink n); auto.
  destruct shrink; auto.
Qed.

(** A generator that meets the hypothesis: it counts the draws and takes the
    first elements. *)
Definition first_choice (g : nat) (population : list nat) (size : nat) : nat * list nat := (S g, firstn size population).
Lemma first_choice_valid : valid_choice first_choice.
Proof.
  intros g p s Hs. simpl. split; [apply firstn_length_le; auto|]. exists (skipn s p). rewrite firstn_skipn. apply Permutation_refl.
Qed.
Definition exV : matrix R := [[1; 1; 1]; [0; 1; 0]; [1; 0; 0]].
Lemma exV_rect : rect exV 3 3. Proof. split; [reflexivity|repeat constructor]. Qed.
Lemma Rceil_eq r k : IZR k - 1 < r <= IZR k -> Rceil r = k.
Proof.
  intros H. pose proof (Rceil_spec r) as H'. assert (IZR (Rceil r) < IZR k + 1) by lra. assert (IZR k < IZR (Rceil r) + 1) by lra.
  rewrite <- plus_IZR in *. apply lt_IZR in H0, H1. lia.
Qed.
Lemma exV_sampled : sample_neighbour nat 0%nat first_choice [2; 0; 1]%nat 41%nat exV (1 / 2) None =
  Ok (3%nat, [[true; true; false]; [false; true; false]; [true; false; true]]).
Proof.
  unfold sample_neighbour, exV, mmap, positive. cbn [map bind]. rdec.
  cbn [fill_diagonal mapi mapi_from list_set map count_true select nonzero nonzero_from length].
  unfold sample_count.
  rewrite (Rceil_eq _ 1) by (simpl; lra). rewrite (Rceil_eq _ 0) by (simpl; lra).
  rewrite (Rceil_eq _ 1) by (simpl; lra). reflexivity.
Qed.
Lemma exW_rect : rect exW 2 4. Proof. split; [reflexivity|repeat constructor]. Qed.
Lemma Ok_inj {A} {x y : A} : Ok x = Ok y -> x = y. Proof. congruence. Qed.
