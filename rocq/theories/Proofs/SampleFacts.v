From Coq Require Import Lra Psatz.
From Verif.Model Require Import Base Ext Sort Csr Neighbour.
From Verif.Spec Require Import KernelSpec NeighbourSpec.
From Verif.Proofs Require Import ListFacts KernelFacts SortFacts CsrFacts NeighbourFacts ShrinkFacts.
Require Import Sorting.Sorted.
Open Scope nat_scope.
Open Scope R_scope.

Definition sampled_count (rate : R) (n : nat) : nat :=
  Nat.min n (Nat.max 1 (Z.to_nat (Rceil (INR n * rate)))).

Lemma sample_count_nat rate n : 0 <= rate -> sample_count rate n = Z.of_nat (sampled_count rate n).
Proof.
  intros Hr. unfold sample_count, sampled_count. pose proof (pos_INR n) as Hn.
  assert (H0 : (0 <= Rceil (INR n * rate))%Z).
  { pose proof (Rceil_spec (INR n * rate)). apply le_IZR. simpl. assert (0 <= INR n * rate) by nra. lra. }
  destruct (Z.eqb_spec (Rceil (INR n * rate)) 0) as [E|E].
  - rewrite E. destruct (Z.ltb_spec (Z.of_nat n) 1); simpl; lia.
  - destruct (Z.ltb_spec (Z.of_nat n) (Rceil (INR n * rate))); lia.
Qed.

Lemma sampled_count_le rate n : (sampled_count rate n <= n)%nat.
Proof. unfold sampled_count. lia. Qed.

Lemma NoDup_app_l {A} (l l' : list A) : NoDup (l ++ l') -> NoDup l.
Proof.
  induction l as [|x l IH]; simpl; intros H; constructor; inversion H; subst; auto.
  intros Hin. apply H2. apply in_app_iff; auto.
Qed.

Section Draw.
  Variable G : Type.
  Variable seed0 : G.
  Variable choice : G -> list nat -> nat -> G * list nat.
  Hypothesis Hchoice : valid_choice choice.

  Lemma draw_rows_ok rate : 0 <= rate -> forall rows g,
    exists g' ds, draw_rows G choice g rows (map (fun r => sample_count rate (length r)) rows) = Ok (g', ds) /\
      Forall2 (fun r d => length d = sampled_count rate (length r) /\ exists rest, Permutation r (d ++ rest)) rows ds.
  Proof.
    intros Hr. induction rows as [|r rows IH]; intros g; simpl.
    - exists g, []. split; auto.
    - unfold draw. rewrite sample_count_nat by auto. pose proof (sampled_count_le rate (length r)) as Hle.
      destruct (Z.ltb_spec (Z.of_nat (sampled_count rate (length r))) 0); [lia|].
      destruct (Z.ltb_spec (Z.of_nat (length r)) (Z.of_nat (sampled_count rate (length r)))); [lia|]. cbn [orb bind].
      rewrite Nat2Z.id. destruct (Hchoice g r (sampled_count rate (length r)) Hle) as [H1 H2].
      destruct (IH (fst (choice g r (sampled_count rate (length r))))) as (g' & ds & E & HF).
      rewrite E. cbn [bind fst snd]. exists g', (snd (choice g r (sampled_count rate (length r))) :: ds). split; auto.
  Qed.
End Draw.

(** ** fill_diagonal *)
Lemma fill_diagonal_nth {A} (v : A) m i : (i < length m)%nat ->
  nth i (fill_diagonal v m) [] = list_set (nth i m []) i v.
Proof. intros H. unfold fill_diagonal. rewrite (mapi_nth _ _ _ []) by auto. reflexivity. Qed.
Lemma fill_diagonal_length {A} (v : A) m : length (fill_diagonal v m) = length m.
Proof. apply mapi_length. Qed.
Lemma fill_diagonal_rect {A} (v : A) m r c : rect m r c -> rect (fill_diagonal v m) r c.
Proof.
  intros HR. assert (HL : length m = r) by apply HR. split; [rewrite fill_diagonal_length; auto|].
  apply Forall_forall. intros row Hin. apply (In_nth _ _ []) in Hin as [i [Hi <-]].
  rewrite fill_diagonal_length in Hi. rewrite fill_diagonal_nth by auto. rewrite list_set_length.
  apply (rect_row m r c); auto. lia.
Qed.

(** The mask of candidate neighbours: positive weight, not itself. *)
Definition candidates (W : matrix R) : matrix bool := fill_diagonal false (mmap positive W).
Lemma candidates_rect W n : rect W n n -> rect (candidates W) n n.
Proof. intros H. apply fill_diagonal_rect, rect_mmap; auto. Qed.
Lemma candidates_nth W n i j : rect W n n -> (i < n)%nat -> (j < n)%nat ->
  nth j (nth i (candidates W) []) false = Rltb 0 (nth j (nth i W []) 0) && negb (j =? i)%nat.
Proof.
  intros HR Hi Hj. assert (HL : length W = n) by apply HR.
  unfold candidates, mmap. rewrite fill_diagonal_nth by (rewrite map_length; lia).
  rewrite (nth_map_in _ _ _ []) by lia.
  assert (Hrow : length (nth i W []) = n) by (apply (rect_row W n n); auto).
  destruct (Nat.eqb_spec j i) as [->|Hne].
  - rewrite list_set_nth_eq by (rewrite map_length; lia). rewrite Bool.andb_false_r. reflexivity.
  - rewrite list_set_nth_neq by auto. rewrite (nth_map_in _ _ _ 0) by lia. rewrite Bool.andb_true_r. reflexivity.
Qed.
Lemma candidates_count W n i : rect W n n -> (i < n)%nat ->
  length (nonzero (nth i (candidates W) [])) = num_neighbours i (nth i W []).
Proof.
  intros HR Hi. rewrite nonzero_filter, (rect_row _ n n) by (auto; apply candidates_rect; auto).
  unfold num_neighbours. rewrite (rect_row W n n) by auto. f_equal. apply filter_ext_in. intros j Hj. apply in_seq in Hj.
  apply (candidates_nth W n); auto; lia.
Qed.

(** The sampled row built from the drawn indices. *)
Definition sampled_row (n i : nat) (idx : list nat) : list bool :=
  list_set (put (repeat false n) idx (map (fun _ => true) idx)) i true.
Lemma sampled_row_nth n i idx j : (i < n)%nat -> (j < n)%nat -> NoDup idx -> (forall k, In k idx -> (k < n)%nat) ->
  (nth j (sampled_row n i idx) false = true <-> j = i \/ In j idx).
Proof.
  intros Hi Hj Hnd Hlt. unfold sampled_row. destruct (Nat.eq_dec i j) as [->|Hne].
  - rewrite list_set_nth_eq by (rewrite put_length, repeat_length; auto). tauto.
  - rewrite list_set_nth_neq by auto. rewrite (put_map (fun _ => true)) by (auto; rewrite repeat_length; auto).
    rewrite nth_repeat. destruct (in_dec Nat.eq_dec j idx); split; intros; try tauto; try discriminate.
    destruct H; congruence.
Qed.
Lemma sampled_row_length n i idx : length (sampled_row n i idx) = n.
Proof. unfold sampled_row. rewrite list_set_length, put_length, repeat_length. auto. Qed.

Lemma insert_nat_perm x l : Permutation (x :: l) (insert_nat x l).
Proof.
  induction l as [|y l IH]; simpl; auto. destruct (x <=? y)%nat; auto.
  eapply perm_trans; [apply perm_swap|]. constructor. auto.
Qed.
Lemma sort_nat_perm l : Permutation l (sort_nat l).
Proof. induction l as [|x l IH]; simpl; auto. eapply perm_trans; [apply perm_skip; exact IH|apply insert_nat_perm]. Qed.
Lemma insert_nat_sorted x l : StronglySorted le l -> StronglySorted le (insert_nat x l).
Proof.
  induction 1 as [|y l Hs IH HF]; simpl; [constructor; constructor|].
  destruct (Nat.leb_spec x y).
  - constructor; [constructor; auto|]. constructor; auto. revert HF. apply Forall_impl. intros; lia.
  - constructor; auto. apply Forall_forall. intros z Hz.
    apply (Permutation_in _ (Permutation_sym (insert_nat_perm x l))) in Hz. destruct Hz as [<-|Hz]; [lia|].
    rewrite Forall_forall in HF. auto.
Qed.
Lemma sort_nat_sorted l : StronglySorted le (sort_nat l).
Proof. induction l; simpl; [constructor|apply insert_nat_sorted; auto]. Qed.
Lemma sorted_le_lt l : StronglySorted le l -> NoDup l -> StronglySorted lt l.
Proof.
  induction 1 as [|x l Hs IH HF]; intros Hnd; constructor; inversion Hnd; subst; auto.
  apply Forall_forall. intros y Hy. rewrite Forall_forall in HF. specialize (HF y Hy).
  assert (x <> y) by congruence. lia.
Qed.

Lemma sort_nat_nonzero n i idx : (i < n)%nat -> NoDup idx -> (forall k, In k idx -> (k < n)%nat /\ k <> i) ->
  sort_nat (idx ++ [i]) = nonzero (sampled_row n i idx).
Proof.
  intros Hi Hnd Hlt. apply StronglySorted_lt_ext.
  - apply sorted_le_lt; [apply sort_nat_sorted|]. eapply Permutation_NoDup; [apply sort_nat_perm|].
    eapply Permutation_NoDup; [apply Permutation_cons_append|]. constructor; auto. intros H. apply Hlt in H. tauto.
  - apply nonzero_sorted.
  - intros x. rewrite in_nonzero_nth. split.
    + intros H. apply (Permutation_in _ (Permutation_sym (sort_nat_perm _))) in H. apply in_app_iff in H.
      assert (Hx : (x < n)%nat) by (destruct H as [H|[<-|[]]]; auto; apply Hlt in H; tauto).
      apply sampled_row_nth; auto; [intros k Hk; apply Hlt in Hk; tauto|]. destruct H as [H|[<-|[]]]; auto.
    + intros H. assert (Hx : (x < n)%nat).
      { destruct (Nat.lt_ge_cases x n); auto. rewrite nth_overflow in H by (rewrite sampled_row_length; auto). discriminate. }
      apply sampled_row_nth in H; auto; [|intros k Hk; apply Hlt in Hk; tauto].
      apply (Permutation_in _ (sort_nat_perm _)). apply in_app_iff. simpl. destruct H; auto.
Qed.

Section Sample.
  Variable G : Type.
  Variable seed0 : G.
  Variable choice : G -> list nat -> nat -> G * list nat.
  Hypothesis Hchoice : valid_choice choice.

  (** The weights whose positive entries are the candidates. *)
  Definition effective (shrink : option R) (W Ws : matrix R) : Prop :=
    match shrink with None => Ws = W | Some q => 0 <= q <= 1 /\ Ws = map (shrink_row q) W end.

  Lemma effective_rect shrink W Ws n : effective shrink W Ws -> rect W n n -> rect Ws n n.
  Proof.
    destruct shrink as [q|]; simpl; [|intros ->; auto]. intros [_ ->] [H1 H2]. split; [rewrite map_length; auto|].
    rewrite Forall_map. revert H2. apply Forall_impl. intros row <-. rewrite shrink_row_map. apply map_length.
  Qed.

  (** What a run of the sampling loop yields. *)
  Lemma sample_run order g W Ws rate shrink n :
    rect W n n -> schedule n order -> 0 <= rate -> effective shrink W Ws ->
    exists g' ds, draw_rows G choice seed0 (map nonzero (candidates Ws))
         (map (fun r => sample_count rate (length r)) (map nonzero (candidates Ws))) = Ok (g', ds) /\
      length ds = n /\
      (forall i, (i < n)%nat -> length (nth i ds []) = sampled_count rate (num_neighbours i (nth i Ws [])) /\
         NoDup (nth i ds []) /\ forall k, In k (nth i ds []) -> In k (nonzero (nth i (candidates Ws) []))) /\
      sample_neighbour G seed0 choice order g W rate shrink = Ok (g', tabulate n (fun i => sampled_row n i (nth i ds []))).
  Proof.
    intros HR HS Hr He. pose proof (effective_rect _ _ _ _ He HR) as HRs.
    pose proof (candidates_rect Ws n HRs) as HC. assert (HCl : length (candidates Ws) = n) by apply HC.
    destruct (draw_rows_ok G choice Hchoice rate Hr (map nonzero (candidates Ws)) seed0) as (g' & ds & E & HF).
    exists g', ds. split; [exact E|]. pose proof (Forall2_len _ _ _ HF) as HL. rewrite map_length, HCl in HL.
    split; [auto|]. split.
    - intros i Hi. assert (Hx : (fun r d => length d = sampled_count rate (length r) /\ exists rest, Permutation r (d ++ rest))
        (nth i (map nonzero (candidates Ws)) []) (nth i ds [])).
      { clear -HF Hi HCl. assert (Hi' : (i < length (map nonzero (candidates Ws)))%nat) by (rewrite map_length; lia). clear Hi HCl.
        revert i Hi'. induction HF as [|x y l l' Hxy _ IH]; intros [|i] Hi; simpl in *; try lia; auto. apply IH; lia. }
      cbv beta in Hx. rewrite (nth_map_in _ _ _ []) in Hx by lia. destruct Hx as [H1 [rest H2]].
      rewrite (candidates_count Ws n i HRs Hi) in H1. split; auto.
      assert (Hnd : NoDup (nth i ds [] ++ rest)) by (eapply Permutation_NoDup; [exact H2|apply nonzero_NoDup]).
      split; [apply (NoDup_app_l _ rest); auto|]. intros k Hk. apply (Permutation_in _ (Permutation_sym H2)).
      apply in_app_iff; auto.
    - unfold sample_neighbour.
      assert (EN : (match shrink with
         | Some q => r <- snd (neighbour_shrink order W q false false) ;;
             Ok (match r with ShrunkMask b => b | ShrunkWeights s => mmap positive s end)
         | None => Ok (mmap positive W) end) = Ok (mmap positive Ws)).
      { destruct shrink as [q|]; simpl in He; [|subst; reflexivity]. destruct He as [Hq ->].
        rewrite neighbour_shrink_ok; auto. assert (length W = n) by apply HR. congruence. }
      rewrite EN. cbn [bind]. fold (candidates Ws).
      assert (EC : map (fun row => sample_count rate (count_true row)) (candidates Ws) =
                   map (fun r => sample_count rate (length r)) (map nonzero (candidates Ws))).
      { rewrite map_map. apply map_ext. intros row. rewrite nonzero_length. reflexivity. }
      rewrite EC, E. cbn [bind fst snd]. do 2 f_equal.
      apply (list_eq_nth []).
      + rewrite fill_diagonal_length, map2_length, tabulate_length. lia.
      + intros i Hi. rewrite fill_diagonal_length, map2_length in Hi.
        rewrite fill_diagonal_nth by (rewrite map2_length; auto). rewrite tabulate_nth by lia.
        rewrite (map2_nth _ _ _ _ [] []) by lia. unfold sampled_row. do 2 f_equal.
        assert (Hrow : length (nth i (candidates Ws) []) = n) by (apply (rect_row _ n n); auto; lia).
        transitivity (repeat false (length (nth i (candidates Ws) []))); [|rewrite Hrow; auto].
        clear. induction (nth i (candidates Ws) []); simpl; auto. f_equal; auto.
  Qed.

  Lemma sample_sound order g W Ws rate shrink n :
    rect W n n -> schedule n order -> 0 <= rate -> effective shrink W Ws ->
    exists g' S, sample_neighbour G seed0 choice order g W rate shrink = Ok (g', S) /\ rect S n n /\
      forall i, (i < n)%nat -> sample_spec (sampled_count rate (num_neighbours i (nth i Ws []))) i (nth i Ws []) (nth i S []).
  Proof.
    intros HR HS Hr He. pose proof (effective_rect _ _ _ _ He HR) as HRs.
    destruct (sample_run order g W Ws rate shrink n HR HS Hr He) as (g' & ds & E & HL & Hds & ES).
    eexists _, _. split; [exact ES|]. split.
    { split; [apply tabulate_length|]. apply Forall_forall. intros row Hin. apply in_tabulate in Hin as [i [Hi <-]].
      apply sampled_row_length. }
    intros i Hi. rewrite tabulate_nth by auto. destruct (Hds i Hi) as [H1 [H2 H3]].
    assert (H4 : forall k, In k (nth i ds []) -> (k < n)%nat /\ k <> i /\ 0 < nth k (nth i Ws []) 0).
    { intros k Hk. apply H3 in Hk. apply in_nonzero_lt in Hk as Hlt.
      rewrite (rect_row _ n n) in Hlt by (auto; apply candidates_rect; auto). split; auto.
      apply in_nonzero_nth in Hk. rewrite (candidates_nth Ws n) in Hk by auto.
      apply Bool.andb_true_iff in Hk as [Ha Hb]. apply Rltb_true in Ha.
      destruct (Nat.eqb_spec k i); simpl in Hb; [discriminate|]. auto. }
    constructor.
    - rewrite sampled_row_length, (rect_row Ws n n); auto.
    - apply sampled_row_nth; auto. intros k Hk; apply H4 in Hk; tauto.
    - intros j Hj. assert (Hjn : (j < n)%nat).
      { destruct (Nat.lt_ge_cases j n); auto. rewrite nth_overflow in Hj by (rewrite sampled_row_length; auto). discriminate. }
      apply sampled_row_nth in Hj; auto; [|intros k Hk; apply H4 in Hk; tauto].
      destruct Hj as [Hj|Hj]; auto. right. apply H4 in Hj. tauto.
    - rewrite <- H1. apply Permutation_length. apply NoDup_Permutation; auto.
      + apply NoDup_filter, seq_NoDup.
      + intros j. rewrite filter_In, in_seq, sampled_row_length, Bool.andb_true_iff. split.
        * intros [[_ Hj] [Ha Hb]]. apply sampled_row_nth in Ha; auto; [|intros k Hk; apply H4 in Hk; tauto].
          destruct Ha as [->|]; auto. rewrite Nat.eqb_refl in Hb. discriminate.
        * intros Hj. pose proof (H4 j Hj) as (Ha & Hb & _). split; [lia|]. split.
          -- apply sampled_row_nth; auto. intros k Hk; apply H4 in Hk; tauto.
          -- destruct (Nat.eqb_spec j i); auto.
  Qed.

  (** ** CSR branch *)
  Lemma crow_true n row : length row = n -> crow false negb n row = map (fun j => (j, true)) (nonzero row).
  Proof.
    intros HL. rewrite nonzero_filter, HL. unfold crow.
    rewrite (filter_ext (fun j => negb (negb (nth j row false))) (fun j => nth j row false)) by (intros; apply Bool.negb_involutive).
    apply map_ext_in. intros j Hj. apply filter_In in Hj as [_ ->]. reflexivity.
  Qed.

  Lemma remove_diagonal_mask M n c : rect M n n -> csr_mask M n c -> csr_mask (fill_diagonal false M) n (remove_diagonal c).
  Proof.
    intros HR Hc. unfold csr_mask in *. rewrite csr_form_eq in *. subst c. unfold remove_diagonal.
    rewrite csr_rows_of_rows. cbn [c_ncols csr_of_rows]. f_equal.
    assert (HL : length M = n) by apply HR.
    apply (list_eq_nth []).
    - rewrite mapi_length, !map_length, fill_diagonal_length. auto.
    - intros i Hi. rewrite mapi_length, map_length in Hi.
      rewrite (mapi_nth _ _ _ [] []) by (rewrite map_length; auto). rewrite !(nth_map_in _ _ _ []) by (rewrite ?fill_diagonal_length; auto).
      rewrite fill_diagonal_nth by auto.
      assert (Hrow : length (nth i M []) = n) by (apply (rect_row M n n); auto; lia).
      unfold crow. rewrite filter_map_comm. cbn [fst]. rewrite filter_filter.
      rewrite (filter_ext_in (fun j => negb (negb (nth j (list_set (nth i M []) i false) false)))
        (fun j => negb (negb (nth j (nth i M []) false)) && negb (j =? i)%nat)).
      + apply map_ext_in. intros j Hj. apply filter_In in Hj as [_ Hj]. apply Bool.andb_true_iff in Hj as [_ Hj].
        destruct (Nat.eqb_spec j i); [discriminate|]. rewrite list_set_nth_neq by auto. reflexivity.
      + intros j Hj. apply in_seq in Hj. destruct (Nat.eqb_spec j i) as [->|Hne].
        * rewrite list_set_nth_eq by lia. rewrite Bool.andb_false_r. reflexivity.
        * rewrite list_set_nth_neq by auto. rewrite Bool.andb_true_r. reflexivity.
  Qed.

  Lemma sample_csr_agrees order g W c rate shrink n :
    rect W n n -> (0 < n)%nat -> csr_form 0 zeroR W n c -> schedule n order -> 0 <= rate ->
    (match shrink with Some q => 0 <= q <= 1 | None => True end) ->
    exists g' S cS, sample_neighbour G seed0 choice order g W rate shrink = Ok (g', S) /\
      sample_neighbour_csr G seed0 choice order g c rate shrink = Ok (g', cS) /\ csr_mask S n cS.
  Proof.
    intros HR Hn Hc HS Hr Hq.
    set (Ws := match shrink with None => W | Some q => map (shrink_row q) W end).
    assert (He : effective shrink W Ws) by (unfold effective, Ws; destruct shrink; auto).
    pose proof (effective_rect _ _ _ _ He HR) as HRs.
    destruct (sample_run order g W Ws rate shrink n HR HS Hr He) as (g' & ds & E & HL & Hds & ES).
    set (S := tabulate n (fun i => sampled_row n i (nth i ds []))) in *.
    assert (HSr : rect S n n).
    { split; [apply tabulate_length|]. apply Forall_forall. intros row Hin. apply in_tabulate in Hin as [i [Hi <-]].
      apply sampled_row_length. }
    exists g', S, (csr_of_rows n (map (crow false negb n) S)). split; [exact ES|]. split; [|reflexivity].
    unfold sample_neighbour_csr.
    assert (EN : exists cM, (match shrink with
         | Some q => r <- snd (neighbour_shrink_csr order c q false false) ;;
             Ok (match r with ShrunkMask b => b | ShrunkWeights s => csr_where positive s end)
         | None => Ok (csr_where positive c) end) = Ok cM /\ csr_mask (mmap positive Ws) n cM).
    { destruct shrink as [q|].
      - destruct (shrink_csr_form q order W n n c Hq HR Hc HS) as [c' [Ec Fc]].
        exists (csr_where positive c'). unfold neighbour_shrink_csr. rewrite Ec. split; [reflexivity|].
        apply (csr_where_form _ n); auto.
      - exists (csr_where positive c). split; [reflexivity|]. apply (csr_where_form W n); auto. }
    destruct EN as [cM [-> HM]]. cbn [bind].
    pose proof (remove_diagonal_mask _ n cM (rect_mmap positive Ws n n HRs) HM) as HD. fold (candidates Ws) in HD.
    pose proof (candidates_rect Ws n HRs) as HC. assert (HCl : length (candidates Ws) = n) by apply HC.
    assert (ER : tabulate (c_nrows (remove_diagonal cM)) (row_indices (remove_diagonal cM)) = map nonzero (candidates Ws)).
    { rewrite (form_nrows _ _ _ _ _ HD), HCl. symmetry. rewrite (tabulate_of_list [] (candidates Ws)), HCl, map_tabulate.
      apply tabulate_ext. intros i Hi. rewrite (form_row_indices _ _ _ _ _ _ HD) by lia.
      rewrite nonzero_filter, (rect_row _ n n) by auto. apply filter_ext. intros; symmetry; apply Bool.negb_involutive. }
    rewrite ER, E. cbn [bind fst snd].
    assert (EI : mapi (fun i idx => sort_nat (idx ++ [i])%list) ds = map nonzero S).
    { apply (list_eq_nth []).
      - rewrite mapi_length, map_length. unfold S. rewrite tabulate_length. auto.
      - intros i Hi. rewrite mapi_length, HL in Hi. rewrite (mapi_nth _ _ _ [] []) by lia.
        rewrite (nth_map_in _ _ _ []) by (unfold S; rewrite tabulate_length; auto). unfold S. rewrite tabulate_nth by auto.
        destruct (Hds i Hi) as [_ [H2 H3]]. apply sort_nat_nonzero; auto.
        intros k Hk. apply H3 in Hk. apply in_nonzero_lt in Hk as Hlt.
        rewrite (rect_row _ n n) in Hlt by auto. split; auto.
        apply in_nonzero_nth in Hk. rewrite (candidates_nth Ws n) in Hk by auto.
        apply Bool.andb_true_iff in Hk as [_ Hb]. destruct (Nat.eqb_spec k i); [discriminate|auto]. }
    rewrite EI.
    assert (HIn : In (n - 1)%nat (concat (map nonzero S))).
    { apply in_concat. exists (nonzero (nth (n - 1) S [])). split.
      - apply in_map, nth_In. unfold S. rewrite tabulate_length. lia.
      - apply in_nonzero_nth. unfold S. rewrite tabulate_nth by lia. unfold sampled_row.
        apply list_set_nth_eq. rewrite put_length, repeat_length. lia. }
    assert (Hb : forall y, In y (concat (map nonzero S)) -> (y < n)%nat).
    { intros y Hy. apply in_concat in Hy as [l [Hl Hy]]. apply in_map_iff in Hl as [row [<- Hrow]].
      apply in_nonzero_lt in Hy. destruct HSr as [_ HF]. rewrite Forall_forall in HF. rewrite (HF row Hrow) in Hy. auto. }
    assert (Hmax : Datatypes.S (list_max (concat (map nonzero S))) = n).
    { assert (concat (map nonzero S) <> []) as Hne by (intros Ee; rewrite Ee in HIn; destruct HIn).
      apply list_max_in in Hne. apply Hb in Hne.
      pose proof (proj1 (list_max_le (concat (map nonzero S)) _) (le_n _)) as HF. rewrite Forall_forall in HF.
      apply HF in HIn. lia. }
    destruct (map nonzero S) as [|r rs] eqn:Em; [destruct HIn|]. rewrite <- Em in *.
    assert (Einf : csr_infer (map (fun _ => true) (concat (map nonzero S))) (concat (map nonzero S)) (indptr_from 0 (map nonzero S))
      = Ok (csr_of_rows n (map (crow false negb n) S))).
    { unfold csr_infer. destruct (concat (map nonzero S)) as [|x l] eqn:Ec; [destruct HIn|]. rewrite <- Ec in *. rewrite Hmax.
      assert (Ecr : map (crow false negb n) S = map (fun row => map (fun j => (j, true)) (nonzero row)) S).
      { apply map_ext_in. intros row Hin. apply crow_true. destruct HSr as [_ HF]. rewrite Forall_forall in HF. auto. }
      rewrite Ecr. unfold csr_of_rows. f_equal. f_equal.
      - rewrite !concat_map, !map_map. f_equal. apply map_ext. intros row. rewrite map_map. reflexivity.
      - rewrite !concat_map, !map_map. f_equal. apply map_ext. intros row. rewrite map_map. simpl. symmetry. apply map_id.
      - apply indptr_from_lengths. rewrite !map_map. apply map_ext. intros row. rewrite map_length. reflexivity. }
    rewrite Einf. reflexivity.
  Qed.

  Lemma sample_generator_irrelevant order order' g g' W rate shrink :
    schedule (length W) order -> schedule (length W) order' ->
    (match shrink with Some q => 0 <= q <= 1 | None => True end) ->
    sample_neighbour G seed0 choice order g W rate shrink = sample_neighbour G seed0 choice order' g' W rate shrink.
  Proof.
    intros H1 H2 Hq. unfold sample_neighbour. destruct shrink as [q|]; [|reflexivity].
    rewrite !neighbour_shrink_ok by auto. reflexivity.
  Qed.
End Sample.
