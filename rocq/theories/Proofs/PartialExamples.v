(** Examples of partial dependence and ICE curves (C173). *)
From Coq Require Import Lra Lia Sorting.Sorted.
From Verif.Model Require Import Base Ext Sort Csr Neighbour Distance WeightModel Inspect PartialDependence.
From Verif.Spec Require Import KernelSpec NeighbourSpec WeightModelSpec InspectSpec LocalImportanceSpec PartialSpec.
From Verif.Proofs Require Import ListFacts SortFacts SumFacts KernelFacts CsrFacts NeighbourProps WeightModelFacts WeightModelProps FitProps InspectProps InspectProps2 InspectProps3 InspectProps4 FitExamples
  InspectExamples PartialGrid PartialProps.
Open Scope nat_scope.
Open Scope R_scope.

(** A model fitted at three places on a line; each estimator predicts its number
    plus feature 0 times the square of feature 1. *)
Definition m_predict (e : R) (rows : matrix R) : result (list R) := Ok (map (fun x => e + nth 0 x 0 * (nth 1 x 0 * nth 1 x 0)) rows).
Definition m_X : matrix R := [[2; 5]; [1; 6]; [3; 4]].
Definition m_fit (lo : bool) (W : matrix ext) := fit R off_fit m_predict nat first_choice 2 no_wm (cfg lo None None None) [1; 0]%nat 0%nat no_fs s_init m_X [1; 2; 4] None (Some (WDense W)).
Definition m_state : state R := o_state R nat (m_fit true fW).
Definition m_pd := partial_dependence R (partial_dependence_sk R m_predict (fun v => v) default_resolution).
Definition m_ice := local_ICE R m_predict (grid_from_X_sk default_resolution) (fun v => v).

Lemma m_ok : o_result R nat (m_fit true fW) = Ok tt.
Proof.
  apply (fit_succeeds R off_fit m_predict nat first_choice 2 no_wm _ _ _ _ _ _ _ _ _ (WDense fW) fW 3 first_choice_valid); auto using fW_holds.
  - left. reflexivity.
  - apply perm_swap.
  - left. reflexivity.
  - split; [exists 2%nat; simpl; split; [split; [reflexivity|repeat constructor]|lia]|]. split; [exact I|]. split; [intros q Hq; discriminate Hq|]. split; [cbv [num_locations sample_local_rate cfg]; lia|].
    intros i Hi. unfold local_model, off_fit. rewrite map_length.
    cbv [drawn sample_local_rate cfg] in Hi. simpl in Hi.
    unfold training_set, used_weight, mget, fW, eis_zero.
    destruct Hi as [<-|[<-|[<-|[]]]]; cbn [seq filter Nat.eqb andb nth cfg leave_local_out]; rdec; cbn [negb length Nat.eqb]; eexists _, _; split; reflexivity.
Qed.

Lemma m_fitted : exists a b c score, fitted_model m_state m_X [1; 2; 4] [a; b; c] 3 2 score.
Proof.
  destruct (fit_fitted R off_fit m_predict nat first_choice 2 no_wm (cfg true None None None) [1; 0]%nat 0%nat no_fs s_init m_X [1; 2; 4] None (Some (WDense fW)) (WDense fW) fW 3 first_choice_valid ltac:(lia) eq_refl (or_introl eq_refl) fW_holds (perm_swap _ _ _) eq_refl eq_refl eq_refl m_ok)
    as (es & score & F & ps & HM & _).
  assert (F = 2%nat). { destruct HM as (_ & _ & _ & _ & _ & _ & HM & _). destruct HM as [_ HM]. inversion HM as [|? ? HF]; subst. reflexivity. }
  subst F. assert (HLe : length es = 3%nat) by apply HM. destruct (three es HLe) as (a & b & c & ->). exists a, b, c, score. exact HM.
Qed.

Lemma m_weights : fitted_weights m_state fW_left_out 3.
Proof.
  destruct (fit_weight_attributes R off_fit m_predict nat first_choice 2 no_wm (cfg true None None None) [1; 0]%nat 0%nat no_fs s_init m_X [1; 2; 4] None (Some (WDense fW)) fW 3
    (or_introl eq_refl) fW_rect m_ok) as (W' & HW & HU).
  assert (W' = fW_left_out); [|subst; exact HW].
  apply (matrix_eq (Fin 0) _ _ 3 3); [apply HW|split; [reflexivity|repeat constructor]|].
  intros i j Hi Hj. rewrite HU by auto. apply lt3 in Hi as [-> | [-> | ->]], Hj as [-> | [-> | ->]]; reflexivity.
Qed.

Lemma small_grid X N F f q : rect X N F -> (f < F)%nat -> (N < default_resolution)%nat -> StronglySorted Rlt q -> (forall x, In x q <-> In x (values_of X f)) ->
  grid_from_X_sk default_resolution X f = Ok q.
Proof.
  intros HR Hf HN HS HI. apply (grid_ok default_resolution X N F f q HR Hf); [unfold default_resolution; lia|]. split; [auto|]. intros H. exfalso.
  assert (length (nodup Req_EM_T (values_of X f)) <= length (values_of X f))%nat.
  { apply NoDup_incl_length; [apply NoDup_nodup|]. intros x Hx. apply nodup_In in Hx. exact Hx. }
  unfold values_of in *. rewrite map_length in *. destruct HR as [HR _]. lia.
Qed.
Lemma m_grids : grid_from_X_sk default_resolution [[1; 6]] 0 = Ok [1] /\ grid_from_X_sk default_resolution [[1; 6]] 1 = Ok [6] /\
  grid_from_X_sk default_resolution [[2; 5]; [3; 4]] 0 = Ok [2; 3] /\ grid_from_X_sk default_resolution [[2; 5]; [3; 4]] 1 = Ok [4; 5].
Proof.
  assert (R1 : rect [[1; 6]] 1 2) by (split; [reflexivity|repeat constructor]). assert (R2 : rect [[2; 5]; [3; 4]] 2 2) by (split; [reflexivity|repeat constructor]).
  split; [|split; [|split]]; (eapply small_grid; [eassumption|lia|unfold default_resolution; lia|repeat (constructor; try lra)|intros x; cbn; tauto]).
Qed.

Definition m_curves (a b c : R) : matrix (list R * list R) :=
  [[([1], [a + 36]); ([6], [a + 36])]; [([2; 3], [b + 41; b + 123 / 2]); ([4; 5], [b + 40; b + 125 / 2])]; [([1], [c + 36]); ([6], [c + 36])]].
Definition m_ices (a b c : R) : matrix (list R * list R) :=
  [[([1], [a + 25]); ([6], [a + 72])]; [([2; 3], [b + 72; b + 108]); ([4; 5], [b + 16; b + 25])]; [([1], [c + 16]); ([6], [c + 108])]].

Lemma m_example : exists a b c score by_feature by_feature',
  fitted_model m_state m_X [1; 2; 4] [a; b; c] 3 2 score /\ fitted_weights m_state fW_left_out 3 /\ schedule 3 [2; 0; 1]%nat /\
  positive_set fW_left_out 3 1 = [0; 2]%nat /\
  m_pd [2; 0; 1]%nat m_state = Ok (m_curves a b c, by_feature) /\ m_ice m_state = Ok (m_ices a b c, by_feature').
Proof.
  destruct m_fitted as (a & b & c & score & HM). exists a, b, c, score. destruct i_sets as (E0 & E1 & E2). destruct m_grids as (G0 & G1 & G2 & G3).
  assert (A : exists bf, m_pd [2; 0; 1]%nat m_state = Ok (m_curves a b c, bf)).
  { eexists. apply (partial_dependence_ok R _ _ _ _ _ _ _ _ _ _ _ HM m_weights sched3). exists (m_curves a b c). split; [|split; [|reflexivity]].
    - split; [reflexivity|]. intros i e He. assert (Hi : (i < 3)%nat) by (apply nth_error_Some_lt in He; auto).
      apply lt3 in Hi as [-> | [-> | ->]]; injection He as <-; rewrite ?E0, ?E1, ?E2; cbn [map nth m_X].
      + exists [1]. split; [repeat constructor|]. split; [reflexivity|]. intros [|[|f]] Hf; try lia; unfold weighted_curve, partial_dependence_sk; rewrite ?G0, ?G1; eexists; (split; [reflexivity|]); (split; [reflexivity|]); (split; [reflexivity|]); (split; [unfold Rsum; simpl; lra|]); intros [|j] Hj; try (simpl in Hj; lia); split; unfold Rsum; simpl; lra.
      + exists [1; 1]. split; [repeat constructor|]. split; [reflexivity|]. intros [|[|f]] Hf; try lia; unfold weighted_curve, partial_dependence_sk; rewrite ?G2, ?G3; eexists; (split; [reflexivity|]); (split; [reflexivity|]); (split; [reflexivity|]); (split; [unfold Rsum; simpl; lra|]); intros [|[|j]] Hj; try (simpl in Hj; lia); split; unfold Rsum; simpl; lra.
      + exists [1]. split; [repeat constructor|]. split; [reflexivity|]. intros [|[|f]] Hf; try lia; unfold weighted_curve, partial_dependence_sk; rewrite ?G0, ?G1; eexists; (split; [reflexivity|]); (split; [reflexivity|]); (split; [reflexivity|]); (split; [unfold Rsum; simpl; lra|]); intros [|j] Hj; try (simpl in Hj; lia); split; unfold Rsum; simpl; lra.
    - intros [n Hn]. assert (A : 1%nat = n) by (apply (Hn _ ([1], [a + 36]) (or_introl eq_refl)); left; reflexivity).
      assert (B : 2%nat = n) by (apply (Hn _ ([2; 3], [b + 41; b + 123 / 2]) (or_intror (or_introl eq_refl))); left; reflexivity). lia. }
  assert (B : exists bf, m_ice m_state = Ok (m_ices a b c, bf)).
  { eexists. apply (local_ICE_ok R _ _ _ _ _ _ _ _ _ _ _ _ HM m_weights). exists (m_ices a b c). split; [|split; [|reflexivity]].
    - split; [reflexivity|]. intros i e He. assert (Hi : (i < 3)%nat) by (apply nth_error_Some_lt in He; auto).
      assert (P1 : forall e rows p, p = map (fun x => e + nth 0 x 0 * (nth 1 x 0 * nth 1 x 0)) rows -> m_predict e rows = Ok p) by (intros ? ? ? ->; reflexivity).
      apply lt3 in Hi as [-> | [-> | ->]]; injection He as <-; (split; [reflexivity|]); rewrite ?E0, ?E1, ?E2; intros [|[|f]] Hf; try lia; cbv zeta; cbn [nth fst snd map m_X m_ices]; (split; [assumption|]).
      + exists [[1; 5]]. split; [|apply P1; cbn; repeat f_equal; ring]. repeat constructor; intros [|[|j]] Hj; simpl in *; try lia; reflexivity.
      + exists [[2; 6]]. split; [|apply P1; cbn; repeat f_equal; ring]. repeat constructor; intros [|[|j]] Hj; simpl in *; try lia; reflexivity.
      + exists [[2; 6]; [3; 6]]. split; [|apply P1; cbn; repeat f_equal; ring]. repeat constructor; intros [|[|j]] Hj; simpl in *; try lia; reflexivity.
      + exists [[1; 4]; [1; 5]]. split; [|apply P1; cbn; repeat f_equal; ring]. repeat constructor; intros [|[|j]] Hj; simpl in *; try lia; reflexivity.
      + exists [[1; 4]]. split; [|apply P1; cbn; repeat f_equal; ring]. repeat constructor; intros [|[|j]] Hj; simpl in *; try lia; reflexivity.
      + exists [[3; 6]]. split; [|apply P1; cbn; repeat f_equal; ring]. repeat constructor; intros [|[|j]] Hj; simpl in *; try lia; reflexivity.
    - intros [n Hn]. assert (B : 1%nat = n) by (apply (Hn _ ([1], [a + 25]) (or_introl eq_refl)); left; reflexivity).
      assert (C : 2%nat = n) by (apply (Hn _ ([2; 3], [b + 72; b + 108]) (or_intror (or_introl eq_refl))); left; reflexivity). lia. }
  destruct A as [bf A], B as [bf' B]. exists bf, bf'. split; [exact HM|]. split; [apply m_weights|]. split; [apply sched3|]. auto.
Qed.

(** Feature 0 enters as its value times the square of feature 1, and never lowers the prediction. *)
Lemma m_shape e : answers m_predict e (fun z => nth 0 z 0 * (nth 1 z 0 * nth 1 z 0) + e) /\
  ignores 2 0 (fun z => nth 1 z 0 * nth 1 z 0) /\ ignores 2 0 (fun _ => e) /\
  answers m_predict e (fun z => e + nth 0 z 0 * (nth 1 z 0 * nth 1 z 0)) /\ rises_with 2 0 (fun z => e + nth 0 z 0 * (nth 1 z 0 * nth 1 z 0)).
Proof.
  split; [|split; [|split; [|split]]].
  - intros rows p H. injection H as <-. apply map_ext. intros x. ring.
  - intros x x' _ _ H. rewrite (H 1%nat) by lia. reflexivity.
  - intros x x' _ _ _. reflexivity.
  - intros rows p H. injection H as <-. reflexivity.
  - intros x u v x1 x2 HL Huv [_ H1] [_ H2]. rewrite (H1 0%nat), (H2 0%nat), (H1 1%nat), (H2 1%nat) by lia. cbn [Nat.eqb].
    pose proof (Rle_0_sqr (nth 1 x 0)) as Hs. unfold Rsqr in Hs. apply Rplus_le_compat_l, Rmult_le_compat_r; auto.
Qed.

(** Many zeros and a few different positive values. *)
Definition zeros_and (n m : nat) : matrix R := (repeat [0] n ++ map (fun k => [INR (S k)]) (seq 0 m))%list.
Lemma zeros_rect n m : rect (zeros_and n m) (n + m) 1.
Proof.
  split; [unfold zeros_and; rewrite app_length, repeat_length, map_length, seq_length; reflexivity|]. apply Forall_forall. intros x Hx.
  unfold zeros_and in Hx. apply in_app_or in Hx as [Hx|Hx]; [apply repeat_spec in Hx; subst; reflexivity|apply in_map_iff in Hx as (k & <- & _); reflexivity].
Qed.
Lemma count_app (p : R -> bool) l m : count p (l ++ m)%list = (count p l + count p m)%nat.
Proof. unfold count. rewrite filter_app, app_length. reflexivity. Qed.
Lemma count_repeat_no (p : R -> bool) x n : p x = false -> count p (repeat x n) = 0%nat.
Proof. intros H. unfold count. induction n as [|n IH]; simpl; auto. rewrite H. exact IH. Qed.
Lemma zeros_values n m : values_of (zeros_and n m) 0 = (repeat 0 n ++ map (fun k => INR (S k)) (seq 0 m))%list.
Proof.
  unfold values_of, zeros_and. rewrite map_app, map_map. f_equal. induction n as [|n IH]; cbn [repeat map]; f_equal; auto.
Qed.
Lemma zeros_distinct n m : (1 <= n)%nat -> length (nodup Req_EM_T (values_of (zeros_and n m) 0)) = S m.
Proof.
  intros Hn. rewrite zeros_values. assert (P : Permutation.Permutation (nodup Req_EM_T (repeat 0 n ++ map (fun k => INR (S k)) (seq 0 m))%list) (0 :: map (fun k => INR (S k)) (seq 0 m))).
  { apply Permutation.NoDup_Permutation; [apply NoDup_nodup| |].
    - constructor.
      + intros H. apply in_map_iff in H as (k & E & _). pose proof (pos_INR k). rewrite (S_INR k) in E. lra.
      + apply FinFun.Injective_map_NoDup; [|apply seq_NoDup]. intros k l E. apply INR_eq in E. lia.
    - intros x. rewrite nodup_In, in_app_iff. cbn [In]. split; intros [H|H]; auto.
      + left. symmetry. apply (repeat_spec n 0 x H).
      + left. subst x. destruct n; [lia|left; reflexivity]. }
  rewrite (Permutation.Permutation_length P). cbn. rewrite map_length, seq_length. reflexivity.
Qed.
Lemma zeros_raise resolution n m : (1 <= resolution <= S m)%nat -> (20 * m + 40 <= n + m)%nat -> raises (grid_from_X_sk resolution (zeros_and n m) 0).
Proof.
  intros Hr Hn. unfold raises. destruct (grid_from_X_sk resolution (zeros_and n m) 0) as [q|x] eqn:E; [|eexists; reflexivity]. exfalso.
  apply (grid_ok resolution (zeros_and n m) (n + m) 1 0 q (zeros_rect n m) ltac:(lia) ltac:(lia)) in E.
  revert E. apply (grid_skewed resolution (values_of (zeros_and n m) 0) 0 q).
  - rewrite zeros_distinct by lia. lia.
  - rewrite zeros_values, count_app, count_repeat_no, app_length, repeat_length, map_length, seq_length by (apply Rltb_false; lra).
    replace (count (fun x => Rltb x 0) (map (fun k => INR (S k)) (seq 0 m))) with 0%nat; [lia|]. symmetry. unfold count.
    assert (Hnil : filter (fun x => Rltb x 0) (map (fun k => INR (S k)) (seq 0 m)) = []); [|rewrite Hnil; reflexivity].
    induction (seq 0 m) as [|k l IH]; cbn [map filter]; auto. replace (Rltb (INR (S k)) 0) with false; [exact IH|]. symmetry. apply Rltb_false. apply pos_INR.
  - rewrite zeros_values, count_app, count_repeat_no, app_length, repeat_length, map_length, seq_length by (apply Rltb_false; lra).
    assert (count (fun x => Rltb 0%R x) (map (fun k => INR (S k)) (seq 0 m)) <= m)%nat; [|lia].
    unfold count. rewrite <- (seq_length m 0) at 2. rewrite <- (map_length (fun k => INR (S k)) (seq 0 m)). generalize (map (fun k => INR (S k)) (seq 0 m)). intros l.
    induction l as [|k l IH]; cbn [filter length]; [lia|]. destruct (Rltb 0 k); cbn [length]; lia.
Qed.

(** All three locations use all three observations. *)
Definition fOnes : matrix ext := [[Fin 1; Fin 1; Fin 1]; [Fin 1; Fin 1; Fin 1]; [Fin 1; Fin 1; Fin 1]].
Lemma fOnes_rect : rect fOnes 3 3. Proof. split; [reflexivity|repeat constructor]. Qed.
Lemma fOnes_holds : holds (WDense fOnes) fOnes 3. Proof. split; [apply fOnes_rect|auto]. Qed.
Definition o_st : state R := o_state R nat (m_fit false fOnes).
Lemma o_ok : o_result R nat (m_fit false fOnes) = Ok tt.
Proof.
  apply (fit_succeeds R off_fit m_predict nat first_choice 2 no_wm _ _ _ _ _ _ _ _ _ (WDense fOnes) fOnes 3 first_choice_valid); auto using fOnes_holds.
  - left. reflexivity.
  - apply perm_swap.
  - left. reflexivity.
  - split; [exists 2%nat; simpl; split; [split; [reflexivity|repeat constructor]|lia]|]. split; [exact I|]. split; [intros q Hq; discriminate Hq|]. split; [cbv [num_locations sample_local_rate cfg]; lia|].
    intros i Hi. unfold local_model, off_fit. rewrite map_length.
    cbv [drawn sample_local_rate cfg] in Hi. simpl in Hi.
    unfold training_set, used_weight, mget, fOnes, eis_zero.
    destruct Hi as [<-|[<-|[<-|[]]]]; cbn [seq filter Nat.eqb andb nth cfg leave_local_out]; rdec; cbn [negb length Nat.eqb]; eexists _, _; split; reflexivity.
Qed.
Lemma o_fitted : exists es score, fitted_model o_st m_X [1; 2; 4] es 3 2 score.
Proof.
  destruct (fit_fitted R off_fit m_predict nat first_choice 2 no_wm (cfg false None None None) [1; 0]%nat 0%nat no_fs s_init m_X [1; 2; 4] None (Some (WDense fOnes)) (WDense fOnes) fOnes 3 first_choice_valid ltac:(lia) eq_refl (or_introl eq_refl) fOnes_holds (perm_swap _ _ _) eq_refl eq_refl eq_refl o_ok)
    as (es & score & F & ps & HM & _).
  assert (F = 2%nat). { destruct HM as (_ & _ & _ & _ & _ & _ & HM & _). destruct HM as [_ HM]. inversion HM as [|? ? HF]; subst. reflexivity. }
  subst F. exists es, score. exact HM.
Qed.
Lemma o_weights : fitted_weights o_st fOnes 3.
Proof.
  destruct (fit_weight_attributes R off_fit m_predict nat first_choice 2 no_wm (cfg false None None None) [1; 0]%nat 0%nat no_fs s_init m_X [1; 2; 4] None (Some (WDense fOnes)) fOnes 3
    (or_introl eq_refl) fOnes_rect o_ok) as (W' & HW & HU).
  assert (W' = fOnes); [|subst; exact HW].
  apply (matrix_eq (Fin 0) _ _ 3 3); [apply HW|split; [reflexivity|repeat constructor]|].
  intros i j Hi Hj. rewrite HU by auto. apply lt3 in Hi as [-> | [-> | ->]], Hj as [-> | [-> | ->]]; reflexivity.
Qed.
Lemma o_example : (exists es score, fitted_model o_st m_X [1; 2; 4] es 3 2 score) /\ fitted_weights o_st fOnes 3 /\
  (forall i f, (i < 3)%nat -> (f < 2)%nat -> distinct_values (map (fun j => nth j m_X []) (positive_set fOnes 3 i)) f = 3%nat).
Proof.
  split; [apply o_fitted|]. split; [apply o_weights|]. intros i f Hi Hf.
  assert (E : positive_set fOnes 3 i = [0; 1; 2]%nat).
  { unfold positive_set, mget, fOnes. apply lt3 in Hi as [-> | [-> | ->]]; cbn [seq filter nth]; rewrite !pos1; reflexivity. }
  rewrite E. destruct f as [|[|f]]; [| |lia]; unfold distinct_values, m_X; cbn [map nth nodup];
    repeat (match goal with |- context [in_dec ?d ?a ?b] => destruct (in_dec d a b) as [HH|HH]; [exfalso; cbn in HH; lra|clear HH] end); reflexivity.
Qed.
