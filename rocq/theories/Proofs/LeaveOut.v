(** Proofs for C164: leave-local-out predictions and models without the observation. *)
From Coq Require Import Lra Lia.
From Verif.Model Require Import Base Ext Kernel Distance WeightMatrix Csr Neighbour WeightModel.
From Verif.Spec Require Import KernelSpec WeightSpec NeighbourSpec WeightModelSpec ExtensionSpec.
From Verif.Proofs Require Import ListFacts SumFacts KernelFacts CsrFacts NeighbourFacts NeighbourProps WeightModelFacts WeightModelProps FitProps PredictProps EndToEnd Extension DistanceFacts.
Open Scope nat_scope.
Open Scope R_scope.

Definition up (i j : nat) : nat := if (j <? i)%nat then j else S j.

Lemma without_length {A} i (l : list A) : (i < length l)%nat -> length (without i l) = (length l - 1)%nat.
Proof. intros H. unfold without. rewrite app_length, firstn_length, skipn_length. lia. Qed.
Lemma nth_of_skipn {A} k j (l : list A) d : nth j (skipn k l) d = nth (k + j) l d.
Proof. revert l. induction k; intros [|x l]; simpl; auto. destruct j; reflexivity. Qed.
Lemma without_nth {A} i j (l : list A) d : (i < length l)%nat -> nth j (without i l) d = nth (up i j) l d.
Proof.
  intros H. unfold without, up. destruct (Nat.ltb_spec j i) as [Hj|Hj].
  - rewrite app_nth1 by (rewrite firstn_length; lia). apply nth_firstn. exact Hj.
  - rewrite app_nth2 by (rewrite firstn_length; lia). rewrite firstn_length. replace (Nat.min i (length l)) with i by lia.
    rewrite nth_of_skipn. f_equal. lia.
Qed.
Lemma seq_without i n : (i < n)%nat -> seq 0 n = (map (up i) (seq 0 i) ++ i :: map (up i) (seq i (n - 1 - i)))%list.
Proof.
  intros H. replace n with (i + S (n - 1 - i))%nat at 1 by lia. rewrite seq_app. cbn [plus seq]. f_equal; [|f_equal].
  - rewrite <- map_id at 1. apply map_ext_in. intros j Hj. apply in_seq in Hj. unfold up. destruct (Nat.ltb_spec j i); lia.
  - rewrite <- seq_shift. apply map_ext_in. intros j Hj. apply in_seq in Hj. unfold up. destruct (Nat.ltb_spec j i); lia.
Qed.
Lemma filter_map_comm {A B} (f : A -> B) (p : B -> bool) l : filter p (map f l) = map f (filter (fun x => p (f x)) l).
Proof. induction l; simpl; auto. destruct (p (f a)); simpl; rewrite IHl; auto. Qed.

Lemma leave_out_training (W : matrix ext) n i : (i < n)%nat -> rect W n n ->
  training_set true W n i = map (up i) (filter (fun j => negb (eis_zero (nth j (without i (nth i W [])) NaN))) (seq 0 (n - 1))).
Proof.
  intros Hi HR. assert (HL : length (nth i W []) = n) by (apply (rect_row W n n); auto).
  unfold training_set. rewrite (seq_without i n Hi). rewrite filter_app. cbn [filter]. unfold used_weight at 2. rewrite Nat.eqb_refl. cbn [andb].
  replace (eis_zero (Fin 0)) with true by (unfold eis_zero, Reqb; destruct (Req_EM_T 0 0); auto; congruence). cbn [negb].
  rewrite <- filter_app, <- map_app. replace (seq 0 i ++ seq i (n - 1 - i))%list with (seq 0 (n - 1)).
  2:{ replace (n - 1)%nat with (i + (n - 1 - i))%nat by lia. rewrite seq_app. cbn [plus]. do 2 f_equal. lia. }
  rewrite filter_map_comm. f_equal. apply filter_ext_in. intros j Hj. apply in_seq in Hj.
  rewrite without_nth by lia. f_equal. f_equal. unfold used_weight. assert (Hu : up i j <> i /\ (up i j < n)%nat) by (unfold up; destruct (Nat.ltb_spec j i); lia).
  destruct (Nat.eqb_spec i (up i j)); [lia|]. cbn [andb]. unfold mget. apply nth_indep. lia.
Qed.

Section LeaveOut.
  Variable est : Type.
  Variable fit_est : nat -> matrix R -> list R -> list ext -> result est.
  Variable predict_est : est -> matrix R -> result (list R).
  Variable cpu : nat.
  Notation pbf wm := (predict_by_fit est fit_est predict_est cpu wm).

  (** predict_by_fit with a weight matrix: row [i] weighs the training data for point [i]. *)
  Lemma pbf_given wm c order fs s X v tX ty W m n :
    cache_data c = true -> (0 < cpu)%nat -> schedule cpu order ->
    data_X est s = Some tX -> data_y est s = Some ty -> rect W m n -> (0 < m)%nat -> (0 < n)%nat -> length tX = n -> length ty = n -> length X = m ->
    let T i := filter (fun j => negb (eis_zero (mget NaN W i j))) (seq 0 n) in
    forall out, snd (pbf wm c order fs s X (Some v) (Some (WDense W))) = Ok out <->
      length out = m /\ forall i, (i < m)%nat ->
        exists e, fit_est i (map (fun j => nth j tX []) (T i)) (map (fun j => nth j ty 0) (T i)) (map (fun j => mget NaN W i j) (T i)) = Ok e /\
          predict_est e [nth i X []] = Ok (nth i out []).
  Proof.
    intros H1 Hcpu HS HX Hy HR Hm Hn HlX Hly HlXn T out.
    set (s' := State est None None None (Some tX) (Some ty) (Some v) None None None None None None None None None None).
    set (Wt := transpose NaN n W). assert (HRt : rect Wt n m) by (apply transpose_rect; auto).
    set (wm' := fun (fs : filesystem) (_ _ : list coords) => (fs, Ok (WDense Wt))).
    assert (E : snd (pbf wm c order fs s X (Some v) (Some (WDense W))) = snd (pbf wm' c order fs s' X (Some v) None)).
    { unfold predict_by_fit. rewrite H1. cbn [negb guard_weights data_coords s' wm' bind w_transpose data_X data_y]. rewrite HX, Hy. cbn [snd].
      do 2 f_equal. assert (EC : ncols Wt = m) by (apply (ncols_rect _ n m); auto). rewrite EC. f_equal.
      assert (HRtt : rect (transpose NaN m Wt) m n) by (apply transpose_rect; auto).
      apply (nth_ext _ _ [] []); [destruct HR, HRtt; lia|]. intros i Hi. assert (Him : (i < m)%nat) by (destruct HR; lia).
      apply (nth_ext _ _ NaN NaN); [rewrite !(rect_row _ m n) by auto; auto|]. intros j Hj. rewrite (rect_row _ m n) in Hj by auto.
      change (mget NaN W i j = mget NaN (transpose NaN m Wt) i j). rewrite (transpose_get NaN Wt n m i j HRt) by auto.
      unfold Wt. rewrite (transpose_get NaN W m n j i HR) by auto. reflexivity. }
    rewrite E. rewrite (pbf_spec est fit_est predict_est cpu wm' c order fs fs s' X v v tX ty Wt m n H1 Hcpu HS eq_refl eq_refl eq_refl eq_refl HRt Hn HlX Hly HlXn out).
    assert (EW : forall i j, (i < m)%nat -> (j < n)%nat -> mget NaN Wt j i = mget NaN W i j) by (intros i j Hi Hj; apply (transpose_get NaN W m n j i); auto).
    assert (ET : forall i, (i < m)%nat -> filter (fun j => negb (eis_zero (mget NaN Wt j i))) (seq 0 n) = T i).
    { intros i Hi. apply filter_ext_in. intros j Hj. apply in_seq in Hj. rewrite EW by lia. reflexivity. }
    assert (EM : forall i, (i < m)%nat -> map (fun j => mget NaN Wt j i) (T i) = map (fun j => mget NaN W i j) (T i)).
    { intros i Hi. apply map_ext_in. intros j Hj. apply filter_In in Hj as [Hj _]. apply in_seq in Hj. apply EW; lia. }
    split; intros [A B]; (split; [exact A|]); intros i Hi; specialize (B i Hi); [rewrite (ET i Hi), (EM i Hi) in B|rewrite (ET i Hi), (EM i Hi)]; exact B.
  Qed.

  Variable G : Type.
  Variable choice : G -> list nat -> nat -> G * list nat.
  Notation FIT wm := (fit est fit_est predict_est G choice cpu wm).
  Notation st o := (o_state est G o).

  Lemma fit_keeps_data wm c order g fs s0 X y coords given : cache_data c = true ->
    let o := FIT wm c order g fs s0 X y coords given in
    o_result est G o = Ok tt -> data_X est (st o) = Some X /\ data_y est (st o) = Some y.
  Proof.
    intros Hc o Hok. destruct (fit_inv est fit_est predict_est G choice cpu wm c order g fs s0 X y coords given Hok) as (w & g' & locs & preds & es & p & score & _ & _ & _ & _ & _ & _ & E).
    unfold o. rewrite E. cbn [o_state data_X data_y]. rewrite Hc. auto.
  Qed.

  Lemma leave_out_is_omission wm wm' c c' order order' order2 g g' fs fs' fs2 s0 s0' X y coords coords' given given' w W n i v :
    (forall k k', fit_est k = fit_est k') ->
    valid_choice choice -> (0 < cpu)%nat -> length X = n ->
    in_force wm fs coords given w -> holds w W n -> leave_local_out c = true -> sample_local_rate c = None ->
    schedule (num_tasks cpu c n) order -> schedule cpu order2 -> (i < n)%nat -> cache_data c' = true ->
    let o := FIT wm c order g fs s0 X y coords given in
    let o' := FIT wm' c' order' g' fs' s0' (without i X) (without i y) coords' given' in
    o_result est G o = Ok tt -> o_result est G o' = Ok tt ->
    exists ps, local_predict_ est (st o) = Some ps /\
      snd (pbf wm' c' order2 fs2 (st o') [nth i X []] (Some v) (Some (WDense [without i (nth i W [])]))) = Ok [[nth i ps 0]].
  Proof.
    intros Hcl Hch Hcpu HX Hf Hw Hlo Hs HS HS2 Hi Hc' o o' Hok Hok'.
    assert (Hps : exists ps, local_predict_ est (st o) = Some ps).
    { assert (HSn : schedule (num_tasks cpu c (num_locations c n)) order) by (unfold num_locations; rewrite Hs; exact HS).
      destruct (fit_results est fit_est predict_est G choice cpu wm c order g fs s0 X y coords given w W n Hch Hcpu HX Hf Hw HSn Hok) as (locs & es & ps & score & H).
      cbv zeta in H. exists ps. apply H. }
    destruct Hps as [ps Hps].
    pose proof (fit_all_locations est fit_est predict_est G choice cpu wm c order g fs s0 X y coords given w W n Hch Hcpu HX Hf Hw Hs HS ps) as F.
    cbv zeta in F. fold o in F. destruct (proj1 F (conj Hok Hps)) as (Hd & Hj & H2 & Hlp & HM). clear F.
    exists ps. split; [exact Hps|].
    destruct (fit_keeps_data wm' c' order' g' fs' s0' (without i X) (without i y) coords' given' Hc' Hok') as [HD1 HD2]. fold o' in HD1, HD2.
    assert (Hly : length y = n) by (destruct Hd as (p & [HR _] & _); lia).
    assert (HR : rect W n n) by apply Hw. assert (HL : length (nth i W []) = n) by (apply (rect_row W n n); auto).
    apply (pbf_given wm' c' order2 fs2 (st o') [nth i X []] v (without i X) (without i y) [without i (nth i W [])] 1 (n - 1)); auto; try lia.
    - split; [reflexivity|]. constructor; [|constructor]. rewrite without_length; lia.
    - rewrite without_length; lia.
    - rewrite without_length; lia.
    - split; [reflexivity|]. intros k Hk. assert (k = 0%nat) as -> by lia.
      destruct (HM i Hi) as (e & He & Hpe). exists e. split; [|exact Hpe]. unfold local_model in He. rewrite Hlo in He.
      rewrite (leave_out_training W n i Hi HR) in He. rewrite !map_map in He. rewrite (Hcl 0%nat i). unfold mget at 1 2 3 4. cbn [nth].
      rewrite <- He. f_equal.
      + apply map_ext. intros j. apply without_nth. lia.
      + apply map_ext. intros j. apply without_nth. lia.
      + apply map_ext_in. intros j Hj0. apply filter_In in Hj0 as [Hj0 _]. apply in_seq in Hj0. unfold mget. cbn [nth]. rewrite without_nth by lia. unfold used_weight.
        assert (Hu : up i j <> i /\ (up i j < n)%nat) by (unfold up; destruct (Nat.ltb_spec j i); lia).
        destruct (Nat.eqb_spec i (up i j)); [lia|]. cbn [andb]. unfold mget. apply nth_indep. lia.
  Qed.
End LeaveOut.
