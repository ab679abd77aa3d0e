From Coq Require Import Lra Psatz.
From Verif.Model Require Import Base Ext Sort Csr Neighbour Distance WeightModel.
From Verif.Spec Require Import KernelSpec NeighbourSpec WeightModelSpec.
From Verif.Proofs Require Import ListFacts KernelFacts SortFacts DistanceFacts CsrFacts NeighbourFacts ShrinkFacts SampleFacts WeightModelFacts WeightModelProps.
Require Import Sorting.Sorted.
Open Scope string_scope.
Open Scope nat_scope.
Open Scope R_scope.

Lemma map_fst_combine {A B} (l : list A) (l' : list B) : length l = length l' -> map fst (combine l l') = l.
Proof. revert l'. induction l as [|x l IH]; intros [|y l'] H; simpl in *; try discriminate; auto. f_equal. auto. Qed.

Lemma Forall2_in_l {A B} (P : A -> B -> Prop) l l' x : Forall2 P l l' -> In x l -> exists y, In y l' /\ P x y.
Proof.
  induction 1 as [|a b l l' Hab H IH]; intros Hin; [destruct Hin|]. destruct Hin as [->|Hin].
  - exists b. split; [left|]; auto.
  - destruct (IH Hin) as (z & Hz & HP). exists z. split; [right|]; auto.
Qed.

Section Props.
  Variable est : Type.
  Variable fit_est : nat -> matrix R -> list R -> list ext -> result est.
  Variable predict_est : est -> matrix R -> result (list R).
  Variable G : Type.
  Variable choice : G -> list nat -> nat -> G * list nat.
  Variable cpu : nat.
  Variable wm : filesystem -> list coords -> list coords -> filesystem * result weights.

  Notation fitA := (fit_all est fit_est predict_est cpu).
  Notation FIT := (fit est fit_est predict_est G choice cpu wm).
  Notation tsk := (task est fit_est predict_est).
  Notation result_of o := (o_result est G o).
  Notation st o := (o_state est G o).

  (** ** C37, C36 *)
  Lemma local_model_congr X y X' y' lo W W' N i e :
    (forall j, (j < N)%nat -> used_weight lo W i j = used_weight lo W' i j) ->
    (forall j, In j (training_set lo W N i) -> nth j X [] = nth j X' [] /\ nth j y 0 = nth j y' 0) ->
    local_model fit_est X y lo W N i e -> local_model fit_est X' y' lo W' N i e.
  Proof.
    intros Hw Ht. unfold local_model.
    assert (ET : training_set lo W' N i = training_set lo W N i).
    { unfold training_set. apply filter_ext_in. intros j Hj. apply in_seq in Hj. rewrite Hw by lia. reflexivity. }
    rewrite ET. intros H. rewrite <- H. f_equal.
    - apply map_ext_in. intros j Hj. symmetry. apply Ht; auto.
    - apply map_ext_in. intros j Hj. symmetry. apply Ht; auto.
    - apply map_ext_in. intros j Hj. apply filter_In in Hj as [Hj _]. apply in_seq in Hj. symmetry. apply Hw. lia.
  Qed.

  Lemma fit_local c order order' g g' fs fs' s0 s0' X X' y y' coords coords' given given' w w' W W' N i k k' locs locs' ps ps' :
    valid_choice choice -> (0 < cpu)%nat -> length X = N -> length X' = N ->
    in_force wm fs coords given w -> holds w W N -> aligned c w ->
    in_force wm fs' coords' given' w' -> holds w' W' N -> aligned c w' ->
    schedule (num_tasks cpu c (num_locations c N)) order -> schedule (num_tasks cpu c (num_locations c N)) order' ->
    let o := FIT c order g fs s0 X y coords given in
    let o' := FIT c order' g' fs' s0' X' y' coords' given' in
    result_of o = Ok tt -> result_of o' = Ok tt ->
    (forall j, (j < N)%nat -> used_weight (leave_local_out c) W i j = used_weight (leave_local_out c) W' i j) ->
    nth i X [] = nth i X' [] ->
    (forall j, In j (training_set (leave_local_out c) W N i) -> nth j X [] = nth j X' [] /\ nth j y 0 = nth j y' 0) ->
    local_indices_ est (st o) = Some locs -> local_predict_ est (st o) = Some ps ->
    local_indices_ est (st o') = Some locs' -> local_predict_ est (st o') = Some ps' ->
    nth_error locs k = Some i -> nth_error locs' k' = Some i ->
    nth_error ps k = nth_error ps' k'.
  Proof.
    intros Hch Hcpu HX HX' Hf Hw Hal Hf' Hw' Hal' HS HS' o o' Hok Hok' Hrow HXi HT Hl Hp Hl' Hp' Hk Hk'.
    pose proof (fit_aligned est fit_est predict_est G choice cpu wm c order g fs s0 X y coords given w W N Hch Hcpu HX Hf Hw HS Hal Hok) as H. cbv zeta in H.
    destruct H as (l1 & es1 & p1 & ys1 & rs1 & A1 & _ & A2 & _ & _ & _ & _ & _ & _ & A3 & _ & _ & A4).
    pose proof (fit_aligned est fit_est predict_est G choice cpu wm c order' g' fs' s0' X' y' coords' given' w' W' N Hch Hcpu HX' Hf' Hw' HS' Hal' Hok') as H. cbv zeta in H.
    destruct H as (l2 & es2 & p2 & ys2 & rs2 & B1 & _ & B2 & _ & _ & _ & _ & _ & _ & B3 & _ & _ & B4).
    fold o in A1, A2. fold o' in B1, B2.
    assert (l1 = locs) by congruence. assert (p1 = ps) by congruence. assert (l2 = locs') by congruence. assert (p2 = ps') by congruence. subst.
    assert (HkL : (k < length locs)%nat) by (apply nth_error_Some; congruence).
    assert (HkL' : (k' < length locs')%nat) by (apply nth_error_Some; congruence).
    specialize (A4 k HkL). specialize (B4 k' HkL'). cbv zeta in A4, B4.
    rewrite (nth_error_nth _ _ 0%nat Hk) in A4. rewrite (nth_error_nth _ _ 0%nat Hk') in B4.
    destruct A4 as (_ & _ & e & He & Hpe & _). destruct B4 as (_ & _ & e' & He' & Hpe' & _).
    assert (e' = e).
    { apply (local_model_congr X y X' y' (leave_local_out c) W W' _ i e Hrow HT) in He. unfold local_model in He, He'. congruence. }
    subst e'. rewrite <- HXi in Hpe'. rewrite Hpe in Hpe'. injection Hpe' as Hpe'.
    rewrite (nth_error_nth' ps 0) by congruence. rewrite (nth_error_nth' ps' 0) by congruence. congruence.
  Qed.

  Lemma training_excludes_self W N i : ~ In i (training_set true W N i).
  Proof.
    intros H. apply filter_In in H as [_ H]. unfold used_weight in H. rewrite Nat.eqb_refl in H. simpl in H.
    pose proof eis_zero_0 as E. simpl in E. rewrite E in H. discriminate.
  Qed.

  Lemma fit_leave_out c order order' g fs s0 X y y' coords given w W N i k locs ps ps' :
    valid_choice choice -> (0 < cpu)%nat -> length X = N ->
    leave_local_out c = true ->
    in_force wm fs coords given w -> holds w W N -> aligned c w ->
    schedule (num_tasks cpu c (num_locations c N)) order -> schedule (num_tasks cpu c (num_locations c N)) order' ->
    let o := FIT c order g fs s0 X y coords given in
    let o' := FIT c order' g fs s0 X y' coords given in
    result_of o = Ok tt -> result_of o' = Ok tt ->
    (forall j, j <> i -> nth j y 0 = nth j y' 0) ->
    local_indices_ est (st o) = Some locs -> nth_error locs k = Some i ->
    local_predict_ est (st o) = Some ps -> local_predict_ est (st o') = Some ps' ->
    local_indices_ est (st o') = Some locs /\ nth_error ps k = nth_error ps' k.
  Proof.
    intros Hch Hcpu HX Hlo Hf Hw Hal HS HS' o o' Hok Hok' Hy Hl Hk Hp Hp'.
    assert (Hl' : local_indices_ est (st o') = Some locs).
    { pose proof (fit_results est fit_est predict_est G choice cpu wm c order g fs s0 X y coords given w W N Hch Hcpu HX Hf Hw HS Hok) as H.
      destruct H as (l1 & es1 & ps1 & sc1 & H). cbv zeta in H. destruct H as (_ & A1 & H). do 13 (destruct H as [_ H]). destruct H as [[g1 A2] _].
      pose proof (fit_results est fit_est predict_est G choice cpu wm c order' g fs s0 X y' coords given w W N Hch Hcpu HX Hf Hw HS' Hok') as H.
      destruct H as (l2 & es2 & ps2 & sc2 & H). cbv zeta in H. destruct H as (_ & B1 & H). do 13 (destruct H as [_ H]). destruct H as [[g2 B2] _].
      fold o in A1. fold o' in B1. congruence. }
    split; auto.
    eapply (fit_local c order order' g g fs fs s0 s0 X X y y' coords coords given given w w W W N i k k locs locs ps ps'); eauto.
    intros j Hj. split; auto. apply Hy. intros ->. rewrite Hlo in Hj. apply (training_excludes_self W N i); auto.
  Qed.

  (** ** C38, C39, C41: the same outcome from other execution paths *)
  Definition same_outcome (o o' : outcome est G) : Prop :=
    (result_of o = Ok tt -> o = o') /\ (raises (result_of o) <-> raises (result_of o')).

  (** If [_fit] agrees, fit agrees. *)
  Lemma fit_same c c' order order' g fs s0 X y coords given :
    leave_local_out c' = leave_local_out c -> sample_local_rate c' = sample_local_rate c ->
    cache_data c' = cache_data c -> cache_estimator c' = cache_estimator c ->
    (forall w g' locs, check_X_y X y = Ok tt -> in_force wm fs coords given w ->
       sample_locations G choice g (sample_local_rate c) (length X) = Ok (g', locs) ->
       let f := fitA order X y (seq 0 (length X)) (if leave_local_out c then clear_diagonal w else w) (Some locs) (cache_estimator c) None (init_jobs cpu c) in
       let f' := fitA order' X y (seq 0 (length X)) (if leave_local_out c then clear_diagonal w else w) (Some locs) (cache_estimator c) None (init_jobs cpu c') in
       forall r, f = Ok r <-> f' = Ok r) ->
    same_outcome (FIT c order g fs s0 X y coords given) (FIT c' order' g fs s0 X y coords given).
  Proof.
    intros E1 E2 E3 E4 H. unfold same_outcome, fit. rewrite E1, E2, E3, E4.
    destruct (check_X_y X y) as [[]|e] eqn:Ec; [|split; [discriminate|tauto]].
    set (w0 := match given, coords with Some w, _ => (fs, Ok w) | None, Some v => wm fs v v | None, None => (fs, Raise TypeError) end).
    assert (Hgo : forall fs' w, w0 = (fs', Ok w) -> in_force wm fs coords given w).
    { intros fs' w. unfold w0, in_force. destruct given; [intros Hw; injection Hw as <- <-; auto|]. destruct coords as [v|]; [|discriminate].
      intros Hw. right. split; auto. exists v. rewrite Hw. auto. }
    assert (Hmain : forall s2 : state est,
      let run := fun (ord : list nat) (cc : config) =>
        let '(fs', w) := w0 in
        match w with
        | Raise e => Outcome est G s2 given g fs' (Raise e)
        | Ok w =>
          let w' := if leave_local_out c then clear_diagonal w else w in
          let W' := match given with Some _ => Some w' | None => None end in
          let s3 := set_weights est s2 w' in
          match sample_locations G choice g (sample_local_rate c) (length X) with
          | Raise e => Outcome est G s3 W' g fs' (Raise e)
          | Ok (g', locs) =>
            let ys := take 0 y locs in
            let s4 := set_locations est s3 locs ys in
            match fitA ord X y (seq 0 (length X)) w' (Some locs) (cache_estimator c) None (init_jobs cpu cc) with
            | Raise e => Outcome est G s4 W' g' fs' (Raise e)
            | Ok (preds, es) =>
              let s5 := set_estimators est s4 es in
              match (p <- squeeze preds ;; score <- r2_score ys p ;; Ok (p, score)) with
              | Raise e => Outcome est G s5 W' g' fs' (Raise e)
              | Ok (p, score) => Outcome est G (set_scores est s5 p score (map2 Rminus ys p)) W' g' fs' (Ok tt)
              end
            end
          end
        end in
      (result_of (run order c) = Ok tt -> run order c = run order' c') /\ (raises (result_of (run order c)) <-> raises (result_of (run order' c')))).
    { intros s2. cbv zeta. destruct w0 as [fs' [w|e]] eqn:Ew; [|split; [discriminate|tauto]].
      specialize (Hgo fs' w eq_refl).
      destruct (sample_locations G choice g (sample_local_rate c) (length X)) as [[g' locs]|e] eqn:El; [|split; [discriminate|tauto]].
      specialize (H w g' locs eq_refl Hgo eq_refl). cbv zeta in H.
      destruct (fitA order X y (seq 0 (length X)) (if leave_local_out c then clear_diagonal w else w) (Some locs) (cache_estimator c) None (init_jobs cpu c)) as [r|e] eqn:Ef.
      - rewrite (proj1 (H r) eq_refl). destruct r as [preds es]. split; [reflexivity|tauto].
      - destruct (fitA order' X y (seq 0 (length X)) (if leave_local_out c then clear_diagonal w else w) (Some locs) (cache_estimator c) None (init_jobs cpu c')) as [r'|e'] eqn:Ef'.
        + pose proof (proj2 (H r') eq_refl). discriminate.
        + split; [discriminate|]. simpl. split; intros _; eexists; reflexivity. }
    destruct coords as [v|]; [apply Hmain|]. destruct given as [w1|]; [apply Hmain|]. split; [discriminate|tauto].
  Qed.

  Lemma fit_patches c order order' k k' g fs s0 X y coords given :
    (0 < k)%nat -> (0 < k')%nat -> schedule k order -> schedule k' order' ->
    same_outcome (FIT (with_jobs c None (Some k)) order g fs s0 X y coords given)
                 (FIT (with_jobs c None (Some k')) order' g fs s0 X y coords given).
  Proof.
    intros Hk Hk' HS HS'. apply fit_same; auto. intros w g' locs _ _ _. cbv zeta. intros [a b].
    unfold fit_all, init_jobs, with_jobs. cbn [n_jobs n_patches j_n_jobs j_n_patches leave_local_out].
    destruct (if leave_local_out c then clear_diagonal w else w); rewrite !run_batches_iff by auto; reflexivity.
  Qed.

  (** What the sequential loop does. *)
  Lemma fit_all_sequential order X y ests w locs cache Xp k r :
    (0 < k)%nat -> schedule k order ->
    (fitA order X y ests w (Some locs) cache Xp (Jobs None (Some k)) = Ok r <->
     exists rs, mapM (tsk X y ests w (match Xp with Some x => x | None => X end) cache) locs = Ok rs /\ r = (map fst rs, map snd rs)).
  Proof.
    intros Hk HS. destruct r as [a b]. unfold fit_all. cbn [j_n_jobs j_n_patches].
    destruct w; cbn [task]; rewrite run_batches_iff by auto; split; intros (rs & H1 & H2); exists rs; split; auto.
    - destruct H2; congruence.
    - injection H2 as -> ->; auto.
    - destruct H2; congruence.
    - injection H2 as -> ->; auto.
  Qed.

  Lemma fit_jobs c z k order order' g fs s0 X y coords given w W N :
    valid_choice choice -> (0 < cpu)%nat -> length X = N ->
    z <> 0%Z -> (0 < k)%nat -> in_force wm fs coords given w -> holds w W N ->
    (sample_local_rate c = None \/ (exists m, w = WSparse m) /\ (0 < num_locations c N)%nat) ->
    schedule (num_locations c N) order -> schedule k order' ->
    same_outcome (FIT (with_jobs c (Some z) None) order g fs s0 X y coords given)
                 (FIT (with_jobs c None (Some k)) order' g fs s0 X y coords given).
  Proof.
    intros Hch Hcpu HX Hz Hk Hf Hw Hs HS HS'. apply fit_same; auto. cbn [leave_local_out with_jobs cache_estimator sample_local_rate].
    intros w1 g' locs Hck Hf1 Hl. cbv zeta. intros [a b]. subst N.
    assert (w1 = w) by (eapply in_force_fun; eauto). subst w1.
    pose proof (holds_effective (leave_local_out c) _ _ _ Hw) as Hw'.
    set (w' := if leave_local_out c then clear_diagonal w else w) in *.
    pose proof (sample_locations_spec G choice g c _ _ _ Hch Hl) as (_ & _ & Hlen & Hle).
    pose proof (holds_nrows _ _ _ Hw') as Hnr.
    assert (S1 : schedule (num_tasks cpu (with_jobs c (Some z) None) (length locs)) order) by (unfold num_tasks, with_jobs; simpl; rewrite Hlen; auto).
    assert (S2 : schedule (num_tasks cpu (with_jobs c None (Some k)) (length locs)) order') by (unfold num_tasks, with_jobs; simpl; auto).
    rewrite (fit_all_iff est fit_est predict_est cpu order X y w' locs (cache_estimator c) (with_jobs c (Some z) None) a b (length X) eq_refl Hnr Hle Hcpu S1).
    rewrite (fit_all_iff est fit_est predict_est cpu order' X y w' locs (cache_estimator c) (with_jobs c None (Some k)) a b (length X) eq_refl Hnr Hle Hcpu S2).
    unfold jobs_ok, with_jobs. cbn [n_jobs n_patches].
    assert (EP : paired (Config (leave_local_out c) (sample_local_rate c) (cache_data c) (cache_estimator c) (Some z) None) w' locs =
                 paired (Config (leave_local_out c) (sample_local_rate c) (cache_data c) (cache_estimator c) None (Some k)) w' locs).
    { unfold paired; cbn [n_jobs]. destruct Hs as [Hs|[[m Hm] _]].
      - unfold sample_locations in Hl. rewrite Hs in Hl. injection Hl as _ <-. rewrite seq_length. destruct w'; reflexivity.
      - unfold w'. rewrite Hm. destruct (leave_local_out c); reflexivity. }
    rewrite EP. apply check_ok in Hck as (_ & Hpos & _). split; intros [_ H]; split; auto. split; auto.
    intros ->. simpl in Hlen. destruct Hs as [Hs|[_ Hn]]; [|lia]. unfold num_locations in Hlen. rewrite Hs in Hlen. lia.
  Qed.

  (** With sampled locations and a NumPy weight matrix. *)
  Lemma fit_jobs_sampled c z r order g fs s0 X y coords given W N :
    valid_choice choice -> (0 < cpu)%nat -> length X = N ->
    n_jobs c = Some z -> sample_local_rate c = Some r ->
    in_force wm fs coords given (WDense W) -> rect W N N ->
    schedule (num_locations c N) order ->
    let o := FIT c order g fs s0 X y coords given in
    result_of o = Ok tt ->
    exists locs ps ys, local_indices_ est (st o) = Some locs /\ local_predict_ est (st o) = Some ps /\
      y_sample_ est (st o) = Some ys /\ length ps = length locs /\ length ys = length locs /\
      forall k, (k < length locs)%nat ->
        nth k ys 0 = nth (nth k locs 0%nat) y 0 /\
        exists e, local_model fit_est X y (leave_local_out c) W N k e /\ predict_est e [nth k X []] = Ok [nth k ps 0].
  Proof.
    intros Hch Hcpu HX Hj Hr Hf HR HS o Hok.
    assert (Hw : holds (WDense W) W N) by (split; auto).
    assert (HS' : schedule (num_tasks cpu c (num_locations c N)) order) by (unfold num_tasks; rewrite Hj; auto).
    destruct (fit_results est fit_est predict_est G choice cpu wm c order g fs s0 X y coords given _ W N Hch Hcpu HX Hf Hw HS' Hok)
      as (locs & es & ps & score & Hy & H1 & H2 & H3 & H4 & H5 & H6 & H7 & H8 & H9 & H10 & H11 & H12 & H13 & H14 & [g' H15] & H16).
    exists locs, ps, (take 0 y locs). fold o in H1, H3, H4. repeat (split; [assumption || (unfold take; apply map_length)|]).
    intros k Hk. split; [unfold take; rewrite (nth_map_in _ _ _ 0%nat) by auto; reflexivity|].
    specialize (H16 k Hk). unfold paired in H16. rewrite Hj in H16.
    assert (E : exists m, (if leave_local_out c then clear_diagonal (WDense W) else WDense W) = WDense m) by (destruct (leave_local_out c); eexists; reflexivity).
    destruct E as [m E]. rewrite E in H16. rewrite seq_nth in H16 by auto. simpl in H16.
    destruct H16 as (e & He & Hp & _). exists e. auto.
  Qed.

  (** ** C41 *)
  Lemma mapM_ext_in' {A B} (f g : A -> result B) l : (forall x, In x l -> f x = g x) -> mapM f l = mapM g l.
  Proof. induction l; simpl; intros H; auto. rewrite H by auto. rewrite IHl; auto. Qed.

  Lemma fit_all_dense_sparse order X y W cs locs cache N js :
    rect W N N -> csr_form (Fin 0) eis_zero W N cs -> length X = N -> length y = N ->
    (forall i, In i locs -> (i < N)%nat) -> (length locs <= N)%nat ->
    (j_n_jobs js = None \/ locs = seq 0 N) ->
    fitA order X y (seq 0 N) (WDense W) (Some locs) cache None js = fitA order X y (seq 0 N) (WSparse cs) (Some locs) cache None js.
  Proof.
    intros HR Hc HX Hy Hin Hle Hj.
    assert (HT : forall i, (i < N)%nat -> dense_task est fit_est predict_est X y (seq 0 N) W X cache i = sparse_task est fit_est predict_est X y (seq 0 N) cs X cache i).
    { intros i Hi. change (tsk X y (seq 0 N) (WDense W) X cache i = tsk X y (seq 0 N) (WSparse cs) X cache i).
      rewrite !(task_simple est fit_est predict_est X y N W _ N (seq 0 N) X cache i i (nth i X []) N); auto; eauto;
        try (rewrite (getitem_lt 0%nat) by (rewrite seq_length; auto); rewrite seq_nth by auto; reflexivity);
        rewrite (getitem_lt (@nil R)) by congruence; reflexivity. }
    unfold fit_all. destruct (j_n_jobs js) as [z|], (j_n_patches js) as [k|]; auto.
    - destruct (z =? 0)%Z; auto. destruct Hj as [Hj|Hj]; [discriminate|]. subst locs.
      rewrite !seq_length, HX. assert (HL : length W = N) by apply HR. rewrite HL, !Nat.min_id.
      f_equal. f_equal. apply map_ext_in. intros i Hi. apply HT. apply Hin; auto.
    - unfold run_batches. destruct (array_split locs k) as [bs|] eqn:Eb; auto. cbn [bind]. f_equal. f_equal.
      apply map_ext_in. intros b Hb. f_equal. apply mapM_ext_in'. intros i Hi. apply HT. apply Hin.
      destruct (Nat.eq_dec k 0) as [->|Hk]; [discriminate|]. destruct (array_split_ok locs k) as (bs' & E' & _ & HC); [lia|].
      assert (bs' = bs) by congruence. subst bs'. rewrite <- HC. apply in_concat. eauto.
    - unfold run_batches. destruct (array_split locs cpu) as [bs|] eqn:Eb; auto. cbn [bind]. f_equal. f_equal.
      apply map_ext_in. intros b Hb. f_equal. apply mapM_ext_in'. intros i Hi. apply HT. apply Hin.
      destruct (Nat.eq_dec cpu 0) as [E0|Hk]; [rewrite E0 in Eb; discriminate|]. destruct (array_split_ok locs cpu) as (bs' & E' & _ & HC); [lia|].
      assert (bs' = bs) by congruence. subst bs'. rewrite <- HC. apply in_concat. eauto.
  Qed.

  (** Same result, locations, estimators, predictions, score and residuals. *)
  Definition same_fit (o o' : outcome est G) : Prop :=
    result_of o = result_of o' /\ o_gen est G o = o_gen est G o' /\
    local_indices_ est (st o) = local_indices_ est (st o') /\ y_sample_ est (st o) = y_sample_ est (st o') /\
    local_estimators est (st o) = local_estimators est (st o') /\ local_predict_ est (st o) = local_predict_ est (st o') /\
    llocv_score_ est (st o) = llocv_score_ est (st o') /\ local_residual_ est (st o) = local_residual_ est (st o').

  Lemma fit_dense_sparse c order g fs s0 X y coords W cs :
    valid_choice choice -> rect W (length X) (length X) -> csr_form (Fin 0) eis_zero W (length X) cs ->
    (n_jobs c = None \/ sample_local_rate c = None) ->
    same_fit (FIT c order g fs s0 X y coords (Some (WDense W))) (FIT c order g fs s0 X y coords (Some (WSparse cs))).
  Proof.
    intros Hch HR Hc Hj. unfold same_fit, fit. destruct (check_X_y X y) as [[]|e] eqn:Ec; [|repeat split].
    apply check_ok in Ec as (Hxy & _).
    assert (Hw : forall lo : bool, exists W' cs', (if lo then clear_diagonal (WDense W) else WDense W) = WDense W' /\
      (if lo then clear_diagonal (WSparse cs) else WSparse cs) = WSparse cs' /\ rect W' (length X) (length X) /\ csr_form (Fin 0) eis_zero W' (length X) cs').
    { intros [|]; [|exists W, cs; auto].
      assert (Hh : holds (WSparse cs) W (length X)) by (split; [exact HR|right; eauto]).
      pose proof (holds_clear _ _ _ Hh) as [H1 [H2|[c' [H2 H3]]]]; [discriminate|].
      exists (fill_diagonal (Fin 0) W), c'. auto. }
    destruct (Hw (leave_local_out c)) as (W' & cs' & E1 & E2 & HR' & Hc').
    assert (Hcase : coords = coords) by reflexivity. clear Hcase.
    destruct coords; rewrite E1, E2;
    (destruct (sample_locations G choice g (sample_local_rate c) (length X)) as [[g' locs]|e] eqn:El; [|repeat split]);
    pose proof (sample_locations_spec G choice g c _ _ _ Hch El) as (_ & Hin & Hlen & Hle);
    (rewrite (fit_all_dense_sparse order X y W' cs' locs (cache_estimator c) (length X) (init_jobs cpu c)); auto;
      [destruct (fitA order X y (seq 0 (length X)) (WSparse cs') (Some locs) (cache_estimator c) None (init_jobs cpu c)) as [[preds es]|e]; [|repeat split];
       destruct (p <- squeeze preds ;; score <- r2_score (take 0 y locs) p ;; Ok (p, score)) as [[p score]|e]; repeat split
      |destruct Hj as [Hj|Hj];
       [left; unfold init_jobs; rewrite Hj; destruct (n_patches c); reflexivity
       |right; unfold sample_locations in El; rewrite Hj in El; injection El as _ <-; reflexivity]]).
  Qed.

  (** A stored zero: more sample weights than training rows. *)
  Lemma stored_zero_lengths ncols (rows : list (list (nat * ext))) i j :
    (i < length rows)%nat -> In (j, Fin 0) (nth i rows []) ->
    let m := csr_of_rows ncols rows in
    (length (row_indices (csr_where ext_nonzero m) i) < length (row_data m i))%nat.
  Proof.
    intros Hi Hin m. unfold m, csr_where. rewrite csr_rows_of_rows.
    rewrite row_indices_of_rows by (rewrite map_length; auto). rewrite row_data_of_rows by auto.
    rewrite (nth_map_in _ _ _ []) by auto. rewrite !map_length.
    pose proof eis_zero_0 as E0. clear -Hin E0. induction (nth i rows []) as [|[a v] l IH]; [destruct Hin|]. simpl.
    assert (Hle : (length (filter (fun e : nat * ext => ext_nonzero (snd e)) l) <= length l)%nat) by (clear; induction l as [|x l IH]; simpl; [lia|]; destruct (ext_nonzero (snd x)); simpl; lia).
    destruct Hin as [Hin|Hin].
    - injection Hin as _ ->. unfold ext_nonzero at 1. rewrite E0. simpl. lia.
    - specialize (IH Hin). destruct (ext_nonzero v); simpl; lia.
  Qed.

  Lemma stored_zero_raises c order g fs s0 X y coords ncols rows i j :
    (forall k Xs ys ws, length Xs <> length ws -> raises (fit_est k Xs ys ws)) ->
    (0 < cpu)%nat -> length rows = length X -> (i < length X)%nat -> In (j, Fin 0) (nth i rows []) ->
    sample_local_rate c = None -> leave_local_out c = false ->
    schedule (num_tasks cpu c (length X)) order ->
    raises (result_of (FIT c order g fs s0 X y coords (Some (WSparse (csr_of_rows ncols rows))))).
  Proof.
    intros Hrej Hcpu HL Hi Hin Hs Hlo HS.
    apply raises_not_ok. intros [] Hok.
    destruct (fit_inv est fit_est predict_est G choice cpu wm _ _ _ _ _ _ _ _ _ Hok) as (w1 & g' & locs & preds & es & p & score & Hck & Hf1 & Hl & Hfa & _ & _ & _).
    destruct Hf1 as [Hf1|[Hf1 _]]; [|discriminate]. injection Hf1 as <-. rewrite Hlo in Hfa.
    unfold sample_locations in Hl. rewrite Hs in Hl. injection Hl as <- <-.
    assert (Hnr : w_nrows (WSparse (csr_of_rows ncols rows)) = length X) by (simpl; rewrite c_nrows_of_rows; auto).
    apply fit_all_iff in Hfa; auto; [|rewrite seq_length; auto|rewrite seq_length; auto].
    destruct Hfa as [_ (rs & Hm & _)].
    assert (Hp : paired c (WSparse (csr_of_rows ncols rows)) (seq 0 (length X)) = seq 0 (length X)) by (unfold paired; destruct (n_jobs c); reflexivity).
    rewrite Hp in Hm. apply mapM_ok_iff in Hm.
    assert (Ht : exists r, tsk X y (seq 0 (length X)) (WSparse (csr_of_rows ncols rows)) X (cache_estimator c) i = Ok r).
    { destruct (Forall2_in_l _ _ _ i Hm) as (r & _ & Hr); [apply in_seq; lia|eauto]. }
    destruct Ht as [r Ht]. cbn [task] in Ht. unfold sparse_task in Ht.
    apply bind_ok in Ht as [c0 [_ Ht]]. apply bind_ok in Ht as [ip [_ Ht]]. apply bind_ok in Ht as [x0 [_ Ht]].
    apply bind_ok in Ht as [Xs [HXs Ht]]. apply bind_ok in Ht as [ys [Hys Ht]].
    unfold fit_local_estimator in Ht. apply bind_ok in Ht as [e [He _]].
    assert (Hlen : length Xs = length (row_indices (csr_where ext_nonzero (csr_of_rows ncols rows)) i)) by (apply mapM_length in HXs; auto).
    pose proof (stored_zero_lengths ncols rows i j ltac:(lia) Hin) as Hlt. cbv zeta in Hlt.
    destruct (Hrej c0 Xs ys (row_data (csr_of_rows ncols rows) i)) as [ex Hex]; [rewrite Hlen; lia|]. congruence.
  Qed.

  (** ** C42 *)
  Lemma fit_callers_weights c order g fs s0 X y coords w W n :
    check_X_y X y = Ok tt -> holds w W n ->
    exists w' W', o_weights est G (FIT c order g fs s0 X y coords (Some w)) = Some w' /\ holds w' W' n /\
      (forall i j, (i < n)%nat -> (j < n)%nat -> mget (Fin 0) W' i j = used_weight (leave_local_out c) W i j) /\
      (leave_local_out c = false -> w' = w).
  Proof.
    intros Hck Hw. exists (if leave_local_out c then clear_diagonal w else w), (effective_weights (leave_local_out c) W).
    split.
    - unfold fit. rewrite Hck. destruct coords; (
      destruct (sample_locations G choice g (sample_local_rate c) (length X)) as [[g' locs]|e]; [|reflexivity];
      destruct (fitA order X y (seq 0 (length X)) (if leave_local_out c then clear_diagonal w else w) (Some locs) (cache_estimator c) None (init_jobs cpu c)) as [[preds es]|e]; [|reflexivity];
      destruct (p <- squeeze preds ;; score <- r2_score (take 0 y locs) p ;; Ok (p, score)) as [[p score]|e]; reflexivity).
    - split; [apply holds_effective; auto|]. split.
      + intros i j Hi Hj. apply (effective_weights_get _ _ n); auto. apply Hw.
      + intros ->. reflexivity.
  Qed.

  (** Refitting with leave_local_out=False on the matrix an earlier fit with
      leave_local_out=True was given: same fit. *)
  Lemma refit_still_leaves_out c order g fs s0 s1 X y coords w w' :
    let o := FIT (with_leave_out c true) order g fs s0 X y coords (Some w) in
    result_of o = Ok tt -> o_weights est G o = Some w' ->
    let o' := FIT (with_leave_out c false) order g fs s1 X y coords (Some w') in
    result_of o' = Ok tt /\ local_predict_ est (st o') = local_predict_ est (st o) /\ llocv_score_ est (st o') = llocv_score_ est (st o).
  Proof.
    intros o Hok Hw'. unfold o in *.
    destruct (fit_inv est fit_est predict_est G choice cpu wm _ _ _ _ _ _ _ _ _ Hok) as (w1 & g' & locs & preds & es & p & score & Hck & Hf1 & Hl & Hfa & Hsq & Hr & Eq).
    destruct Hf1 as [Hf1|[Hf1 _]]; [|discriminate]. injection Hf1 as <-. rewrite Eq in *. cbn [o_weights] in Hw'. injection Hw' as <-.
    cbn [with_leave_out leave_local_out sample_local_rate cache_data cache_estimator] in *.
    assert (Hj : init_jobs cpu (with_leave_out c false) = init_jobs cpu (with_leave_out c true)) by reflexivity.
    unfold fit. rewrite Hck. cbn [with_leave_out leave_local_out sample_local_rate cache_data cache_estimator].
    destruct coords; rewrite Hl, Hj, Hfa; rewrite Hsq; cbn [bind]; rewrite Hr; cbn [bind]; repeat split.
  Qed.

  (** ** C43 *)
  Lemma fit_without_weights c order g fs s0 X y :
    check_X_y X y = Ok tt ->
    let o := FIT c order g fs s0 X y None None in
    result_of o = Raise (PyException "At least one of coordinate_vector_list or weight_matrix should be provided") /\
    is_fitted est (st o) = Some true /\ n_obs est (st o) = Some (length X) /\ n_features_in est (st o) = Some (ncols X) /\
    weight_matrix_ est (st o) = weight_matrix_ est s0 /\ local_predict_ est (st o) = local_predict_ est s0 /\
    local_estimators est (st o) = local_estimators est s0.
  Proof. intros H. unfold fit. rewrite H. cbv zeta. repeat split. Qed.

  Lemma fit_invalid_data c order g fs s0 X y coords given :
    check_X_y X y <> Ok tt ->
    let o := FIT c order g fs s0 X y coords given in
    raises (result_of o) /\ st o = s0.
  Proof.
    intros H. unfold fit. destruct (check_X_y X y) as [[]|e]; [congruence|]. cbv zeta. split; [eexists; reflexivity|reflexivity].
  Qed.

  Lemma fit_weights_fail c order g fs s0 X y v e :
    check_X_y X y = Ok tt -> snd (wm fs v v) = Raise e ->
    let o := FIT c order g fs s0 X y (Some v) None in
    result_of o = Raise e /\ is_fitted est (st o) = Some true /\ local_predict_ est (st o) = local_predict_ est s0.
  Proof.
    intros H Hw. unfold fit. rewrite H. destruct (wm fs v v) as [fs' r]. simpl in Hw. subst r. cbv zeta.
    destruct (cache_data c); repeat split.
  Qed.

  (** ** One location *)
  Lemma fit_single_location c order g fs s0 X y coords given w W N :
    valid_choice choice -> (0 < cpu)%nat -> length X = N -> in_force wm fs coords given w -> holds w W N ->
    schedule (num_tasks cpu c (num_locations c N)) order -> (num_locations c N <= 1)%nat ->
    raises (result_of (FIT c order g fs s0 X y coords given)).
  Proof.
    intros Hch Hcpu HX Hf Hw HS Hn. apply raises_not_ok. intros [] Hok.
    destruct (fit_results est fit_est predict_est G choice cpu wm c order g fs s0 X y coords given w W N Hch Hcpu HX Hf Hw HS Hok)
      as (locs & es & ps & score & Hy & H1 & H2 & H3 & H4 & H5 & H6 & H7 & H8 & H9 & H10 & H11 & H12 & H13 & H14 & _).
    assert (length ps = 0%nat) by lia. assert (length locs = 0%nat) by lia.
    destruct locs; [|discriminate]. destruct ps; [|discriminate]. discriminate H7.
  Qed.

  Lemma check_iff X y : check_X_y X y = Ok tt <-> valid_data X y.
  Proof.
    split.
    - intros H. apply check_ok in H as (E & H1 & H2 & H3). exists (ncols X). rewrite <- E. auto.
    - intros (p & HR & Hy & Hp). assert (EL : length X = length y) by apply HR.
      assert (EC : ncols X = p) by (apply (ncols_rect _ _ _ HR); auto).
      unfold check_X_y. rewrite EC, EL, Nat.eqb_refl. cbn [negb orb].
      destruct (Nat.eqb_spec (length y) 0); [lia|]. destruct (Nat.eqb_spec p 0); [lia|]. cbn [orb].
      assert (E : forallb (fun row : list R => (length row =? p)%nat) X = true).
      { apply forallb_forall. intros row Hin. apply Nat.eqb_eq. destruct HR as [_ HF]. rewrite Forall_forall in HF. auto. }
      rewrite E. reflexivity.
  Qed.

  Lemma fit_succeeds c order g fs s0 X y coords given w W N :
    valid_choice choice -> (0 < cpu)%nat -> length X = N -> in_force wm fs coords given w -> holds w W N ->
    schedule (num_tasks cpu c (num_locations c N)) order -> aligned c w ->
    (result_of (FIT c order g fs s0 X y coords given) = Ok tt <->
     valid_data X y /\ valid_jobs c /\ drawable c N /\ (2 <= num_locations c N)%nat /\
     forall i, In i (drawn choice g c N) -> exists e p, local_model fit_est X y (leave_local_out c) W N i e /\ predict_est e [nth i X []] = Ok [p]).
  Proof.
    intros Hch Hcpu HX Hf Hw HS Hal. split.
    - intros Hok.
      destruct (fit_inv est fit_est predict_est G choice cpu wm _ _ _ _ _ _ _ _ _ Hok) as (w1 & g1 & locs1 & preds & es1 & p1 & score1 & Hck & Hf1 & Hl1 & Hfa & _).
      assert (w1 = w) by (eapply in_force_fun; eauto). subst w1.
      pose proof (fit_aligned est fit_est predict_est G choice cpu wm c order g fs s0 X y coords given w W N Hch Hcpu HX Hf Hw HS Hal Hok) as H. cbv zeta in H.
      destruct H as (locs & es & ps & ys & rs & A1 & _ & A3 & _ & _ & _ & Hin & Hlen & Hle1 & Hle2 & _ & _ & A4).
      destruct (fit_results est fit_est predict_est G choice cpu wm c order g fs s0 X y coords given w W N Hch Hcpu HX Hf Hw HS Hok)
        as (locs' & es' & ps' & score & Hy & H1 & H2 & H3 & H4 & H5 & H6 & H7 & H8 & H9 & H10 & H11 & H12 & H13 & H14 & [g' H15] & _).
      assert (locs' = locs) by congruence. subst locs'. clear A1.
      assert (Hdr : drawable c N).
      { intros r Hr. unfold sample_locations in H15. rewrite Hr in H15. apply bind_ok in H15 as [x [H15 _]]. unfold draw in H15.
        rewrite seq_length in H15. destruct (Z.ltb_spec (trunc (r * INR N)) 0); [discriminate|].
        destruct (Z.ltb_spec (Z.of_nat N) (trunc (r * INR N))); [discriminate|]. lia. }
      split; [apply check_iff; auto|]. split; [|split; [auto|split]].
      + rewrite HX in *. apply fit_all_iff in Hfa; auto.
        * destruct Hfa as [Hj _]. unfold jobs_ok in Hj. unfold valid_jobs. destruct (n_jobs c), (n_patches c); tauto.
        * rewrite (holds_nrows _ _ _ (holds_effective (leave_local_out c) _ _ _ Hw)). auto.
        * apply (sample_locations_spec G choice g c _ _ _ Hch Hl1).
        * destruct (sample_locations_spec G choice g c _ _ _ Hch Hl1) as (_ & _ & -> & _). auto.
      + destruct (le_lt_dec 2 (num_locations c N)) as [|Hlt]; auto. exfalso.
        assert (length locs = 0%nat) by lia. destruct locs; [|discriminate]. simpl in H13. destruct ps'; [|discriminate]. discriminate H7.
      + intros i Hi. assert (Hil : In i locs).
        { unfold drawn in Hi. unfold sample_locations in H15. unfold num_locations in Hi. destruct (sample_local_rate c) as [r|] eqn:Er.
          - apply bind_ok in H15 as [[g2 d] [H15 E]]. injection E as _ <-. unfold draw in H15.
            match type of H15 with (if ?b then _ else _) = _ => destruct b; [discriminate|] end. injection H15 as H15.
            apply (Permutation_in i (sort_nat_perm d)). rewrite H15 in Hi. exact Hi.
          - injection H15 as _ <-. auto. }
        destruct (In_nth _ _ 0%nat Hil) as (k & Hk & Ek). specialize (A4 k Hk). cbv zeta in A4. rewrite Ek in A4.
        destruct A4 as (_ & _ & e & He & Hp & _). exists e, (nth k ps 0). auto.
    - intros (Hd & Hj & Hdr & H2 & Hloc). pose proof (proj2 (check_iff _ _) Hd) as Hck.
      assert (Hy : length y = N) by (apply check_ok in Hck as [E _]; congruence).
      assert (Hl : exists g' locs, sample_locations G choice g (sample_local_rate c) N = Ok (g', locs) /\ forall i, In i locs -> In i (drawn choice g c N)).
      { unfold sample_locations, drawn, num_locations. destruct (sample_local_rate c) as [r|] eqn:Er; [|eauto].
        specialize (Hdr r Er). unfold draw. rewrite seq_length.
        destruct (Z.ltb_spec (trunc (r * INR N)) 0); [lia|]. destruct (Z.ltb_spec (Z.of_nat N) (trunc (r * INR N))); [lia|].
        cbn [orb bind]. eexists _, _. split; [reflexivity|]. intros i Hi. apply (Permutation_in i (Permutation_sym (sort_nat_perm _))). exact Hi. }
      destruct Hl as (g' & locs & Hl & Hsub).
      pose proof (sample_locations_spec G choice g c _ _ _ Hch Hl) as (Hsort & Hin & Hlen & Hle).
      pose proof (holds_effective (leave_local_out c) _ _ _ Hw) as Hw'.
      set (w' := if leave_local_out c then clear_diagonal w else w) in *.
      assert (Hseq : sample_local_rate c = None -> locs = seq 0 N).
      { intros Hn. unfold sample_locations in Hl. rewrite Hn in Hl. injection Hl as _ <-. reflexivity. }
      assert (HP : paired c w' locs = locs) by (apply (paired_aligned c w locs N Hal Hseq)).
      assert (Hfun : exists es ps, length ps = length locs /\ mapM (tsk X y (seq 0 N) w' X (cache_estimator c)) locs = Ok (combine (map (fun p => [p]) ps) es) /\ length es = length locs).
      { assert (HT : forall i, In i locs -> exists e p, tsk X y (seq 0 N) w' X (cache_estimator c) i = Ok ([p], e)).
        { intros i Hi. destruct (Hloc i (Hsub i Hi)) as (e & p & He & Hp). specialize (Hin i Hi).
          destruct Hw' as [HRW Hw'].
          rewrite (task_simple est fit_est predict_est X y N (effective_weights (leave_local_out c) W) w' N (seq 0 N) X (cache_estimator c) i i (nth i X []) N); auto;
            try (rewrite (getitem_lt 0%nat) by (rewrite seq_length; auto); rewrite seq_nth by auto; reflexivity);
            try (rewrite (getitem_lt (@nil R)) by congruence; reflexivity).
          exists (if cache_estimator c then Some e else None), p.
          apply simple_task_ok; auto; [apply Hw|]. exists e. auto. }
        clear -HT. induction locs as [|i l IH].
        - exists [], []. auto.
        - destruct IH as (es & ps & E1 & E2 & E3); [intros; apply HT; right; auto|]. destruct (HT i ltac:(left; auto)) as (e & p & E).
          exists (e :: es), (p :: ps). simpl. rewrite E, E2. simpl. auto. }
      destruct Hfun as (es & ps & Hps & Hmap & Hes).
      assert (Hfst : map fst (combine (map (fun p => [p]) ps) es) = map (fun p => [p]) ps) by (apply map_fst_combine; rewrite map_length; congruence).
      assert (Hfa : fitA order X y (seq 0 N) w' (Some locs) (cache_estimator c) None (init_jobs cpu c) = Ok (map (fun p => [p]) ps, map snd (combine (map (fun p => [p]) ps) es))).
      { apply fit_all_iff; auto; [apply (holds_nrows _ _ _ Hw')|rewrite Hlen; auto|].
        split.
        - unfold jobs_ok. unfold valid_jobs in Hj. destruct (n_jobs c), (n_patches c); auto. split; auto. intros ->. simpl in Hlen. lia.
        - rewrite HP. exists (combine (map (fun p => [p]) ps) es). rewrite Hfst. auto. }
      assert (Hsq : squeeze (map (fun p => [p]) ps) = Ok ps).
      { unfold squeeze. rewrite mapM_map. rewrite (mapM_all_ok _ (fun p => p)) by auto. rewrite map_id. cbn [bind].
        destruct ps as [|p1 [|p2 ps]]; auto. simpl in Hps. lia. }
      assert (Hr2 : exists score, r2_score (take 0 y locs) ps = Ok score).
      { unfold r2_score. assert (EL : length (take 0 y locs) = length locs) by (unfold take; apply map_length).
        rewrite EL, Hps, Nat.eqb_refl. cbn [negb]. destruct (take 0 y locs) as [|a [|b l]]; simpl in EL; try lia. eexists. reflexivity. }
      destruct Hr2 as [score Hr2].
      unfold fit. rewrite Hck, HX. unfold in_force in Hf.
      destruct Hf as [->|[-> [v [-> Hwm]]]].
      + destruct coords; fold w'; rewrite Hl, Hfa, Hsq; cbn [bind]; rewrite Hr2; reflexivity.
      + destruct (wm fs v v) as [fs' r]. simpl in Hwm. subst r. fold w'. rewrite Hl, Hfa, Hsq; cbn [bind]; rewrite Hr2; reflexivity.
  Qed.

  (** The score is the usual one. *)
  Lemma fit_score c order g fs s0 X y coords given w W N :
    valid_choice choice -> (0 < cpu)%nat -> length X = N -> in_force wm fs coords given w -> holds w W N ->
    schedule (num_tasks cpu c (num_locations c N)) order ->
    let o := FIT c order g fs s0 X y coords given in
    result_of o = Ok tt ->
    exists ys ps score, y_sample_ est (st o) = Some ys /\ local_predict_ est (st o) = Some ps /\ length ys = length ps /\ (2 <= length ys)%nat /\
      llocv_score_ est (st o) = Some (Fin score) /\
      let sse := Rsum (map2 (fun a b => (a - b) * (a - b)) ys ps) in
      let m := Rsum ys / INR (length ys) in
      let sst := Rsum (map (fun a => (a - m) * (a - m)) ys) in
      (sst <> 0 -> score = 1 - sse / sst) /\ (sst = 0 -> sse = 0 -> score = 1) /\ (sst = 0 -> sse <> 0 -> score = 0).
  Proof.
    intros Hch Hcpu HX Hf Hw HS o Hok.
    destruct (fit_results est fit_est predict_est G choice cpu wm c order g fs s0 X y coords given w W N Hch Hcpu HX Hf Hw HS Hok)
      as (locs & es & ps & score & Hy & H1 & H2 & H3 & H4 & H5 & H6 & H7 & H8 & H9 & H10 & H11 & H12 & H13 & H14 & _).
    fold o in H3, H4, H6. unfold r2_score in H7.
    assert (HL : length (take 0 y locs) = length locs) by (unfold take; apply map_length).
    destruct (Nat.eqb_spec (length (take 0 y locs)) (length ps)) as [El|]; [|discriminate H7]. cbn [negb] in H7.
    destruct (take 0 y locs) as [|a [|b l]] eqn:Et; [discriminate H7|simpl in *; lia|]. rewrite <- Et in *.
    injection H7 as <-. eexists _, _, _. split; [exact H4|]. split; [exact H3|]. split; [exact El|]. split; [rewrite Et; simpl; lia|]. split; [exact H6|].
    cbv zeta. fold (mean (take 0 y locs)).
    set (sst := Rsum (map (fun a => (a - mean (take 0 y locs)) * (a - mean (take 0 y locs))) (take 0 y locs))).
    set (sse := Rsum (map2 (fun a b => (a - b) * (a - b)) (take 0 y locs) ps)).
    destruct (Reqb sst 0) eqn:E1; [apply Reqb_true in E1|apply Reqb_false in E1];
      (destruct (Reqb sse 0) eqn:E2; [apply Reqb_true in E2|apply Reqb_false in E2]); repeat split; intros; try contradiction; auto.
  Qed.
End Props.
