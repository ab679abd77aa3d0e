From Coq Require Import Lra Psatz.
From Verif.Model Require Import Base Ext Sort Csr Neighbour Distance WeightModel.
From Verif.Spec Require Import KernelSpec NeighbourSpec WeightModelSpec.
From Verif.Proofs Require Import ListFacts KernelFacts SortFacts CsrFacts NeighbourFacts ShrinkFacts SampleFacts WeightModelFacts.
Require Import Sorting.Sorted.
Open Scope nat_scope.
Open Scope R_scope.

Lemma check_ok X y : check_X_y X y = Ok tt ->
  length X = length y /\ (0 < length X)%nat /\ (0 < ncols X)%nat /\ rect X (length X) (ncols X).
Proof.
  unfold check_X_y. match goal with |- (if ?b then _ else _) = _ -> _ => destruct b eqn:E end; [discriminate|]. intros _.
  apply Bool.orb_false_iff in E as [E E4]. apply Bool.orb_false_iff in E as [E E3]. apply Bool.orb_false_iff in E as [E1 E2].
  apply Bool.negb_false_iff in E1, E4. apply Nat.eqb_eq in E1. apply Nat.eqb_neq in E2, E3.
  repeat split; auto; try lia. apply Forall_forall. intros row Hin. rewrite forallb_forall in E4. apply Nat.eqb_eq; auto.
Qed.

Section Props.
  Variable est : Type.
  Variable fit_est : nat -> matrix R -> list R -> list ext -> result est.
  Variable predict_est : est -> matrix R -> result (list R).
  Variable G : Type.
  Variable choice : G -> list nat -> nat -> G * list nat.
  Variable cpu : nat.
  Variable wm : filesystem -> list coords -> list coords -> filesystem * result weights.

  Notation fitA := (fit_all est fit_est predict_est cpu).
  Notation FIT := (fit est fit_est predict_est G choice cpu wm).
  Notation tsk := (task est fit_est predict_est).

  Definition paired (c : config) (w : weights) (locs : list nat) : list nat :=
    match n_jobs c, w with Some _, WDense _ => seq 0 (length locs) | _, _ => locs end.
  Definition jobs_ok (c : config) (locs : list nat) : Prop :=
    match n_jobs c, n_patches c with
    | Some _, Some _ => False
    | Some z, None => z <> 0%Z /\ locs <> []
    | None, Some k => (0 < k)%nat
    | None, None => True
    end.

  Lemma mapM_parallel {A} (f : nat -> result A) l order rs : schedule (length l) order ->
    (parallel order (map f l) = Ok rs <-> mapM f l = Ok rs).
  Proof.
    intros HS. rewrite parallel_ok by (rewrite map_length; auto). rewrite mapM_ok_iff. clear. revert rs.
    induction l as [|x l IH]; intros rs; simpl; split; intros H; inversion H; subst; constructor; auto; apply IH; auto.
  Qed.

  Lemma unzip_ok {A B} (rs : list (A * B)) a b : unzip_jobs rs = Ok (a, b) <-> rs <> [] /\ a = map fst rs /\ b = map snd rs.
  Proof.
    destruct rs as [|r rs]; simpl; split.
    - discriminate.
    - intros [H _]. congruence.
    - intros H. injection H as <- <-. split; [discriminate|auto].
    - intros (_ & -> & ->). reflexivity.
  Qed.

  Lemma fit_all_iff order X y w locs cache c a b N :
    length X = N -> w_nrows w = N -> (length locs <= N)%nat -> (0 < cpu)%nat ->
    schedule (num_tasks cpu c (length locs)) order ->
    (fitA order X y (seq 0 N) w (Some locs) cache None (init_jobs cpu c) = Ok (a, b) <->
     jobs_ok c locs /\ exists rs, mapM (tsk X y (seq 0 N) w X cache) (paired c w locs) = Ok rs /\ a = map fst rs /\ b = map snd rs).
  Proof.
    intros HX Hw Hl Hcpu HS. unfold fit_all, init_jobs, jobs_ok, paired, num_tasks in *.
    destruct (n_jobs c) as [z|] eqn:Ej, (n_patches c) as [k|] eqn:Ek; cbn [j_n_jobs j_n_patches].
    - split; [discriminate|]. intros [[] _].
    - destruct (Z.eqb_spec z 0) as [->|Hz].
      { split; [discriminate|]. intros [[H _] _]. congruence. }
      destruct w as [m|m]; cbn [task w_nrows] in *.
      + rewrite seq_length, HX, Hw. rewrite !Nat.min_id, Nat.min_l by auto.
        split.
        * intros H. apply bind_ok in H as [rs [H1 H2]]. apply mapM_parallel in H1; [|rewrite seq_length; auto].
          apply unzip_ok in H2 as (H2 & -> & ->). pose proof (mapM_length _ _ _ H1) as HL. rewrite seq_length in HL.
          split; [|eauto]. split; auto. intros ->. destruct rs; [congruence|discriminate HL].
        * intros ([_ Hne] & rs & H1 & -> & ->).
          pose proof (mapM_length _ _ _ H1) as HL. rewrite seq_length in HL.
          apply (mapM_parallel _ _ order) in H1; [|rewrite seq_length; auto]. rewrite H1. cbn [bind]. apply unzip_ok.
          split; auto. intros ->. destruct locs; [congruence|discriminate HL].
      + split.
        * intros H. apply bind_ok in H as [rs [H1 H2]]. apply mapM_parallel in H1; auto.
          apply unzip_ok in H2 as (H2 & -> & ->). pose proof (mapM_length _ _ _ H1) as HL.
          split; [|eauto]. split; auto. intros ->. destruct rs; [congruence|discriminate HL].
        * intros ([_ Hne] & rs & H1 & -> & ->). pose proof (mapM_length _ _ _ H1) as HL.
          apply (mapM_parallel _ _ order) in H1; auto. rewrite H1. cbn [bind]. apply unzip_ok.
          split; auto. intros ->. destruct locs; [congruence|discriminate HL].
    - destruct (Nat.eq_dec k 0) as [->|Hk].
      { split; [|intros [H _]; lia]. destruct w; unfold run_batches, array_split; simpl; discriminate. }
      assert (Hk' : (0 < k)%nat) by lia.
      destruct w as [m|m]; cbn [task]; rewrite run_batches_iff by auto; split; intros H; [split; auto|tauto|split; auto|tauto].
    - destruct w as [m|m]; cbn [task]; rewrite run_batches_iff by auto; split; intros H; [split; auto|tauto|split; auto|tauto].
  Qed.

  Lemma sample_locations_spec g c N g' locs : valid_choice choice ->
    sample_locations G choice g (sample_local_rate c) N = Ok (g', locs) ->
    StronglySorted lt locs /\ (forall i, In i locs -> (i < N)%nat) /\ length locs = num_locations c N /\ (length locs <= N)%nat.
  Proof.
    intros Hc. unfold sample_locations, num_locations. destruct (sample_local_rate c) as [r|].
    - intros H. apply bind_ok in H as [[g1 d] [H1 H2]]. injection H2 as <- <-. cbn [snd].
      unfold draw in H1. rewrite seq_length in H1.
      destruct (Z.ltb_spec (trunc (r * INR N)) 0) as [|Ha]; [discriminate|].
      destruct (Z.ltb_spec (Z.of_nat N) (trunc (r * INR N))) as [|Hb]; [discriminate|]. cbn [orb] in H1. injection H1 as H1.
      destruct (Hc g (seq 0 N) (Z.to_nat (trunc (r * INR N)))) as [HL [rest HP]]; [rewrite seq_length; lia|].
      rewrite H1 in HL, HP. cbn [snd] in HL, HP.
      assert (Hnd : NoDup d) by (apply (NoDup_app_l d rest); eapply Permutation_NoDup; [exact HP|apply seq_NoDup]).
      pose proof (sort_nat_perm d) as Hperm.
      assert (Hlen : length (sort_nat d) = length d) by (symmetry; apply Permutation_length; auto).
      repeat split.
      + apply sorted_le_lt; [apply sort_nat_sorted|]. eapply Permutation_NoDup; eauto.
      + intros i Hi. apply (Permutation_in _ (Permutation_sym Hperm)) in Hi.
        assert (Hin : In i (seq 0 N)) by (apply (Permutation_in _ (Permutation_sym HP)); apply in_app_iff; auto).
        apply in_seq in Hin. lia.
      + congruence.
      + rewrite Hlen, HL. lia.
    - intros H. injection H as <- <-. rewrite seq_length. repeat split; auto.
      + apply seq_sorted.
      + intros i Hi. apply in_seq in Hi. lia.
  Qed.

  Lemma holds_nrows w W n : holds w W n -> w_nrows w = n.
  Proof.
    intros [[HL _] H]. destruct H as [->|[c [-> Hc]]]; simpl; auto. rewrite (form_nrows _ _ _ _ _ Hc). auto.
  Qed.

  (** What a successful fit went through. *)
  Lemma fit_inv c order g fs s0 X y coords given :
    o_result est G (FIT c order g fs s0 X y coords given) = Ok tt ->
    exists w g' locs preds es p score,
      check_X_y X y = Ok tt /\ in_force wm fs coords given w /\
      sample_locations G choice g (sample_local_rate c) (length X) = Ok (g', locs) /\
      fitA order X y (seq 0 (length X)) (if leave_local_out c then clear_diagonal w else w) (Some locs)
           (cache_estimator c) None (init_jobs cpu c) = Ok (preds, es) /\
      squeeze preds = Ok p /\ r2_score (take 0 y locs) p = Ok score /\
      FIT c order g fs s0 X y coords given =
      Outcome est G
        (State est (Some true) (Some (ncols X)) (Some (length X))
           (if cache_data c then Some X else data_X est s0) (if cache_data c then Some y else data_y est s0)
           (if cache_data c then coords else data_coords est s0)
           (Some (if leave_local_out c then clear_diagonal w else w))
           (Some (positive_mask (if leave_local_out c then clear_diagonal w else w)))
           (Some locs) (Some (take 0 y locs)) (Some es) (Some p) (Some score) (Some (map2 Rminus (take 0 y locs) p))
           (permutation_score_decrease_ est s0) (interaction_matrix_ est s0))
        (match given with Some _ => Some (if leave_local_out c then clear_diagonal w else w) | None => None end)
        g' (match given, coords with Some _, _ => fs | None, Some v => fst (wm fs v v) | None, None => fs end) (Ok tt).
  Proof.
    unfold fit. destruct (check_X_y X y) as [[]|e] eqn:Ec; [|discriminate].
    set (w0 := match given, coords with Some w, _ => (fs, Ok w) | None, Some v => wm fs v v | None, None => (fs, Raise TypeError) end).
    intros H.
    assert (Hw : exists fs' w, w0 = (fs', Ok w) /\ in_force wm fs coords given w /\
      fs' = match given, coords with Some _, _ => fs | None, Some v => fst (wm fs v v) | None, None => fs end).
    { unfold w0, in_force in *. destruct given as [w|].
      - exists fs, w. auto.
      - destruct coords as [v|]; [|discriminate H]. destruct (wm fs v v) as [fs' [w|e]] eqn:Ew.
        + exists fs', w. split; auto. split; [right; split; auto; exists v; rewrite Ew; auto|]. reflexivity.
        + cbn [o_result] in H. discriminate. }
    destruct Hw as (fs' & w & Ew & Hf & Efs).
    assert (Hc : (match coords, given with None, None => false | _, _ => true end) = true).
    { destruct coords; auto. destruct given; auto. destruct Hf as [Hf|[_ [v [Hv _]]]]; discriminate. }
    destruct coords as [v|].
    - rewrite Ew in H |- *.
      destruct (sample_locations G choice g (sample_local_rate c) (length X)) as [[g' locs]|e] eqn:El; [|discriminate].
      destruct (fitA order X y (seq 0 (length X)) (if leave_local_out c then clear_diagonal w else w) (Some locs) (cache_estimator c) None (init_jobs cpu c))
        as [[preds es]|e] eqn:Ef; [|discriminate].
      destruct (squeeze preds) as [p|e] eqn:Ep; cbn [bind] in *; [|discriminate].
      destruct (r2_score (take 0 y locs) p) as [score|e] eqn:Er; cbn [bind] in *; [|discriminate].
      exists w, g', locs, preds, es, p, score. subst fs'. repeat split; auto. destruct (cache_data c); reflexivity.
    - destruct given as [w1|]; [|discriminate Hc].
      rewrite Ew in H |- *.
      destruct (sample_locations G choice g (sample_local_rate c) (length X)) as [[g' locs]|e] eqn:El; [|discriminate].
      destruct (fitA order X y (seq 0 (length X)) (if leave_local_out c then clear_diagonal w else w) (Some locs) (cache_estimator c) None (init_jobs cpu c))
        as [[preds es]|e] eqn:Ef; [|discriminate].
      destruct (squeeze preds) as [p|e] eqn:Ep; cbn [bind] in *; [|discriminate].
      destruct (r2_score (take 0 y locs) p) as [score|e] eqn:Er; cbn [bind] in *; [|discriminate].
      exists w, g', locs, preds, es, p, score. subst fs'. repeat split; auto. destruct (cache_data c); reflexivity.
  Qed.

  Lemma in_force_fun fs coords given w w' : in_force wm fs coords given w -> in_force wm fs coords given w' -> w = w'.
  Proof.
    intros [H|[H [v [Hv Hw]]]] [H'|[H' [v' [Hv' Hw']]]]; try congruence.
  Qed.

  Lemma squeeze_ok preds p : squeeze preds = Ok p -> preds = map (fun x => [x]) p /\ length p <> 1%nat.
  Proof.
    unfold squeeze. intros H. apply bind_ok in H as [v [H1 H2]]. apply mapM_ok_iff in H1.
    assert (E : preds = map (fun x => [x]) v).
    { clear H2. induction H1 as [|q x preds v Hq _ IH]; simpl; auto. rewrite <- IH. destruct q as [|a [|b q]]; try discriminate. congruence. }
    destruct v as [|x [|z v]]; try discriminate; injection H2 as <-; split; auto; discriminate.
  Qed.

  Definition results_at (c : config) (X : matrix R) (y : list R) (W : matrix ext) (N : nat) (locs : list nat)
             (es : list (option est)) (ps : list R) (k i : nat) : Prop :=
    exists e, local_model fit_est X y (leave_local_out c) W N i e /\
      predict_est e [nth i X []] = Ok [nth k ps 0] /\
      nth k es None = if cache_estimator c then Some e else None.

  (** The common core: the k-th prediction belongs to the k-th paired location. *)
  Lemma fit_results c order g fs s0 X y coords given w W N :
    valid_choice choice -> (0 < cpu)%nat -> length X = N -> in_force wm fs coords given w -> holds w W N ->
    schedule (num_tasks cpu c (num_locations c N)) order ->
    o_result est G (FIT c order g fs s0 X y coords given) = Ok tt ->
    exists locs es ps score,
      let s := o_state est G (FIT c order g fs s0 X y coords given) in
      let P := paired c (if leave_local_out c then clear_diagonal w else w) locs in
      length y = N /\
      local_indices_ est s = Some locs /\ local_estimators est s = Some es /\ local_predict_ est s = Some ps /\
      y_sample_ est s = Some (take 0 y locs) /\ local_residual_ est s = Some (map2 Rminus (take 0 y locs) ps) /\
      llocv_score_ est s = Some score /\ r2_score (take 0 y locs) ps = Ok score /\
      StronglySorted lt locs /\ (forall i, In i locs -> (i < N)%nat) /\ length locs = num_locations c N /\
      length P = length locs /\ length es = length locs /\ length ps = length locs /\ length ps <> 1%nat /\
      (exists g', sample_locations G choice g (sample_local_rate c) N = Ok (g', locs)) /\
      forall k, (k < length locs)%nat -> results_at c X y W N locs es ps k (nth k P 0%nat).
  Proof.
    intros Hch Hcpu HX Hf Hw HS Hok.
    destruct (fit_inv _ _ _ _ _ _ _ _ _ Hok) as (w1 & g' & locs & preds & es & p & score & Hck & Hf1 & Hl & Hfa & Hsq & Hr2 & Eq).
    assert (w1 = w) by (eapply in_force_fun; eauto). subst w1.
    apply check_ok in Hck as (HXy & HXp & _ & HXr).
    rewrite HX in *. pose proof (sample_locations_spec _ _ _ _ _ Hch Hl) as (Hsort & Hin & Hlen & Hle).
    pose proof (holds_effective (leave_local_out c) _ _ _ Hw) as Hw'.
    set (w' := if leave_local_out c then clear_diagonal w else w) in *.
    apply fit_all_iff in Hfa; auto; [|apply (holds_nrows _ _ _ Hw')|rewrite Hlen; auto].
    destruct Hfa as [Hj (rs & Hm & -> & ->)].
    apply squeeze_ok in Hsq as [Hsq H1].
    assert (HP : length (paired c w' locs) = length locs) by (unfold paired; destruct (n_jobs c); auto; destruct w'; auto; apply seq_length).
    pose proof (mapM_length _ _ _ Hm) as Hrs. rewrite HP in Hrs.
    assert (Hps : length p = length locs).
    { apply (f_equal (@length _)) in Hsq. rewrite !map_length in Hsq. congruence. }
    exists locs, (map snd rs), p, score. rewrite Eq. cbv zeta. cbn [o_state local_indices_ local_estimators local_predict_ y_sample_ local_residual_ llocv_score_].
    repeat split; auto; try congruence; [rewrite map_length; auto|rewrite Hl; eauto|].
    intros k Hk. unfold results_at.
    apply mapM_ok_iff in Hm.
    assert (Hpk : (nth k (paired c w' locs) 0 < N)%nat).
    { unfold paired. destruct (n_jobs c); [|apply Hin, nth_In; auto]. destruct w'; [rewrite seq_nth by auto; lia|apply Hin, nth_In; auto]. }
    assert (Hk2 : tsk X y (seq 0 N) w' X (cache_estimator c) (nth k (paired c w' locs) 0%nat) = Ok (nth k rs ([], None))).
    { clear -Hm Hk HP. rewrite <- HP in Hk. clear HP. revert k Hk. induction Hm; intros [|k] Hk; simpl in *; try lia; auto. apply IHHm; lia. }
    set (i := nth k (paired c w' locs) 0%nat) in *.
    destruct Hw as [HWr Hw]. destruct Hw' as [HWr' Hw'].
    rewrite (task_simple _ _ _ X y N (effective_weights (leave_local_out c) W) w' N (seq 0 N) X (cache_estimator c) i i (nth i X []) N) in Hk2;
      auto; try congruence.
    2:{ rewrite (getitem_lt 0%nat) by (rewrite seq_length; auto). rewrite seq_nth by auto. reflexivity. }
    2:{ rewrite (getitem_lt (@nil R)) by congruence. reflexivity. }
    destruct (nth k rs ([], None)) as [q e] eqn:Er. apply (simple_task_ok _ _ _ X y (leave_local_out c) W N i) in Hk2; auto.
    destruct Hk2 as (e0 & He0 & Hpe & ->). exists e0. split; auto. split.
    - assert (Eq' : q = [nth k p 0]).
      { apply (f_equal (fun l => nth k l [])) in Hsq. rewrite (nth_map_in _ _ _ ([], None)) in Hsq by lia.
        rewrite Er in Hsq. rewrite (nth_map_in _ _ _ 0) in Hsq by lia. simpl in Hsq. auto. }
      congruence.
    - rewrite (nth_map_in _ _ _ ([], None)) by lia. rewrite Er. reflexivity.
  Qed.

  Lemma paired_aligned c w locs N : aligned c w ->
    (sample_local_rate c = None -> locs = seq 0 N) ->
    paired c (if leave_local_out c then clear_diagonal w else w) locs = locs.
  Proof.
    intros H Hl. unfold paired. destruct (n_jobs c) eqn:Ej; auto. destruct H as [H|[H|[m ->]]]; [congruence| |].
    - rewrite (Hl H), seq_length. destruct (if leave_local_out c then clear_diagonal w else w); auto.
    - destruct (leave_local_out c); auto.
  Qed.

  Lemma fit_aligned c order g fs s0 X y coords given w W N :
    valid_choice choice -> (0 < cpu)%nat -> length X = N -> in_force wm fs coords given w -> holds w W N ->
    schedule (num_tasks cpu c (num_locations c N)) order -> aligned c w ->
    o_result est G (FIT c order g fs s0 X y coords given) = Ok tt ->
    let s := o_state est G (FIT c order g fs s0 X y coords given) in
    exists locs es ps ys rs,
      local_indices_ est s = Some locs /\ local_estimators est s = Some es /\ local_predict_ est s = Some ps /\
      y_sample_ est s = Some ys /\ local_residual_ est s = Some rs /\
      StronglySorted lt locs /\ (forall i, In i locs -> (i < N)%nat) /\ length locs = num_locations c N /\
      length es = length locs /\ length ps = length locs /\ length ys = length locs /\ length rs = length locs /\
      forall k, (k < length locs)%nat ->
        let i := nth k locs 0%nat in
        nth k ys 0 = nth i y 0 /\ nth k rs 0 = nth i y 0 - nth k ps 0 /\
        exists e, local_model fit_est X y (leave_local_out c) W N i e /\
          predict_est e [nth i X []] = Ok [nth k ps 0] /\
          nth k es None = if cache_estimator c then Some e else None.
  Proof.
    intros Hch Hcpu HX Hf Hw HS Hal Hok s.
    destruct (fit_results c order g fs s0 X y coords given w W N Hch Hcpu HX Hf Hw HS Hok)
      as (locs & es & ps & score & Hy & H1 & H2 & H3 & H4 & H5 & H6 & H7 & H8 & H9 & H10 & H11 & H12 & H13 & H14 & [g' H15] & H16).
    assert (Hseq : sample_local_rate c = None -> locs = seq 0 N).
    { intros Hn. unfold sample_locations in H15. rewrite Hn in H15. injection H15 as _ <-. reflexivity. }
    rewrite (paired_aligned c w locs N Hal Hseq) in H11, H16.
    exists locs, es, ps, (take 0 y locs), (map2 Rminus (take 0 y locs) ps).
    assert (HL : length (take 0 y locs) = length locs) by (unfold take; apply map_length).
    repeat (split; [assumption|]). split; [rewrite map2_length; lia|].
    intros k Hk i.
    assert (E : nth k (take 0 y locs) 0 = nth i y 0) by (unfold take; rewrite (nth_map_in _ _ _ 0%nat) by auto; reflexivity).
    split; [exact E|]. split; [|exact (H16 k Hk)]. rewrite (map2_nth _ _ _ _ 0 0) by lia. rewrite E. reflexivity.
  Qed.
End Props.
