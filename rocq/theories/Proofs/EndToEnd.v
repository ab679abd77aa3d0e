From Coq Require Import Lra Psatz Sorting.Sorted.
From Verif.Model Require Import Base Ext Sort Kernel Distance WeightMatrix Csr Neighbour WeightModel.
From Verif.Spec Require Import KernelSpec WeightSpec DistanceSpec NeighbourSpec WeightModelSpec EndToEndSpec.
From Verif.Proofs Require MoranFacts.
From Verif.Proofs Require Import ListFacts SumFacts KernelFacts SortFacts WeightFacts WeightProps WeightRaises WeightExamples DistanceFacts CsrFacts NeighbourFacts ShrinkFacts SampleFacts WeightModelFacts WeightModelProps FitProps PredictProps.
Open Scope string_scope.
Open Scope nat_scope.
Open Scope R_scope.

(** ** Units per dimension *)
Lemma map2_length_min {A B C} (f : A -> B -> C) l m : length (map2 f l m) = Nat.min (length l) (length m).
Proof. revert m; induction l; intros [|b m]; simpl; auto. Qed.

Lemma filter_of_map {A B} (P : B -> bool) (f : A -> B) l : filter P (map f l) = map f (filter (fun x => P (f x)) l).
Proof. induction l as [|x l IH]; simpl; auto. destruct (P (f x)); simpl; rewrite IH; auto. Qed.
Lemma filter_perm {A} (P : A -> bool) l l' : Permutation l l' -> Permutation (filter P l) (filter P l').
Proof.
  induction 1; simpl; auto.
  - destruct (P x); auto.
  - destruct (P x), (P y); auto. constructor.
  - eapply Permutation_trans; eauto.
Qed.

Lemma rescaled_nth ss Ds dim : length ss = length Ds -> (dim < length Ds)%nat ->
  nth dim (rescaled ss Ds) [] = mmap (Rmult (nth dim ss 1)) (nth dim Ds []).
Proof.
  unfold rescaled. revert Ds dim; induction ss as [|s ss IH]; intros [|D Ds] [|dim] HL Hd; simpl in *; try lia; auto. apply IH; lia.
Qed.

Lemma rescaled_valid ss Ds r c : Forall (fun s => 0 < s) ss -> length ss = length Ds ->
  valid_distances Ds r c -> valid_distances (rescaled ss Ds) r c.
Proof.
  intros Hp HL [Hne HF]. unfold rescaled. split.
  - destruct ss as [|s ss], Ds as [|D Ds]; simpl in *; try lia; congruence.
  - clear Hne. revert Ds HL HF. induction Hp as [|s ss Hs Hp IH]; intros [|D Ds] HL HF; simpl in *; try lia; constructor.
    + inversion HF as [|? ? [HR HE] HF']; subst. split; [apply rect_mmap; auto|].
      unfold entries, mmap in *. rewrite Forall_forall in *. intros x Hx. apply in_map_iff in Hx as [row [<- Hrow]].
      specialize (HE _ Hrow). rewrite Forall_forall in *. intros x Hx. apply in_map_iff in Hx as [y [<- Hy]].
      specialize (HE _ Hy). nra.
    + apply IH; [lia|]. inversion HF; auto.
Qed.

Lemma wm_rescaled ss kt bw bw' nc Ds r c W :
  Forall (fun s => 0 < s) ss -> length ss = length Ds -> rescaled_bandwidth ss bw bw' ->
  valid_distances Ds r c -> (0 < r)%nat ->
  weight_matrix_from_distance (map A2 Ds) kt RNone bw nc = Ok W ->
  weight_matrix_from_distance (map A2 (rescaled ss Ds)) kt RNone bw' nc = Ok W.
Proof.
  intros Hp HL [Hnb Hbw] HV Hr H.
  pose proof (rescaled_valid ss Ds r c Hp HL HV) as HV'.
  assert (HL' : length (rescaled ss Ds) = length Ds) by (unfold rescaled; rewrite map2_length_min; lia).
  destruct (wm_sound2 _ _ _ _ _ _ _ HV Hr H) as [Hn [raw [HD EW]]].
  apply (wm_complete _ kt bw' nc r c raw W HV' Hr).
  - rewrite Hnb; auto.
  - rewrite HL'. intros dim Hd. destruct (HD dim Hd) as [k [p [bs [Hk [Hbl [Hb Hraw]]]]]].
    destruct (valid_nth _ _ _ _ HV Hd) as [HR HE]. rewrite rescaled_nth by auto.
    set (s := nth dim ss 1). assert (Hs : 0 < s) by (apply (proj1 (Forall_forall _ _) Hp); apply nth_In; lia).
    destruct (Hbw dim ltac:(lia)) as [Hdef Harg]. fold s in Harg.
    exists k, (match p with FixedBandwidth b' => FixedBandwidth (s * b') | _ => p end), (map (Rmult s) bs).
    split; [|split; [rewrite map_length; auto|split]].
    + destruct Hk as [H1 [H2 [H3 [H4 H5]]]]. split; auto. split; auto. split; [auto|split; auto].
      rewrite Harg. destruct (arg_at bw dim), (arg_at nc dim) as [[| |]|]; simpl in *; inversion H5; auto.
    + intros i Hi. unfold mmap. rewrite (nth_map_default _ (nth dim Ds []) []) by (destruct HR as [HR1 _]; rewrite HR1; auto).
      rewrite (nth_map_default _ bs 0) by lia. apply row_bandwidth_scale; auto.
    + intros i j Hi Hj. rewrite (mmap_get (Rmult s) (nth dim Ds []) 0 0 r c) by auto.
      rewrite (nth_map_default _ bs 0) by lia. rewrite kernel_value_scale; auto. apply (entry_nonneg _ r c); auto.
  - rewrite EW, HL'. reflexivity.
Qed.

(** ** The fit as a function of the weight matrix *)
Section Fit.
  Variable est : Type.
  Variable fit_est : nat -> matrix R -> list R -> list ext -> result est.
  Variable predict_est : est -> matrix R -> result (list R).
  Variable G : Type.
  Variable choice : G -> list nat -> nat -> G * list nat.
  Variable cpu : nat.
  Notation FIT wm := (fit est fit_est predict_est G choice cpu wm).
  Notation st o := (o_state est G o).

  (** Two ways to obtain the same weights give the same fit. *)
  Lemma fit_same_weights wm wm' c order g fs fs' s0 X y v v' :
    snd (wm fs v v) = snd (wm' fs' v' v') ->
    let o := FIT wm c order g fs s0 X y (Some v) None in
    let o' := FIT wm' c order g fs' s0 X y (Some v') None in
    o_result est G o = o_result est G o' /\ o_gen est G o = o_gen est G o' /\
    weight_matrix_ est (st o) = weight_matrix_ est (st o') /\
    neighbour_matrix_ est (st o) = neighbour_matrix_ est (st o') /\
    local_indices_ est (st o) = local_indices_ est (st o') /\
    local_estimators est (st o) = local_estimators est (st o') /\
    local_predict_ est (st o) = local_predict_ est (st o') /\
    llocv_score_ est (st o) = llocv_score_ est (st o') /\
    local_residual_ est (st o) = local_residual_ est (st o').
  Proof.
    intros E. cbv zeta. unfold fit. destruct (check_X_y X y) as [_u|e]; [|repeat split].
    destruct (wm fs v v) as [f r], (wm' fs' v' v') as [f' r']. simpl in E. subst r'.
    destruct r as [w|e]; [|destruct (cache_data c); repeat split].
    destruct (sample_locations G choice g (sample_local_rate c) (length X)) as [[g' locs]|e]; [|destruct (cache_data c); repeat split].
    destruct (fit_all est fit_est predict_est cpu order X y _ _ _ _ _ _) as [[preds es]|e]; [|destruct (cache_data c); repeat split].
    destruct (p <- squeeze preds;; score <- r2_score (take 0 y locs) p;; Ok (p, score)) as [[p score]|e]; destruct (cache_data c); repeat split.
  Qed.

  (** Without location sampling: success and predictions. *)
  Lemma fit_all_locations wm c order g fs s0 X y coords given w W N :
    valid_choice choice -> (0 < cpu)%nat -> length X = N -> in_force wm fs coords given w -> holds w W N ->
    sample_local_rate c = None -> schedule (num_tasks cpu c N) order ->
    let o := FIT wm c order g fs s0 X y coords given in
    forall ps, o_result est G o = Ok tt /\ local_predict_ est (st o) = Some ps <->
      valid_data X y /\ valid_jobs c /\ (2 <= N)%nat /\ length ps = N /\
      forall i, (i < N)%nat -> exists e, local_model fit_est X y (leave_local_out c) W N i e /\ predict_est e [nth i X []] = Ok [nth i ps 0].
  Proof.
    intros Hch Hcpu HX Hf Hw Hs HS o ps.
    assert (HN : num_locations c N = N) by (unfold num_locations; rewrite Hs; reflexivity).
    assert (Hdr : drawn choice g c N = seq 0 N) by (unfold drawn; rewrite Hs; reflexivity).
    assert (HS' : schedule (num_tasks cpu c (num_locations c N)) order) by (rewrite HN; exact HS).
    assert (Hal : aligned c w) by (right; left; exact Hs).
    pose proof (fit_succeeds est fit_est predict_est G choice cpu wm c order g fs s0 X y coords given w W N Hch Hcpu HX Hf Hw HS' Hal) as Hiff.
    fold o in Hiff. rewrite HN, Hdr in Hiff.
    assert (Hout : o_result est G o = Ok tt -> exists ps', local_predict_ est (st o) = Some ps' /\ length ps' = N /\
       forall i, (i < N)%nat -> exists e, local_model fit_est X y (leave_local_out c) W N i e /\ predict_est e [nth i X []] = Ok [nth i ps' 0]).
    { intros Hok. pose proof (fit_aligned est fit_est predict_est G choice cpu wm c order g fs s0 X y coords given w W N Hch Hcpu HX Hf Hw HS' Hal Hok) as H.
      cbv zeta in H. fold o in H. destruct H as (locs & es & ps' & ys & rs & A1 & _ & A3 & _ & _ & Hso & Hin & Hlen & _ & Hlp & _ & _ & A4).
      rewrite HN in Hlen. assert (El : locs = seq 0 N).
      { apply StronglySorted_lt_ext; auto; [apply seq_sorted|]. intros j. rewrite in_seq. split; [intros Hj; specialize (Hin j Hj); lia|].
        intros Hj. assert (HNd : NoDup locs).
        { clear -Hso. induction Hso as [|x l Hs IH HF]; constructor; auto. intros Hx. rewrite Forall_forall in HF. specialize (HF x Hx). lia. }
        assert (Hinc : incl locs (seq 0 N)) by (intros x Hx; apply in_seq; specialize (Hin x Hx); lia).
        apply (NoDup_length_incl HNd) in Hinc; [|rewrite seq_length; lia]. apply Hinc. apply in_seq. lia. }
      exists ps'. split; auto. split; [lia|]. intros i Hi. destruct (A4 i ltac:(lia)) as (_ & _ & e & He & Hp & _).
      rewrite El, seq_nth in He, Hp by auto. exists e. auto. }
    split.
    - intros [Hok Hps]. destruct (Hout Hok) as (ps' & Hps' & Hl & Hi). assert (ps' = ps) by congruence. subst ps'.
      apply Hiff in Hok as (H1 & H2 & _ & H4 & _). auto.
    - intros (H1 & H2 & H3 & H4 & H5).
      assert (Hok : o_result est G o = Ok tt).
      { apply Hiff. split; auto. split; auto. split; [intros r Hr; congruence|]. split; auto.
        intros i Hi. apply in_seq in Hi. destruct (H5 i ltac:(lia)) as (e & He & Hp). eauto. }
      split; auto. destruct (Hout Hok) as (ps' & -> & Hl & Hi). f_equal. apply (list_eq_nth 0); [lia|].
      intros i Hil. destruct (Hi i ltac:(lia)) as (e & He & Hp). destruct (H5 i ltac:(lia)) as (e' & He' & Hp').
      unfold local_model in *. rewrite He in He'. injection He' as <-. rewrite Hp in Hp'. injection Hp' as ->. reflexivity.
  Qed.

  (** ** Order of the observations *)
  Section Order.
  Hypothesis blind : order_blind fit_est predict_est.
  Variable perm : list nat.
  Variable N : nat.
  Hypothesis Hperm : index_permutation perm N.

  Lemma perm_nodup : NoDup perm.
  Proof. apply (Permutation_NoDup (Permutation_sym Hperm)). apply seq_NoDup. Qed.
  Lemma perm_inj i j : (i < N)%nat -> (j < N)%nat -> nth i perm 0%nat = nth j perm 0%nat -> i = j.
  Proof.
    intros Hi Hj. assert (HL : length perm = N) by (rewrite (Permutation_length Hperm), seq_length; reflexivity).
    apply (proj1 (NoDup_nth perm 0%nat) perm_nodup); lia.
  Qed.

  Lemma reorder_model lo X y W W' a e :
    rect W N N -> rect W' N N -> length X = N -> length y = N ->
    (forall i j, (i < N)%nat -> (j < N)%nat -> mget (Fin 0) W' i j = mget (Fin 0) W (nth i perm 0%nat) (nth j perm 0%nat)) ->
    (a < N)%nat ->
    (local_model fit_est (reorder [] perm X) (reorder 0 perm y) lo W' N a e ->
     exists e', local_model fit_est X y lo W N (nth a perm 0%nat) e' /\ forall x, predict_est e' [x] = predict_est e [x]) /\
    (local_model fit_est X y lo W N (nth a perm 0%nat) e ->
     exists e', local_model fit_est (reorder [] perm X) (reorder 0 perm y) lo W' N a e' /\ forall x, predict_est e' [x] = predict_est e [x]).
  Proof.
    intros HR HR' HX Hy HW Ha.
    set (f := fun b => nth b perm 0%nat). set (i := f a).
    set (h := fun j => ((nth j X [], nth j y 0), used_weight lo W i j) : observation).
    set (h' := fun b => ((nth b (reorder [] perm X) [], nth b (reorder 0 perm y) 0), used_weight lo W' a b) : observation).
    assert (Hu : forall b, (b < N)%nat -> used_weight lo W' a b = used_weight lo W i (f b)).
    { intros b Hb. unfold used_weight. rewrite HW by auto. fold (f b).
      assert (E : (a =? b)%nat = (i =? f b)%nat).
      { destruct (Nat.eqb_spec a b) as [->|Hne]; symmetry; [apply Nat.eqb_refl|]. apply Nat.eqb_neq. intros E. apply Hne. apply perm_inj; auto. }
      rewrite E. reflexivity. }
    assert (Hh : forall b, (b < N)%nat -> h' b = h (f b)).
    { intros b Hb. unfold h', h. rewrite Hu by auto. rewrite (reorder_nth [] perm X N), (reorder_nth 0 perm y N) by auto. reflexivity. }
    set (T := training_set lo W N i). set (T' := training_set lo W' N a).
    assert (HP : Permutation (map h' T') (map h T)).
    { assert (E : map h' T' = map h (map f T')).
      { rewrite map_map. apply map_ext_in. intros b Hb. apply Hh. unfold T', training_set in Hb. apply filter_In in Hb as [Hb _]. apply in_seq in Hb. lia. }
      rewrite E. apply Permutation_map.
      assert (E2 : map f T' = filter (fun j => negb (eis_zero (used_weight lo W i j))) perm).
      { assert (Ep : perm = map f (seq 0 N)).
        { rewrite (tabulate_of_list 0%nat perm) at 1. rewrite (Permutation_length Hperm), seq_length. reflexivity. }
        transitivity (filter (fun j => negb (eis_zero (used_weight lo W i j))) (map f (seq 0 N))); [|f_equal; symmetry; exact Ep]. rewrite filter_of_map. apply (f_equal (map f)). unfold T', training_set. apply filter_ext_in. intros b Hb.
        apply in_seq in Hb. rewrite Hu by lia. reflexivity. }
      rewrite E2. unfold T, training_set. apply filter_perm. exact Hperm. }
    assert (M : local_model fit_est X y lo W N i = fun e => fit_est i (map obs_x (map h T)) (map obs_y (map h T)) (map obs_w (map h T)) = Ok e).
    { unfold local_model. fold T. rewrite !map_map. reflexivity. }
    assert (M' : local_model fit_est (reorder [] perm X) (reorder 0 perm y) lo W' N a = fun e => fit_est a (map obs_x (map h' T')) (map obs_y (map h' T')) (map obs_w (map h' T')) = Ok e).
    { unfold local_model. fold T'. rewrite !map_map. reflexivity. }
    fold (f a). fold i. rewrite M, M'. split; intros H.
    - apply (blind a i (map h' T') (map h T)); auto.
    - apply (blind i a (map h T) (map h' T')); auto. apply Permutation_sym; auto.
  Qed.

  Lemma reorder_valid_data X y : length X = N -> valid_data X y <-> valid_data (reorder [] perm X) (reorder 0 perm y) /\ length y = N.
  Proof.
    intros HX. assert (HL : length (reorder 0 perm y) = N) by (apply reorder_length; auto).
    assert (HLp : length perm = N) by (rewrite (Permutation_length Hperm), seq_length; reflexivity).
    split.
    - intros (p & HR & H1 & H2). assert (Hy : length y = N) by (destruct HR as [HR _]; lia). split; auto. exists p. rewrite HL.
      split; [|lia]. apply reorder_rows_rect; auto. rewrite <- Hy. exact HR.
    - intros [(p & HR & H1 & H2) Hy]. rewrite HL in *. exists p. rewrite Hy. split; [|lia]. split; auto.
      destruct HR as [_ HF]. rewrite Forall_forall in *. intros row Hrow. apply HF.
      apply (Permutation_in row (reorder_perm [] perm X ltac:(rewrite HX; auto)) Hrow).
  Qed.

  Lemma Rsum_reorder l : length l = N -> Rsum (reorder 0 perm l) = Rsum l.
  Proof. intros HL. apply Rsum_perm. apply Permutation_sym. apply reorder_perm. rewrite HL. auto. Qed.
  Lemma map_reorder (F : R -> R) l : length l = N -> map F (reorder 0 perm l) = reorder 0 perm (map F l).
  Proof.
    intros HL. unfold reorder. rewrite map_map. apply map_ext_in. intros i Hi. symmetry. apply nth_map_in. rewrite HL.
    apply (Permutation_in i Hperm) in Hi. apply in_seq in Hi. lia.
  Qed.
  Lemma map2_reorder (F : R -> R -> R) l m : length l = N -> length m = N ->
    map2 F (reorder 0 perm l) (reorder 0 perm m) = reorder 0 perm (map2 F l m).
  Proof.
    intros HL HM. unfold reorder. rewrite MoranFacts.map2_map. apply map_ext_in. intros i Hi. symmetry. apply map2_nth.
    - rewrite HL. apply (Permutation_in i Hperm) in Hi. apply in_seq in Hi. lia.
    - rewrite HM. apply (Permutation_in i Hperm) in Hi. apply in_seq in Hi. lia.
  Qed.

  Lemma fit_all_targets wm c order g fs s0 X y coords given w W :
    valid_choice choice -> (0 < cpu)%nat -> length X = N -> in_force wm fs coords given w -> holds w W N ->
    sample_local_rate c = None -> schedule (num_tasks cpu c N) order ->
    let o := FIT wm c order g fs s0 X y coords given in
    o_result est G o = Ok tt -> length y = N /\ y_sample_ est (st o) = Some y /\ exists ps, local_predict_ est (st o) = Some ps /\ length ps = N.
  Proof.
    intros Hch Hcpu HX Hf Hw Hs HS o Hok.
    assert (HN : num_locations c N = N) by (unfold num_locations; rewrite Hs; reflexivity).
    assert (HS' : schedule (num_tasks cpu c (num_locations c N)) order) by (rewrite HN; exact HS).
    assert (Hal : aligned c w) by (right; left; exact Hs).
    assert (Hy : length y = N).
    { apply (fit_succeeds est fit_est predict_est G choice cpu wm c order g fs s0 X y coords given w W N Hch Hcpu HX Hf Hw HS' Hal) in Hok.
      destruct Hok as ((p & [HR _] & _) & _). lia. }
    pose proof (fit_aligned est fit_est predict_est G choice cpu wm c order g fs s0 X y coords given w W N Hch Hcpu HX Hf Hw HS' Hal Hok) as H.
    cbv zeta in H. fold o in H. destruct H as (locs & es & ps' & ys & rs & A1 & _ & A3 & A3y & _ & Hso & Hin & Hlen & _ & Hlp & Hly & _ & A4).
    rewrite HN in Hlen. assert (El : locs = seq 0 N).
    { apply StronglySorted_lt_ext; auto; [apply seq_sorted|]. intros j. rewrite in_seq. split; [intros Hj; specialize (Hin j Hj); lia|].
      intros Hj. assert (HNd : NoDup locs).
      { clear -Hso. induction Hso as [|x l Hs IH HF]; constructor; auto. intros Hx. rewrite Forall_forall in HF. specialize (HF x Hx). lia. }
      assert (Hinc : incl locs (seq 0 N)) by (intros x Hx; apply in_seq; specialize (Hin x Hx); lia).
      apply (NoDup_length_incl HNd) in Hinc; [|rewrite seq_length; lia]. apply Hinc. apply in_seq. lia. }
    split; auto. split; [|exists ps'; split; auto; lia]. rewrite A3y. f_equal. apply (list_eq_nth 0); [lia|].
    intros i Hi. destruct (A4 i ltac:(lia)) as (E & _). rewrite El, seq_nth in E by lia. exact E.
  Qed.

  Lemma fit_reordered wm wm' c order order' g g' fs fs' s0 s0' X y coords coords' given given' w w' W W' :
    valid_choice choice -> (0 < cpu)%nat -> length X = N -> length y = N ->
    in_force wm fs coords given w -> holds w W N -> in_force wm' fs' coords' given' w' -> holds w' W' N ->
    (forall i j, (i < N)%nat -> (j < N)%nat -> mget (Fin 0) W' i j = mget (Fin 0) W (nth i perm 0%nat) (nth j perm 0%nat)) ->
    sample_local_rate c = None -> schedule (num_tasks cpu c N) order -> schedule (num_tasks cpu c N) order' ->
    let o := FIT wm c order g fs s0 X y coords given in
    let o' := FIT wm' c order' g' fs' s0' (reorder [] perm X) (reorder 0 perm y) coords' given' in
    (o_result est G o = Ok tt <-> o_result est G o' = Ok tt) /\
    (o_result est G o = Ok tt -> exists ps, local_predict_ est (st o) = Some ps /\ local_predict_ est (st o') = Some (reorder 0 perm ps) /\
       llocv_score_ est (st o) = llocv_score_ est (st o')).
  Proof.
    intros Hch Hcpu HX Hy Hf Hw Hf' Hw' HW Hs HS HS' o o'.
    assert (HLp : length perm = N) by (rewrite (Permutation_length Hperm), seq_length; reflexivity).
    assert (HX' : length (reorder [] perm X) = N) by (apply reorder_length; auto).
    assert (Hy' : length (reorder 0 perm y) = N) by (apply reorder_length; auto).
    pose proof (fit_all_locations wm c order g fs s0 X y coords given w W N Hch Hcpu HX Hf Hw Hs HS) as F1.
    pose proof (fit_all_locations wm' c order' g' fs' s0' _ _ coords' given' w' W' N Hch Hcpu HX' Hf' Hw' Hs HS' :
      let o0 := FIT wm' c order' g' fs' s0' (reorder [] perm X) (reorder 0 perm y) coords' given' in _) as F2.
    cbv zeta in F1, F2. fold o in F1. fold o' in F2.
    assert (HRW : rect W N N) by apply Hw. assert (HRW' : rect W' N N) by apply Hw'.
    pose proof (reorder_valid_data X y HX) as Hvd.
    assert (Hrow : forall a, (a < N)%nat -> nth a (reorder [] perm X) [] = nth (nth a perm 0%nat) X []) by (intros; apply (reorder_nth [] perm X N); auto).
    assert (Hps : forall (ps : list R) a, (a < N)%nat -> length ps = N -> nth a (reorder 0 perm ps) 0 = nth (nth a perm 0%nat) ps 0)
      by (intros; apply (reorder_nth 0 perm ps N); auto).
    assert (D1 : forall ps, o_result est G o = Ok tt /\ local_predict_ est (st o) = Some ps ->
                 o_result est G o' = Ok tt /\ local_predict_ est (st o') = Some (reorder 0 perm ps)).
    { intros ps H. apply F1 in H as (V & J & N2 & Hl & H). apply F2. split; [apply Hvd; auto|]. split; auto. split; auto.
      split; [apply reorder_length; auto|]. intros a Ha. assert (Hpa : (nth a perm 0 < N)%nat) by (apply (index_perm_lt perm N); auto).
      destruct (H _ Hpa) as (e & He & Hpe).
      destruct (proj2 (reorder_model (leave_local_out c) X y W W' a e HRW HRW' HX Hy HW Ha) He) as (e' & He' & Heq).
      exists e'. split; auto. rewrite Hrow, Heq, Hpe, Hps by auto. reflexivity. }
    (* the inverse position of an index *)
    assert (Hinv : forall i, (i < N)%nat -> exists a, (a < N)%nat /\ nth a perm 0%nat = i).
    { intros i Hi. assert (Hin : In i perm) by (apply (Permutation_in i (Permutation_sym Hperm)); apply in_seq; lia).
      destruct (In_nth _ _ 0%nat Hin) as (a & Ha & E). exists a. split; auto. lia. }
    assert (D2 : forall ps', o_result est G o' = Ok tt /\ local_predict_ est (st o') = Some ps' -> o_result est G o = Ok tt).
    { intros ps' H. apply F2 in H as (V & J & N2 & Hl & H).
      assert (Hex : exists ps, length ps = N /\ forall i, (i < N)%nat -> exists e, local_model fit_est X y (leave_local_out c) W N i e /\ predict_est e [nth i X []] = Ok [nth i ps 0]).
      { assert (Hall : forall i, (i < N)%nat -> exists p, exists e, local_model fit_est X y (leave_local_out c) W N i e /\ predict_est e [nth i X []] = Ok [p]).
        { intros i Hi. destruct (Hinv i Hi) as (a & Ha & Ei). destruct (H a Ha) as (e & He & Hpe).
          destruct (proj1 (reorder_model (leave_local_out c) X y W W' a e HRW HRW' HX Hy HW Ha) He) as (e' & He' & Heq).
          rewrite Ei in He'. exists (nth a ps' 0), e'. split; auto. rewrite Heq. rewrite Hrow in Hpe by auto. rewrite Ei in Hpe. exact Hpe. }
        clear - Hall.
        assert (Hk : forall k, (k <= N)%nat -> exists ps, length ps = k /\ forall i, (i < k)%nat -> exists e, local_model fit_est X y (leave_local_out c) W N i e /\ predict_est e [nth i X []] = Ok [nth i ps 0]).
        { induction k as [|k IH]; intros Hk; [exists []; split; auto; intros; lia|].
          destruct IH as (ps & Hl & IH); [lia|]. destruct (Hall k ltac:(lia)) as (p & Hp). exists (ps ++ [p])%list.
          split; [rewrite app_length; simpl; lia|]. intros i Hi. destruct (Nat.eq_dec i k) as [->|Hne].
          - rewrite app_nth2 by lia. rewrite Hl, Nat.sub_diag. exact Hp.
          - rewrite app_nth1 by lia. apply IH. lia. }
        apply Hk. lia. }
      destruct Hex as (ps & Hlps & Hex). apply (F1 ps). split; [apply Hvd; auto|]. auto. }
    pose proof (fit_all_targets wm c order g fs s0 X y coords given w W Hch Hcpu HX Hf Hw Hs HS) as T1.
    pose proof (fit_all_targets wm' c order' g' fs' s0' _ (reorder 0 perm y) coords' given' w' W' Hch Hcpu HX' Hf' Hw' Hs HS') as T2.
    cbv zeta in T1, T2. fold o in T1. fold o' in T2.
    assert (HNl : num_locations c N = N) by (unfold num_locations; rewrite Hs; reflexivity).
    split.
    - split; intros Hok.
      + destruct (T1 Hok) as (_ & _ & ps & Hps1 & _). apply (D1 ps); auto.
      + destruct (T2 Hok) as (_ & _ & ps & Hps1 & _). apply (D2 ps); auto.
    - intros Hok. destruct (T1 Hok) as (_ & Hys & ps & Hps1 & Hlps). destruct (D1 ps (conj Hok Hps1)) as [Hok' Hps2].
      destruct (T2 Hok') as (_ & Hys' & _). exists ps. split; auto. split; auto.
      assert (HS1 : schedule (num_tasks cpu c (num_locations c N)) order) by (rewrite HNl; auto).
      assert (HS2 : schedule (num_tasks cpu c (num_locations c N)) order') by (rewrite HNl; auto).
      pose proof (fit_score est fit_est predict_est G choice cpu wm c order g fs s0 X y coords given w W N Hch Hcpu HX Hf Hw HS1 Hok) as S1.
      pose proof (fit_score est fit_est predict_est G choice cpu wm' c order' g' fs' s0' _ _ coords' given' w' W' N Hch Hcpu HX' Hf' Hw' HS2 Hok') as S2.
      cbv zeta in S1, S2. fold o in S1. fold o' in S2.
      destruct S1 as (ys & qs & sc & E1 & E2 & _ & _ & E3 & S1). destruct S2 as (ys' & qs' & sc' & E1' & E2' & _ & _ & E3' & S2).
      rewrite Hys in E1. injection E1 as <-. rewrite Hps1 in E2. injection E2 as <-.
      rewrite Hys' in E1'. injection E1' as <-. rewrite Hps2 in E2'. injection E2' as <-.
      rewrite E3, E3'. do 2 f_equal.
      rewrite (Rsum_reorder y), Hy', map_reorder, map2_reorder in S2 by auto.
      rewrite !Rsum_reorder in S2 by (rewrite ?map_length, ?map2_length_min; lia). rewrite Hy in S1.
      set (sst := Rsum (map _ y)) in *. set (sse := Rsum (map2 _ y ps)) in *.
      destruct S1 as (a1 & a2 & a3), S2 as (b1 & b2 & b3).
      destruct (Req_EM_T sst 0) as [Z|Z].
      + destruct (Req_EM_T sse 0) as [Z'|Z']; [rewrite a2, b2 by auto|rewrite a3, b3 by auto]; reflexivity.
      + rewrite a1, b1 by auto. reflexivity.
  Qed.
  End Order.
End Fit.

(** ** Distances of reordered and of moved coordinates *)
Lemma mapM_fail_at {A B} (F : A -> result B) l x : In x l -> raises (F x) -> raises (mapM F l).
Proof. intros Hx Hr. apply mapM_raises_iff. exists x. auto. Qed.

Section Distances.
  Variable f32 : R -> R.
  Variable mkw : Type.
  Variable no_kw : mkw.
  Variable sm : string -> option (mkw -> list R -> list R -> R).
  Notation dms := (distance_matrices f32 mkw no_kw sm).
  Notation dm := (distance_matrix f32 mkw sm).

  (** Dimension by dimension. *)
  Lemma dms_iff (v : list coords) metrics Ds :
    dms v (Some v) metrics None = Ok Ds <->
    length Ds = length v /\ (length v <= length (metric_list (length v) metrics))%nat /\
    forall dim, (dim < length v)%nat ->
      dm (nth dim v []) (Some (nth dim v [])) (nth dim (metric_list (length v) metrics) "") no_kw = Ok (nth dim Ds (A1 [])).
  Proof.
    unfold distance_matrices. rewrite Nat.eqb_refl. cbn [bind].
    set (ms := metric_list (length v) metrics).
    set (F := fun dim : nat => _).
    assert (HF : forall dim, (dim < length v)%nat -> (dim < length ms)%nat ->
              F dim = dm (nth dim v []) (Some (nth dim v [])) (nth dim ms "") no_kw).
    { intros dim Hd Hm. unfold F. rewrite (getitem_lt (@nil (list R)) v) by auto. cbn [bind].
      rewrite (getitem_lt None) by (rewrite map_length; auto). cbn [bind].
      rewrite (getitem_lt "") by auto. cbn [bind]. rewrite (getitem_lt no_kw) by (rewrite repeat_length; auto). cbn [bind].
      rewrite nth_repeat. rewrite (nth_map_in _ _ _ (@nil (list R))) by auto. reflexivity. }
    split.
    - intros H. pose proof (mapM_length _ _ _ H) as HL. rewrite seq_length in HL. split; auto.
      assert (Hms : (length v <= length ms)%nat).
      { destruct (Nat.le_gt_cases (length v) (length ms)) as [|Hgt]; auto. exfalso.
        assert (Hr : raises (mapM F (seq 0 (length v)))).
        { apply (mapM_fail_at F _ (length ms)); [apply in_seq; lia|]. unfold F. rewrite (getitem_lt (@nil (list R)) v) by auto. cbn [bind].
          rewrite (getitem_lt None) by (rewrite map_length; auto). cbn [bind].
          unfold getitem at 1. rewrite (proj2 (nth_error_None ms (length ms))) by lia. eexists; reflexivity. }
        destruct Hr as [e He]. rewrite H in He. discriminate. }
      split; auto. intros dim Hd. rewrite <- HF by lia. apply mapM_ok_iff in H.
      assert (G : forall (l : list nat) rs', Forall2 (fun x y => F x = Ok y) l rs' -> forall i, (i < length l)%nat -> F (nth i l 0%nat) = Ok (nth i rs' (A1 []))).
      { clear. induction 1 as [|x y0 l l' Hxy HF IH]; simpl; intros i0 Hi0; [lia|]. destruct i0; auto. apply IH. lia. }
      specialize (G _ _ H dim). rewrite seq_length, seq_nth in G by auto. auto.
    - intros (HL & Hms & H). apply mapM_ok_iff. apply (Forall2_nth_intro _ _ _ 0%nat (A1 [])); [rewrite seq_length; auto|].
      intros dim Hd. rewrite seq_length in Hd. rewrite seq_nth by auto. cbn [plus]. rewrite HF by lia. auto.
  Qed.

  Definition reorder_both (perm : list nat) (D : matrix R) : matrix R := reorder_rows perm (reorder_cols 0 perm D).

  Lemma dm_reorder perm N (p : coords) d m kw M :
    index_permutation perm N -> rect p N d -> (0 < N)%nat -> dm p (Some p) m kw = Ok (A2 M) ->
    dm (reorder [] perm p) (Some (reorder [] perm p)) m kw = Ok (A2 (reorder_both perm M)).
  Proof.
    intros Hp HR HN. assert (HL : length p = N) by apply HR.
    assert (HLp : length perm = N) by (rewrite (Permutation_length Hp), seq_length; reflexivity).
    assert (Hlt : forall i, In i perm -> (i < N)%nat) by (intros i Hi; apply (Permutation_in i Hp) in Hi; apply in_seq in Hi; lia).
    assert (Hc : ncols (reorder [] perm p) = ncols p).
    { rewrite (ncols_rect p N d HR HN). apply (ncols_rect (reorder [] perm p) N d); auto. apply reorder_rows_rect; auto. }
    assert (G : forall (mf : list R -> list R -> R) (q : coords), length q = N ->
       mmap f32 (map (fun x => map (fun y => mf x y) (reorder [] perm q)) (reorder [] perm q)) =
       reorder_both perm (mmap f32 (map (fun x => map (fun y => mf x y) q) q))).
    { intros mf q Hq. unfold reorder_both, reorder_rows, reorder_cols, reorder, mmap. rewrite !map_map. apply map_ext_in. intros i Hi.
      rewrite (nth_map_in _ _ _ (@nil R)) by (rewrite Hq; auto). rewrite !map_map. apply map_ext_in. intros j Hj.
      rewrite (nth_map_in _ _ _ (@nil R)) by (rewrite Hq; auto). reflexivity. }
    unfold distance_matrix. rewrite Hc, Nat.eqb_refl. cbn [bind]. destruct (String.eqb m "great-circle").
    - destruct (negb (ncols p =? 2)); [discriminate|]. intros H. injection H as <-. do 2 f_equal.
      apply (G (fun x y => great_circle (lonlat x) (lonlat y)) p HL).
    - destruct (metric_fn mkw sm m kw) as [mf|]; [|discriminate]. intros H. injection H as <-. do 2 f_equal.
      unfold cdist. rewrite <- (G mf (astype32 f32 p)) by (unfold astype32, mmap; rewrite map_length; auto).
      f_equal. unfold astype32, mmap, reorder. rewrite !map_map. apply map_ext_in. intros i Hi. rewrite !map_map.
      apply map_ext_in. intros j Hj. rewrite !(nth_map_in _ _ _ (@nil R)) by (rewrite HL; auto). reflexivity.
  Qed.

  Lemma dms_reorder perm N (v : list coords) metrics Ds :
    index_permutation perm N -> (0 < N)%nat -> Forall (fun p => exists d, rect p N d) v ->
    dms v (Some v) metrics None = Ok (map A2 Ds) ->
    dms (map (reorder [] perm) v) (Some (map (reorder [] perm) v)) metrics None = Ok (map A2 (map (reorder_both perm) Ds)).
  Proof.
    intros Hp HN HF H. apply dms_iff in H as (HL & Hm & H). apply dms_iff. rewrite map_length in HL. rewrite !map_length.
    split; auto. split; auto. intros dim Hd.
    rewrite !(nth_map_in _ _ _ (@nil (list R))) by (rewrite ?map_length; lia).
    rewrite Forall_forall in HF. destruct (HF (nth dim v []) (nth_In _ _ Hd)) as [d HR].
    rewrite map_map. rewrite (nth_map_in (fun D => A2 (reorder_both perm D)) Ds dim (@nil (list R))) by (rewrite HL; exact Hd).
    apply (dm_reorder perm N _ d); auto. etransitivity; [exact (H dim Hd)|]. f_equal. apply (nth_map_in A2 Ds dim (@nil (list R))). rewrite HL; exact Hd.
  Qed.
End Distances.

(** ** From coordinates to the fitted model *)
Lemma mget_indep {A} (d d' : A) M r c i j : rect M r c -> (i < r)%nat -> (j < c)%nat -> mget d M i j = mget d' M i j.
Proof. intros HR Hi Hj. unfold mget. apply nth_indep. rewrite (rect_row M r c); auto. Qed.

Lemma both_valid perm Ds N : index_permutation perm N -> valid_distances Ds N N -> valid_distances (map (reorder_both perm) Ds) N N.
Proof.
  intros Hf HV. apply valid_map; auto. intros D HR HE.
  assert (HR' : rect (reorder_cols 0 perm D) N N) by (apply reorder_cols_rect; auto).
  split; [apply reorder_rows_rect; auto|]. apply (entries_mget _ _ N N); [apply reorder_rows_rect; auto|]. intros i j Hi Hj.
  unfold mget, reorder_both. rewrite (reorder_rows_row perm _ N) by auto.
  fold (mget 0 (reorder_cols 0 perm D) (nth i perm 0%nat) j).
  assert (Hi' : (nth i perm 0 < N)%nat) by (apply (index_perm_lt perm N); auto).
  rewrite (reorder_cols_get 0 perm D N N) by auto. apply (entry_nonneg _ N N); auto. apply (index_perm_lt perm N); auto.
Qed.

Lemma wm_both perm kt bw nc Ds N W :
  valid_distances Ds N N -> (0 < N)%nat -> index_permutation perm N ->
  weight_matrix_from_distance (map A2 Ds) kt RNone bw nc = Ok W ->
  exists W', weight_matrix_from_distance (map A2 (map (reorder_both perm) Ds)) kt RNone bw nc = Ok W' /\ rect W N N /\ rect W' N N /\
    forall i j, (i < N)%nat -> (j < N)%nat -> mget (Fin 0) W' i j = mget (Fin 0) W (nth i perm 0%nat) (nth j perm 0%nat).
Proof.
  intros HV HN Hp H. destruct (wm_product _ _ _ _ _ _ _ HV HN H) as [HRW _].
  pose proof (wm_perm_cols perm kt bw nc Ds N N W HV HN Hp H) as H1.
  assert (HV1 : valid_distances (map (reorder_cols 0 perm) Ds) N N).
  { apply valid_map; auto. intros D HR HE. split; [apply reorder_cols_rect; auto|].
    apply (entries_mget _ _ N N); [apply reorder_cols_rect; auto|]. intros i j Hi Hj.
    rewrite (reorder_cols_get 0 perm D N N) by auto. apply (entry_nonneg _ N N); auto. apply (index_perm_lt perm N); auto. }
  pose proof (wm_perm_rows perm kt bw nc _ N N _ HV1 HN Hp H1) as H2. rewrite !map_map in H2.
  exists (reorder_rows perm (reorder_cols NaN perm W)).
  assert (HR1 : rect (reorder_cols NaN perm W) N N) by (apply reorder_cols_rect; auto).
  assert (HR2 : rect (reorder_rows perm (reorder_cols NaN perm W)) N N) by (apply reorder_rows_rect; auto).
  split; [rewrite map_map; exact H2|]. split; auto. split; auto. intros i j Hi Hj.
  assert (Hi' : (nth i perm 0 < N)%nat) by (apply (index_perm_lt perm N); auto).
  assert (Hj' : (nth j perm 0 < N)%nat) by (apply (index_perm_lt perm N); auto).
  rewrite (mget_indep (Fin 0) NaN _ N N), (mget_indep (Fin 0) NaN W N N) by auto.
  unfold mget at 1. rewrite (reorder_rows_row perm _ N) by auto.
  fold (mget NaN (reorder_cols NaN perm W) (nth i perm 0%nat) j). apply (reorder_cols_get NaN perm W N N); auto.
Qed.

Lemma wm_both_raises perm kt ratio bw nc Ds N :
  valid_distances Ds N N -> (0 < N)%nat -> index_permutation perm N ->
  raises (weight_matrix_from_distance (map A2 Ds) kt ratio bw nc) ->
  raises (weight_matrix_from_distance (map A2 (map (reorder_both perm) Ds)) kt ratio bw nc).
Proof.
  intros HV HN Hp. destruct ratio as [|q|l]; [|intros _; apply ratio_raises; discriminate|intros _; apply ratio_raises; discriminate].
  apply (wm_success_shape Ds _ kt bw nc N N HV); auto; [|rewrite map_length; auto]. apply both_valid; auto.
Qed.

Section FromPoints.
  Variable est : Type.
  Variable fit_est : nat -> matrix R -> list R -> list ext -> result est.
  Variable predict_est : est -> matrix R -> result (list R).
  Variable G : Type.
  Variable choice : G -> list nat -> nat -> G * list nat.
  Variable cpu : nat.
  Variable f32 : R -> R.
  Variable mkw : Type.
  Variable no_kw : mkw.
  Variable sm : string -> option (mkw -> list R -> list R -> R).
  Variable dm : string -> option (list R -> list R -> R).
  Variable sr : list R -> list R.
  Variable dargs : Type.
  Variable truthy : dargs -> bool.
  Notation dms := (distance_matrices f32 mkw no_kw sm).
  Notation pw a := (points_weights f32 mkw no_kw sm dm sr dargs truthy a None).
  Notation FIT a := (fit est fit_est predict_est G choice cpu (pw a)).
  Notation st o := (o_state est G o).

  Lemma pw_ok a fs v Ds : dms v (Some v) (a_measure a) None = Ok (map A2 Ds) ->
    pw a fs v v = (fs, w <- weight_matrix_from_distance (map A2 Ds) (a_kernel a) (a_ratio a) (a_bandwidth a) (a_count a) ;; Ok (WDense w)).
  Proof. intros H. unfold points_weights, weight_matrix_from_points. rewrite H. reflexivity. Qed.

  Lemma fit_wm_raises a c order g fs s0 X y v : raises (snd (pw a fs v v)) ->
    raises (o_result est G (FIT a c order g fs s0 X y (Some v) None)).
  Proof.
    intros [e He]. unfold fit. destruct (check_X_y X y) as [u|e']; [|eexists; reflexivity].
    destruct (pw a fs v v) as [f r]. simpl in He. subst r. eexists; reflexivity.
  Qed.

  (** C126 *)
  Lemma fit_from_points a c order g fs s0 X y v Ds W N :
    valid_choice choice -> (0 < cpu)%nat -> length X = N -> (0 < N)%nat ->
    dms v (Some v) (a_measure a) None = Ok (map A2 Ds) -> valid_distances Ds N N -> a_ratio a = RNone ->
    weight_matrix_from_distance (map A2 Ds) (a_kernel a) RNone (a_bandwidth a) (a_count a) = Ok W ->
    sample_local_rate c = None -> schedule (num_tasks cpu c N) order ->
    let o := FIT a c order g fs s0 X y (Some v) None in
    exists raw : nat -> nat -> nat -> R,
      (forall dim i j, (dim < length Ds)%nat -> (i < N)%nat -> (j < N)%nat ->
         exists k p, requests (a_kernel a) (a_bandwidth a) (a_count a) dim k p /\ raw_weight k p (nth dim Ds []) i j (raw dim i j)) /\
      let product i j := Rprod (tabulate (length Ds) (fun dim => raw dim i j)) in
      let total i := Rsum (tabulate N (product i)) in
      forall ps, o_result est G o = Ok tt /\ local_predict_ est (st o) = Some ps <->
        valid_data X y /\ valid_jobs c /\ (2 <= N)%nat /\ length ps = N /\
        forall i, (i < N)%nat -> exists T e, StronglySorted lt T /\
          (forall j, In j T <-> (j < N)%nat /\ ~ (leave_local_out c = true /\ j = i) /\ forall dim, (dim < length Ds)%nat -> raw dim i j <> 0) /\
          fit_est i (map (fun j => nth j X []) T) (map (fun j => nth j y 0) T) (map (fun j => Fin (product i j / total i)) T) = Ok e /\
          predict_est e [nth i X []] = Ok [nth i ps 0].
  Proof.
    intros Hch Hcpu HX HN HD HV Hr HW Hs HS o.
    destruct (wm_product _ _ _ _ _ _ _ HV HN HW) as [HR [raw [Hraw Hp]]]. exists raw. split; auto.
    intros product total ps.
    assert (Hf : in_force (pw a) fs (Some v) None (WDense W)).
    { right. split; auto. exists v. split; auto. rewrite (pw_ok a fs v Ds HD), Hr, HW. reflexivity. }
    assert (Hh : holds (WDense W) W N) by (split; auto).
    pose proof (fit_all_locations est fit_est predict_est G choice cpu (pw a) c order g fs s0 X y (Some v) None (WDense W) W N Hch Hcpu HX Hf Hh Hs HS ps) as F.
    fold o in F. rewrite F. clear F.
    assert (HT : forall i, (i < N)%nat -> forall j, In j (training_set (leave_local_out c) W N i) <->
              (j < N)%nat /\ ~ (leave_local_out c = true /\ j = i) /\ forall dim, (dim < length Ds)%nat -> raw dim i j <> 0).
    { intros i Hi j. unfold training_set. rewrite filter_In, in_seq, Bool.negb_true_iff. unfold used_weight.
      split.
      - intros [Hj Hz]. split; [lia|]. destruct (leave_local_out c) eqn:Elo; cbn [andb] in Hz.
        + destruct (Nat.eqb_spec i j) as [->|Hne]; [cbn in Hz; unfold Reqb in Hz; destruct (Req_EM_T 0 0); [discriminate|congruence]|].
          split; [intros [_ ->]; congruence|]. apply (Hp i j Hi ltac:(lia)). rewrite (mget_indep NaN (Fin 0) W N N) by (auto; lia).
          intros E. rewrite E in Hz. cbn in Hz. unfold Reqb in Hz. destruct (Req_EM_T 0 0); [discriminate|congruence].
        + split; [intros [? _]; discriminate|]. apply (Hp i j Hi ltac:(lia)). rewrite (mget_indep NaN (Fin 0) W N N) by (auto; lia).
          intros E. rewrite E in Hz. cbn in Hz. unfold Reqb in Hz. destruct (Req_EM_T 0 0); [discriminate|congruence].
      - intros (Hj & Hlo & Hnz). split; [lia|].
        assert (E : leave_local_out c && (i =? j)%nat = false).
        { destruct (leave_local_out c); auto. simpl. apply Nat.eqb_neq. intros ->. apply Hlo. auto. }
        rewrite E. destruct (Hp i j Hi Hj) as [Hv Hi2]. cbv zeta in Hv, Hi2. apply Hi2 in Hnz. rewrite (mget_indep NaN (Fin 0) W N N) in Hv, Hnz by auto.
        rewrite Hv in Hnz |- *. revert Hnz. match goal with |- Fin ?q <> _ -> _ => generalize q end. intros q Hnz. cbn. unfold Reqb.
        destruct (Req_EM_T q 0); [congruence|reflexivity]. }
    assert (HU : forall i, (i < N)%nat -> forall j, In j (training_set (leave_local_out c) W N i) -> used_weight (leave_local_out c) W i j = Fin (product i j / total i)).
    { intros i Hi j Hj. pose proof Hj as Hj0. apply (HT i Hi) in Hj as (Hj & Hlo & Hnz). unfold used_weight.
      assert (E : leave_local_out c && (i =? j)%nat = false).
      { destruct (leave_local_out c); auto. simpl. apply Nat.eqb_neq. intros ->. apply Hlo. auto. }
      rewrite E. destruct (Hp i j Hi Hj) as [Hv Hi2]. cbv zeta in Hv, Hi2. apply Hi2 in Hnz. rewrite (mget_indep NaN (Fin 0) W N N) in Hv, Hnz by auto.
      rewrite Hv in Hnz |- *. unfold total. fold (product i). change (fun j' => product i j') with (product i).
      destruct (Req_EM_T _ 0) as [Z|Z]; [congruence|reflexivity]. }
    assert (HL : forall i e, (i < N)%nat -> local_model fit_est X y (leave_local_out c) W N i e <->
       let T := training_set (leave_local_out c) W N i in
       fit_est i (map (fun j => nth j X []) T) (map (fun j => nth j y 0) T) (map (fun j => Fin (product i j / total i)) T) = Ok e).
    { intros i e Hi. unfold local_model. cbv zeta. rewrite (map_ext_in _ _ _ (HU i Hi)). reflexivity. }
    split; intros (H1 & H2 & H3 & H4 & H5); (split; [exact H1|]); (split; [exact H2|]); (split; [exact H3|]); (split; [exact H4|]); intros i Hi.
    - destruct (H5 i Hi) as (e & He & Hpe). apply (HL i e Hi) in He. eexists _, e. split; [apply filter_sorted, seq_sorted|].
      split; [exact (HT i Hi)|]. auto.
    - destruct (H5 i Hi) as (T & e & Hso & HTT & He & Hpe). exists e. split; auto. apply (HL i e Hi). cbv zeta.
      assert (ET : training_set (leave_local_out c) W N i = T).
      { apply StronglySorted_lt_ext; [apply filter_sorted, seq_sorted|auto|]. intros j. rewrite (HT i Hi). symmetry. apply HTT. }
      rewrite ET. exact He.
  Qed.

  (** C127 *)
  Lemma fit_points_reordered perm a c order order' g g' fs fs' s0 s0' X y v Ds N :
    order_blind fit_est predict_est -> index_permutation perm N ->
    valid_choice choice -> (0 < cpu)%nat -> length X = N -> length y = N -> (0 < N)%nat ->
    Forall (fun p => exists d, rect p N d) v ->
    dms v (Some v) (a_measure a) None = Ok (map A2 Ds) -> valid_distances Ds N N ->
    sample_local_rate c = None -> schedule (num_tasks cpu c N) order -> schedule (num_tasks cpu c N) order' ->
    let o := FIT a c order g fs s0 X y (Some v) None in
    let o' := FIT a c order' g' fs' s0' (reorder [] perm X) (reorder 0 perm y) (Some (map (reorder [] perm) v)) None in
    (o_result est G o = Ok tt <-> o_result est G o' = Ok tt) /\
    (o_result est G o = Ok tt -> exists ps, local_predict_ est (st o) = Some ps /\ local_predict_ est (st o') = Some (reorder 0 perm ps) /\
       llocv_score_ est (st o) = llocv_score_ est (st o')).
  Proof.
    intros Hb Hp Hch Hcpu HX Hy HN Hv HD HV Hs HS HS' o o'.
    pose proof (dms_reorder f32 mkw no_kw sm perm N v (a_measure a) Ds Hp HN Hv HD) as HD'.
    destruct (weight_matrix_from_distance (map A2 Ds) (a_kernel a) (a_ratio a) (a_bandwidth a) (a_count a)) as [W|e] eqn:EW.
    - assert (Hr : a_ratio a = RNone).
      { destruct (a_ratio a) as [|q|l]; auto; [destruct (ratio_raises (map A2 Ds) (a_kernel a) (RScal q) (a_bandwidth a) (a_count a)) as [e He]|
                                            destruct (ratio_raises (map A2 Ds) (a_kernel a) (RList l) (a_bandwidth a) (a_count a)) as [e He]]; try discriminate; congruence. }
      rewrite Hr in EW. destruct (wm_both perm _ _ _ Ds N W HV HN Hp EW) as (W' & EW' & HR & HR' & HWW).
      apply (fit_reordered est fit_est predict_est G choice cpu Hb perm N Hp (pw a) (pw a) c order order' g g' fs fs' s0 s0' X y (Some v) (Some (map (reorder [] perm) v)) None None
               (WDense W) (WDense W') W W'); auto; try (split; auto).
      + right. split; auto. exists v. split; auto. rewrite (pw_ok a fs v Ds HD), Hr, EW. reflexivity.
      + right. split; auto. exists (map (reorder [] perm) v). split; auto. rewrite (pw_ok a fs' _ _ HD'), Hr, EW'. reflexivity.
    - assert (R1 : raises (o_result est G o)).
      { apply fit_wm_raises. rewrite (pw_ok a fs v Ds HD), EW. eexists; reflexivity. }
      assert (R2 : raises (o_result est G o')).
      { apply fit_wm_raises. rewrite (pw_ok a fs' _ _ HD').
        destruct (wm_both_raises perm (a_kernel a) (a_ratio a) (a_bandwidth a) (a_count a) Ds N HV HN Hp) as [e' He']; [eexists; exact EW|].
        rewrite He'. eexists; reflexivity. }
      destruct R1 as [e1 R1], R2 as [e2 R2]. rewrite R1, R2. split; [split; discriminate|discriminate].
  Qed.

  (** C128 *)
  Lemma fit_units ss a bw' c order g fs fs' s0 X y v v' Ds N :
    Forall (fun s => 0 < s) ss -> length ss = length Ds -> rescaled_bandwidth ss (a_bandwidth a) bw' ->
    (0 < N)%nat -> valid_distances Ds N N ->
    dms v (Some v) (a_measure a) None = Ok (map A2 Ds) ->
    dms v' (Some v') (a_measure a) None = Ok (map A2 (rescaled ss Ds)) ->
    let a' := WmArgs (a_measure a) (a_kernel a) (a_ratio a) bw' (a_count a) in
    let o := FIT a c order g fs s0 X y (Some v) None in
    let o' := FIT a' c order g fs' s0 X y (Some v') None in
    o_result est G o = Ok tt ->
    o_result est G o' = Ok tt /\ o_gen est G o = o_gen est G o' /\
    weight_matrix_ est (st o) = weight_matrix_ est (st o') /\
    neighbour_matrix_ est (st o) = neighbour_matrix_ est (st o') /\
    local_indices_ est (st o) = local_indices_ est (st o') /\
    local_estimators est (st o) = local_estimators est (st o') /\
    local_predict_ est (st o) = local_predict_ est (st o') /\
    llocv_score_ est (st o) = llocv_score_ est (st o') /\
    local_residual_ est (st o) = local_residual_ est (st o').
  Proof.
    intros Hss HL Hbw HN HV HD HD' a' o o' Hok.
    assert (E : snd (pw a fs v v) = snd (pw a' fs' v' v')).
    { rewrite (pw_ok a fs v Ds HD), (pw_ok a' fs' v' _ HD'). unfold a'; cbn [a_kernel a_ratio a_bandwidth a_count a_measure snd].
      destruct (weight_matrix_from_distance (map A2 Ds) (a_kernel a) (a_ratio a) (a_bandwidth a) (a_count a)) as [W|e] eqn:EW.
      - assert (Hr : a_ratio a = RNone).
        { destruct (a_ratio a) as [|q|l]; auto; [destruct (ratio_raises (map A2 Ds) (a_kernel a) (RScal q) (a_bandwidth a) (a_count a)) as [e He]|
                                            destruct (ratio_raises (map A2 Ds) (a_kernel a) (RList l) (a_bandwidth a) (a_count a)) as [e He]]; try discriminate; congruence. }
        rewrite Hr in EW |- *. rewrite (wm_rescaled ss _ _ bw' _ Ds N N W Hss HL Hbw HV HN EW). reflexivity.
      - exfalso. destruct (fit_wm_raises a c order g fs s0 X y v) as [e' He'].
        + rewrite (pw_ok a fs v Ds HD), EW. eexists; reflexivity.
        + fold o in He'. congruence. }
    pose proof (fit_same_weights est fit_est predict_est G choice cpu (pw a) (pw a') c order g fs fs' s0 X y v v' E) as H.
    cbv zeta in H. fold o in H. fold o' in H. destruct H as (H1 & H). split; [congruence|]. exact H.
  Qed.
End FromPoints.

(** Euclidean distances of moved points. *)
Lemma euclid_scale s p q : 0 <= s -> euclid (map (Rmult s) p) (map (Rmult s) q) = s * euclid p q.
Proof.
  intros Hs. unfold euclid.
  assert (E : Rsum (map2 (fun a b => (a - b) * (a - b)) (map (Rmult s) p) (map (Rmult s) q)) = s * s * Rsum (map2 (fun a b => (a - b) * (a - b)) p q)).
  { revert q. induction p as [|x p IH]; intros [|y q]; simpl map; simpl map2; rewrite ?Rsum_nil; try (unfold Rsum; simpl; ring).
    rewrite !Rsum_cons, IH. ring. }
  rewrite E. rewrite sqrt_mult_alt by nra. rewrite sqrt_square by auto. reflexivity.
Qed.

Ltac ml := unfold coords, matrix in *; lia.

Lemma moved_distances mkw no_kw sm (v : list (matrix R)) moves N Ds :
  length moves = length v -> (0 < N)%nat ->
  (forall dim, (dim < length v)%nat -> exists d, rect (nth dim v []) N d /\ 0 < fst (nth dim moves (1, [])) /\ length (snd (nth dim moves (1, []))) = d) ->
  distance_matrices (fun x => x) mkw no_kw sm v (Some v) (Scalar "euclidean") None = Ok (map A2 Ds) ->
  distance_matrices (fun x => x) mkw no_kw sm (moved moves v)
    (Some (moved moves v)) (Scalar "euclidean") None
  = Ok (map A2 (rescaled (map fst moves) Ds)).
Proof.
  intros HL HN HM H. apply dms_iff in H as (H1 & H2 & H). rewrite map_length in H1.
  set (v' := moved moves v). assert (HLv : length v' = length v) by (unfold v', moved; rewrite map2_length_min; ml).
  assert (Hml : forall n, (n <= length (metric_list n (Scalar "euclidean")))%nat) by (intros n; simpl; rewrite repeat_length; ml).
  apply dms_iff. unfold coords, matrix in *. rewrite HLv, map_length. split.
  { unfold rescaled. rewrite map2_length_min, map_length. ml. }
  split; [apply Hml|]. intros dim Hd. specialize (H dim Hd). destruct (HM dim Hd) as (d & HR & Hs & Ht).
  assert (Em : nth dim (metric_list (length v) (Scalar "euclidean")) "" = "euclidean").
  { simpl. rewrite (nth_indep _ "" "euclidean") by (rewrite repeat_length; auto). apply nth_repeat. }
  rewrite Em in *.
  assert (Ev : nth dim v' [] = moved_points (fst (nth dim moves (1, []))) (snd (nth dim moves (1, []))) (nth dim v [])).
  { unfold v', moved. apply (map2_nth (fun (move : R * list R) (p : list (list R)) => moved_points (fst move) (snd move) p) moves v dim (1, []) [] []); ml. }
  set (s := fst (nth dim moves (1, []))) in *. set (t := snd (nth dim moves (1, []))) in *. set (p := nth dim v []) in *.
  assert (HLp : length p = N) by apply HR.
  assert (HR' : rect (moved_points s t p) N d).
  { unfold moved_points. split; [rewrite map_length; auto|]. destruct HR as [_ HF]. rewrite Forall_forall in *. intros x Hx.
    apply in_map_iff in Hx as [q [<- Hq]]. unfold shift. rewrite map2_length_min, map_length, (HF q Hq). ml. }
  rewrite Ev. rewrite (distance_matrix_euclid _ mkw sm _ _ no_kw d); [|rewrite (proj1 HR'); auto|rewrite (proj1 HR'); auto|rewrite (proj1 HR'); auto|rewrite (proj1 HR'); auto].
  rewrite (distance_matrix_euclid _ mkw sm _ _ no_kw d) in H; [|rewrite HLp; auto|rewrite HLp; auto|rewrite HLp; auto|rewrite HLp; auto].
  rewrite !mmap_id in *. f_equal.
  rewrite (nth_map_in A2 _ dim (@nil (list R))) by (unfold rescaled; rewrite map2_length_min, map_length; ml).
  rewrite (nth_map_in A2 _ dim (@nil (list R))) in H by (ml). injection H as H.
  f_equal. rewrite rescaled_nth by (rewrite ?map_length; ml).
  rewrite (nth_map_in fst moves dim (1, [])) by ml. fold s. rewrite <- H.
  unfold cdist, moved_points, mmap. rewrite !map_map. apply map_ext_in. intros x Hx. rewrite !map_map. apply map_ext_in. intros z Hz.
  destruct HR as [_ HF]. rewrite Forall_forall in HF.
  pose proof (HF x Hx) as Lx. pose proof (HF z Hz) as Lz.
  rewrite euclid_shift by (rewrite map_length; congruence). apply euclid_scale. lra.
Qed.
