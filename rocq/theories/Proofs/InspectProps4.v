From Coq Require Import Lra Psatz Sorting.Sorted.
From Verif.Model Require Import Base Ext Sort Csr Neighbour Distance WeightModel Inspect.
From Verif.Spec Require Import KernelSpec NeighbourSpec WeightModelSpec InspectSpec.
From Verif.Proofs Require Import ListFacts SumFacts KernelFacts CsrFacts NeighbourFacts NeighbourProps WeightModelFacts WeightModelProps FitProps PredictProps StackingFacts InspectProps InspectProps2 InspectProps3 FitExamples.
Open Scope nat_scope.
Open Scope R_scope.

Lemma bc_some F r : F = r \/ F = 1%nat \/ r = 1%nat -> exists d d', bc_dim F r = Some d /\ bc_dim r F = Some d'.
Proof.
  intros H. unfold bc_dim.
  destruct (Nat.eqb_spec F r); destruct (Nat.eqb_spec r F); destruct (Nat.eqb_spec F 1); destruct (Nat.eqb_spec r 1); try lia; eauto.
Qed.

Section Succeeds.
  Variable est : Type.
  Variable predict_est : est -> matrix R -> result (list R).
  Variable G : Type.
  Variable permute : G -> list nat -> G * list nat.
  Hypothesis Hperm : valid_permute permute.
  Notation imp := (importance_score_global est predict_est G permute).
  Notation inter := (interaction_score_global est predict_est G permute).
  Notation acc := (permutation_score_decrease_ est).

  Lemma permute_pair_ok X N F a b g : rect X N F -> (a < F)%nat -> (b < F)%nat ->
    exists Xp, snd (permute_pair G permute X N a b g) = Ok Xp /\ rect Xp N F.
  Proof.
    intros HX Ha Hb. unfold permute_pair. destruct (permute g (seq 0 N)) as [g1 p1] eqn:E1. destruct (permute g1 p1) as [g2 p2] eqn:E2. cbn [snd].
    assert (P1 : Permutation p1 (seq 0 N)) by (specialize (Hperm g (seq 0 N)); rewrite E1 in Hperm; exact Hperm).
    assert (P2 : Permutation p2 (seq 0 N)) by (eapply Permutation_trans; [|exact P1]; specialize (Hperm g1 p1); rewrite E2 in Hperm; exact Hperm).
    pose proof (Permutation_length P1) as L1. pose proof (Permutation_length P2) as L2. rewrite seq_length in L1, L2.
    rewrite (mapM_all_ok _ (fun i => list_set (list_set (nth i X []) a (mget 0 X (nth i p1 0%nat) a)) b (mget 0 X (nth i p2 0%nat) b))).
    - eexists. split; [reflexivity|]. split; [rewrite map_length, seq_length; auto|]. apply Forall_forall. intros row Hin. apply in_map_iff in Hin as (i & <- & Hi).
      apply in_seq in Hi. rewrite !list_set_length. apply (rect_row X N F); auto. lia.
    - intros i Hi. apply in_seq in Hi. destruct HX as [HXl HXr].
      rewrite (getitem_lt (@nil R)) by lia. cbn [bind]. rewrite (getitem_lt 0%nat) by lia. cbn [bind].
      rewrite (getitem_lt (@nil R)) by (rewrite HXl; apply (perm_lt N); auto; lia). cbn [bind].
      rewrite (getitem_lt 0) by (rewrite (rect_row X N F); [auto|split; auto|apply (perm_lt N); auto; lia]). cbn [bind].
      rewrite (getitem_lt 0%nat) by lia. cbn [bind].
      rewrite (getitem_lt (@nil R)) by (rewrite HXl; apply (perm_lt N); auto; lia). cbn [bind].
      rewrite (getitem_lt 0) by (rewrite (rect_row X N F); [auto|split; auto|apply (perm_lt N); auto; lia]). reflexivity.
  Qed.

  Notation predicts := (InspectSpec.predicts predict_est).

  Lemma pair_trial_ok X y es llocv N F a b g : rect X N F -> (2 <= N)%nat -> length y = N -> length es = N ->
    (forall e, In e es -> predicts F e) -> (a < F)%nat -> (b < F)%nat ->
    exists v, snd (pair_trial est predict_est G permute X y (map Some es) llocv N a b g) = Ok v.
  Proof.
    intros HX HN Hy Hes HE Ha Hb. unfold pair_trial. destruct (permute_pair_ok X N F a b g HX Ha Hb) as (Xp & E & HR).
    destruct (permute_pair G permute X N a b g) as [g' q]. cbn [snd] in *. subst q. cbn [bind].
    assert (HP : exists p, mapM (fun ex : option est * list R => e <- match fst ex with Some e => Ok e | None => Raise AttributeError end ;; predict_est e [snd ex]) (combine (map Some es) Xp)
      = Ok (map (fun x => [x]) p) /\ length p = N).
    { assert (HL : length es = length Xp) by (destruct HR; lia). clear -HE HR HL Hes. destruct HR as [_ HR]. rewrite <- Hes. clear Hes. revert Xp HR HL. induction es as [|e es IH]; intros [|x Xp] HR HL; simpl in HL; try lia.
      - exists []. auto.
      - inversion HR as [|? ? Hx HR']; subst. destruct (IH (fun e' H' => HE e' (or_intror H')) Xp HR') as (p & Hp & HLp); [lia|].
        destruct (HE e (or_introl eq_refl) [x]) as (q & Hq & HLq); [constructor; auto|]. destruct q as [|v [|? ?]]; simpl in HLq; try lia.
        exists (v :: p). simpl. rewrite Hq. cbn [bind]. simpl in Hp. rewrite Hp. cbn [bind]. simpl. auto. }
    destruct HP as (p & -> & HLp). cbn [bind].
    assert (Hsq : squeeze (map (fun x => [x]) p) = Ok p).
    { unfold squeeze. rewrite mapM_map, (mapM_all_ok _ (fun x => x)) by reflexivity. rewrite map_id. cbn [bind]. destruct p as [|? [|? ?]]; simpl in HLp; try lia. reflexivity. }
    rewrite Hsq. cbn [bind]. unfold decrease. destruct (r2_total y p) as [v ->]; [lia|lia|]. cbn [bind]. eauto.
  Qed.

  Lemma trials_of_ok f r : (forall g, exists v, snd (f g) = Ok v) -> forall g, exists l, snd (trials_of G f g r) = Ok l.
  Proof.
    intros Hf. induction r as [|r IH]; intros g; simpl; [eauto|]. destruct (Hf g) as [v Hv]. destruct (f g) as [g1 x]. simpl in Hv. subst x.
    destruct (IH g1) as [l Hl]. destruct (trials_of G f g1 r) as [g2 xs]. simpl in Hl |- *. subst xs. simpl. eauto.
  Qed.

  Lemma pair_loop_ok f ps : (forall p g, In p ps -> exists v, snd (f p g) = Ok v) -> forall g, exists l, snd (pair_loop G f g ps) = Ok l.
  Proof.
    induction ps as [|p ps IH]; intros Hf g; simpl; [eauto|]. destruct (Hf p g (or_introl eq_refl)) as [v Hv]. destruct (f p g) as [g1 x]. simpl in Hv. subst x.
    destruct (IH (fun q g H => Hf q g (or_intror H)) g1) as [l Hl]. destruct (pair_loop G f g1 ps) as [g2 xs]. simpl in Hl |- *. subst xs. simpl. eauto.
  Qed.

  Lemma pairs_bound F p : In p (pairs F) -> (fst p < F)%nat /\ (snd p < F)%nat.
  Proof.
    unfold pairs. intros H. apply in_concat in H as (l & Hl & Hp). apply in_map_iff in Hl as (a & <- & Ha). apply in_seq in Ha.
    apply in_map_iff in Hp as (b & <- & Hb). apply in_seq in Hb. simpl. lia.
  Qed.

  Lemma row_means_fin m : Forall (fun row => row <> []) m -> exists s, mapM (fun v => match v with Fin x => Ok x | _ => Raise ValueError end) (row_means m) = Ok s /\ length s = length m.
  Proof.
    intros H. exists (map mean m). split; [|apply map_length]. unfold row_means. rewrite mapM_map. apply mapM_all_ok. intros row Hin.
    rewrite Forall_forall in H. specialize (H row Hin). unfold emean. destruct row; [congruence|reflexivity].
  Qed.

  Lemma interaction_returns c s X y es N F score g r buffer :
    fitted_model s X y es N F score -> cache_data c = true -> cache_estimator c = true ->
    (forall e, In e es -> predicts F e) ->
    (forall o, acc s = Some o -> length o = F /\ Forall (fun row => row <> []) o) -> interaction_matrix_ est s = None ->
    F = r \/ F = 1%nat \/ r = 1%nat ->
    exists m, snd (inter c buffer s g r) = Ok m.
  Proof.
    intros HM C1 C2 HE Ho Hi Hd. pose proof HM as (H1 & H2 & H3 & H4 & H5 & H6 & H7 & H8 & H9 & H10 & H11).
    unfold interaction_score_global. rewrite C1, C2. cbn [negb orb].
    set (q := match acc s with Some _ => _ | None => _ end).
    assert (Hq : exists m, match snd q with Ok _ => True | Raise _ => False end /\ acc (fst (fst q)) = Some m /\ length m = F /\ Forall (fun row => row <> []) m /\
      fitted_model (fst (fst q)) X y es N F score /\ interaction_matrix_ est (fst (fst q)) = None).
    { unfold q. destruct (acc s) as [o|] eqn:Ea.
      - exists o. cbn [fst snd]. destruct (Ho o eq_refl). repeat split; auto; apply H7.
      - destruct (importance_succeeds est predict_est G permute Hperm c s X y es N F score g 5 HM C1 C2 ltac:(lia)) as [out Hout].
        + intros e rows He _ Hr. apply HE; auto.
        + rewrite Ea. discriminate.
        + destruct (imp c s g 5) as [[s1 g1] w] eqn:E. cbn [fst snd] in *. subst w.
          pose proof E as E0. apply importance_inv in E as (t & m & _ & _ & Ht & Hb & -> & _). rewrite Ea in Hb. simpl in Hb. subst m.
          exists t. split; [exact I|]. split; [reflexivity|].
          destruct (trials_ok est predict_est G permute Hperm _ _ _ _ _ _ _ _ _ _ _ HM Ht) as (_ & _ & _ & _ & [T1 T2] & _).
          split; auto. split; [eapply Forall_impl; [|exact T2]; intros row Hr Hn; subst row; discriminate|].
          split; [|exact Hi]. unfold fitted_model. cbn [set_importance n_obs n_features_in data_X data_y local_estimators llocv_score_]. repeat split; auto; apply H7. }
    destruct q as [[s1 g1] first]. cbn [fst snd] in Hq. destruct Hq as (m & Hf & Hm & HLm & Hne & (K1 & K2 & K3 & K4 & K5 & K6 & K7 & K8 & K9 & K10 & K11) & Hi1).
    destruct first as [ff|]; [|contradiction]. cbn [bind]. rewrite Hm, K1, K2, K3, K4, K5. cbn [need bind]. unfold need_score. rewrite K11. cbn [need bind].
    destruct (row_means_fin m Hne) as (single & -> & HLs). cbn [bind].
    set (ff2 := fun (p : nat * nat) (g : G) => _).
    destruct (pair_loop_ok ff2 (pairs F)) with (g := g1) as [vals Hv].
    { intros p g0 Hp. apply pairs_bound in Hp as [P1 P2]. unfold ff2.
      destruct (trials_of_ok (pair_trial est predict_est G permute X y (map Some es) score N (fst p) (snd p)) r) with (g := g0) as [l Hl].
      - intros g2. apply (pair_trial_ok X y es score N F); auto.
      - destruct (trials_of _ _ _ _) as [g3 xs]. cbn [snd] in *. subst xs. cbn [bind]. rewrite (getitem_lt 0) by lia. cbn [bind]. rewrite (getitem_lt 0) by lia. cbn [bind]. eauto. }
    destruct (pair_loop G ff2 g1 (pairs F)) as [g2 vv]. cbn [snd] in Hv. subst vv. cbn [bind]. rewrite Hi1.
    unfold plus_transpose. destruct (bc_some F r Hd) as (d & d' & -> & ->). cbn [bind]. eexists. reflexivity.
  Qed.
End Succeeds.

(** ** the weight attributes *)
Section Attr.
  Variable est : Type.
  Variable fit_est : nat -> matrix R -> list R -> list ext -> result est.
  Variable predict_est : est -> matrix R -> result (list R).
  Variable G : Type.
  Variable choice : G -> list nat -> nat -> G * list nat.
  Variable cpu : nat.
  Variable wm : filesystem -> list coords -> list coords -> filesystem * result weights.
  Notation FIT := (fit est fit_est predict_est G choice cpu wm).

  Lemma fit_weight_attributes c order g fs s0 X y coords given W N :
    in_force wm fs coords given (WDense W) -> rect W N N ->
    o_result est G (FIT c order g fs s0 X y coords given) = Ok tt ->
    exists W', fitted_weights (o_state est G (FIT c order g fs s0 X y coords given)) W' N /\
      forall i j, (i < N)%nat -> (j < N)%nat -> mget (Fin 0) W' i j = used_weight (leave_local_out c) W i j.
  Proof.
    intros Hf HR Hok. destruct (fit_inv _ _ _ _ _ _ _ _ _ _ _ _ _ _ _ _ Hok) as (w1 & g1 & l1 & preds & es1 & p1 & sc1 & _ & Hf1 & _ & _ & _ & _ & Eq).
    assert (w1 = WDense W) by (eapply in_force_fun; eauto). subst w1. rewrite Eq.
    exists (effective_weights (leave_local_out c) W). pose proof (effective_weights_rect (leave_local_out c) W N HR) as HR'. split.
    - split; auto. cbn [o_state weight_matrix_ neighbour_matrix_].
      assert (EW : (if leave_local_out c then clear_diagonal (WDense W) else WDense W) = WDense (effective_weights (leave_local_out c) W)) by (destruct (leave_local_out c); reflexivity).
      rewrite EW. split; auto. exists (mmap ext_positive (effective_weights (leave_local_out c) W)). split; auto. split; [apply rect_mmap; auto|].
      intros i j Hi Hj. rewrite (mmap_get _ _ (Fin 0) _ N N) by auto. apply ext_positive_eq.
    - intros i j Hi Hj. unfold used_weight. rewrite (effective_weights_get (leave_local_out c) W N) by auto. reflexivity.
  Qed.
End Attr.

(** ** Example: a model with an offset *)
Definition off_fit (c : nat) (X : matrix R) (y : list R) (w : list ext) : result R :=
  if (length y =? 0)%nat then Raise ValueError else Ok (mean (map2 (fun x v => v - nth 0 x 0) X y)).
Definition off_predict (e : R) (X : matrix R) : result (list R) := Ok (map (fun x => e + nth 0 x 0) X).
Definition iX : matrix R := [[0; 5]; [1; 6]; [2; 4]].
Definition fit_off := fit R off_fit off_predict nat first_choice 2 no_wm.
Definition rot_permute (g : nat) (l : list nat) : nat * list nat := (Datatypes.S g, match l with [] => [] | x :: t => t ++ [x] end)%list.

Lemma rot_permute_valid : valid_permute rot_permute.
Proof. intros g [|x l]; simpl; auto. apply Permutation_sym, Permutation_cons_append. Qed.

Lemma fit_off_any lo s0 order : schedule 2 order ->
  o_result R nat (fit_off (cfg lo None None None) order 0%nat no_fs s0 iX fy None (Some (WDense fW))) = Ok tt.
Proof.
  intros HS. apply (fit_succeeds R off_fit off_predict nat first_choice 2 no_wm _ _ _ _ _ _ _ _ _ (WDense fW) fW 3 first_choice_valid); auto using fW_holds.
  - left. reflexivity.
  - left. reflexivity.
  - split; [exists 2%nat; simpl; split; [split; [reflexivity|repeat constructor]|lia]|]. split; [exact I|]. split; [intros r Hr; discriminate Hr|]. split; [cbv [num_locations sample_local_rate cfg]; lia|].
    intros i Hi. unfold local_model, off_fit. rewrite map_length.
    cbv [drawn sample_local_rate cfg] in Hi. simpl in Hi.
    unfold training_set, used_weight, mget, fW, eis_zero.
    destruct Hi as [<-|[<-|[<-|[]]]]; destruct lo; cbn [seq filter Nat.eqb andb nth cfg leave_local_out]; rdec; cbn [negb length Nat.eqb]; eexists _, _; split; reflexivity.
Qed.

Lemma fit_off_ok lo order : schedule 2 order ->
  o_result R nat (fit_off (cfg lo None None None) order 0%nat no_fs s_init iX fy None (Some (WDense fW))) = Ok tt.
Proof. apply fit_off_any. Qed.

Definition i_state : state R := o_state R nat (fit_off (cfg true None None None) [1; 0]%nat 0%nat no_fs s_init iX fy None (Some (WDense fW))).

Lemma i_state_fitted : exists es score, fitted_model i_state iX fy es 3 2 score /\
  is_r2 fy (map (fun i => nth i es 0 + nth 0 (nth i iX []) 0) (seq 0 3)) score /\
  permutation_score_decrease_ R i_state = None /\ interaction_matrix_ R i_state = None.
Proof.
  pose proof (fit_off_ok true [1; 0]%nat (perm_swap _ _ _)) as Hok.
  destruct (fit_fitted R off_fit off_predict nat first_choice 2 no_wm (cfg true None None None) [1; 0]%nat 0%nat no_fs s_init iX fy None (Some (WDense fW)) (WDense fW) fW 3 first_choice_valid ltac:(lia) eq_refl (or_introl eq_refl) fW_holds (perm_swap _ _ _) eq_refl eq_refl eq_refl Hok)
    as (es & score & F & ps & HM & Hp & Hr & He). fold i_state in HM, Hp.
  assert (F = 2%nat).
  { destruct HM as (_ & _ & _ & _ & _ & _ & HM & _). destruct HM as [_ HM]. inversion HM as [|? ? HF]; subst. reflexivity. }
  subst F. exists es, score. split; auto.
  destruct (fit_results R off_fit off_predict nat first_choice 2 no_wm (cfg true None None None) [1; 0]%nat 0%nat no_fs s_init iX fy None (Some (WDense fW)) (WDense fW) fW 3 first_choice_valid ltac:(lia) eq_refl (or_introl eq_refl) fW_holds (perm_swap _ _ _) Hok)
    as (locs & es1 & ps1 & sc1 & _ & F1 & _ & F3 & _ & _ & _ & _ & _ & _ & F10 & _ & _ & F13 & _). fold i_state in F3. rewrite Hp in F3. injection F3 as <-.
  assert (HLp : length ps = 3%nat) by (rewrite F13, F10; reflexivity).
  assert (E : ps = map (fun i => nth i es 0 + nth 0 (nth i iX []) 0) (seq 0 3)).
  { apply (list_eq_nth 0); [rewrite map_length, seq_length; auto|]. intros i Hi. rewrite HLp in Hi.
    rewrite (nth_map_in _ _ _ 0%nat) by (rewrite seq_length; auto). rewrite seq_nth by auto. rewrite Nat.add_0_l.
    assert (HLe : length es = 3%nat) by apply HM.
    destruct (nth_error es i) as [e|] eqn:Ei; [|apply nth_error_None in Ei; lia].
    destruct (He i e Ei) as [_ Hq]. unfold off_predict in Hq. injection Hq as Hq. rewrite <- Hq. rewrite (nth_error_nth _ _ 0 Ei). reflexivity. }
  rewrite <- E. split; auto. exact (fit_keeps R off_fit off_predict nat first_choice 2 no_wm (cfg true None None None) [1; 0]%nat 0%nat no_fs s_init iX fy None (Some (WDense fW))).
Qed.

Lemma off_predicts F e : predicts off_predict F e.
Proof. intros rows _. eexists. split; [reflexivity|apply map_length]. Qed.

Definition i_cfg : config := cfg true None None None.

Lemma i_importance r : (0 < r)%nat -> exists out, snd (importance_score_global R off_predict nat rot_permute i_cfg i_state 0%nat r) = Ok out.
Proof.
  intros Hr. destruct i_state_fitted as (es & score & HM & _ & Hn & _).
  apply (importance_succeeds R off_predict nat rot_permute rot_permute_valid i_cfg _ _ _ _ _ _ _ _ _ HM eq_refl eq_refl Hr).
  - intros e rows _ _ H. apply (off_predicts 2 e rows H).
  - rewrite Hn. discriminate.
Qed.
