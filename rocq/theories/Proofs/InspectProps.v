From Coq Require Import Lra Psatz Sorting.Sorted.
From Verif.Model Require Import Base Ext Sort Csr Neighbour Distance WeightModel Inspect.
From Verif.Spec Require Import KernelSpec NeighbourSpec WeightModelSpec InspectSpec.
From Verif.Proofs Require Import ListFacts SumFacts KernelFacts CsrFacts NeighbourFacts WeightModelFacts WeightModelProps FitProps PredictProps StackingFacts.
Open Scope nat_scope.
Open Scope R_scope.

Lemma r2_fin y p s : r2_score y p = Ok (Fin s) -> length y = length p /\ (2 <= length y)%nat /\ is_r2 y p s.
Proof.
  unfold r2_score. destruct (Nat.eqb_spec (length y) (length p)) as [E|E]; [|discriminate]. cbn [negb].
  intros H. assert (H2 : (2 <= length y)%nat) by (destruct y as [|a [|b y]]; [discriminate|discriminate|simpl; lia]).
  split; auto. split; auto.
  match type of H with _ = ?r => assert (H' : Ok (Fin (if Reqb (Rsum (map (fun a => (a - mean y) * (a - mean y)) y)) 0 then (if Reqb (Rsum (map2 (fun a b => (a - b) * (a - b)) y p)) 0 then 1 else 0)
             else 1 - Rsum (map2 (fun a b => (a - b) * (a - b)) y p) / Rsum (map (fun a => (a - mean y) * (a - mean y)) y))) = r) end.
  { rewrite <- H. destruct y as [|a [|b y]]; simpl in H2; try lia. reflexivity. }
  injection H' as <-. unfold is_r2. cbv zeta. fold (mean y). 
  generalize (Rsum (map2 (fun a b => (a - b) * (a - b)) y p)). generalize (Rsum (map (fun a => (a - mean y) * (a - mean y)) y)). intros sst sse.
  unfold Reqb. destruct (Req_EM_T sst 0); destruct (Req_EM_T sse 0); repeat split; intros; try contradiction; reflexivity.
Qed.

Lemma r2_total y p : length y = length p -> (2 <= length y)%nat -> exists s, r2_score y p = Ok (Fin s).
Proof.
  intros E H. unfold r2_score. rewrite (proj2 (Nat.eqb_eq _ _) E). cbn [negb]. destruct y as [|a [|b y]]; simpl in H; try lia. eexists; reflexivity.
Qed.

Lemma is_r2_fun y p s s' : is_r2 y p s -> is_r2 y p s' -> s = s'.
Proof.
  unfold is_r2. cbv zeta.
  set (sse := Rsum (map2 _ y p)) in *. set (sst := Rsum (map _ y)) in *. clearbody sse sst.
  intros (A1 & A2 & A3) (B1 & B2 & B3). destruct (Req_dec sst 0); [destruct (Req_dec sse 0)|]; intuition congruence.
Qed.

Lemma emean_is l : is_mean l (emean l).
Proof. unfold is_mean, emean, mean. destruct l; split; intros; congruence || reflexivity. Qed.

Lemma list_set_with_feature x f v : with_feature x f v (list_set x f v).
Proof.
  split; [apply list_set_length|]. intros j Hj. destruct (Nat.eqb_spec j f) as [->|Hn].
  - apply list_set_nth_eq; auto.
  - apply list_set_nth_neq; auto.
Qed.

Lemma mapM_nth {A B} (f : A -> result B) l ys k da db : mapM f l = Ok ys -> (k < length l)%nat -> f (nth k l da) = Ok (nth k ys db).
Proof.
  intros H. apply mapM_ok_iff in H. revert k. induction H; intros [|k] Hk; simpl in *; try lia; auto. apply IHForall2; lia.
Qed.

Lemma div_row r f k : (k < r)%nat -> ((f * r + k) / r = f)%nat.
Proof. intros H. rewrite Nat.add_comm, Nat.div_add by lia. rewrite Nat.div_small by lia. lia. Qed.

Lemma index_lt F r f k : (f < F)%nat -> (k < r)%nat -> (f * r + k < F * r)%nat.
Proof. intros. nia. Qed.

Section Importance.
  Variable est : Type.
  Variable predict_est : est -> matrix R -> result (list R).
  Variable G : Type.
  Variable permute : G -> list nat -> G * list nat.
  Hypothesis Hperm : valid_permute permute.

  Lemma draw_perms_spec k : forall g n g' ps, draw_perms G permute g n k = (g', ps) ->
    length ps = k /\ Forall (fun p => Permutation p (seq 0 n)) ps.
  Proof.
    induction k as [|k IH]; intros g n g' ps H; simpl in H.
    - injection H as <- <-. auto.
    - destruct (permute g (seq 0 n)) as [g1 p] eqn:Ep. destruct (draw_perms G permute g1 n k) as [g2 qs] eqn:Eq. injection H as <- <-.
      apply IH in Eq as [HL HF]. split; [simpl; lia|]. constructor; auto. specialize (Hperm g (seq 0 n)). rewrite Ep in Hperm. exact Hperm.
  Qed.

  Lemma need_ok {A} (o : option A) a : need o = Ok a <-> o = Some a.
  Proof. destruct o; simpl; split; intros H; congruence. Qed.

  Lemma get_est_ok (es : list est) i e : get_est est (map Some es) i = Ok e <-> nth_error es i = Some e.
  Proof.
    unfold get_est, getitem. rewrite nth_error_map. destruct (nth_error es i); simpl; split; intros H; congruence.
  Qed.

  Lemma perm_bijection n p : Permutation p (seq 0 n) -> bijection n (fun i => nth i p 0%nat).
  Proof.
    intros H. unfold bijection. pose proof (Permutation_length H) as HL. rewrite seq_length in HL.
    replace (map (fun i => nth i p 0%nat) (seq 0 n)) with p; auto.
    rewrite (tabulate_of_list 0%nat p) at 1. rewrite HL. reflexivity.
  Qed.

  Lemma perm_lt n p i : Permutation p (seq 0 n) -> (i < n)%nat -> (nth i p 0 < n)%nat.
  Proof.
    intros H Hi. pose proof (Permutation_length H) as HL. rewrite seq_length in HL.
    assert (Hin : In (nth i p 0%nat) p) by (apply nth_In; lia). apply (Permutation_in _ H) in Hin. apply in_seq in Hin. lia.
  Qed.

  (** The rows of one estimator. *)
  Lemma permuted_rows_ok X N F r perms i : rect X N F -> length perms = (F * r)%nat -> Forall (fun p => Permutation p (seq 0 N)) perms ->
    (i < N)%nat ->
    exists rows, permuted_rows X F r perms i = Ok rows /\ length rows = (F * r)%nat /\
      forall f k, (f < F)%nat -> (k < r)%nat ->
        with_feature (nth i X []) f (mget 0 X (nth i (nth (f * r + k) perms []) 0%nat) f) (nth (f * r + k) rows []).
  Proof.
    intros HX HL HP Hi. unfold permuted_rows. destruct HX as [HXl HXr]. rewrite (getitem_lt (@nil R)) by lia. cbn [bind].
    set (fn := fun q : nat => _).
    assert (Hq : forall q, In q (seq 0 (F * r)) ->
      fn q = Ok (list_set (nth i X []) (q / r) (mget 0 X (nth i (nth q perms []) 0%nat) (q / r)))).
    { intros q Hq. apply in_seq in Hq. unfold fn. rewrite (getitem_lt (@nil nat)) by lia. cbn [bind].
      assert (HPq : Permutation (nth q perms []) (seq 0 N)) by (rewrite Forall_forall in HP; apply HP, nth_In; lia).
      pose proof (Permutation_length HPq) as HLq. rewrite seq_length in HLq.
      rewrite (getitem_lt 0%nat) by lia. cbn [bind]. pose proof (perm_lt _ _ _ HPq Hi) as Hj.
      rewrite (getitem_lt (@nil R)) by lia. cbn [bind].
      assert (r <> 0)%nat by (intros ->; lia).
      rewrite (getitem_lt 0); [reflexivity|].
      rewrite (rect_row X N F) by (auto; split; auto). apply Nat.div_lt_upper_bound; lia. }
    rewrite (mapM_all_ok _ _ _ Hq). eexists. split; [reflexivity|]. rewrite map_length, seq_length. split; auto.
    intros f k Hf Hk. pose proof (index_lt F r f k Hf Hk) as Hlt.
    rewrite (nth_map_in _ _ _ 0%nat) by (rewrite seq_length; auto). rewrite seq_nth by auto. rewrite Nat.add_0_l.
    rewrite !div_row by auto. apply list_set_with_feature.
  Qed.

  Notation trials := (importance_trials est predict_est G permute).
  Notation imp := (importance_score_global est predict_est G permute).

  Notation trials_of_model := (InspectSpec.trials_of_model predict_est).

  Lemma trials_ok s X y es N F score g r g' t :
    fitted_model s X y es N F score -> trials s g r = (g', Ok t) -> trials_of_model X y es N F score r t.
  Proof.
    intros (H1 & H2 & H3 & H4 & H5 & H6 & H7 & H8 & H9 & H10 & H11) H. unfold importance_trials in H. rewrite H1, H2 in H.
    destruct (Nat.eqb_spec r 0) as [_|Hr0]; [discriminate|].
    destruct (draw_perms G permute g N (F * r)) as [g1 perms] eqn:Ed. apply draw_perms_spec in Ed as [HpL HpF].
    injection H as <- H. rewrite H3, H4, H5 in H. cbn [need bind] in H.
    apply bind_ok in H as [preds [Hp H]]. unfold need_score in H. rewrite H11 in H. cbn [need bind] in H.
    pose proof (mapM_seq _ _ _ Hp) as [HLp Hpi].
    exists (fun f k i => nth i (nth (f * r + k) perms []) 0%nat), preds. split; [|split; [|split]].
    - intros f k Hf Hk. apply perm_bijection. rewrite Forall_forall in HpF. apply HpF, nth_In. rewrite HpL. apply index_lt; auto.
    - intros i e He. assert (Hi : (i < N)%nat) by (rewrite <- H6; apply nth_error_Some; congruence).
      specialize (Hpi i [] Hi). rewrite (proj2 (get_est_ok es i e) He) in Hpi. cbn [bind] in Hpi.
      destruct (permuted_rows_ok X N F r perms i H7 HpL HpF Hi) as (rows & Er & HLr & Hr). rewrite Er in Hpi. cbn [bind] in Hpi.
      apply bind_ok in Hpi as [p [Hpe Hpi]]. destruct (Nat.eqb_spec (length p) (F * r)) as [E|E]; [|discriminate]. injection Hpi as <-.
      exists rows. repeat split; auto; apply Hr; auto.
    - pose proof (mapM_seq _ _ _ H) as [HLt Ht]. split; auto. apply Forall_forall. intros row Hin.
      apply (In_nth _ _ []) in Hin as (f & Hf & <-). rewrite HLt in Hf. specialize (Ht f [] Hf).
      apply mapM_seq in Ht. tauto.
    - intros f k Hf Hk. pose proof (mapM_seq _ _ _ H) as [HLt Ht]. specialize (Ht f [] Hf).
      apply mapM_seq in Ht as [_ Ht]. specialize (Ht k 0 Hk). cbv beta in Ht. unfold decrease in Ht.
      apply bind_ok in Ht as [v [Hv Ht]]. destruct v; try discriminate. injection Ht as Ht.
      apply r2_fin in Hv as (_ & _ & Hv). unfold mget. rewrite <- Ht.
      replace (score - (score - r0)) with r0 by lra.
      replace (map (fun i => nth (f * r + k) (nth i preds []) 0) (seq 0 N)) with (map (fun row => nth (f * r + k) row 0) preds); auto.
      rewrite (tabulate_of_list [] preds) at 1. unfold tabulate. rewrite map_map, HLp. reflexivity.
  Qed.

  Lemma hconcat_beside o t m : hconcat o t = Ok m <-> beside (Some o) t m.
  Proof.
    unfold hconcat, beside. destruct (Nat.eqb_spec (length o) (length t)); split; intros H; try discriminate.
    - injection H as <-. auto.
    - destruct H as [_ ->]. reflexivity.
    - destruct H. contradiction.
  Qed.

  Lemma importance_inv c s g r s' g' out :
    imp c s g r = (s', g', Ok out) ->
    exists t m, cache_data c = true /\ cache_estimator c = true /\ trials s g r = (g', Ok t) /\
      beside (permutation_score_decrease_ est s) t m /\ s' = set_importance est s m /\ out = row_means m.
  Proof.
    unfold importance_score_global. destruct (cache_data c) eqn:E1; [|simpl; discriminate]. destruct (cache_estimator c) eqn:E2; [|simpl; discriminate].
    cbn [negb orb]. destruct (trials s g r) as [g1 [t|e]] eqn:Et; cbn [bind]; [|discriminate].
    destruct (permutation_score_decrease_ est s) as [o|].
    - destruct (hconcat o t) as [m|e] eqn:Eh; [|discriminate]. intros H. injection H as <- <- <-. apply hconcat_beside in Eh. exists t, m. repeat split; auto; apply Eh.
    - intros H. injection H as <- <- <-. exists t, t. repeat split; auto.
  Qed.

  Lemma row_means_is m : Forall2 is_mean m (row_means m).
  Proof. unfold row_means. induction m; constructor; auto. apply emean_is. Qed.

  Lemma importance_permutes c s X y es N F score g r s' g' out :
    fitted_model s X y es N F score -> imp c s g r = (s', g', Ok out) ->
    exists t m, trials_of_model X y es N F score r t /\
      beside (permutation_score_decrease_ est s) t m /\ permutation_score_decrease_ est s' = Some m /\ Forall2 is_mean m out.
  Proof.
    intros HM H. apply importance_inv in H as (t & m & _ & _ & Ht & Hb & -> & ->).
    exists t, m. split; [eapply trials_ok; eauto|]. split; auto. split; [reflexivity|apply row_means_is].
  Qed.

  (** It succeeds if the estimators predict. *)
  Lemma importance_succeeds c s X y es N F score g r :
    fitted_model s X y es N F score -> cache_data c = true -> cache_estimator c = true -> (0 < r)%nat ->
    (forall e rows, In e es -> length rows = (F * r)%nat -> Forall (fun x => length x = F) rows ->
       exists p, predict_est e rows = Ok p /\ length p = length rows) ->
    (forall o, permutation_score_decrease_ est s = Some o -> length o = F) ->
    exists out, snd (imp c s g r) = Ok out.
  Proof.
    intros HM C1 C2 Hr0 HE Ho. pose proof HM as (H1 & H2 & H3 & H4 & H5 & H6 & H7 & H8 & H9 & H10 & H11).
    unfold importance_score_global. rewrite C1, C2. cbn [negb orb].
    assert (Ht : exists t, snd (trials s g r) = Ok t /\ length t = F).
    { unfold importance_trials. rewrite H1, H2. destruct (Nat.eqb_spec r 0) as [E0|_]; [lia|]. destruct (draw_perms G permute g N (F * r)) as [g1 perms] eqn:Ed.
      apply draw_perms_spec in Ed as [HpL HpF]. cbn [snd]. rewrite H3, H4, H5. cbn [need bind]. unfold need_score. rewrite H11. cbn [need bind].
      assert (Hp : exists preds, permuted_predictions est predict_est X (map Some es) N F r perms = Ok preds).
      { destruct (permuted_predictions _ _ _ _ _ _ _ _) as [preds|e] eqn:E; [eauto|]. exfalso.
        assert (Hra : raises (permuted_predictions est predict_est X (map Some es) N F r perms)) by (eexists; eauto).
        unfold permuted_predictions in Hra. apply mapM_raises_iff in Hra as (i & Hi & Hra). apply in_seq in Hi.
        destruct (nth_error es i) as [ei|] eqn:Ei; [|apply nth_error_None in Ei; lia].
        rewrite (proj2 (get_est_ok es i ei) Ei) in Hra. cbn [bind] in Hra.
        destruct (permuted_rows_ok X N F r perms i H7 HpL HpF) as (rows & Er & HLr & Hr); [lia|]. rewrite Er in Hra. cbn [bind] in Hra.
        destruct (HE ei rows) as (p & Hp & HLp); [eapply nth_error_In; eauto|auto| |].
        - apply Forall_forall. intros x Hx. apply (In_nth _ _ []) in Hx as (q & Hq & <-).
          assert (r <> 0)%nat by (intros ->; lia).
          rewrite HLr in Hq. specialize (Hr (q / r)%nat (q mod r)%nat). rewrite (Nat.mul_comm (q / r) r), <- Nat.div_mod in Hr by auto.
          destruct Hr as [Hr _]; [apply Nat.div_lt_upper_bound; lia|apply Nat.mod_upper_bound; auto|].
          rewrite Hr. apply (rect_row X N F); auto. lia.
        - rewrite Hp in Hra. cbn [bind] in Hra. rewrite HLp, HLr, Nat.eqb_refl in Hra. destruct Hra. discriminate. }
      destruct Hp as [preds Hp]. rewrite Hp. cbn [bind]. apply mapM_seq in Hp as [HLp _].
      assert (Hd : forall q, exists v, decrease score y (map (fun row => nth q row 0) preds) = Ok v).
      { intros q. unfold decrease. destruct (r2_total y (map (fun row => nth q row 0) preds)) as [v Hv]; [rewrite map_length; lia|lia|].
        rewrite Hv. cbn [bind]. eauto. }
      match goal with |- exists t, ?m = Ok t /\ _ => destruct m as [t|e] eqn:E end.
      - exists t. split; auto. apply mapM_length in E. rewrite seq_length in E. auto.
      - exfalso. match type of E with ?m = _ => assert (Hra : raises m) by (eexists; eauto) end.
        apply mapM_raises_iff in Hra as (f & Hf & Hra). apply mapM_raises_iff in Hra as (k & Hk & [e' Hra]).
        destruct (Hd (f * r + k)%nat) as [v Hv]. rewrite Hv in Hra. discriminate. }
    destruct Ht as (t & Ht & HLt). destruct (trials s g r) as [g1 t']. simpl in Ht. subst t'. cbn [bind].
    destruct (permutation_score_decrease_ est s) as [o|].
    - unfold hconcat. rewrite (Ho o eq_refl), HLt, Nat.eqb_refl. eexists; reflexivity.
    - eexists; reflexivity.
  Qed.

  (** Features nobody uses. *)
  Lemma ignored_feature c s X y es N F score g r s' g' out (h : nat -> list R -> R) f ps :
    fitted_model s X y es N F score -> imp c s g r = (s', g', Ok out) ->
    (forall i e, nth_error es i = Some e -> rowwise predict_est e (h i)) ->
    (f < F)%nat -> (forall i, (i < N)%nat -> ignores F f (h i)) ->
    ps = map (fun i => h i (nth i X [])) (seq 0 N) -> is_r2 y ps score ->
    exists t m, rect t F r /\ beside (permutation_score_decrease_ est s) t m /\ permutation_score_decrease_ est s' = Some m /\
      nth f t [] = repeat 0 r.
  Proof.
    intros HM H HE Hf HI -> Hs. destruct (importance_permutes _ _ _ _ _ _ _ _ _ _ _ _ _ HM H) as (t & m & (perm & preds & T1 & T2 & T3 & T4) & Hb & Hm & _).
    exists t, m. repeat (split; [auto|]).
    pose proof HM as (H1 & H2 & H3 & H4 & H5 & H6 & H7 & H8 & H9 & H10 & H11).
    apply (list_eq_nth 0); [rewrite repeat_length; apply (rect_row t F r); auto|].
    intros k Hk. rewrite (rect_row t F r) in Hk by auto.
    rewrite nth_repeat. specialize (T4 f k Hf Hk).
    assert (E : map (fun i => mget 0 preds i (f * r + k)) (seq 0 N) = map (fun i => h i (nth i X [])) (seq 0 N)).
    { apply map_ext_in. intros i Hi. apply in_seq in Hi. destruct (nth_error es i) as [e|] eqn:Ei; [|apply nth_error_None in Ei; lia].
      destruct (T2 i e Ei) as (rows & R1 & R2 & R3 & R4). rewrite (HE i e Ei) in R2. injection R2 as R2.
      unfold mget. rewrite <- R2. pose proof (index_lt F r f k Hf Hk). rewrite (nth_map_in _ _ _ []) by lia.
      destruct (R4 f k Hf Hk) as [R5 R6]. apply HI; [lia| | |].
      - rewrite R5. apply (rect_row X N F); auto. lia.
      - apply (rect_row X N F); auto. lia.
      - intros j Hj. destruct (Nat.lt_ge_cases j F) as [Hlt|Hge].
        + rewrite R6 by (rewrite (rect_row X N F) by (auto; lia); auto). destruct (Nat.eqb_spec j f); [congruence|reflexivity].
        + rewrite !nth_overflow; auto; [rewrite (rect_row X N F) by (auto; lia); auto|rewrite R5, (rect_row X N F) by (auto; lia); auto]. }
    rewrite E in T4. pose proof (is_r2_fun _ _ _ _ T4 Hs) as Eq. fold (mget 0 t f k). lra.
  Qed.

  (** Too few estimators. *)
  Lemma importance_sampled_raises c s X y es N F score g r :
    n_obs est s = Some N -> n_features_in est s = Some F -> local_estimators est s = Some (map Some es) ->
    data_X est s = Some X -> data_y est s = Some y -> llocv_score_ est s = Some score ->
    (length es < N)%nat -> raises (snd (imp c s g r)).
  Proof.
    intros H1 H2 H3 H4 H5 H6 HL. apply raises_not_ok. intros out H. destruct (imp c s g r) as [[s' g'] o] eqn:E. simpl in H. subst o.
    apply importance_inv in E as (t & m & _ & _ & Ht & _). unfold importance_trials in Ht. rewrite H1, H2 in Ht.
    destruct (r =? 0)%nat; [discriminate|].
    destruct (draw_perms _ _ _ _ _) as [g1 perms]. injection Ht as _ Ht. rewrite H3, H4 in Ht. cbn [need bind] in Ht.
    apply bind_ok in Ht as [preds [Hp _]]. apply mapM_seq in Hp as [_ Hp]. specialize (Hp (length es) [] HL).
    unfold get_est, getitem in Hp. rewrite (proj2 (nth_error_None _ _)) in Hp by (rewrite map_length; auto). discriminate.
  Qed.
End Importance.
