From Coq Require Import Lra Psatz.
From Verif.Model Require Import Base Ext Sort Csr Neighbour Distance WeightModel Inspect.
From Verif.Spec Require Import KernelSpec NeighbourSpec WeightModelSpec InspectSpec.
From Verif.Proofs Require Import ListFacts SumFacts KernelFacts CsrFacts NeighbourFacts NeighbourProps WeightModelFacts WeightModelProps FitProps PredictProps StackingFacts InspectProps InspectProps2 InspectProps3 InspectProps4.
Open Scope nat_scope.
Open Scope R_scope.

(** The recorded interaction of the pair (a, b) in repeat [k]: above the diagonal the
    decrease minus both mean single decreases, elsewhere memory that was never
    written. *)
Section Values.
  Variable est : Type.
  Variable predict_est : est -> matrix R -> result (list R).
  Variable G : Type.
  Variable permute : G -> list nat -> G * list nat.
  Hypothesis Hperm : valid_permute permute.
  Notation imp := (importance_score_global est predict_est G permute).
  Notation inter := (interaction_score_global est predict_est G permute).
  Notation acc := (permutation_score_decrease_ est).

  Lemma permute_pair_rows X N F a b g : rect X N F -> (a < F)%nat -> (b < F)%nat ->
    exists p q Xp, bijection N p /\ bijection N q /\ snd (permute_pair G permute X N a b g) = Ok Xp /\ length Xp = N /\
      forall i, (i < N)%nat -> nth i Xp [] = list_set (list_set (nth i X []) a (mget 0 X (p i) a)) b (mget 0 X (q i) b).
  Proof.
    intros HX Ha Hb. unfold permute_pair. destruct (permute g (seq 0 N)) as [g1 p1] eqn:E1. destruct (permute g1 p1) as [g2 p2] eqn:E2. cbn [snd].
    assert (P1 : Permutation p1 (seq 0 N)) by (specialize (Hperm g (seq 0 N)); rewrite E1 in Hperm; exact Hperm).
    assert (P2 : Permutation p2 (seq 0 N)) by (eapply Permutation_trans; [|exact P1]; specialize (Hperm g1 p1); rewrite E2 in Hperm; exact Hperm).
    pose proof (Permutation_length P1) as L1. pose proof (Permutation_length P2) as L2. rewrite seq_length in L1, L2.
    exists (fun i => nth i p1 0%nat), (fun i => nth i p2 0%nat).
    rewrite (mapM_all_ok _ (fun i => list_set (list_set (nth i X []) a (mget 0 X (nth i p1 0%nat) a)) b (mget 0 X (nth i p2 0%nat) b))).
    - eexists. split; [apply perm_bijection; auto|]. split; [apply perm_bijection; auto|]. split; [reflexivity|]. split; [rewrite map_length, seq_length; auto|].
      intros i Hi. rewrite (nth_map_in _ _ _ 0%nat) by (rewrite seq_length; auto). rewrite seq_nth by auto. reflexivity.
    - intros i Hi. apply in_seq in Hi. destruct HX as [HXl HXr].
      rewrite (getitem_lt (@nil R)) by lia. cbn [bind]. rewrite (getitem_lt 0%nat) by lia. cbn [bind].
      rewrite (getitem_lt (@nil R)) by (rewrite HXl; apply (perm_lt N); auto; lia). cbn [bind].
      rewrite (getitem_lt 0) by (rewrite (rect_row X N F); [auto|split; auto|apply (perm_lt N); auto; lia]). cbn [bind].
      rewrite (getitem_lt 0%nat) by lia. cbn [bind].
      rewrite (getitem_lt (@nil R)) by (rewrite HXl; apply (perm_lt N); auto; lia). cbn [bind].
      rewrite (getitem_lt 0) by (rewrite (rect_row X N F); [auto|split; auto|apply (perm_lt N); auto; lia]). reflexivity.
  Qed.

  Lemma combine_map_some_nth (es : list est) (Xp : matrix R) i e : length Xp = length es -> nth_error es i = Some e ->
    nth i (combine (map Some es) Xp) (None, []) = (Some e, nth i Xp []).
  Proof.
    intros HL He. rewrite combine_nth by (rewrite map_length; auto). f_equal.
    rewrite (nth_indep _ None (Some e)) by (rewrite map_length; apply nth_error_Some; congruence). rewrite (map_nth Some). f_equal. apply nth_error_nth; auto.
  Qed.

  Lemma pair_trial_value X y es score N F a b g v : rect X N F -> length es = N -> (a < F)%nat -> (b < F)%nat ->
    snd (pair_trial est predict_est G permute X y (map Some es) score N a b g) = Ok v ->
    pair_trial_of_model predict_est X y es N score a b v.
  Proof.
    intros HX Hes Ha Hb H. unfold pair_trial in H.
    destruct (permute_pair_rows X N F a b g HX Ha Hb) as (p & q & Xp & Bp & Bq & E & HL & Hrows).
    destruct (permute_pair G permute X N a b g) as [g' o]. cbn [snd] in *. subst o. cbn [bind] in H.
    apply bind_ok in H as [ps [Hps H]]. apply bind_ok in H as [pr [Hsq H]].
    unfold decrease in H. apply bind_ok in H as [sc [Hsc H]]. destruct sc as [sc| | |]; try discriminate. injection H as <-.
    apply r2_fin in Hsc as (_ & _ & Hsc).
    unfold squeeze in Hsq. apply bind_ok in Hsq as [pr' [Hm Hsq]].
    assert (Epr : pr' = pr) by (destruct pr' as [|? [|? ?]]; inversion Hsq; reflexivity). subst pr'.
    assert (HLps : length ps = N) by (rewrite (mapM_length _ _ _ Hps), combine_length, map_length; lia).
    assert (HLpr : length pr = N) by (rewrite (mapM_length _ _ _ Hm); auto).
    exists p, q, pr. split; auto. split; auto. split; auto. split.
    - intros i e He. assert (Hi : (i < N)%nat) by (rewrite <- Hes; apply nth_error_Some; congruence).
      exists (list_set (nth i X []) a (mget 0 X (p i) a)), (nth i Xp []). split; [apply list_set_with_feature|].
      split; [rewrite Hrows by auto; apply list_set_with_feature|].
      pose proof (mapM_nth _ _ _ i (None, []) [] Hps ltac:(rewrite combine_length, map_length; lia)) as Hi1.
      rewrite (combine_map_some_nth es Xp i e) in Hi1 by (auto; lia). cbn [fst snd bind] in Hi1. rewrite Hi1. f_equal.
      pose proof (mapM_nth _ _ _ i [] 0 Hm ltac:(lia)) as Hi2. destruct (nth i ps []) as [|v [|? ?]]; try discriminate. injection Hi2 as <-. reflexivity.
    - replace (score - (score - sc)) with sc by lra. exact Hsc.
  Qed.

  Lemma trials_of_values (f : G -> G * result R) (P : R -> Prop) r : (forall g v, snd (f g) = Ok v -> P v) ->
    forall g xs, snd (trials_of G f g r) = Ok xs -> length xs = r /\ Forall P xs.
  Proof.
    intros Hf. induction r as [|r IH]; intros g xs H; simpl in H.
    - injection H as <-. split; constructor.
    - specialize (Hf g) as Hv. destruct (f g) as [g1 [x|e]]; [|discriminate]. specialize (IH g1).
      destruct (trials_of G f g1 r) as [g2 [l|e]]; cbn [snd bind] in *; [|discriminate]. injection H as <-.
      destruct (IH l eq_refl) as [HL HF]. split; [simpl; auto|]. constructor; auto.
  Qed.

  Lemma pair_loop_values f (P : nat * nat -> list R -> Prop) ps : (forall p g v, In p ps -> snd (f p g) = Ok v -> P p v) ->
    forall g g' vals, pair_loop G f g ps = (g', Ok vals) -> Forall (fun v => P (fst v) (snd v)) vals.
  Proof.
    induction ps as [|p ps IH]; intros Hf g g' vals H; simpl in H.
    - injection H as _ <-. constructor.
    - pose proof (Hf p g) as Hv. destruct (f p g) as [g1 [x|e]]; [|discriminate].
      destruct (pair_loop G f g1 ps) as [g2 [xs|e]] eqn:E; cbn [bind] in H; [|discriminate]. injection H as _ <-.
      constructor; [apply Hv; [left; auto|reflexivity]|]. eapply IH; eauto. intros; eapply Hf; eauto. right; auto.
  Qed.

  Lemma pairs_all F a b : (a < b)%nat -> (b < F)%nat -> In (a, b) (pairs F).
  Proof.
    intros H1 H2. unfold pairs. apply in_concat. exists (map (fun b => (a, b)) (seq (S a) (F - S a))). split.
    - apply (in_map (fun a => map (fun b => (a, b)) (seq (S a) (F - S a)))). apply in_seq. lia.
    - apply (in_map (pair a)). apply in_seq. lia.
  Qed.

  Lemma cell_low F buffer vals a b k : map fst vals = pairs F -> (b <= a)%nat -> interaction_cell buffer vals a b k = buffer a b k.
  Proof.
    intros HK H. unfold interaction_cell. destruct (find _ vals) as [v|] eqn:E; auto. exfalso.
    apply find_some in E as [Hin E]. apply andb_true_iff in E as [E1 E2]. apply Nat.eqb_eq in E1, E2.
    assert (Hp : In (fst v) (pairs F)) by (rewrite <- HK; apply in_map; auto). apply pairs_lt in Hp. lia.
  Qed.

  Lemma cell_high F buffer vals P a b k : map fst vals = pairs F -> Forall (fun v => P (fst v) (snd v)) vals -> (a < b)%nat -> (b < F)%nat ->
    exists xs, P (a, b) xs /\ interaction_cell buffer vals a b k = nth k xs 0 /\ forall k', interaction_cell buffer vals a b k' = nth k' xs 0.
  Proof.
    intros HK HF H1 H2. unfold interaction_cell. destruct (find _ vals) as [v|] eqn:E.
    - apply find_some in E as [Hin E]. apply andb_true_iff in E as [E1 E2]. apply Nat.eqb_eq in E1, E2.
      rewrite Forall_forall in HF. specialize (HF v Hin). destruct v as [[a' b'] xs]. cbn [fst snd] in *. subst. eauto.
    - exfalso. assert (Hp : In (a, b) (map fst vals)) by (rewrite HK; apply pairs_all; auto). apply in_map_iff in Hp as (v & Hv & Hin).
      pose proof (find_none _ _ E v Hin) as Hn. cbv beta in Hn. rewrite Hv in Hn. cbn [fst snd] in Hn. rewrite !Nat.eqb_refl in Hn. discriminate.
  Qed.

  Lemma row_means_singles m single : mapM (fun v => match v with Fin x => Ok x | _ => Raise ValueError end) (row_means m) = Ok single ->
    length single = length m /\ forall f, (f < length m)%nat -> nth f single 0 = Rsum (nth f m []) / INR (length (nth f m [])).
  Proof.
    intros H. pose proof (mapM_length _ _ _ H) as HL. unfold row_means in *. rewrite map_length in HL. split; auto.
    intros f Hf. pose proof (mapM_nth _ _ _ f NaN 0 H ltac:(rewrite map_length; auto)) as Hn.
    rewrite (nth_map_in _ _ _ []) in Hn by auto. unfold emean in Hn. destruct (nth f m []) as [|z l] eqn:E; [discriminate|]. injection Hn as <-. reflexivity.
  Qed.

  Lemma concat2_beside3 o t m : concat2 o t = Ok m -> beside3 (Some o) t m.
  Proof.
    unfold concat2, beside3. destruct (Nat.eqb_spec (length o) (length t)) as [HL|]; cbn [negb]; [|discriminate].
    destruct (forallb _ _) eqn:E; cbn [negb]; [|discriminate]. intros H. injection H as <-. split; auto. split; auto.
    intros a Ha. rewrite forallb_forall in E. specialize (E (nth a o [], nth a t [])). rewrite Nat.eqb_eq in E. apply E.
    rewrite <- (combine_nth o t a [] []) by auto. apply nth_In. rewrite combine_length. lia.
  Qed.

  Lemma bc_index_stretched d i : bc_index d i = stretched d i.
  Proof. reflexivity. Qed.

  Theorem interaction_values c s X y es N F score g r buffer s' g' out :
    fitted_model s X y es N F score -> inter c buffer s g r = (s', g', Ok out) ->
    exists m D T T',
      acc s' = Some m /\ (forall o, acc s = Some o -> m = o) /\ (acc s = None -> trials_of_model predict_est X y es N F score 5 m) /\
      (forall a b k, (a < b)%nat -> (b < F)%nat -> (k < r)%nat -> pair_trial_of_model predict_est X y es N score a b (D a b k)) /\
      (let mean f := Rsum (nth f m []) / INR (length (nth f m [])) in
       let I a b k := if (a <? b)%nat then D a b k - mean a - mean b else buffer a b k in
       let d := if (F =? 1)%nat then r else F in
       length T = d /\ forall a, (a < d)%nat -> rect (nth a T []) F d /\
         forall b k, (b < F)%nat -> (k < d)%nat ->
           mget 0 (nth a T []) b k = I (stretched F a) b (stretched r k) + I (stretched F k) b (stretched r a)) /\
      beside3 (interaction_matrix_ est s) T T' /\ interaction_matrix_ est s' = Some T' /\ Forall2 (Forall2 is_mean) T' out.
  Proof.
    intros HM H. pose proof HM as (H1 & H2 & H3 & H4 & H5 & H6 & H7 & H8 & H9 & H10 & H11).
    unfold interaction_score_global in H.
    destruct (cache_data c) eqn:C1; [|discriminate]. destruct (cache_estimator c) eqn:C2; [|discriminate]. cbn [negb orb] in H.
    set (q := match acc s with Some _ => _ | None => _ end) in H.
    assert (Hq : forall l, snd q = Ok l -> exists m, acc (fst (fst q)) = Some m /\ (forall o, acc s = Some o -> m = o) /\ (acc s = None -> trials_of_model predict_est X y es N F score 5 m) /\
      fitted_model (fst (fst q)) X y es N F score /\ interaction_matrix_ est (fst (fst q)) = interaction_matrix_ est s).
    { intros l Hl. unfold q in *. destruct (acc s) as [o|] eqn:Ea.
      - exists o. cbn [fst snd]. split; auto. split; [congruence|]. split; [discriminate|]. auto.
      - destruct (imp c s g 5) as [[s1 g1] w] eqn:E. cbn [fst snd] in *. subst w.
        pose proof E as E0. apply importance_inv in E as (t & m & _ & _ & Ht & Hb & -> & _). rewrite Ea in Hb. simpl in Hb. subst m.
        exists t. split; [reflexivity|]. split; [discriminate|]. split; [intros _; eapply trials_ok; eauto|].
        split; [|reflexivity]. unfold fitted_model. cbn [set_importance n_obs n_features_in data_X data_y local_estimators llocv_score_]. repeat split; auto; apply H7. }
    destruct q as [[s1 g1] first]. cbn [fst snd] in Hq. destruct first as [l|]; [|discriminate].
    destruct (Hq l eq_refl) as (m & Hm & Ho & Hn & (K1 & K2 & K3 & K4 & K5 & K6 & K7 & K8 & K9 & K10 & K11) & Hi1). clear Hq.
    cbn [bind] in H. rewrite Hm, K1, K2, K3, K4, K5 in H. cbn [need bind] in H. unfold need_score in H. rewrite K11 in H. cbn [need bind] in H.
    destruct (mapM _ (row_means m)) as [single|] eqn:Es; [|discriminate]. cbn [bind] in H. apply row_means_singles in Es as [HLs Hs].
    set (ff := fun (p : nat * nat) (g : G) => _) in H.
    destruct (pair_loop G ff g1 (pairs F)) as [g2 [vals|]] eqn:El; cbn [bind] in H; [|discriminate].
    pose proof (pair_loop_keys _ _ _ _ _ _ El) as HK.
    set (P := fun (p : nat * nat) (xs : list R) => exists ds, xs = map (fun x => x - nth (fst p) single 0 - nth (snd p) single 0) ds /\ length ds = r /\
      Forall (pair_trial_of_model predict_est X y es N score (fst p) (snd p)) ds /\ (fst p < length m)%nat /\ (snd p < length m)%nat).
    assert (HP : Forall (fun v => P (fst v) (snd v)) vals).
    { eapply pair_loop_values; [|exact El]. intros p g0 v Hp Hv. apply pairs_bound in Hp as [B1 B2]. unfold ff in Hv.
      destruct (trials_of G _ g0 r) as [g3 xs] eqn:Et. cbn [snd] in Hv. apply bind_ok in Hv as [ds [-> Hv]].
      apply bind_ok in Hv as [sa [Ha Hv]]. apply bind_ok in Hv as [sb [Hb Hv]]. injection Hv as <-.
      apply getitem_ok in Ha, Hb. pose proof (proj1 (nth_error_Some single (fst p)) ltac:(congruence)) as La. pose proof (proj1 (nth_error_Some single (snd p)) ltac:(congruence)) as Lb.
      apply (nth_error_nth _ _ 0) in Ha, Hb.
      exists ds. split; [rewrite Ha, Hb; reflexivity|]. rewrite HLs in La, Lb.
      pose proof (trials_of_values (pair_trial est predict_est G permute X y (map Some es) score N (fst p) (snd p))
        (pair_trial_of_model predict_est X y es N score (fst p) (snd p)) r) as HT.
      specialize (HT (fun g v => pair_trial_value X y es score N F (fst p) (snd p) g v K7 K6 B1 B2) g0 ds). rewrite Et in HT. destruct (HT eq_refl). auto. }
    destruct (plus_transpose F r (interaction_cell buffer vals)) as [T|] eqn:ET; cbn [bind] in H; [|discriminate].
    rewrite Hi1 in H.
    assert (HTT : exists T', beside3 (interaction_matrix_ est s) T T' /\ s' = set_interaction est s1 T' /\ out = map row_means T').
    { destruct (interaction_matrix_ est s) as [old|].
      - destruct (concat2 old T) as [T'|] eqn:Ec; [|discriminate]. injection H as <- <- <-. exists T'. split; auto. apply concat2_beside3; auto.
      - injection H as <- <- <-. exists T. split; auto. reflexivity. }
    destruct HTT as (T' & HB & -> & ->).
    exists m, (fun a b k => interaction_cell buffer vals a b k + nth a single 0 + nth b single 0), T, T'.
    split; [exact Hm|]. split; auto. split; auto. split.
    { intros a b k Hab HbF Hk. destruct (cell_high F buffer vals P a b k HK HP Hab HbF) as (xs & (ds & -> & HL & HF & _) & -> & _).
      rewrite (nth_map_in _ _ _ 0) by lia. cbn [fst snd].
      replace (_ + nth a single 0 + nth b single 0) with (nth k ds 0) by lra. rewrite Forall_forall in HF. apply HF, nth_In. lia. }
    split; [|split; [exact HB|split; [reflexivity|]]].
    2:{ clear. induction T' as [|M T' IH]; constructor; auto. apply row_means_is. }
    cbv zeta.
    assert (Hcell : forall a b k, (b < F)%nat ->
      (if (a <? b)%nat then interaction_cell buffer vals a b k + nth a single 0 + nth b single 0 - Rsum (nth a m []) / INR (length (nth a m [])) - Rsum (nth b m []) / INR (length (nth b m [])) else buffer a b k)
      = interaction_cell buffer vals a b k).
    { intros a b k Hb. destruct (Nat.ltb_spec a b) as [Hab|Hab].
      - destruct (cell_high F buffer vals P a b k HK HP Hab Hb) as (xs & (ds & _ & _ & _ & L1 & L2) & _). cbn [fst snd] in *. rewrite <- !Hs by auto. lra.
      - symmetry. apply (cell_low F); auto. }
    unfold plus_transpose in ET.
    assert (Hd : bc_dim F r = Some (if (F =? 1)%nat then r else F) /\ bc_dim r F = Some (if (F =? 1)%nat then r else F)).
    { unfold bc_dim in *. destruct (Nat.eqb_spec F r); destruct (Nat.eqb_spec r F); destruct (Nat.eqb_spec F 1); destruct (Nat.eqb_spec r 1); try lia; try discriminate; subst; auto. }
    destruct Hd as [-> E2] in ET. rewrite E2 in ET. injection ET as <-. set (d := if (F =? 1)%nat then r else F).
    split; [apply tabulate_length|]. intros a Ha. rewrite tabulate_nth by auto. split; [apply mtab_rect|].
    intros b k Hb Hk. rewrite mtab_get by auto. rewrite !Hcell by auto. reflexivity.
  Qed.
End Values.
