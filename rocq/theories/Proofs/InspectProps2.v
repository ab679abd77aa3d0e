From Coq Require Import Lra Psatz Sorting.Sorted.
From Verif.Model Require Import Base Ext Sort Csr Neighbour Distance WeightModel Inspect.
From Verif.Spec Require Import KernelSpec NeighbourSpec WeightModelSpec InspectSpec.
From Verif.Proofs Require Import ListFacts SumFacts KernelFacts CsrFacts NeighbourFacts WeightModelFacts WeightModelProps FitProps PredictProps StackingFacts InspectProps.
Open Scope nat_scope.
Open Scope R_scope.

Section History.
  Variable est : Type.
  Variable fit_est : nat -> matrix R -> list R -> list ext -> result est.
  Variable predict_est : est -> matrix R -> result (list R).
  Variable G : Type.
  Variable choice : G -> list nat -> nat -> G * list nat.
  Variable cpu : nat.
  Variable wm : filesystem -> list coords -> list coords -> filesystem * result weights.
  Variable permute : G -> list nat -> G * list nat.
  Notation FIT := (fit est fit_est predict_est G choice cpu wm).
  Notation imp := (importance_score_global est predict_est G permute).
  Notation inter := (interaction_score_global est predict_est G permute).
  Notation acc := (permutation_score_decrease_ est).

  (** fit with both caches and without sampling gives a fitted model. *)
  Lemma fit_fitted c order g fs s0 X y coords given w W N :
    valid_choice choice -> (0 < cpu)%nat -> length X = N -> in_force wm fs coords given w -> holds w W N ->
    schedule (num_tasks cpu c (num_locations c N)) order ->
    cache_data c = true -> cache_estimator c = true -> sample_local_rate c = None ->
    o_result est G (FIT c order g fs s0 X y coords given) = Ok tt ->
    let s := o_state est G (FIT c order g fs s0 X y coords given) in
    exists es score F ps, fitted_model s X y es N F score /\ local_predict_ est s = Some ps /\ is_r2 y ps score /\
      forall i e, nth_error es i = Some e ->
        local_model fit_est X y (leave_local_out c) W N i e /\ predict_est e [nth i X []] = Ok [nth i ps 0].
  Proof.
    intros Hch Hcpu HX Hf Hw HS C1 C2 C3 Hok s.
    destruct (fit_results est fit_est predict_est G choice cpu wm c order g fs s0 X y coords given w W N Hch Hcpu HX Hf Hw HS Hok)
      as (locs & es & ps & score & Hy & H1 & H2 & H3 & H4 & H5 & H6 & H7 & H8 & H9 & H10 & H11 & H12 & H13 & H14 & [g' H15] & H16).
    assert (El : locs = seq 0 N) by (unfold sample_locations in H15; rewrite C3 in H15; injection H15 as _ <-; reflexivity).
    rewrite (paired_aligned c w locs N) in H16; [|right; left; auto|auto].
    rewrite El in *. rewrite seq_length in *.
    assert (Ey : take 0 y (seq 0 N) = y).
    { rewrite <- Hy. unfold take. symmetry. exact (tabulate_of_list 0 y). }
    rewrite Ey in *.
    destruct (fit_inv _ _ _ _ _ _ _ _ _ _ _ _ _ _ _ _ Hok) as (w1 & g1 & l1 & preds & es1 & p1 & sc1 & Hck & _ & _ & _ & _ & _ & Eq).
    apply check_ok in Hck as (K1 & K2 & K3 & K4).
    assert (Hes : exists es', es = map Some es' /\ length es' = N /\ forall i e, nth_error es' i = Some e ->
       local_model fit_est X y (leave_local_out c) W N i e /\ predict_est e [nth i X []] = Ok [nth i ps 0]).
    { assert (Hall : forall k, (k < N)%nat -> exists e, nth k es None = Some e /\ local_model fit_est X y (leave_local_out c) W N k e /\ predict_est e [nth k X []] = Ok [nth k ps 0]).
      { intros k Hk. destruct (H16 k Hk) as (e & E1 & E2 & E3). rewrite seq_nth in E1, E2 by auto. rewrite C2 in E3. exists e. auto. }
      clear -Hall H12. rewrite <- H12 in Hall. rewrite <- H12.
      assert (HS : exists es', es = map Some es').
      { assert (Hall' : forall k, (k < length es)%nat -> exists e, nth k es None = Some e) by (intros k Hk; destruct (Hall k Hk) as (e & He & _); eauto).
        clear -Hall'. induction es as [|o es IH]; [exists []; auto|]. destruct (Hall' 0%nat) as [e He]; [simpl; lia|]. simpl in He. subst o.
        destruct IH as [es' ->]; [intros k Hk; apply (Hall' (S k)); simpl; lia|]. exists (e :: es'). reflexivity. }
      destruct HS as [es' ->]. exists es'. rewrite map_length in *. repeat split; auto;
      (assert (Hi : (i < length es')%nat) by (apply nth_error_Some; congruence); destruct (Hall i Hi) as (e' & He' & B1 & B2);
       rewrite (nth_map_in _ _ _ e) in He' by auto; rewrite (nth_error_nth _ _ _ H) in He'; injection He' as <-; auto). }
    destruct Hes as (es' & -> & HLe & Hes).
    assert (Hsc : exists v, score = Fin v /\ is_r2 y ps v /\ (2 <= N)%nat).
    { destruct (r2_total y ps) as [v Hv]; [congruence|lia|]. rewrite Hv in H7. injection H7 as <-. exists v. apply r2_fin in Hv as (_ & ? & ?). split; auto. split; auto. lia. }
    destruct Hsc as (v & -> & Hv & HN). exists es', v, (ncols X), ps.
    split; [|split; [exact H3|split; [exact Hv|exact Hes]]].
    unfold s in *. clear s. rewrite Eq in *. cbn [o_state n_obs n_features_in data_X data_y local_estimators llocv_score_] in *.
    rewrite C1 in *. rewrite HX in *.
    repeat split; auto; try apply K4.
  Qed.

  (** fit keeps the accumulated trials. *)
  Lemma fit_keeps c order g fs s0 X y coords given :
    acc (o_state est G (FIT c order g fs s0 X y coords given)) = acc s0 /\
    interaction_matrix_ est (o_state est G (FIT c order g fs s0 X y coords given)) = interaction_matrix_ est s0.
  Proof.
    unfold fit. destruct (check_X_y X y); [|auto].
    destruct coords as [v|], given as [w|]; cbv zeta;
      try (destruct (wm fs v v) as [fs' [w'|e]]);
      repeat match goal with |- context[match ?x with _ => _ end] => destruct x end; auto.
  Qed.

  Lemma importance_fail_keeps c s g r s' g' e : imp c s g r = (s', g', Raise e) -> s' = s.
  Proof.
    unfold importance_score_global. destruct (negb (cache_data c) || negb (cache_estimator c)); [congruence|].
    destruct (importance_trials _ _ _ _ s g r) as [g1 t]. destruct (t <- t;; _); congruence.
  Qed.

  Notation history := (InspectSpec.history fit_est predict_est choice cpu wm permute).

  Lemma trials_rows s g r g' t : importance_trials est predict_est G permute s g r = (g', Ok t) -> Forall (fun row => length row = r) t.
  Proof.
    unfold importance_trials. destruct (n_obs est s) as [n|]; [|discriminate]. destruct (n_features_in est s) as [F|]; [|discriminate]. destruct (r =? 0)%nat; [discriminate|].
    destruct (draw_perms _ _ _ _ _) as [g1 perms]. intros H. injection H as _ H.
    apply bind_ok in H as [X [_ H]]. apply bind_ok in H as [es [_ H]]. apply bind_ok in H as [preds [_ H]].
    apply bind_ok in H as [y [_ H]]. apply bind_ok in H as [sc [_ H]].
    apply mapM_ok_iff in H. clear -H. induction H; constructor; auto. apply mapM_length in H. rewrite seq_length in H. auto.
  Qed.

  Lemma map2_app_rows (a b : matrix R) p q : length a = length b -> Forall (fun row => length row = p) a -> Forall (fun row => length row = q) b ->
    Forall (fun row => length row = (p + q)%nat) (map2 (@app R) a b).
  Proof.
    revert b; induction a as [|x a IH]; intros [|z b] HL Ha Hb; simpl in *; constructor; try discriminate.
    - rewrite app_length. inversion Ha; inversion Hb; subst; lia.
    - apply IH; [lia| |]; [inversion Ha|inversion Hb]; auto.
  Qed.

  (** After any history from a fresh object the accumulator holds one column per
      repeat of every successful call. *)
  Lemma history_columns s s' rs : history s s' rs -> acc s = None ->
    match acc s' with None => rs = [] | Some m => Forall (fun row => length row = list_sum rs) m end.
  Proof.
    induction 1 as [s|s s1 rs c order g fs X y coords given H IH|s s1 rs c g r s2 g' out H IH E|s s1 rs c g r s2 g' e H IH E]; intros H0.
    - rewrite H0. reflexivity.
    - rewrite (proj1 (fit_keeps _ _ _ _ _ _ _ _ _)). exact (IH H0).
    - specialize (IH H0). apply importance_inv in E as (t & m & _ & _ & Ht & Hb & -> & _). cbn [set_importance permutation_score_decrease_].
      apply trials_rows in Ht. unfold beside in Hb. destruct (acc s1) as [o|].
      + destruct Hb as [HL ->]. rewrite list_sum_app. simpl. rewrite Nat.add_0_r. apply map2_app_rows; auto.
      + subst. simpl. rewrite Nat.add_0_r. exact Ht.
    - rewrite (importance_fail_keeps _ _ _ _ _ _ _ E). exact (IH H0).
  Qed.

  Lemma history_importance s0 s rs c g r s' g' out :
    history s0 s rs -> acc s0 = None -> imp c s g r = (s', g', Ok out) ->
    exists m, acc s' = Some m /\ Forall2 is_mean m out /\ Forall (fun row => length row = (list_sum rs + r)%nat) m /\
      (forall o, acc s = Some o -> length m = length o /\ forall f, firstn (list_sum rs) (nth f m []) = nth f o []).
  Proof.
    intros H H0 E. pose proof (history_columns _ _ _ H H0) as Ho.
    assert (H' : history s0 s' (rs ++ [r])) by (econstructor; eauto).
    pose proof (history_columns _ _ _ H' H0) as Hm.
    apply importance_inv in E as (t & m & _ & _ & Ht & Hb & -> & ->). cbn [set_importance permutation_score_decrease_] in *.
    exists m. split; auto. split; [apply row_means_is|]. split; [rewrite list_sum_app in Hm; simpl in Hm; rewrite Nat.add_0_r in Hm; auto|].
    intros o Eo. rewrite Eo in *. destruct Hb as [HL ->]. split; [rewrite map2_length; lia|].
    intros f. destruct (Nat.lt_ge_cases f (length o)) as [Hf|Hf].
    - rewrite (map2_nth _ _ _ _ [] []) by lia. assert (E : length (nth f o []) = list_sum rs) by (rewrite Forall_forall in Ho; apply Ho, nth_In; auto).
      rewrite <- E, firstn_app, Nat.sub_diag, firstn_all. cbn [firstn]. apply app_nil_r.
    - rewrite !nth_overflow; auto; [apply firstn_nil|rewrite map2_length; lia].
  Qed.

  Lemma importance_other_features c s g r F o :
    n_features_in est s = Some F -> acc s = Some o -> length o <> F -> raises (snd (imp c s g r)).
  Proof.
    intros HF Ho HL. apply raises_not_ok. intros out H. destruct (imp c s g r) as [[s' g'] q] eqn:E. simpl in H. subst q.
    apply importance_inv in E as (t & m & _ & _ & Ht & Hb & _). rewrite Ho in Hb. destruct Hb as [Hb _]. apply HL. rewrite Hb.
    unfold importance_trials in Ht. rewrite HF in Ht. destruct (n_obs est s) as [n|]; [|discriminate]. destruct (r =? 0)%nat; [discriminate|].
    destruct (draw_perms _ _ _ _ _) as [g1 perms]. injection Ht as _ Ht.
    apply bind_ok in Ht as [X [_ Ht]]. apply bind_ok in Ht as [es [_ Ht]]. apply bind_ok in Ht as [preds [_ Ht]].
    apply bind_ok in Ht as [y [_ Ht]]. apply bind_ok in Ht as [sc [_ Ht]]. apply mapM_length in Ht. rewrite seq_length in Ht. auto.
  Qed.

  Lemma needs_caches pimp c s g r buffer order :
    cache_data c = false \/ cache_estimator c = false ->
    raises (snd (imp c s g r)) /\ raises (snd (inter c buffer s g r)) /\
    raises (importance_score_local est pimp c order s r).
  Proof.
    intros H. assert (E : negb (cache_data c) || negb (cache_estimator c) = true) by (destruct H as [-> | ->]; [reflexivity|apply orb_true_r]).
    unfold importance_score_global, interaction_score_global, importance_score_local. rewrite E. repeat split; eexists; reflexivity.
  Qed.

  (** ** interaction *)
  Lemma bc_none F r : F <> r -> F <> 1%nat -> r <> 1%nat -> bc_dim F r = None.
  Proof.
    intros A B C. unfold bc_dim. destruct (Nat.eqb_spec F r); [contradiction|]. destruct (Nat.eqb_spec F 1); [contradiction|].
    destruct (Nat.eqb_spec r 1); [contradiction|reflexivity].
  Qed.

  Lemma importance_n_features c s g r s' g' o : imp c s g r = (s', g', o) -> n_features_in est s' = n_features_in est s.
  Proof.
    destruct o as [out|e]; intros H.
    - apply importance_inv in H as (t & m & _ & _ & _ & _ & -> & _). reflexivity.
    - apply importance_fail_keeps in H. subst. reflexivity.
  Qed.

  Lemma interaction_raises c s g r F buffer :
    n_features_in est s = Some F -> F <> r -> F <> 1%nat -> r <> 1%nat -> raises (snd (inter c buffer s g r)).
  Proof.
    intros HF A B C. unfold interaction_score_global. destruct (negb (cache_data c) || negb (cache_estimator c)); [eexists; reflexivity|].
    set (q := match acc s with Some _ => _ | None => _ end).
    assert (Hq : n_features_in est (fst (fst q)) = Some F).
    { unfold q. destruct (acc s); [exact HF|]. destruct (imp c s g 5) as [[s1 g1] o1] eqn:E. cbn [fst]. rewrite (importance_n_features _ _ _ _ _ _ _ E). auto. }
    destruct q as [[s1 g1] first]. cbn [fst] in Hq.
    match goal with |- context[match ?x with Ok _ => _ | Raise _ => _ end] => destruct x as [[[[[[[single n] F'] X] y] es] llocv]|e] eqn:E end; [|eexists; reflexivity].
    assert (F' = F).
    { apply bind_ok in E as [? [_ E]]. apply bind_ok in E as [? [_ E]]. apply bind_ok in E as [? [_ E]]. apply bind_ok in E as [? [_ E]].
      apply bind_ok in E as [? [E1 E]]. apply bind_ok in E as [? [_ E]]. apply bind_ok in E as [? [_ E]]. apply bind_ok in E as [? [_ E]]. apply bind_ok in E as [? [_ E]].
      rewrite Hq in E1. injection E1 as <-. injection E. congruence. }
    subst F'. destruct (pair_loop _ _ _ _) as [g2 vals]. destruct vals as [vals|e]; [|eexists; reflexivity]. cbn [bind].
    unfold plus_transpose. rewrite bc_none by auto. eexists. reflexivity.
  Qed.

  (** Which cells are written. *)
  Lemma pairs_lt F p : In p (pairs F) -> (fst p < snd p)%nat.
  Proof.
    unfold pairs. intros H. apply in_concat in H as (l & Hl & Hp). apply in_map_iff in Hl as (a & <- & _).
    apply in_map_iff in Hp as (b & <- & Hb). apply in_seq in Hb. simpl. lia.
  Qed.

  Lemma pair_loop_keys f ps : forall g g' vals, pair_loop G f g ps = (g', Ok vals) -> map fst vals = ps.
  Proof.
    induction ps as [|p ps IH]; intros g g' vals H; simpl in H.
    - injection H as _ <-. reflexivity.
    - destruct (f p g) as [g1 [x|e]]; [|discriminate]. destruct (pair_loop G f g1 ps) as [g2 [xs|e]] eqn:E; simpl in H; [|discriminate].
      injection H as _ <-. simpl. f_equal. eapply IH; eauto.
  Qed.

  Definition unwritten (vals : list (nat * nat * list R)) (a b : nat) : R :=
    match find (fun v => (fst (fst v) =? a)%nat && (snd (fst v) =? b)%nat) vals with Some _ => 0 | None => 1 end.

  Lemma cell_shift buffer vals t a b k :
    interaction_cell (fun a b k => buffer a b k + t) vals a b k = interaction_cell buffer vals a b k + t * unwritten vals a b.
  Proof. unfold interaction_cell, unwritten. destruct (find _ vals); lra. Qed.

  Lemma unwritten_01 vals a b : 0 <= unwritten vals a b.
  Proof. unfold unwritten. destruct (find _ vals); lra. Qed.

  Lemma unwritten_low F vals a b : map fst vals = pairs F -> (b <= a)%nat -> unwritten vals a b = 1.
  Proof.
    intros HK H. unfold unwritten. destruct (find _ vals) as [v|] eqn:E; auto. exfalso.
    apply find_some in E as [Hin E]. apply andb_true_iff in E as [E1 E2]. apply Nat.eqb_eq in E1, E2.
    assert (Hp : In (fst v) (pairs F)) by (rewrite <- HK; apply in_map; auto). apply pairs_lt in Hp. lia.
  Qed.

  Definition shifted (buffer : nat -> nat -> nat -> R) (t : R) : nat -> nat -> nat -> R := fun a b k => buffer a b k + t.

  (** Rows of the new block move with the buffer. *)
  Lemma plus_transpose_shift F r buffer vals T : map fst vals = pairs F ->
    plus_transpose F r (interaction_cell buffer vals) = Ok T ->
    forall t, exists T', plus_transpose F r (interaction_cell (shifted buffer t) vals) = Ok T' /\
      length T' = length T /\
      forall a, (a < length T)%nat -> length (nth a T' []) = length (nth a T []) /\
      forall b, (b < length (nth a T []))%nat -> length (nth b (nth a T' []) []) = length (nth b (nth a T []) []) /\ (0 < length (nth b (nth a T []) []))%nat /\
        exists K, 0 < K /\ (forall t' T'', plus_transpose F r (interaction_cell (shifted buffer t') vals) = Ok T'' ->
          Rsum (nth b (nth a T'' []) []) = Rsum (nth b (nth a T []) []) + t' * K).
  Proof.
    intros HK H t. unfold plus_transpose in *. destruct (bc_dim F r) as [d1|] eqn:E1; [|discriminate]. destruct (bc_dim r F) as [d3|] eqn:E3; [|discriminate].
    injection H as <-. eexists. split; [reflexivity|]. rewrite !tabulate_length. split; auto.
    intros a Ha. rewrite !tabulate_nth by auto. unfold mtab. rewrite !tabulate_length. split; auto.
    intros b Hb. rewrite !tabulate_nth by auto. rewrite !tabulate_length. split; auto.
    split.
    { unfold bc_dim in *. destruct (Nat.eqb_spec F r); destruct (Nat.eqb_spec r F); destruct (Nat.eqb_spec F 1); destruct (Nat.eqb_spec r 1); try lia; inversion E1; inversion E3; subst; lia. }
    exists (Rsum (map (fun k => unwritten vals (bc_index F a) b + unwritten vals (bc_index F k) b) (seq 0 d3))). split.
    - assert (Hk : exists k, (k < d3)%nat /\ (b <= bc_index F k)%nat).
      { unfold bc_dim, bc_index in *.
        destruct (Nat.eqb_spec F r); destruct (Nat.eqb_spec r F); destruct (Nat.eqb_spec F 1); destruct (Nat.eqb_spec r 1); try lia; inversion E1; inversion E3; subst;
          first [exists b; split; lia | exists 0%nat; split; lia]. }
      destruct Hk as (k & Hk & Hbk).
      assert (Hge : unwritten vals (bc_index F a) b + unwritten vals (bc_index F k) b <=
        Rsum (map (fun k => unwritten vals (bc_index F a) b + unwritten vals (bc_index F k) b) (seq 0 d3))).
      { apply Rsum_ge_elem.
        - intros x Hx. apply in_map_iff in Hx as (z & <- & _). pose proof (unwritten_01 vals (bc_index F a) b). pose proof (unwritten_01 vals (bc_index F z) b). lra.
        - apply (in_map (fun k => unwritten vals (bc_index F a) b + unwritten vals (bc_index F k) b)). apply in_seq. lia. }
      pose proof (unwritten_01 vals (bc_index F a) b). rewrite (unwritten_low F vals _ b HK Hbk) in Hge. lra.
    - intros t' T'' H''. injection H'' as <-. rewrite !tabulate_nth by auto.
      rewrite <- Rsum_map_scal. unfold tabulate. rewrite <- Rsum_map_plus. apply Rsum_map_ext. intros k _. unfold shifted. rewrite !cell_shift. ring.
  Qed.
  Definition accumulate (old : option (list (matrix R))) (T : list (matrix R)) : result (list (matrix R)) :=
    match old with Some o => concat2 o T | None => Ok T end.

  Lemma forallb_combine_shape (o T T' : list (matrix R)) : length T' = length T ->
    (forall a, (a < length T)%nat -> length (nth a T' []) = length (nth a T [])) ->
    forallb (fun ab => (length (fst ab) =? length (snd ab))%nat) (combine o T') =
    forallb (fun ab => (length (fst ab) =? length (snd ab))%nat) (combine o T).
  Proof.
    revert T T'. induction o as [|x o IH]; intros [|z T] [|z' T'] HL Hs; simpl in HL; try lia; auto. simpl.
    pose proof (Hs 0%nat) as H0. simpl in H0. rewrite H0 by lia. f_equal. apply IH; [lia|]. intros a Ha. apply (Hs (S a)). simpl. lia.
  Qed.

  Lemma accumulate_entry old F r buffer vals T A a b : map fst vals = pairs F ->
    plus_transpose F r (interaction_cell buffer vals) = Ok T -> accumulate old T = Ok A ->
    (a < length A)%nat -> (b < length (nth a A []))%nat ->
    forall v, exists t T' A', plus_transpose F r (interaction_cell (shifted buffer t) vals) = Ok T' /\ accumulate old T' = Ok A' /\
      emean (nth b (nth a A' []) []) = Fin v /\ (a < length A')%nat /\ (b < length (nth a A' []))%nat.
  Proof.
    intros HK HT HA Ha Hb v. pose proof (plus_transpose_shift F r buffer vals T HK HT) as HS.
    destruct old as [o|].
    - unfold accumulate, concat2 in HA. destruct (Nat.eqb_spec (length o) (length T)) as [EL|]; [|discriminate]. cbn [negb] in HA.
      destruct (forallb _ _) eqn:Ef in HA; [|discriminate]. cbn [negb] in HA. injection HA as <-.
      rewrite map2_length in Ha.
      assert (EAa : nth a (map2 (map2 (@app R)) o T) [] = map2 (@app R) (nth a o []) (nth a T [])) by (apply map2_nth; lia).
      unfold matrix in *. rewrite EAa, map2_length in Hb.
      destruct (HS 0) as (T0 & _ & _ & HS0). destruct (HS0 a ltac:(lia)) as [_ HS1]. destruct (HS1 b ltac:(lia)) as (_ & Hpos & K & HKp & HKs).
      set (so := Rsum (nth b (nth a o []) [])). set (sT := Rsum (nth b (nth a T []) [])) in *.
      set (L := INR (length (nth b (nth a o []) []) + length (nth b (nth a T []) []))).
      set (t := (v * L - so - sT) / K).
      destruct (HS t) as (T' & HT' & HLT & Hsh).
      exists t, T', (map2 (map2 (@app R)) o T'). split; auto. unfold accumulate, concat2, matrix in *. rewrite HLT, EL, Nat.eqb_refl. cbn [negb].
      pose proof (forallb_combine_shape o T T' HLT (fun z Hz => proj1 (Hsh z Hz))) as Ef'.
      match goal with |- context[forallb ?f ?l] => replace (forallb f l) with true by (symmetry; etransitivity; [exact Ef'|exact Ef]) end. cbn [negb]. split; auto.
      destruct (Hsh a ltac:(lia)) as [HLa Hshb]. destruct (Hshb b ltac:(lia)) as (HLb & _).
      assert (EA' : nth a (map2 (map2 (@app R)) o T') [] = map2 (@app R) (nth a o []) (nth a T' [])) by (apply map2_nth; lia).
      rewrite EA'. rewrite !map2_length. split; [|split; [lia|rewrite HLa; lia]].
      assert (Ebb : nth b (map2 (@app R) (nth a o []) (nth a T' [])) [] = (nth b (nth a o []) [] ++ nth b (nth a T' []) [])%list) by (apply map2_nth; lia).
      rewrite Ebb. specialize (HKs t T' HT').
      unfold emean. destruct (nth b (nth a o []) [] ++ nth b (nth a T' []) [])%list as [|z zs] eqn:El.
      { apply (f_equal (@length R)) in El. rewrite app_length in El. simpl in El. lia. }
      rewrite <- El. unfold mean. rewrite Rsum_app, HKs, app_length, HLb. fold so sT L. f_equal. unfold t.
      assert (L <> 0) by (unfold L; apply not_0_INR; lia). field. repeat split; first [assumption | lra].
    - unfold accumulate in HA. injection HA as <-.
      destruct (HS 0) as (T0 & _ & _ & HS0). destruct (HS0 a ltac:(lia)) as [_ HS1]. destruct (HS1 b ltac:(lia)) as (_ & Hpos & K & HKp & HKs).
      set (sT := Rsum (nth b (nth a T []) [])) in *. set (L := INR (length (nth b (nth a T []) []))).
      set (t := (v * L - sT) / K). destruct (HS t) as (T' & HT' & HLT & Hsh). destruct (Hsh a ltac:(lia)) as [HLa Hshb]. destruct (Hshb b ltac:(lia)) as (HLb & _).
      exists t, T', T'. split; auto. split; [reflexivity|]. split; [|split; [lia|rewrite HLa; lia]].
      specialize (HKs t T' HT'). unfold emean. destruct (nth b (nth a T' []) []) as [|z zs] eqn:El; [simpl in HLb; lia|].
      rewrite <- El in *. unfold mean. rewrite HKs, HLb. fold L. f_equal. unfold t.
      assert (L <> 0) by (unfold L; apply not_0_INR; lia). field. repeat split; first [assumption | lra].
  Qed.

  Lemma interaction_arbitrary c s g r buffer s' g' m a b :
    inter c buffer s g r = (s', g', Ok m) -> (a < length m)%nat -> (b < length (nth a m []))%nat ->
    forall v, exists buffer' s'' m', inter c buffer' s g r = (s'', g', Ok m') /\ mget NaN m' a b = Fin v.
  Proof.
    intros H Ha Hb v. unfold interaction_score_global in H |- *. destruct (negb (cache_data c) || negb (cache_estimator c)); [discriminate|].
    set (q := match acc s with Some _ => _ | None => _ end) in *. destruct q as [[s1 g1] first].
    match type of H with context[match ?x with Ok _ => _ | Raise _ => _ end] => destruct x as [[[[[[[single n] F] X] y] es] llocv]|e] eqn:E end; [|discriminate].
    clear E. destruct (pair_loop _ _ _ _) as [g2 vals] eqn:Ep. destruct vals as [vals|e]; [|discriminate]. cbn [bind] in *.
    apply pair_loop_keys in Ep.
    destruct (plus_transpose F r (interaction_cell buffer vals)) as [T|e] eqn:ET; [|discriminate]. cbn [bind] in H.
    change (match interaction_matrix_ est s1 with Some old => concat2 old T | None => Ok T end) with (accumulate (interaction_matrix_ est s1) T) in H.
    destruct (accumulate (interaction_matrix_ est s1) T) as [A|e] eqn:EA; [|discriminate]. injection H as <- <- <-.
    rewrite map_length in Ha.
    assert (En : forall B, (a < length B)%nat -> nth a (map row_means B) [] = row_means (nth a B [])) by (intros B HB; apply nth_map_in; auto).
    rewrite En in Hb by auto. unfold row_means in Hb. rewrite map_length in Hb.
    destruct (accumulate_entry _ F r buffer vals T A a b Ep ET EA Ha Hb v) as (t & T' & A' & HT' & HA' & Hv & Ha' & Hb').
    exists (shifted buffer t). rewrite HT'. cbn [bind].
    change (match interaction_matrix_ est s1 with Some old => concat2 old T' | None => Ok T' end) with (accumulate (interaction_matrix_ est s1) T').
    rewrite HA'. eexists _, _. split; [reflexivity|]. unfold mget. rewrite En by auto. unfold row_means. rewrite (nth_map_in _ _ _ []) by auto. exact Hv.
  Qed.
End History.
