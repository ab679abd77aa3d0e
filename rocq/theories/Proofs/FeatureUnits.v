(** WeightModel and the way the features are written. *)
From Coq Require Import Lra Lia Permutation Sorting.Sorted.
From Verif.Model Require Import Base Ext Csr Distance WeightModel.
From Verif.Spec Require Import KernelSpec NeighbourSpec WeightModelSpec UnitsSpec FeatureUnitsSpec.
From Verif.Proofs Require Import ListFacts SumFacts KernelFacts CsrFacts NeighbourProps WeightModelFacts WeightModelProps FitProps PredictProps Units.
Open Scope string_scope.
Open Scope nat_scope.
Open Scope R_scope.

Lemma rows_nth F X i x : rows_of F X -> getitem X i = Ok x -> length x = F.
Proof.
  unfold getitem, rows_of. intros H. destruct (nth_error X i) as [r|] eqn:E; [|discriminate]. intros H1. injection H1 as <-.
  rewrite Forall_forall in H. apply H. apply (nth_error_In _ _ E).
Qed.
Lemma rows_select F mask : forall X, rows_of F X -> rows_of F (select mask X).
Proof.
  unfold rows_of. induction mask as [|[] mask IH]; intros [|x X] H; cbn; try constructor; inversion H; subst; auto.
Qed.
Lemma rows_take F X idx Xs : rows_of F X -> take_checked X idx = Ok Xs -> rows_of F Xs.
Proof.
  unfold take_checked. intros H. revert Xs. induction idx as [|i idx IH]; intros Xs; cbn [mapM]; intros E.
  - injection E as <-. constructor.
  - apply bind_ok in E as (x & Hx & E). apply bind_ok in E as (xs & Hxs & E). injection E as <-. constructor; [|apply IH; auto].
    apply (rows_nth F X i x H Hx).
Qed.

Section Tasks.
  Context {est : Type}.
  Variable fit_est : nat -> matrix R -> list R -> list ext -> result est.
  Variable predict_est : est -> matrix R -> result (list R).
  Variable F : nat.
  Variable phi : list R -> list R.
  Hypothesis Hov : overlooks F phi fit_est predict_est.

  Definition agrees (e e' : est) : Prop := forall A p, rows_of F A -> predict_est e A = Ok p -> predict_est e' (map phi A) = Ok p.
  Definition ftask_rel (x x' : list R * option est) : Prop := fst x' = fst x /\ slot_rel agrees (snd x) (snd x').
  Notation dense_task := (dense_task est fit_est predict_est).
  Notation sparse_task := (sparse_task est fit_est predict_est).
  Notation fit_all := (fit_all est fit_est predict_est).

  Lemma flocal_later c X y w x cache : rows_of F X -> length x = F -> later ftask_rel (fit_local_estimator est fit_est predict_est c X y w x cache)
    (fit_local_estimator est fit_est predict_est c (map phi X) y w (phi x) cache).
  Proof.
    intros HX Hx r Hr. unfold fit_local_estimator in *. destruct (fit_est c X y w) as [e|] eqn:Ee; cbn in Hr; [|discriminate].
    destruct (predict_est e [x]) as [p|] eqn:Ep; cbn in Hr; [|discriminate]. injection Hr as <-.
    destruct (Hov c X y w e HX Ee) as (e' & -> & Hf). cbn [bind].
    assert (E : predict_est e' (map phi [x]) = Ok p) by (apply Hf; auto; constructor; auto). cbn [map] in E. rewrite E. cbn [bind].
    eexists. split; [reflexivity|]. split; [reflexivity|]. cbn [snd]. destruct cache; cbn; auto.
  Qed.
  Lemma getitem_map {A B} (g : A -> B) v i : getitem (map g v) i = match getitem v i with Ok r => Ok (g r) | Raise e => Raise e end.
  Proof. unfold getitem. rewrite nth_error_map. destruct (nth_error v i); reflexivity. Qed.
  Lemma fdense_later X y ests W Xp cache i : rows_of F X -> rows_of F Xp ->
    later ftask_rel (dense_task X y ests W Xp cache i) (dense_task (map phi X) y ests W (map phi Xp) cache i).
  Proof.
    intros HX HXp r Hr. unfold dense_task in *. destruct (getitem ests i) as [c|]; cbn [bind] in *; [|discriminate].
    destruct (getitem W i) as [row|]; cbn [bind] in *; [|discriminate]. rewrite getitem_map.
    destruct (getitem Xp i) as [x|] eqn:Ex; cbn [bind] in *; [|discriminate].
    unfold mask_index at 1 in Hr. unfold mask_index at 1. rewrite (map_length phi).
    destruct (length (map ext_nonzero row) =? length X)%nat; cbn [bind] in *; [|discriminate].
    destruct (mask_index (map ext_nonzero row) y) as [ys|]; cbn [bind] in *; [|discriminate].
    destruct (mask_index (map ext_nonzero row) row) as [ws|]; cbn [bind] in *; [|discriminate].
    rewrite select_map. refine (flocal_later _ _ _ _ _ _ _ _ r Hr); [apply rows_select; exact HX|apply (rows_nth F Xp i x HXp Ex)].
  Qed.
  Lemma fsparse_later X y ests W Xp cache i : rows_of F X -> rows_of F Xp ->
    later ftask_rel (sparse_task X y ests W Xp cache i) (sparse_task (map phi X) y ests W (map phi Xp) cache i).
  Proof.
    intros HX HXp r Hr. unfold sparse_task in *. destruct (getitem ests i) as [c|]; cbn [bind] in *; [|discriminate].
    destruct (getitem (c_indptr W) (S i)); cbn [bind] in *; [|discriminate]. rewrite getitem_map.
    destruct (getitem Xp i) as [x|] eqn:Ex; cbn [bind] in *; [|discriminate]. rewrite take_checked_map.
    match goal with |- context [take_checked X ?t] => destruct (take_checked X t) as [Xs|] eqn:EX end; cbn [bind] in *; [|discriminate].
    destruct (take_checked y _) as [ys|]; cbn [bind] in *; [|discriminate].
    refine (flocal_later _ _ _ _ _ _ _ _ r Hr); [apply (rows_take F X _ Xs HX EX)|apply (rows_nth F Xp i x HXp Ex)].
  Qed.
  Definition fall_rel (x x' : list (list R) * list (option est)) : Prop := fst x' = fst x /\ Forall2 (slot_rel agrees) (snd x) (snd x').
  Lemma fpairs_rel l l' : Forall2 ftask_rel l l' -> fall_rel (map fst l, map snd l) (map fst l', map snd l').
  Proof. induction 1 as [|x x' l l' [H1 H2] H [I1 I2]]; split; cbn in *; auto; f_equal; auto. Qed.
  Lemma fbatches_later order locs n task task' : (forall i, later ftask_rel (task i) (task' i)) ->
    later fall_rel (run_batches order locs n task) (run_batches order locs n task').
  Proof.
    intros H r Hr. unfold run_batches in *. destruct (array_split locs n) as [bs|]; cbn [bind] in *; [|discriminate].
    match type of Hr with context[parallel order ?t] => destruct (parallel order t) as [rs|] eqn:Er; cbn [bind] in Hr; [|discriminate] end. injection Hr as <-.
    edestruct (parallel_later fall_rel order) as (rs' & Er' & Prs); [|exact Er|].
    2:{ rewrite Er'. cbn [bind]. eexists. split; [reflexivity|]. clear -Prs. induction Prs as [|x x' l l' [H1 H2] H [I1 I2]]; split; cbn in *; auto.
      - rewrite H1, I1. reflexivity.
      - apply Forall2_app; auto. }
    clear -H. induction bs as [|b bs IH]; cbn [map]; constructor; auto. intros x Hx.
    destruct (mapM task b) as [l|] eqn:El; cbn [bind] in Hx; [|discriminate]. injection Hx as <-.
    destruct (mapM_later ftask_rel task task' b H l El) as (l' & -> & Pl). cbn [bind]. eexists. split; [reflexivity|]. apply fpairs_rel. auto.
  Qed.
  Lemma fjobs_later order (l : list nat) task task' : (forall i, later ftask_rel (task i) (task' i)) ->
    later fall_rel (rs <- parallel order (map task l) ;; unzip_jobs rs) (rs <- parallel order (map task' l) ;; unzip_jobs rs).
  Proof.
    intros H r Hr. destruct (parallel order (map task l)) as [rs|] eqn:Er; cbn [bind] in Hr; [|discriminate].
    destruct (parallel_later ftask_rel order (map task l) (map task' l)) with (x := rs) as (rs' & -> & Prs); auto.
    { clear -H. induction l; cbn; constructor; auto. }
    cbn [bind]. destruct Prs as [|x x' rs rs' Hx Prs]; cbn in Hr; [discriminate|]. injection Hr as <-. cbn [unzip_jobs]. eexists. split; [reflexivity|].
    apply (fpairs_rel (x :: rs) (x' :: rs')). constructor; auto.
  Qed.
  Lemma ffit_all_later cpu order X y ests W locs cache Xp js : rows_of F X -> match Xp with Some A => rows_of F A | None => True end ->
    later fall_rel (fit_all cpu order X y ests W locs cache Xp js) (fit_all cpu order (map phi X) y ests W locs cache (option_map (map phi) Xp) js).
  Proof.
    intros HX HXp. unfold fit_all. cbv zeta. destruct (j_n_jobs js) as [z|].
    - destruct (j_n_patches js); [intros r Hr; discriminate|]. destruct (z =? 0)%Z; [intros r Hr; discriminate|].
      destruct Xp as [A|]; cbn [option_map]; rewrite ?map_length; destruct W as [m|m]; apply fjobs_later; intros; first [apply fdense_later|apply fsparse_later]; auto.
    - destruct Xp as [A|]; cbn [option_map]; destruct W as [m|m]; apply fbatches_later; intros; first [apply fdense_later|apply fsparse_later]; auto.
  Qed.

  Theorem fit_rewritten G choice cpu wm c order g fs s0 s0' X y coords given F' : rewrites F F' phi -> rows_of F X ->
    let o := fit est fit_est predict_est G choice cpu wm c order g fs s0 X y coords given in
    let o' := fit est fit_est predict_est G choice cpu wm c order g fs s0' (map phi X) y coords given in
    o_result est G o = Ok tt ->
    o_result est G o' = Ok tt /\
    exists es es',
      y_sample_ est (o_state est G o') = y_sample_ est (o_state est G o) /\
      local_predict_ est (o_state est G o') = local_predict_ est (o_state est G o) /\
      local_residual_ est (o_state est G o') = local_residual_ est (o_state est G o) /\
      llocv_score_ est (o_state est G o') = llocv_score_ est (o_state est G o) /\
      local_indices_ est (o_state est G o') = local_indices_ est (o_state est G o) /\
      local_estimators est (o_state est G o) = Some es /\ local_estimators est (o_state est G o') = Some es' /\ Forall2 (slot_rel agrees) es es' /\
      (cache_data c = true -> data_X est (o_state est G o) = Some X /\ data_X est (o_state est G o') = Some (map phi X) /\ data_coords est (o_state est G o) = coords /\
         data_coords est (o_state est G o') = coords /\ data_y est (o_state est G o) = Some y /\ data_y est (o_state est G o') = Some y).
  Proof.
    intros [HF' Hphi] HX o o' H.
    destruct (fit_inv est fit_est predict_est G choice cpu wm c order g fs s0 X y coords given H)
      as (w & g1 & locs & preds & es & p & sc & V1 & V2 & V3 & V4 & V5 & V6 & E). fold o in E.
    destruct (ffit_all_later _ _ _ _ _ _ _ _ None _ HX I _ V4) as ([preds' es'] & V4' & [P1 P2]). cbn [fst snd] in P1, P2. subst preds'.
    assert (V4q : fit_all cpu order (map phi X) y (seq 0 (length X)) (if leave_local_out c then clear_diagonal w else w) (Some locs) (cache_estimator c) None (init_jobs cpu c) = Ok (preds, es')) by exact V4'.
    assert (V1' : check_X_y (map phi X) y = Ok tt) .
    { apply check_ok in V1 as (C1 & C2 & C3 & C4). destruct X as [|x0 X]; [cbn in C2; lia|]. unfold check_X_y. rewrite map_length, C1, Nat.eqb_refl.
      assert (En : ncols (map phi (x0 :: X)) = F') by (cbn; apply Hphi; inversion HX; auto). rewrite En.
      rewrite (proj2 (Nat.eqb_neq (length y) 0)) by lia. rewrite (proj2 (Nat.eqb_neq F' 0)) by lia. cbn [negb orb].
      assert (Ef : forallb (fun row => (length row =? F')%nat) (map phi (x0 :: X)) = true).
      { apply forallb_forall. intros r Hr. apply in_map_iff in Hr as (r0 & <- & Hr). apply Nat.eqb_eq, Hphi. unfold rows_of in HX. rewrite Forall_forall in HX. auto. }
      rewrite Ef. reflexivity. }
    assert (E' : exists nc fs' Wr, o' = Outcome est G
        (State est (Some true) nc (Some (length (map phi X)))
           (if cache_data c then Some (map phi X) else data_X est s0') (if cache_data c then Some y else data_y est s0')
           (if cache_data c then coords else data_coords est s0')
           (Some (if leave_local_out c then clear_diagonal w else w))
           (Some (positive_mask (if leave_local_out c then clear_diagonal w else w)))
           (Some locs) (Some (take 0 y locs)) (Some es') (Some p) (Some sc)
           (Some (map2 Rminus (take 0 y locs) p))
           (permutation_score_decrease_ est s0') (interaction_matrix_ est s0')) Wr g1 fs' (Ok tt)).
    { unfold o', fit. rewrite V1'. unfold in_force in V2. cbv zeta. rewrite (map_length phi X).
      destruct given as [w0|].
      - destruct V2 as [V2|[V2 _]]; [injection V2 as ->|discriminate]. destruct coords;
          rewrite V3, V4q, V5; cbn [bind]; rewrite V6; cbn [bind]; eexists _, _, _; destruct (cache_data c); reflexivity.
      - destruct V2 as [V2|(_ & v & -> & V2)]; [discriminate|]. destruct (wm fs v v) as [fs1 r]. cbn in V2. subst r.
        rewrite V3, V4q, V5. cbn [bind]. rewrite V6. cbn [bind]. eexists _, _, _. destruct (cache_data c); reflexivity. }
    destruct E' as (nc & fs' & Wr & E'). rewrite E, E'. cbn. split; [reflexivity|].
    exists es, es'. repeat (split; [reflexivity|]). split; [exact P2|]. intros ->. auto 10.
  Qed.

  Theorem pbf_rewritten cpu wm c order fs s s' Z coords W tX out : rows_of F tX -> rows_of F Z ->
    data_X est s = Some tX -> data_X est s' = Some (map phi tX) -> data_coords est s' = data_coords est s -> data_y est s' = data_y est s ->
    snd (predict_by_fit est fit_est predict_est cpu wm c order fs s Z coords W) = Ok out ->
    snd (predict_by_fit est fit_est predict_est cpu wm c order fs s' (map phi Z) coords W) = Ok out.
  Proof.
    intros HtX HZ E1 E2 E3 E4. unfold predict_by_fit. rewrite E1, E2, E3, E4. rewrite ?map_length. destruct (negb (cache_data c)); [discriminate|].
    destruct (guard_weights coords W); [|discriminate].
    match goal with |- context[let '(_, _) := ?t in _] => destruct t as [fs' [[w locs]|e]] end; [|discriminate].
    cbn [snd]. destruct (data_y est s) as [ty|]; [|discriminate].
    destruct (fit_all cpu order tX ty _ _ _ _ _ _) as [x|] eqn:Ex; cbn [bind]; [|discriminate]. intros H. injection H as <-.
    destruct (ffit_all_later _ _ _ _ _ _ _ _ (Some Z) _ HtX HZ _ Ex) as (x' & E & [P1 _]). cbn [option_map] in E.
    match type of E with ?t = _ => match goal with |- context [fit_all ?a ?b ?c ?d ?f ?g ?h ?i ?j ?k] => change (fit_all a b c d f g h i j k) with t end end.
    rewrite E. cbn [bind]. rewrite P1. reflexivity.
  Qed.

  Theorem pbw_rewritten wm c fs fs' s s' Z v t es es' preds W m n :
    cache_data c = true -> cache_estimator c = true -> rows_of F Z ->
    local_estimators est s = Some (map Some es) -> local_estimators est s' = Some es' -> Forall2 (slot_rel agrees) (map Some es) es' ->
    data_coords est s = Some t -> data_coords est s' = Some t ->
    wm fs v t = (fs', Ok (WDense (mmap Fin W))) -> rect W m n -> (0 < m)%nat -> (0 < n)%nat -> length es = n ->
    Forall2 (fun e p => predict_est e Z = Ok p /\ length p = m) es preds ->
    exists q, length q = m /\
      predict_by_weight est predict_est wm c fs s Z (Some v) None = (fs', Ok (map Fin q)) /\
      predict_by_weight est predict_est wm c fs s' (map phi Z) (Some v) None = (fs', Ok (map Fin q)).
  Proof.
    intros H1 H2 HZ E1 E2 HF T1 T2 Hw HW Hm Hn Hl Hp.
    assert (K : exists es1, es' = map Some es1 /\ Forall2 (fun e p => predict_est e (map phi Z) = Ok p /\ length p = m) es1 preds).
    { clear -HF Hp HZ. revert es' HF. induction Hp as [|e p es preds [P1 P2] Hp IH]; intros es' HF; inversion HF as [|x o l l' Ho HF']; subst.
      - exists []. split; [reflexivity|constructor].
      - destruct (IH _ HF') as (es1 & -> & F1). destruct o as [e'|]; [|destruct Ho]. exists (e' :: es1). split; [reflexivity|].
        constructor; auto. }
    destruct K as (es1 & -> & F1).
    assert (Hl1 : length es1 = n) by (rewrite <- Hl; rewrite (Forall2_len _ _ _ F1); symmetry; apply (Forall2_len _ _ _ Hp)).
    rewrite (pbw_sum est predict_est wm c fs fs' s Z v t es preds W m n) by auto.
    rewrite (pbw_sum est predict_est wm c fs fs' s' (map phi Z) v t es1 preds W m n) by auto.
    eexists. split; [apply tabulate_length|]. split; reflexivity.
  Qed.
End Tasks.

(** ** The claims *)
Section Claims.
  Context {est : Type}.
  Variable fit_est : nat -> matrix R -> list R -> list ext -> result est.
  Variable predict_est : est -> matrix R -> result (list R).
  Variables (F F' : nat) (phi : list R -> list R).
  Hypothesis Hov : overlooks F phi fit_est predict_est.
  Hypothesis Hrw : rewrites F F' phi.
  Context {G : Type}.
  Variable choice : G -> list nat -> nat -> G * list nat.
  Variable cpu : nat.
  Variable wm : filesystem -> list coords -> list coords -> filesystem * result weights.
  Notation FIT := (fit est fit_est predict_est G choice cpu wm).

  Theorem rewritten_fit c order g fs s0 s0' X y coords given : rows_of F X ->
    let o := FIT c order g fs s0 X y coords given in
    let o' := FIT c order g fs s0' (map phi X) y coords given in
    o_result est G o = Ok tt ->
    o_result est G o' = Ok tt /\
    local_predict_ est (o_state est G o') = local_predict_ est (o_state est G o) /\
    local_residual_ est (o_state est G o') = local_residual_ est (o_state est G o) /\
    llocv_score_ est (o_state est G o') = llocv_score_ est (o_state est G o).
  Proof.
    intros HX o o' H. destruct (fit_rewritten fit_est predict_est F phi Hov G choice cpu wm c order g fs s0 s0' X y coords given F' Hrw HX H)
      as (H' & es & es' & _ & A1 & A2 & A3 & _). auto.
  Qed.

  Theorem rewritten_pbf c order g fs s0 s0' X y coords given order2 fs2 A v W out : rows_of F X -> rows_of F A ->
    let o := FIT c order g fs s0 X y coords given in
    let o' := FIT c order g fs s0' (map phi X) y coords given in
    o_result est G o = Ok tt ->
    snd (predict_by_fit est fit_est predict_est cpu wm c order2 fs2 (o_state est G o) A v W) = Ok out ->
    snd (predict_by_fit est fit_est predict_est cpu wm c order2 fs2 (o_state est G o') (map phi A) v W) = Ok out.
  Proof.
    intros HX HA o o' H HP. destruct (fit_rewritten fit_est predict_est F phi Hov G choice cpu wm c order g fs s0 s0' X y coords given F' Hrw HX H)
      as (H' & es & es' & _ & _ & _ & _ & _ & _ & _ & _ & HD).
    assert (Hc : cache_data c = true).
    { unfold predict_by_fit in HP. destruct (cache_data c); [reflexivity|discriminate]. }
    destruct (HD Hc) as (D1 & D2 & D3 & D4 & D5 & D6). fold o in D1, D3, D5. fold o' in D2, D4, D6.
    apply (pbf_rewritten fit_est predict_est F phi Hov cpu wm c order2 fs2 (o_state est G o) (o_state est G o') A v W X); auto; congruence.
  Qed.

  Theorem rewritten_pbw c order g fs s0 s0' X y t given fs2 fs3 A v es preds W m n : rows_of F X -> rows_of F A ->
    let o := FIT c order g fs s0 X y (Some t) given in
    let o' := FIT c order g fs s0' (map phi X) y (Some t) given in
    o_result est G o = Ok tt -> cache_data c = true -> cache_estimator c = true ->
    local_estimators est (o_state est G o) = Some (map Some es) -> length es = n -> (0 < n)%nat -> (0 < m)%nat ->
    Forall2 (fun e p => predict_est e A = Ok p /\ length p = m) es preds ->
    wm fs2 v t = (fs3, Ok (WDense (mmap Fin W))) -> rect W m n ->
    exists q, length q = m /\
      predict_by_weight est predict_est wm c fs2 (o_state est G o) A (Some v) None = (fs3, Ok (map Fin q)) /\
      predict_by_weight est predict_est wm c fs2 (o_state est G o') (map phi A) (Some v) None = (fs3, Ok (map Fin q)).
  Proof.
    intros HX HA o o' H C1 C2 HE Hl Hn Hm Hp Hw HW.
    destruct (fit_rewritten fit_est predict_est F phi Hov G choice cpu wm c order g fs s0 s0' X y (Some t) given F' Hrw HX H)
      as (H' & es1 & es' & _ & _ & _ & _ & _ & E1 & E2 & HF & HD). destruct (HD C1) as (D1 & D2 & D3 & D4 & _).
    fold o in E1, D3. fold o' in E2, D4. rewrite HE in E1. injection E1 as <-.
    apply (pbw_rewritten predict_est F phi wm c fs2 fs3 (o_state est G o) (o_state est G o') A v t es es' preds W m n); auto.
  Qed.
End Claims.
