(** Sequences of calls on a stacking model. *)
From Verif.Model Require Import Base Ext Csr Neighbour Distance WeightModel NumbaImpl Stacking StackingPredict StackingHistory.
From Verif.Spec Require Import StackingHistorySpec.
From Verif.Proofs Require Import ListFacts StackingProps StackingClaims2.
Open Scope nat_scope.
Open Scope R_scope.

Section P.
  Variable est : Type.
  Variable fit_est : nat -> matrix R -> list R -> list R -> result est.
  Variable predict_est : est -> matrix R -> result (list R).
  Variable meta : Type.
  Variable fit_meta : R -> nat -> matrix R -> list R -> list R -> result meta.
  Variable predict_meta : meta -> matrix R -> result (list R).
  Variable solve : matrix R -> list R -> result (list R).
  Variable G : Type.
  Variable seed0 : G.
  Variable choice : G -> list nat -> nat -> G * list nat.
  Variable cpu : nat.
  Variable wm : filesystem -> list coords -> list coords -> filesystem * result swts.
  Notation sfit := (sfit est fit_est predict_est meta fit_meta predict_meta solve G seed0 choice cpu wm).
  Notation spredict := (spredict est fit_est predict_est meta fit_meta predict_meta cpu wm).
  Notation srun := (srun est fit_est predict_est meta fit_meta predict_meta solve G seed0 choice cpu wm).

  Lemma fit_metas_scores r c g n y w nb L XT es g3 ps scores ses :
    fit_metas est meta fit_meta predict_meta solve G choice r c g n y w nb L XT es = Ok (g3, (ps, scores, ses)) ->
    (sc_use_numba c = true -> scores <> None) /\ (sc_use_numba c = false -> scores = None).
  Proof.
    unfold fit_metas. destruct (sc_use_numba c); intros H; split; intros HN; try discriminate;
      destruct w, nb, L, XT; try discriminate; repeat (apply bind_ok in H; destruct H as (? & ? & H)); try discriminate; injection H as <- <- <- <-; congruence.
  Qed.

  Ltac close := cbn; repeat (split || intros); try reflexivity; try discriminate.
  Ltac chain close :=
    match goal with |- context[leave_out_sample ?a ?b ?c ?d ?e ?f ?g] => destruct (leave_out_sample a b c d e f g) as [[g1 L]|e0] end; [|close];
    match goal with |- context[sample_locations ?a ?b ?c ?d ?e] => destruct (sample_locations a b c d e) as [[g2 locs]|e0] end; [|close];
    match goal with |- context[shrink_w ?a ?b ?c] => destruct (shrink_w a b c) as [w' sh] end;
    match goal with |- context[match bind ?m ?k with _ => _ end] => destruct (bind m k) as [[nb [[preds XT] es]]|e0] end; [|close];
    match goal with |- context[match bind ?m ?k with _ => _ end] => destruct (bind m k) as [[p score]|e0] end; [|close];
    match goal with |- context[match bind ?m ?k with _ => _ end] => destruct (bind m k) as [[[g3 [[ps scores] ses]] score']|e0] eqn:EM end; [|close].

  Lemma sfit_forgets r c g fs s s' X y v given :
    let o := sfit r c g fs s X y v given in
    let o' := sfit r c g fs s' X y v given in
    so_result est meta G o = so_result est meta G o' /\ so_weights est meta G o = so_weights est meta G o' /\
    so_gen est meta G o = so_gen est meta G o' /\ so_fs est meta G o = so_fs est meta G o' /\
    (so_result est meta G o = Ok tt ->
      let a := so_state est meta G o in
      let b := so_state est meta G o' in
      same_stacking a b /\
      (sc_cache_data c = true -> ss_X est meta a = ss_X est meta b /\ ss_y est meta a = ss_y est meta b) /\
      (given = None -> ss_weight_matrix est meta a = ss_weight_matrix est meta b /\
                       ss_neighbour_matrix est meta a = ss_neighbour_matrix est meta b) /\
      (sc_use_numba c = true -> ss_stacking_scores est meta a = ss_stacking_scores est meta b)).
  Proof.
    cbv zeta. unfold Stacking.sfit.
    destruct (check_X_y X y) as [u|e]; [|cbn; repeat (split || intros); discriminate].
    assert (HS : forall r c g n y w nb L XT es g3 ps scores ses score' ys,
      (m <- fit_metas est meta fit_meta predict_meta solve G choice r c g n y w nb L XT es ;;
       score' <- r2_score ys (fst (fst (snd m))) ;; Ok (m, score')) = Ok (g3, (ps, scores, ses), score') ->
      sc_use_numba c = true -> scores <> None).
    { intros until ys. intros H. apply bind_ok in H. destruct H as (m & Hm & H). apply bind_ok in H. destruct H as (q & _ & H).
      injection H as -> _. apply (fit_metas_scores _ _ _ _ _ _ _ _ _ _ _ _ _ _ Hm). }
    destruct v as [v|], given as [w|]; [| | |close].
    - chain ltac:(close). pose proof (HS _ _ _ _ _ _ _ _ _ _ _ _ _ _ _ _ EM) as HN. unfold same_stacking. cbn. repeat (split || intros); try reflexivity; try discriminate; try (destruct (sc_cache_data c); [reflexivity|discriminate]).
      destruct scores; [reflexivity|exfalso; tauto].
    - destruct (wm fs v v) as [fs' [w|e]]; [|close].
      chain ltac:(close). pose proof (HS _ _ _ _ _ _ _ _ _ _ _ _ _ _ _ _ EM) as HN. unfold same_stacking. cbn. repeat (split || intros); try reflexivity; try discriminate; try (destruct (sc_cache_data c); [reflexivity|discriminate]).
      destruct scores; [reflexivity|exfalso; tauto].
    - chain ltac:(close). pose proof (HS _ _ _ _ _ _ _ _ _ _ _ _ _ _ _ _ EM) as HN. unfold same_stacking. cbn. repeat (split || intros); try reflexivity; try discriminate; try (destruct (sc_cache_data c); [reflexivity|discriminate]).
      destruct scores; [reflexivity|exfalso; tauto].
  Qed.
  
  (** What a fit does not assign. *)
  Lemma sfit_keeps r c g fs s X y v given :
    let o := sfit r c g fs s X y v given in
    let a := so_state est meta G o in
    (given <> None -> ss_weight_matrix est meta a = ss_weight_matrix est meta s /\ ss_neighbour_matrix est meta a = ss_neighbour_matrix est meta s) /\
    (sc_use_numba c = false -> ss_stacking_scores est meta a = ss_stacking_scores est meta s) /\
    (sc_cache_data c = false -> ss_X est meta a = ss_X est meta s /\ ss_y est meta a = ss_y est meta s) /\
    (ss_cache_estimator est meta s = true -> ss_cache_estimator est meta a = true).
  Proof.
    cbv zeta. unfold Stacking.sfit.
    destruct (check_X_y X y) as [u|e]; [|cbn; repeat (split || intros); auto].
    assert (HS : forall r c g n y w nb L XT es g3 ps scores ses score' ys,
      (m <- fit_metas est meta fit_meta predict_meta solve G choice r c g n y w nb L XT es ;;
       score' <- r2_score ys (fst (fst (snd m))) ;; Ok (m, score')) = Ok (g3, (ps, scores, ses), score') ->
      sc_use_numba c = false -> scores = None).
    { intros until ys. intros H. apply bind_ok in H. destruct H as (m & Hm & H). apply bind_ok in H. destruct H as (q & _ & H).
      injection H as -> _. apply (fit_metas_scores _ _ _ _ _ _ _ _ _ _ _ _ _ _ Hm). }
    Local Ltac fin := cbn; repeat (split || intros); auto; try congruence; try (destruct (sc_cache_data _); [discriminate|reflexivity]).
    destruct v as [v|], given as [w|]; [| | |fin].
    - chain ltac:(fin). fin. match goal with H : sc_use_numba c = false |- _ => rewrite (HS _ _ _ _ _ _ _ _ _ _ _ _ _ _ _ _ EM H) end; reflexivity.
    - destruct (wm fs v v) as [fs' [w|e]]; [|fin]. chain ltac:(fin). fin. match goal with H : sc_use_numba c = false |- _ => rewrite (HS _ _ _ _ _ _ _ _ _ _ _ _ _ _ _ _ EM H) end; reflexivity.
    - chain ltac:(fin). fin. match goal with H : sc_use_numba c = false |- _ => rewrite (HS _ _ _ _ _ _ _ _ _ _ _ _ _ _ _ _ EM H) end; reflexivity.
  Qed.

  Lemma spredict_forgets r c fs s s' X y v Xp vp :
    snd (spredict r c fs s X y v Xp vp) = snd (spredict r c fs s' X y v Xp vp) /\
    snd (fst (spredict r c fs s X y v Xp vp)) = snd (fst (spredict r c fs s' X y v Xp vp)) /\
    (ss_cache_estimator est meta s = true -> ss_cache_estimator est meta (fst (fst (spredict r c fs s X y v Xp vp))) = true).
  Proof.
    unfold StackingPredict.spredict.
    destruct (check_X_y X y) as [u|e]; [|cbn; auto].
    destruct (wm fs v v) as [fs1 [w|e]]; [|cbn; auto].
    destruct (wm fs1 v vp) as [fs2 [tw|e]]; [|cbn; auto].
    match goal with |- context[match bind ?m ?k with _ => _ end] => destruct (bind m k) as [[[preds XT] es]|e0] end; [|cbn; auto].
    match goal with |- context[match bind ?m ?k with _ => _ end] => destruct (bind m k) as [[p score]|e0] end; [|cbn; auto].
    destruct tw as [m|m]; [|cbn; auto]. destruct XT as [x|x]; [|cbn; auto]. destruct (sc_use_numba c); [cbn; auto|].
    match goal with |- context[match mapM ?m ?k with _ => _ end] => destruct (mapM m k) as [rs|e0] end; cbn; auto.
  Qed.

  Lemma srun_flag c w ks :
    ss_cache_estimator est meta (sw_state est meta G w) = true ->
    ss_cache_estimator est meta (sw_state est meta G (srun c w ks)) = true.
  Proof.
    revert w. induction ks as [|k ks IH]; intros w H; [exact H|].
    change (srun c w (k :: ks)) with (srun c (do_scall est fit_est predict_est meta fit_meta predict_meta solve G seed0 choice cpu wm c w k) ks).
    apply IH. destruct w as [s g fs]. cbn in H. destruct k as [r X y v given|r X y v Xp vp]; cbn [do_scall].
    - cbn. apply (sfit_keeps r c g fs s X y v given), H.
    - destruct (spredict_forgets r c fs s s X y v Xp vp) as (_ & _ & HF).
      destruct (spredict r c fs s X y v Xp vp) as [[s2 fs2] o]. cbn in *. auto.
  Qed.

  Lemma refit r c history s0 g0 fs0 g fs X y v given s' :
    let used := sw_state est meta G (srun c (SWorld est meta G s0 g0 fs0) history) in
    let o := sfit r c g fs used X y v given in
    let o' := sfit r c g fs s' X y v given in
    so_result est meta G o = so_result est meta G o' /\ so_weights est meta G o = so_weights est meta G o' /\
    so_gen est meta G o = so_gen est meta G o' /\ so_fs est meta G o = so_fs est meta G o' /\
    (so_result est meta G o = Ok tt ->
      let a := so_state est meta G o in
      let b := so_state est meta G o' in
      same_stacking a b /\
      (sc_cache_data c = true -> ss_X est meta a = ss_X est meta b /\ ss_y est meta a = ss_y est meta b) /\
      (given = None -> ss_weight_matrix est meta a = ss_weight_matrix est meta b /\
                       ss_neighbour_matrix est meta a = ss_neighbour_matrix est meta b) /\
      (sc_use_numba c = true -> ss_stacking_scores est meta a = ss_stacking_scores est meta b)).
  Proof. intros used. apply sfit_forgets. Qed.

  Lemma failed_flag r c g fs flag X y v given later :
    check_X_y X y = Ok tt -> (v <> None \/ given <> None) ->
    let o := sfit r c g fs (new_stacking est meta flag) X y v given in
    ss_base_list est meta (so_state est meta G o) = None ->
    ss_cache_estimator est meta (sw_state est meta G (srun c (SWorld est meta G (so_state est meta G o) (so_gen est meta G o) (so_fs est meta G o)) later)) = true.
  Proof.
    intros HC HA o HB. apply srun_flag. cbn [sw_state].
    unfold o. rewrite (cache_flag fit_est predict_est fit_meta predict_meta solve seed0 choice cpu wm r c g fs (new_stacking est meta flag) X y v given HC HA eq_refl).
    fold o. rewrite HB. reflexivity.
  Qed.
End P.
