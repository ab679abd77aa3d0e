(** Inspecting a fitted stacking model. *)
From Coq Require Import Lra.
From Verif.Model Require Import Base Ext Csr Neighbour Distance WeightModel NumbaImpl Stacking Inspect Ale StackingInspect.
From Verif.Spec Require Import KernelSpec NeighbourSpec WeightModelSpec InspectSpec AleSpec StackingSpec.
From Verif.Proofs Require Import ListFacts KernelFacts CsrFacts NeighbourFacts WeightModelFacts NeighbourProps WeightModelProps
  StackingFacts StackingMeta StackingProps StackingClaims3 InspectProps.
Open Scope nat_scope.
Open Scope R_scope.

Section Data.
  Context {est meta G : Type}.
  Variable fit_est : nat -> matrix R -> list R -> list R -> result est.
  Variable predict_est : est -> matrix R -> result (list R).
  Variable fit_meta : R -> nat -> matrix R -> list R -> list R -> result meta.
  Variable predict_meta : meta -> matrix R -> result (list R).
  Variable solve : matrix R -> list R -> result (list R).
  Variable seed0 : G.
  Variable choice : G -> list nat -> nat -> G * list nat.
  Variable cpu : nat.
  Variable wm : filesystem -> list coords -> list coords -> filesystem * result swts.
  Notation sfit := (sfit est fit_est predict_est meta fit_meta predict_meta solve G seed0 choice cpu wm).
  Notation so_state := (so_state est meta G).
  Notation so_result := (so_result est meta G).

  Lemma sfit_data r c g fs s0 X y coords given :
    let o := sfit r c g fs s0 X y coords given in
    so_result o = Ok tt ->
    ss_n est meta (so_state o) = Some (length X) /\ ss_n_features est meta (so_state o) = Some (ncols X) /\
    (sc_cache_data c = true -> ss_X est meta (so_state o) = Some X /\ ss_y est meta (so_state o) = Some y) /\
    (given <> None -> ss_weight_matrix est meta (so_state o) = ss_weight_matrix est meta s0 /\
       ss_neighbour_matrix est meta (so_state o) = ss_neighbour_matrix est meta s0).
  Proof.
    cbv zeta. unfold Stacking.sfit. destruct (check_X_y X y) as [[]|e]; [|discriminate].
    assert (A : forall o,
      (exists s2, ss_n est meta s2 = Some (length X) /\ ss_n_features est meta s2 = Some (ncols X) /\
        (sc_cache_data c = true -> ss_X est meta s2 = Some X /\ ss_y est meta s2 = Some y) /\
        (given <> None -> ss_weight_matrix est meta s2 = ss_weight_matrix est meta s0 /\ ss_neighbour_matrix est meta s2 = ss_neighbour_matrix est meta s0) /\
        ss_n est meta (so_state o) = ss_n est meta s2 /\ ss_n_features est meta (so_state o) = ss_n_features est meta s2 /\
        ss_X est meta (so_state o) = ss_X est meta s2 /\ ss_y est meta (so_state o) = ss_y est meta s2 /\
        (given <> None -> ss_weight_matrix est meta (so_state o) = ss_weight_matrix est meta s2 /\ ss_neighbour_matrix est meta (so_state o) = ss_neighbour_matrix est meta s2)) ->
      ss_n est meta (so_state o) = Some (length X) /\ ss_n_features est meta (so_state o) = Some (ncols X) /\
      (sc_cache_data c = true -> ss_X est meta (so_state o) = Some X /\ ss_y est meta (so_state o) = Some y) /\
      (given <> None -> ss_weight_matrix est meta (so_state o) = ss_weight_matrix est meta s0 /\
       ss_neighbour_matrix est meta (so_state o) = ss_neighbour_matrix est meta s0)).
    { intros o (s2 & B1 & B2 & B3 & B4 & B5 & B6 & B7 & B8 & B9). rewrite B5, B6, B7, B8. repeat split; auto; try apply B3; auto;
      destruct (B9 H) as [E1 E2]; destruct (B4 H) as [E3 E4]; congruence. }
    set (s1 := ss_start est meta s0 (ncols X) (length X) (if sc_cache_data c then Some (X, y) else None) true).
    destruct given as [w|].
    - assert (EE : forall T (a b : T), (match coords with Some _ => a | None => a end) = a) by (intros; destruct coords; auto).
      intros H. apply A. exists s1. split; [reflexivity|]. split; [reflexivity|].
      split; [unfold s1; destruct (sc_cache_data c); [split; reflexivity|discriminate]|]. split; [intros _; split; reflexivity|]. revert H.
      destruct coords; destruct (leave_out_sample _ _ _ _ _ _ _) as [[g1 L]|]; try discriminate;
        destruct (sample_locations _ _ _ _ _) as [[g2 locs]|]; try discriminate;
        destruct (shrink_w _ _ _) as [w' sh]; cbv zeta;
        match goal with |- context [match ?x with Ok _ => _ | Raise _ => _ end] => destruct x as [[nb [[preds XT] es]]|]; try discriminate end;
        match goal with |- context [match ?x with Ok _ => _ | Raise _ => _ end] => destruct x as [[p score]|]; try discriminate end;
        match goal with |- context [match ?x with Ok _ => _ | Raise _ => _ end] => destruct x as [[[g3 [[ps scores] ses]] score']|]; try discriminate end;
        intros _; cbn; repeat split; auto.
    - destruct coords as [v|]; [|discriminate].
      destruct (wm fs v v) as [fs' [w|]]; try discriminate.
      intros H. apply A. exists s1. split; [reflexivity|]. split; [reflexivity|].
      split; [unfold s1; destruct (sc_cache_data c); [split; reflexivity|discriminate]|]. split; [congruence|]. revert H.
      destruct (leave_out_sample _ _ _ _ _ _ _) as [[g1 L]|]; try discriminate;
        destruct (sample_locations _ _ _ _ _) as [[g2 locs]|]; try discriminate;
        destruct (shrink_w _ _ _) as [w' sh]; cbv zeta;
        match goal with |- context [match ?x with Ok _ => _ | Raise _ => _ end] => destruct x as [[nb [[preds XT] es]]|]; try discriminate end;
        match goal with |- context [match ?x with Ok _ => _ | Raise _ => _ end] => destruct x as [[p score]|]; try discriminate end;
        match goal with |- context [match ?x with Ok _ => _ | Raise _ => _ end] => destruct x as [[[g3 [[ps scores] ses]] score']|]; try discriminate end;
        intros _; cbn; repeat split; auto; congruence.
  Qed.
End Data.

Section Fitted.
  Context {est meta G : Type}.
  Variable fit_est : nat -> matrix R -> list R -> list R -> result est.
  Variable predict_est : est -> matrix R -> result (list R).
  Variable fit_meta : R -> nat -> matrix R -> list R -> list R -> result meta.
  Variable predict_meta : meta -> matrix R -> result (list R).
  Variable solve : matrix R -> list R -> result (list R).
  Variable seed0 : G.
  Variable choice : G -> list nat -> nat -> G * list nat.
  Variable cpu : nat.
  Variable wm : filesystem -> list coords -> list coords -> filesystem * result swts.
  Notation sfit := (sfit est fit_est predict_est meta fit_meta predict_meta solve G seed0 choice cpu wm).
  Notation so_state := (so_state est meta G).
  Notation so_result := (so_result est meta G).
  Notation member := (member est meta).
  Notation Stacked := (Stacked est meta).
  Notation inspected := (inspected est meta).
  Notation predict_member := (predict_member est predict_est meta predict_meta).
  Notation predict_stacking := (predict_stacking est predict_est meta predict_meta).

  Theorem stack_fitted r c g fs s0 X y coords given w W decrease interaction :
    let n := length X in
    let o := sfit r c g fs s0 X y coords given in
    let s := so_state o in
    valid_choice choice -> one_per_row predict_est ->
    valid_runtime r n (patches cpu c) -> valid_rates c -> real_weights wm fs coords given w -> holds_real w W n ->
    (sc_use_numba c = true -> forall a b, (a < n)%nat -> (b < n)%nat -> 0 <= mget 0 W a b) ->
    sc_cache_data c = true -> sc_sample_local_rate c = None -> (2 <= n)%nat ->
    so_result o = Ok tt ->
    exists ps0 ps ses base stack,
      ss_local_predict est meta s = Some (map (fun x => [x]) ps0) /\ ss_stacking_predict est meta s = Some ps /\
      ss_local_list est meta s = Some (LStacking est meta ses) /\
      ss_llocv_score est meta s = Some (Fin base) /\ ss_llocv_stacking est meta s = Some (Fin stack) /\
      is_r2 y ps0 base /\ is_r2 y ps stack /\
      fitted_model (inspected s decrease interaction) X y (map Stacked ses) n (ncols X) base.
  Proof.
    intros n o s Hc Hone Hr Hrt Hreal Hw Hpos C1 C2 Hn Hok.
    destruct (sfit_stacked fit_est predict_est fit_meta predict_meta solve seed0 choice cpu wm Hc Hone r c g fs s0 X y coords given w W Hr Hrt Hreal Hw Hpos Hok)
      as (L & W' & es' & ps0 & qs & ps' & ses' & A1 & A2 & A3 & A4 & A5 & A6 & A7).
    destruct (sfit_inv fit_est predict_est fit_meta predict_meta solve seed0 choice cpu wm r c g fs s0 X y coords given Hok)
      as (w0 & g1 & Lm & g2 & locs & w' & second & preds & XT & es & p & score & g3 & ps & scores & ses & score' & HI).
    cbv zeta in HI. destruct HI as (E0 & E00 & E1 & E2 & E3 & E4 & E5 & E6 & E7 & E8 & E9 & B1 & B2 & B3 & B4 & B5 & B6 & B7 & B8 & B9 & B10 & _).
    destruct (sfit_data fit_est predict_est fit_meta predict_meta solve seed0 choice cpu wm r c g fs s0 X y coords given Hok) as (D1 & D2 & D3 & _).
    destruct (D3 C1) as [D4 D5]. subst s o.
    pose proof (st_num _ _ _ _ _ _ _ _ _ _ _ _ _ _ _ _ _ _ _ A3) as (N1 & N2 & N3 & N4). fold n in N1, N2, N3, N4.
    assert (Ep : p = ps0).
    { rewrite A5 in B2. injection B2 as <-. unfold one_each in E6. clear -E6. revert p E6. induction ps0 as [|x l IH]; intros p H; cbn in H.
      - congruence.
      - apply bind_ok in H. destruct H as [v [H H2]]. injection H2 as <-. f_equal. apply IH. exact H. }
    subst p. rewrite A6 in B4. injection B4 as <-. rewrite A7 in B5. injection B5 as <-.
    pose proof E0 as Hck. apply check_ok in Hck as (K1 & K2 & K3 & K4).
    assert (Ey : take 0 y locs = y).
    { unfold sample_locations in E2. rewrite C2 in E2. injection E2 as _ <-. fold n. replace n with (length y) by (unfold n; congruence).
      unfold take. symmetry. exact (tabulate_of_list 0 y). }
    rewrite Ey in *.
    assert (Hy : length y = n) by (unfold n; congruence).
    assert (S1 : exists v, score = Fin v /\ is_r2 y ps0 v).
    { destruct (r2_total y ps0) as [v Hv]; [congruence|lia|]. rewrite Hv in E7. injection E7 as <-. exists v. apply r2_fin in Hv as (_ & _ & ?). auto. }
    assert (S2 : exists v, score' = Fin v /\ is_r2 y ps' v).
    { destruct (r2_total y ps') as [v Hv]; [congruence|lia|]. rewrite Hv in E9. injection E9 as <-. exists v. apply r2_fin in Hv as (_ & _ & ?). auto. }
    destruct S1 as (base & -> & S1), S2 as (stack & -> & S2).
    exists ps0, ps', ses', base, stack. repeat (split; [assumption|]).
    unfold StackingInspect.inspected. cbn [n_obs n_features_in data_X data_y local_estimators llocv_score_].
    rewrite A7. split; [reflexivity|]. split; [rewrite map_length; exact N4|]. split; [split; [reflexivity|]; first [exact K4|apply K4]|].
    split; [exact Hy|]. split; [exact Hn|]. split; [lia|exact B9].
  Qed.

  (** The trials against the stacked score. *)
  Lemma trials_shift {e} (pe : e -> matrix R -> result (list R)) X y es N F a b r t : trials_of_model pe X y es N F a r t ->
    trials_of_model pe X y es N F b r (map (map (fun d => d - (a - b))) t).
  Proof.
    intros (perm & preds & T1 & T2 & T3 & T4). exists perm, preds. split; [exact T1|]. split; [exact T2|].
    assert (HR : rect (map (map (fun d => d - (a - b))) t) F r).
    { destruct T3 as [R1 R2]. split; [rewrite map_length; auto|]. rewrite Forall_map. revert R2. apply Forall_impl. intros row <-. apply map_length. }
    split; [exact HR|]. intros f k Hf Hk. specialize (T4 f k Hf Hk).
    replace (b - mget 0 (map (map (fun d => d - (a - b))) t) f k) with (a - mget 0 t f k); [exact T4|].
    unfold mget. rewrite (nth_map_in _ _ _ [] []) by (destruct T3; lia). rewrite (nth_map_in _ _ _ 0 0) by (rewrite (rect_row t F r); auto). ring.
  Qed.

  Variable permute : G -> list nat -> G * list nat.
  Hypothesis Hperm : valid_permute permute.
  Notation imp := (importance_score_global member predict_member G permute).

  Theorem stack_importance r c g fs s0 X y coords given w W decrease interaction cf g1 k s' g' out :
    let n := length X in
    let o := sfit r c g fs s0 X y coords given in
    let s := so_state o in
    valid_choice choice -> one_per_row predict_est ->
    valid_runtime r n (patches cpu c) -> valid_rates c -> real_weights wm fs coords given w -> holds_real w W n ->
    (sc_use_numba c = true -> forall a b, (a < n)%nat -> (b < n)%nat -> 0 <= mget 0 W a b) ->
    sc_cache_data c = true -> sc_sample_local_rate c = None -> (2 <= n)%nat ->
    so_result o = Ok tt ->
    imp cf (inspected s decrease interaction) g1 k = (s', g', Ok out) ->
    exists ses base stack t m,
      ss_local_list est meta s = Some (LStacking est meta ses) /\
      ss_llocv_score est meta s = Some (Fin base) /\ ss_llocv_stacking est meta s = Some (Fin stack) /\
      trials_of_model predict_member X y (map Stacked ses) n (ncols X) stack k (map (map (fun d => d - (base - stack))) t) /\
      beside decrease t m /\ permutation_score_decrease_ member s' = Some m /\ Forall2 is_mean m out.
  Proof.
    intros n o s Hc Hone Hr Hrt Hreal Hw Hpos C1 C2 Hn Hok Hi.
    destruct (stack_fitted r c g fs s0 X y coords given w W decrease interaction Hc Hone Hr Hrt Hreal Hw Hpos C1 C2 Hn Hok)
      as (ps0 & ps & ses & base & stack & A1 & A2 & A3 & A4 & A5 & A6 & A7 & HM).
    destruct (importance_permutes _ predict_member G permute Hperm _ _ _ _ _ _ _ _ _ _ _ _ _ HM Hi) as (t & m & HT & Hb & Hm & Ho).
    exists ses, base, stack, t, m. repeat (split; [assumption|]). split; [apply trials_shift; exact HT|]. auto.
  Qed.

  (** One stacking estimator, row by row. *)
  Lemma member_rowwise (h : est -> list R -> R) (hm : meta -> list R -> R) se rows p :
    (forall e X, predict_est e X = Ok (map (h e) X)) -> (forall m X p, predict_meta m X = Ok p -> p = map (hm m) X) ->
    predict_member (Stacked se) rows = Ok p ->
    forall x, In x rows -> forall k, nth_error rows k = Some x -> exists v,
      nth_error p k = Some v /\
      forall x' v', (forall e, In e (se_bases est meta se) -> h e x' = h e x) ->
        predict_stacking se [x'] = Ok [Fin v'] -> v' = v.
  Proof.
    intros He Hm H x _ k Hk. unfold StackingInspect.predict_member, Stacking.predict_stacking in *.
    assert (EM : forall rows, mapM (fun e => predict_est e rows) (se_bases est meta se) = Ok (map (fun e => map (h e) rows) (se_bases est meta se))).
    { intros rows'. apply mapM_all_ok. intros e _. apply He. }
    rewrite EM in H. cbn [bind] in H.
    destruct (se_bases est meta se) as [|e0 bs] eqn:EB; [discriminate|].
    assert (EF : forall rows, ncols (map (fun e => map (h e) rows) (e0 :: bs)) = length rows) by (intros; cbn; apply map_length).
    assert (EA : forall rows, forallb (fun c => (length c =? length rows)%nat) (map (fun e => map (h e) rows) (e0 :: bs)) = true).
    { intros rows'. apply forallb_forall. intros c Hc. apply in_map_iff in Hc as (e & <- & _). rewrite map_length. apply Nat.eqb_refl. }
    assert (ET : forall rows, transpose 0 (length rows) (map (fun e => map (h e) rows) (e0 :: bs)) = map (fun x => map (fun e => h e x) (e0 :: bs)) rows).
    { intros rows'. unfold transpose, tabulate. apply (list_eq_nth []); [rewrite !map_length, seq_length; auto|].
      intros j Hj. rewrite map_length, seq_length in Hj. rewrite (nth_map_in _ _ _ 0%nat) by (rewrite seq_length; auto). rewrite seq_nth by auto. rewrite Nat.add_0_l.
      rewrite (nth_map_in _ _ _ []) by auto. rewrite map_map. apply map_ext. intros e. rewrite (nth_map_in _ _ _ []) by auto. reflexivity. }
    rewrite EF, EA, ET in H. cbn [map length Nat.eqb orb negb] in H.
    apply bind_ok in H as (q & Hq & Hp).
    assert (HX : forall x', (forall e, In e (e0 :: bs) -> h e x' = h e x) -> h e0 x' :: map (fun e => h e x') bs = h e0 x :: map (fun e => h e x) bs).
    { intros x' Hx. rewrite (Hx e0) by (left; auto). f_equal. apply map_ext_in. intros e Hin. apply Hx. right. auto. }
    assert (Hpk : forall v, nth_error q k = Some (Fin v) -> nth_error p k = Some v).
    { intros v Hv. clear -Hv Hp. revert k p Hv Hp. induction q as [|a q IH]; intros [|k] p Hv Hp; cbn in Hv; try discriminate.
      - injection Hv as ->. cbn in Hp. apply bind_ok in Hp as (rest & _ & Hp). injection Hp as <-. reflexivity.
      - cbn in Hp. destruct a; cbn in Hp; try discriminate. apply bind_ok in Hp as (rest & Hr & Hp). injection Hp as <-. cbn. apply IH; auto. }
    assert (Hfin : forall v, nth_error q k = Some v -> exists u, v = Fin u).
    { intros v Hv. clear -Hv Hp. revert k p Hv Hp. induction q as [|a q IH]; intros [|k] p Hv Hp; cbn in Hv; try discriminate.
      - injection Hv as ->. cbn in Hp. destruct v; cbn in Hp; try discriminate; eauto.
      - cbn in Hp. destruct a; cbn in Hp; try discriminate. apply bind_ok in Hp as (rest & Hr & _). apply (IH k rest); auto. }
    assert (Hkr : (k < length rows)%nat) by (apply nth_error_Some; congruence).
    destruct (se_meta est meta se) as [m|coef b] eqn:ESM; cbn [predict_model] in Hq.
    - apply bind_ok in Hq as (q0 & Hq0 & Hq). injection Hq as <-. apply Hm in Hq0. subst q0.
      assert (Ek : nth_error (map Fin (map (hm m) (map (fun x => h e0 x :: map (fun e => h e x) bs) rows))) k = Some (Fin (hm m (h e0 x :: map (fun e => h e x) bs)))).
      { rewrite !nth_error_map, Hk. reflexivity. }
      exists (hm m (h e0 x :: map (fun e => h e x) bs)). split; [apply Hpk; exact Ek|].
      intros x' v' Hx Hp'. rewrite EM in Hp'. cbn [bind] in Hp'. rewrite EF, EA, ET in Hp'. cbn [map length Nat.eqb orb negb predict_model] in Hp'.
      apply bind_ok in Hp' as (q1 & Hq1 & Hp'). apply Hm in Hq1. subst q1. cbn [map] in Hp'. injection Hp' as <-. rewrite (HX x' Hx). reflexivity.
    - injection Hq as <-.
      assert (Ek : nth_error (map (fun row => eadd (Fin (dot row coef)) b) (map (fun x => h e0 x :: map (fun e => h e x) bs) rows)) k =
                   Some (eadd (Fin (dot (h e0 x :: map (fun e => h e x) bs) coef)) b)) by (rewrite !nth_error_map, Hk; reflexivity).
      destruct (Hfin _ Ek) as [u Hu]. rewrite Hu in Ek. exists u. split; [apply Hpk; exact Ek|].
      intros x' v' Hx Hp'. rewrite EM in Hp'. cbn [bind] in Hp'. rewrite EF, EA, ET in Hp'. cbn [map length Nat.eqb orb negb predict_model] in Hp'.
      apply (f_equal (fun z => match z with Ok (v :: _) => v | _ => NaN end)) in Hp'. cbv beta iota in Hp'. rewrite (HX x' Hx), Hu in Hp'. congruence.
  Qed.

  Theorem stack_unused (h : est -> list R -> R) (hm : meta -> list R -> R) r c g fs s0 X y coords given w W decrease interaction cf g1 k s' g' out f es :
    let n := length X in
    let o := sfit r c g fs s0 X y coords given in
    let s := so_state o in
    valid_choice choice -> (forall e X, predict_est e X = Ok (map (h e) X)) -> (forall m X p, predict_meta m X = Ok p -> p = map (hm m) X) ->
    valid_runtime r n (patches cpu c) -> valid_rates c -> real_weights wm fs coords given w -> holds_real w W n -> all_bases_used c w ->
    (sc_use_numba c = true -> forall a b, (a < n)%nat -> (b < n)%nat -> 0 <= mget 0 W a b) ->
    (forall W' i, shrunk_weights (sc_meta_shrink c) W W' -> (i < n)%nat -> 0 < mget 0 W' i i) ->
    sc_cache_data c = true -> sc_sample_local_rate c = None -> (2 <= n)%nat ->
    so_result o = Ok tt ->
    imp cf (inspected s decrease interaction) g1 k = (s', g', Ok out) ->
    ss_base_list est meta s = Some es -> (f < ncols X)%nat -> (forall e, In e es -> ignores (ncols X) f (h e)) ->
    exists base stack t m, ss_llocv_score est meta s = Some (Fin base) /\ ss_llocv_stacking est meta s = Some (Fin stack) /\
      beside decrease t m /\ permutation_score_decrease_ member s' = Some m /\ Forall2 is_mean m out /\
      nth f t [] = repeat (base - stack) k.
  Proof.
    intros n o s Hc Hf Hmeta Hr Hrt Hreal Hw Hall Hpos Hdiag C1 C2 Hn Hok Hi Hes Hff Hig.
    assert (Hone : one_per_row predict_est) by (intros e X' p Hp; rewrite Hf in Hp; injection Hp as <-; rewrite map_length; auto).
    destruct (stack_fitted r c g fs s0 X y coords given w W decrease interaction Hc Hone Hr Hrt Hreal Hw Hpos C1 C2 Hn Hok)
      as (ps0 & ps & ses & base & stack & A1 & A2 & A3 & A4 & A5 & A6 & A7 & HM).
    destruct (importance_permutes _ predict_member G permute Hperm _ _ _ _ _ _ _ _ _ _ _ _ _ HM Hi) as (t & m & (perm & preds & T1 & T2 & T3 & T4) & Hb & Hm & Ho).
    exists base, stack, t, m. repeat (split; [assumption|]).
    destruct (replay fit_est predict_est fit_meta predict_meta solve seed0 choice cpu wm h r c g fs s0 X y coords given w W Hc Hf Hr Hrt Hreal Hw Hall Hpos Hok)
      as (W' & ps1 & ses1 & Q1 & Q2 & Q3 & Q4 & Q5).
    assert (E1 : ps1 = ps) by (unfold s, o in A2; congruence). subst ps1. assert (E2 : ses1 = ses) by (unfold s, o in A3; congruence). subst ses1.
    destruct (sfit_stacked fit_est predict_est fit_meta predict_meta solve seed0 choice cpu wm Hc Hone r c g fs s0 X y coords given w W Hr Hrt Hreal Hw Hpos Hok)
      as (L & W1 & es1 & ps01 & qs & ps1 & ses1 & D1 & D2 & D3 & D4 & D5 & D6 & D7).
    assert (E3 : es1 = es) by (unfold s, o in Hes; congruence). subst es1. assert (E4 : ps1 = ps) by congruence. subst ps1. assert (E5 : ses1 = ses) by congruence. subst ses1.
    pose proof (st_num _ _ _ _ _ _ _ _ _ _ _ _ _ _ _ _ _ _ _ D3) as (N1 & N2 & N3 & N4). fold n in N1, N2, N3, N4.
    pose proof HM as (M1 & M2 & M3 & M4 & M5 & M6 & M7 & M8 & M9 & M10 & M11).
    apply (list_eq_nth 0); [rewrite repeat_length; apply (rect_row t (ncols X) k); auto|].
    intros j Hj. rewrite (rect_row t (ncols X) k) in Hj by auto. rewrite (nth_error_nth (repeat (base - stack) k) j 0 (x := base - stack)) by (apply nth_error_repeat; auto). specialize (T4 f j Hff Hj).
    assert (E : map (fun i => mget 0 preds i (f * k + j)) (seq 0 n) = ps).
    { transitivity (map (fun i => nth i ps 0) (seq 0 n)); [|rewrite <- N3; symmetry; exact (tabulate_of_list 0 ps)]. apply map_ext_in. intros i Hin. apply in_seq in Hin. assert (Hi' : (i < n)%nat) by lia.
      destruct (Q5 i Hi' (Hdiag W' i Q1 Hi')) as (se & Se & Ps).
      assert (Ei : nth_error (map Stacked ses) i = Some (Stacked se)) by (rewrite nth_error_map, Se; reflexivity).
      destruct (T2 i _ Ei) as (rows & R1 & R2 & R3 & R4). pose proof (index_lt (ncols X) k f j Hff Hj) as HL.
      assert (Hrow : nth_error rows (f * k + j) = Some (nth (f * k + j) rows [])) by (apply nth_error_nth'; lia).
      destruct (member_rowwise h hm se rows _ Hf Hmeta R2 _ (nth_error_In _ _ Hrow) _ Hrow) as (v & V1 & V2).
      unfold mget. rewrite (nth_error_nth _ _ _ V1). symmetry. apply (V2 (nth i X [])); [|exact Ps].
      intros e He. destruct (st_meta _ _ _ _ _ _ _ _ _ _ _ _ _ _ _ _ _ _ _ D3 i Hi') as (mm & bases & P1 & P2 & _). cbv zeta in P1. rewrite Se in P1. injection P1 as ->. cbn [se_bases] in He.
      assert (Hin' : In e es).
      { clear -P2 He. induction P2 as [|a b la lb Hab P2 IH]; [destruct He|]. destruct He as [->|He]; [apply nth_error_In in Hab; exact Hab|auto]. }
      destruct (R4 f j Hff Hj) as [R5 R6]. symmetry. apply (Hig e Hin').
      - rewrite R5. apply (rect_row X n (ncols X)); auto.
      - apply (rect_row X n (ncols X)); auto.
      - intros q Hq. destruct (Nat.lt_ge_cases q (ncols X)) as [Hlt|Hge].
        + rewrite R6 by (rewrite (rect_row X n (ncols X)) by auto; auto). destruct (Nat.eqb_spec q f); [congruence|reflexivity].
        + rewrite !nth_overflow; auto; [rewrite (rect_row X n (ncols X)) by auto; auto|rewrite R5, (rect_row X n (ncols X)) by auto; auto]. }
    unfold n in E. rewrite E in T4. pose proof (is_r2_fun _ _ _ _ T4 A7) as Eq. fold (mget 0 t f j). lra.
  Qed.
End Fitted.

(** The local methods after a fit with a given weight matrix. *)
Section Views.
  Context {est meta G : Type}.
  Variable fit_est : nat -> matrix R -> list R -> list R -> result est.
  Variable predict_est : est -> matrix R -> result (list R).
  Variable fit_meta : R -> nat -> matrix R -> list R -> list R -> result meta.
  Variable predict_meta : meta -> matrix R -> result (list R).
  Variable solve : matrix R -> list R -> result (list R).
  Variable seed0 : G.
  Variable choice : G -> list nat -> nat -> G * list nat.
  Variable cpu : nat.
  Variable wm : filesystem -> list coords -> list coords -> filesystem * result swts.
  Notation sfit := (sfit est fit_est predict_est meta fit_meta predict_meta solve G seed0 choice cpu wm).
  Notation member := (member est meta).
  Notation predict_member := (predict_member est predict_est meta predict_meta).

  Lemma no_view (v : state member) i : weight_matrix_ member v = None -> raises (local_view member v i).
  Proof.
    intros H. apply raises_not_ok. intros out Hv. unfold local_view in Hv. apply bind_ok in Hv as (es & _ & Hv). apply bind_ok in Hv as (e & _ & Hv).
    rewrite H in Hv. discriminate.
  Qed.
  Lemma no_views (v : state member) n : weight_matrix_ member v = None -> (0 < n)%nat -> raises (mapM (local_view member v) (seq 0 n)).
  Proof.
    intros H Hn. apply raises_not_ok. intros out Hm. destruct n as [|n]; [lia|]. cbn [seq mapM] in Hm. apply bind_ok in Hm as (x & Hx & _).
    destruct (no_view v 0 H) as [e He]. congruence.
  Qed.

  Theorem given_weights_views permutation_importance sk_partial grid_from_X store order r c g fs s0 X y coords given decrease interaction cf k f :
    let o := sfit r c g fs s0 X y coords given in
    let v := inspected est meta (so_state est meta G o) decrease interaction in
    given <> None -> ss_weight_matrix est meta s0 = None -> so_result est meta G o = Ok tt ->
    raises (importance_score_local member permutation_importance cf order v k) /\
    raises (partial_dependence member sk_partial order v) /\
    raises (local_ICE member predict_member grid_from_X store v) /\
    raises (local_ALE store member predict_member v f).
  Proof.
    intros o v Hg H0 Hok.
    destruct (sfit_data fit_est predict_est fit_meta predict_meta solve seed0 choice cpu wm r c g fs s0 X y coords given Hok) as (D1 & D2 & _ & D4).
    destruct (D4 Hg) as [D5 _]. rewrite H0 in D5.
    destruct (sfit_inv fit_est predict_est fit_meta predict_meta solve seed0 choice cpu wm r c g fs s0 X y coords given Hok)
      as (w0 & g1 & Lm & g2 & locs & w' & second & preds & XT & es & p & score & g3 & ps & scores & ses & score' & HI).
    cbv zeta in HI. destruct HI as (E0 & _ & _ & _ & _ & _ & _ & _ & E7 & E8 & E9 & _ & _ & _ & _ & B5 & _).
    assert (Hv : weight_matrix_ member v = None) by (unfold v, inspected; cbn [weight_matrix_]; unfold o; rewrite D5; reflexivity).
    assert (Hn : n_obs member v = Some (length X)) by exact D1.
    assert (Hpos : (0 < length X)%nat) by (unfold check_X_y in E0; destruct (length X); [rewrite orb_true_r in E0; discriminate|lia]).
    split; [|split; [|split]]; apply raises_not_ok.
    - intros out H. unfold importance_score_local in H. destruct (_ || _); [discriminate|]. rewrite Hn in H. cbn [need bind] in H.
      apply bind_ok in H as (vs & Hvs & _). destruct (no_views v _ Hv Hpos) as [e He]. congruence.
    - intros out H. unfold partial_dependence in H. rewrite Hn in H. cbn [need bind] in H.
      apply bind_ok in H as (vs & Hvs & _). destruct (no_views v _ Hv Hpos) as [e He]. congruence.
    - intros out H. unfold local_ICE in H. rewrite Hn in H. cbn [need bind] in H.
      apply bind_ok in H as (F & _ & H). apply bind_ok in H as (X' & _ & H). apply bind_ok in H as (cs & Hcs & _).
      destruct (length X) as [|n]; [lia|]. cbn [seq mapM] in Hcs. apply bind_ok in Hcs as (q & Hq & _). apply bind_ok in Hq as (z & Hz & _).
      destruct (no_view v 0 Hv) as [e He]. congruence.
    - intros out H. unfold local_ALE in H.
      assert (HL : local_estimators member v = Some (map Some (map (Stacked est meta) ses))) by (unfold v, inspected; cbn [local_estimators]; unfold o; rewrite B5; reflexivity).
      rewrite HL in H. cbn [need bind] in H. rewrite !map_length in H.
      assert (Hs : (0 < length ses)%nat).
      { assert (Hl : length ses = length X).
        { clear -E8. unfold fit_metas in E8. generalize dependent (clear_mask_diag (positive_w w')). intros nb0 E8. destruct (sc_use_numba c).
          - destruct w' as [|m], nb0 as [|nb], Lm as [|l], XT as [|x]; try discriminate.
            apply bind_ok in E8 as (rs & _ & E8). apply bind_ok in E8 as (ps' & _ & E8). apply bind_ok in E8 as (ses' & Hs & E8). injection E8 as _ _ _ <-.
            apply mapM_length in Hs. rewrite Hs, seq_length. reflexivity.
          - assert (ML : forall {A} (task : G -> nat -> result (G * A)) is g a, meta_loop G task g is = Ok a -> length (snd a) = length is).
            { intros A task. induction is as [|i is IH]; intros g0 a Ha; cbn in Ha; [injection Ha as <-; reflexivity|].
              apply bind_ok in Ha as (x & _ & Ha). apply bind_ok in Ha as (z & Hz & Ha). injection Ha as <-. cbn. rewrite (IH _ _ Hz). reflexivity. }
            destruct w' as [m|m], nb0 as [nb|nb], Lm as [l|l], XT as [x|x]; try discriminate;
              apply bind_ok in E8 as (d & Hd & E8); apply bind_ok in E8 as (ps' & _ & E8); injection E8 as _ _ _ <-;
              apply ML in Hd; rewrite map_length, Hd, seq_length; reflexivity. }
        lia. }
      destruct (length ses) as [|n]; [lia|]. cbn [seq mapM] in H. apply bind_ok in H as (q & Hq & _). apply bind_ok in Hq as (z & Hz & _).
      destruct (no_view v 0 Hv) as [e He]. congruence.
  Qed.
End Views.
