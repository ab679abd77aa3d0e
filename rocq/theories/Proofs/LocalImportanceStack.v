(** Local permutation importance of a stacking model (C172). *)
From Coq Require Import Lra Lia.
From Verif.Model Require Import Base Ext Csr Neighbour Distance WeightModel NumbaImpl Stacking Inspect StackingInspect LocalImportance.
From Verif.Spec Require Import KernelSpec NeighbourSpec WeightModelSpec InspectSpec StackingSpec LocalImportanceSpec.
From Verif.Proofs Require Import ListFacts CsrFacts NeighbourFacts WeightModelFacts StackingFacts StackingMeta StackingProps StackingClaims3
  InspectProps InspectProps3 StackingInspectProps LocalImportanceProps LocalImportanceFacts.
Open Scope nat_scope.
Open Scope R_scope.

(** What a stacking estimator predicts. *)
Lemma member_function {est meta} (predict_est : est -> matrix R -> result (list R)) (predict_meta : meta -> matrix R -> result (list R))
  (h : est -> list R -> R) (hm : meta -> list R -> R) se :
  (forall e X, predict_est e X = Ok (map (h e) X)) -> (forall m X p, predict_meta m X = Ok p -> p = map (hm m) X) ->
  exists k, answers (predict_member est predict_est meta predict_meta) (Stacked est meta se) (fun x => k (map (fun e => h e x) (se_bases est meta se))).
Proof.
  intros He Hm.
  set (fin := fun v => match v with Fin x => x | _ => 0 end).
  exists (match se_meta est meta se with MFitted _ m => hm m | MLinear _ coef b => fun v => fin (eadd (Fin (dot v coef)) b) end).
  intros rows p H. unfold predict_member, predict_stacking in H.
  assert (EM : mapM (fun e => predict_est e rows) (se_bases est meta se) = Ok (map (fun e => map (h e) rows) (se_bases est meta se))).
  { apply mapM_all_ok. intros e _. apply He. }
  rewrite EM in H. cbn [bind] in H. destruct (se_bases est meta se) as [|e0 bs] eqn:EB; [discriminate|].
  assert (EF : ncols (map (fun e => map (h e) rows) (e0 :: bs)) = length rows) by (cbn; apply map_length).
  assert (EA : forallb (fun c => (length c =? length rows)%nat) (map (fun e => map (h e) rows) (e0 :: bs)) = true).
  { apply forallb_forall. intros c Hc. apply in_map_iff in Hc as (e & <- & _). rewrite map_length. apply Nat.eqb_refl. }
  assert (ET : transpose 0 (length rows) (map (fun e => map (h e) rows) (e0 :: bs)) = map (fun x => map (fun e => h e x) (e0 :: bs)) rows).
  { unfold transpose, tabulate. apply (list_eq_nth []); [rewrite !map_length, seq_length; auto|].
    intros j Hj. rewrite map_length, seq_length in Hj. rewrite (nth_map_in _ _ _ 0%nat) by (rewrite seq_length; auto). rewrite seq_nth by auto. rewrite Nat.add_0_l.
    rewrite (nth_map_in _ _ _ []) by auto. rewrite map_map. apply map_ext. intros e. rewrite (nth_map_in _ _ _ []) by auto. reflexivity. }
  rewrite EF, EA, ET in H. cbn [length map Nat.eqb orb negb] in H. apply bind_ok in H as (q & Hq & Hp).
  assert (HF : p = map fin q).
  { clear -Hp. revert p Hp. induction q as [|a q IH]; intros p Hp; cbn in Hp; [injection Hp as <-; reflexivity|].
    destruct a; cbn in Hp; try discriminate. apply bind_ok in Hp as (rest & Hr & Hp). injection Hp as <-. cbn. f_equal. apply IH, Hr. }
  destruct (se_meta est meta se) as [m|coef b]; cbn [predict_model] in Hq.
  - apply bind_ok in Hq as (q0 & Hq0 & Hq). injection Hq as <-. apply Hm in Hq0. subst q0. rewrite HF, !map_map. reflexivity.
  - injection Hq as <-. rewrite HF, !map_map. reflexivity.
Qed.

(** What importance_score_local does at each location. *)
Lemma local_at {est} pimp c order (s : state est) N r m : n_obs est s = Some N -> schedule N order ->
  importance_score_local est pimp c order s r = Ok m -> forall i, (i < N)%nat ->
  exists e Xs ys ws, local_view est s i = Ok (e, Xs, ys, ws) /\ pimp i e Xs ys ws r = Ok (nth i m []).
Proof.
  intros HN HS H i Hi. unfold importance_score_local in H. destruct (_ || _); [discriminate|]. rewrite HN in H. cbn [need bind] in H.
  apply bind_ok in H as (views & Hv & H). pose proof (mapM_length _ _ _ Hv) as HL. rewrite seq_length in HL.
  assert (HLc : length (combine (seq 0 N) views) = N) by (rewrite combine_length, seq_length; lia).
  destruct views as [|v0 vs] eqn:Ev; [simpl in HL; lia|]. rewrite <- Ev in *.
  rewrite map2_combine in H. apply (parallel_views _ _ order m (0%nat, v0) []) in H as [_ H]; [|rewrite HLc; exact HS].
  specialize (H i ltac:(lia)). rewrite combine_nth in H by (rewrite seq_length; lia). rewrite seq_nth in H by lia. cbn [fst snd Nat.add] in H.
  apply (mapM_nth _ _ _ i 0%nat v0) in Hv; [|rewrite seq_length; exact Hi]. rewrite seq_nth in Hv by exact Hi. rewrite Nat.add_0_l in Hv.
  destruct (nth i views v0) as [[[e Xs] ys] ws] eqn:E. exists e, Xs, ys, ws. split; [exact Hv|exact H].
Qed.

Lemma select_length {A} mask (l : list A) : length mask = length l -> length (select mask l) = count_occ Bool.bool_dec mask true.
Proof.
  revert l. induction mask as [|b mask IH]; intros [|a l] H; simpl in H; try lia; [reflexivity|]. simpl. destruct b; simpl; rewrite IH by lia; reflexivity.
Qed.
Lemma select_incl {A} mask (l : list A) x : In x (select mask l) -> In x l.
Proof.
  revert l. induction mask as [|b mask IH]; intros [|a l] H; simpl in H; try destruct H as []; try (destruct b; simpl in *).
  - destruct H as [<-|H]; [left; auto|right; auto].
  - right; auto.
Qed.

Section Stack.
  Context {est meta G : Type}.
  Variable fit_est : nat -> matrix R -> list R -> list R -> result est.
  Variable predict_est : est -> matrix R -> result (list R).
  Variable fit_meta : R -> nat -> matrix R -> list R -> list R -> result meta.
  Variable predict_meta : meta -> matrix R -> result (list R).
  Variable solve : matrix R -> list R -> result (list R).
  Variable seed0 : G.
  Variable choice : G -> list nat -> nat -> G * list nat.
  Variable cpu : nat.
  Variable wm : filesystem -> list coords -> list coords -> filesystem * result swts.
  Notation sfit := (sfit est fit_est predict_est meta fit_meta predict_meta solve G seed0 choice cpu wm).
  Notation so_state := (so_state est meta G).
  Notation so_result := (so_result est meta G).
  Notation member := (member est meta).
  Notation predict_member := (predict_member est predict_est meta predict_meta).
  Context {G' : Type}.
  Variable shuffle : G' -> list nat -> G' * list nat.
  Variable seed : nat -> G'.
  Hypothesis HG : valid_permute shuffle.

  Theorem stack_local_unused (h : est -> list R -> R) (hm : meta -> list R -> R) r c g fs s0 X y coords given w W decrease interaction cf order k m f es nb i :
    let n := length X in
    let o := sfit r c g fs s0 X y coords given in
    let s := so_state o in
    valid_choice choice -> (forall e X, predict_est e X = Ok (map (h e) X)) -> (forall m X p, predict_meta m X = Ok p -> p = map (hm m) X) ->
    valid_runtime r n (patches cpu c) -> valid_rates c -> real_weights wm fs coords given w -> holds_real w W n ->
    (sc_use_numba c = true -> forall a b, (a < n)%nat -> (b < n)%nat -> 0 <= mget 0 W a b) ->
    sc_cache_data c = true -> sc_sample_local_rate c = None -> (2 <= n)%nat ->
    so_result o = Ok tt -> schedule n order ->
    importance_score_local member (fun i => permutation_importance_sk member predict_member G' shuffle (seed i)) cf order (inspected est meta s decrease interaction) k = Ok m ->
    ss_base_list est meta s = Some es -> (f < ncols X)%nat -> (forall e, In e es -> ignores (ncols X) f (h e)) -> (0 < k)%nat ->
    ss_neighbour_matrix est meta s = Some (MDense nb) -> (i < n)%nat -> (2 <= count_occ Bool.bool_dec (nth i nb []) true)%nat ->
    nth f (nth i m []) NaN = Fin 0.
  Proof.
    intros n o s Hc Hf Hmeta Hr Hrt Hreal Hw Hpos C1 C2 Hn Hok HS Hm Hes Hff Hig Hk Hnb Hi Hcount.
    assert (Hone : one_per_row predict_est) by (intros e X' p Hp; rewrite Hf in Hp; injection Hp as <-; rewrite map_length; auto).
    destruct (stack_fitted fit_est predict_est fit_meta predict_meta solve seed0 choice cpu wm r c g fs s0 X y coords given w W decrease interaction Hc Hone Hr Hrt Hreal Hw Hpos C1 C2 Hn Hok)
      as (ps0 & ps & ses & base & stack & A1 & A2 & A3 & A4 & A5 & A6 & A7 & HM). fold o s in A1, A2, A3, A4, A5, HM.
    destruct (sfit_stacked fit_est predict_est fit_meta predict_meta solve seed0 choice cpu wm Hc Hone r c g fs s0 X y coords given w W Hr Hrt Hreal Hw Hpos Hok)
      as (L & W1 & es1 & ps01 & qs & ps1 & ses1 & D1 & D2 & D3 & D4 & D5 & D6 & D7).
    assert (E3 : es1 = es) by (unfold s, o in Hes; congruence). subst es1. assert (E4 : ps1 = ps) by (unfold s, o in A2; congruence). subst ps1.
    assert (E5 : ses1 = ses) by (unfold s, o in A3; congruence). subst ses1.
    pose proof HM as (M1 & M2 & M3 & M4 & M5 & M6 & M7 & M8 & M9 & M10 & M11).
    destruct (local_at _ _ _ _ _ _ _ M1 HS Hm i Hi) as (e & Xs & ys & ws & V & Himp).
    unfold local_view in V. rewrite M5, M3, M4 in V. cbn [need bind] in V. apply bind_ok in V as (e1 & Ee & V). apply bind_ok in V as (w1 & Ew & V).
    assert (Hnb' : neighbour_matrix_ member (inspected est meta s decrease interaction) = Some (MDense nb)) by exact Hnb. rewrite Hnb' in V. cbn [need bind] in V.
    destruct w1 as [wd|]; [|discriminate]. apply bind_ok in V as (wrow & _ & V). apply bind_ok in V as (mask & Emask & V).
    apply bind_ok in V as (Xs1 & EX & V). apply bind_ok in V as (ys1 & Ey & V). apply bind_ok in V as (ws1 & Ews & V). injection V as <- <- <- <-.
    assert (Hmask : nth i nb [] = mask). { unfold getitem in Emask. destruct (nth_error nb i) eqn:E; [|discriminate]. injection Emask as <-. apply nth_error_nth, E. }
    rewrite Hmask in Hcount. unfold mask_index in EX, Ey. pose proof M7 as [HLX HFX].
    destruct (Nat.eqb_spec (length mask) (length X)) as [LM|]; [|discriminate]. injection EX as <-.
    destruct (Nat.eqb_spec (length mask) (length y)) as [LY|]; [|discriminate]. injection Ey as <-.
    assert (HR : rect (select mask X) (count_occ Bool.bool_dec mask true) (ncols X)).
    { split; [apply select_length, LM|]. apply Forall_forall. intros x Hx. apply select_incl in Hx. rewrite Forall_forall in HFX. apply HFX, Hx. }
    destruct (sk_inv member predict_member G' shuffle HG _ _ _ _ _ _ _ _ _ HR Hcount (select_length _ _ LY) Himp) as (w' & _ & Hw0 & _ & qs' & Q1 & Q2 & Q3).
    destruct (Q3 f Hff) as (ds & F1 & F2). apply (mean_const ds _ 0 F2); [rewrite <- (Forall2_len _ _ _ F1); lia|].
    apply (drops_mean qs' _ _ ds F1). intros p d Hd.
    (* the estimator *)
    assert (Hse : exists se, nth_error ses i = Some se /\ e1 = Stacked est meta se).
    { unfold get_est, getitem in Ee. rewrite nth_error_map, nth_error_map in Ee. destruct (nth_error ses i) as [se|]; cbn in Ee; [|discriminate]. injection Ee as <-. eauto. }
    destruct Hse as (se & Se & ->). destruct (member_function predict_est predict_meta h hm se Hf Hmeta) as (kk & Hkk).
    refine (drop_unused predict_member (Stacked est meta se) _ (select mask X) _ _ _ w' f p d HR Hw0 Hkk _ Hd).
    intros x x' Lx Lx' Hxx. cbv beta. f_equal. apply map_ext_in. intros b Hb. apply (Hig b); auto.
    destruct (st_meta _ _ _ _ _ _ _ _ _ _ _ _ _ _ _ _ _ _ _ D3 i Hi) as (mm & bases & P1 & P2 & _). cbv zeta in P1. rewrite Se in P1. injection P1 as ->. cbn [se_bases] in Hb.
    clear -P2 Hb. induction P2 as [|a b' la lb Hab P2 IH]; [destruct Hb|]. destruct Hb as [->|Hb]; [apply nth_error_In in Hab; exact Hab|auto].
  Qed.
End Stack.
