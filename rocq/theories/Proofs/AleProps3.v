From Coq Require Import Lra Psatz Sorting.Sorted.
From Verif.Model Require Import Base Ext Sort Csr Neighbour Distance WeightModel Inspect Ale.
From Verif.Spec Require Import KernelSpec NeighbourSpec WeightModelSpec InspectSpec AleSpec.
From Verif.Proofs Require Import ListFacts SumFacts KernelFacts SortFacts CsrFacts AdaptiveFacts WeightFacts NeighbourFacts WeightModelFacts WeightModelProps StackingFacts InspectProps InspectProps3 InspectProps4 AleFacts AleGrid AleProps AleProps2.
Open Scope nat_scope.
Open Scope R_scope.

Section Ale3.
  Variable store : R -> R.
  Variable est : Type.
  Variable predict_est : est -> matrix R -> result (list R).
  Notation gale := (global_ALE store est predict_est).
  Notation lale := (local_ALE store est predict_est).

  Lemma two_rows (a b : list R) : forall p p0 p1, getitem p 0 = Ok p0 -> getitem p 1 = Ok p1 -> (2 <= length p)%nat /\ p0 = nth 0 p 0 /\ p1 = nth 1 p 0.
  Proof. intros [|x [|y p]] p0 p1 H0 H1; cbn in *; try discriminate. injection H0 as <-. injection H1 as <-. split; [lia|auto]. Qed.

  Lemma get_est_nth es i e : get_est est es i = Ok e <-> nth_error es i = Some (Some e).
  Proof. unfold get_est, getitem. destruct (nth_error es i) as [[x|]|]; simpl; split; intros H; congruence. Qed.

  Lemma gale_inv s X N F es f q a : data_X est s = Some X -> local_estimators est s = Some es -> rect X N F -> (0 < N)%nat ->
    gale s f = Ok (q, a) -> is_global_ale store predict_est X es f q a.
  Proof.
    intros HdX Hes HX HN H. unfold global_ALE in H. rewrite HdX in H. cbn [need bind] in H.
    apply bind_ok in H as (values & Hc & H). destruct (column_ok _ _ _ _ _ HX HN Hc) as [Hf ->].
    apply bind_ok in H as ((q0 & nq) & Hg & H). cbn [fst] in H.
    set (values := feature_values X f) in *. set (idx := bin_indices q0 values) in *.
    apply bind_ok in H as (low & Hl & H). apply bind_ok in H as (high & Hh & H). rewrite Hes in H. cbn [need bind] in H.
    apply bind_ok in H as (pairs & Hp & H). apply bind_ok in H as (d & Hd & H).
    pose proof (lookup_proper values 1 q0 nq high ltac:(lia) Hg Hh) as HP.
    assert (HLX : length X = N) by apply HX. assert (HV : length values = N) by (unfold values; rewrite fv_length; auto).
    assert (HI : length idx = N) by (unfold idx; rewrite (idx_length _ _); auto).
    unfold minus_arrays in Hd. rewrite !map_length, Nat.eqb_refl in Hd. injection Hd as <-.
    pose proof (mapM_length _ _ _ Hp) as HLp. rewrite seq_length in HLp.
    rewrite map2_length, !map_length, Nat.min_id, HI in H. destruct (Nat.eqb_spec (length pairs) N) as [HLN | ]; [|discriminate]. cbn [negb] in H.
    apply bind_ok in H as (avg & Havg & H).
    apply mapM_ok_iff in Hl.
    assert (El : low = map (fun i => nth (i - 1) q0 0) idx).
    { clear -Hl. induction Hl as [|i x l l' Hx _ IH]; auto. simpl. apply getitem_ok in Hx. rewrite (nth_error_nth _ _ 0 Hx), IH. reflexivity. }
    destruct (mapM_getitem 0 _ _ _ Hh) as [Eh _]. fold idx in Eh.
    assert (Eh' : high = map (fun i => nth (i - 0) q0 0) idx) by (rewrite Eh; apply map_ext; intros; f_equal; lia).
    set (zl := set_column store X f low) in *. set (zh := set_column store X f high) in *.
    assert (HLlow : length low = N) by (rewrite El, map_length; auto). assert (HLhigh : length high = N) by (rewrite Eh, map_length; auto).
    assert (HLzl : length zl = N) by (unfold zl; rewrite set_column_length; lia). assert (HLzh : length zh = N) by (unfold zh; rewrite set_column_length; lia).
    apply mapM_ok_iff in Hp.
    assert (Hone : forall i, (i < N)%nat -> exists e p, nth_error es i = Some (Some e) /\ predict_est e [nth i zl []; nth i zh []] = Ok p /\ (2 <= length p)%nat /\
       nth i (map2 Rminus (map snd pairs) (map fst pairs)) 0 = nth 1 p 0 - nth 0 p 0).
    { intros i Hi. pose proof (Forall2_nth _ _ _ 0%nat (0, 0) i Hp) as Hx. rewrite seq_length, seq_nth in Hx by lia. specialize (Hx ltac:(lia)). simpl in Hx.
      apply bind_ok in Hx as (e & He & Hx). apply bind_ok in Hx as (za & Hza & Hx). apply bind_ok in Hx as (zb & Hzb & Hx).
      apply bind_ok in Hx as (p & Hpp & Hx). apply bind_ok in Hx as (p0 & Hp0 & Hx). apply bind_ok in Hx as (p1 & Hp1 & Hx). injection Hx as Hx.
      apply get_est_nth in He. rewrite (getitem_lt []) in Hza by lia. injection Hza as <-. rewrite (getitem_lt []) in Hzb by lia. injection Hzb as <-.
      destruct (two_rows [] [] p p0 p1 Hp0 Hp1) as (HL2 & E0 & E1). exists e, p. split; [exact He|]. split; [exact Hpp|]. split; [exact HL2|].
      rewrite (map2_nth _ _ _ _ 0 0) by (rewrite map_length; lia).
      rewrite !(nth_map_in _ _ _ (0, 0)) by lia. rewrite <- Hx. simpl. rewrite E0, E1. reflexivity. }
    set (d := map2 Rminus _ _) in *.
    unfold idx in Havg. rewrite (keys values q0 1 ltac:(lia) HP) in Havg.
    assert (Hav : length avg = (length q0 - 1)%nat /\ forall k, (1 <= k < length q0)%nat ->
       nth (k - 1) avg 0 * INR (bin_count q0 k values) = Rsum (map (fun i => nth i d 0) (members q0 k values))).
    { split; [apply mapM_length in Havg; rewrite seq_length in Havg; auto|]. intros k Hk.
      apply mapM_ok_iff in Havg. pose proof (Forall2_nth _ _ _ 0%nat 0 (k - 1)%nat Havg) as Hx. rewrite seq_length, seq_nth in Hx by lia.
      replace (1 + (k - 1))%nat with k in Hx by lia. specialize (Hx ltac:(lia)). cbv beta in Hx.
      assert (HLd : length d = N) by (unfold d; rewrite map2_length, !map_length; lia).
      rewrite (mask_members values q0 1 HP 0) in Hx by (auto; lia). cbn [bind] in Hx.
      apply average_ok in Hx; [|rewrite !map_length; auto]. destruct Hx as [Hn Hx].
      assert (Eo : forall l : list R, Rsum (map (fun _ => 1) l) = INR (length l) /\ Rsum (map2 Rmult (map (fun _ => 1) l) l) = Rsum l).
      { clear. induction l as [|x l [A B]]; [split; reflexivity|]. cbn [map map2 length]. rewrite !Rsum_cons, S_INR, A, B. split; ring. }
      destruct (Eo (map (fun i => nth i d 0) (members q0 k values))) as [EA EB]. rewrite EA, EB in Hx. rewrite map_length in Hx.
      rewrite (bin_count_members q0 k values). exact Hx. }
    destruct Hav as [HLa Hav]. set (acc := 0 :: cumsum avg) in *.
    assert (HLacc : length acc = length q0) by (unfold acc, cumsum; simpl; pose proof HP as (_ & ? & _); rewrite cumsum_from_length; lia).
    assert (Hstep : forall k, (1 <= k < length q0)%nat -> nth k acc 0 - nth (k - 1) acc 0 = nth (k - 1) avg 0).
    { intros k Hk. destruct k as [|k]; [lia|]. unfold acc, cumsum. rewrite cumsum_from_step by lia. replace (S k - 1)%nat with k by lia. lra. }
    apply bind_ok in H as (ale0 & Ht & H). apply ok_pair in H as [<- <-].
    split; [exact HP|]. split; [rewrite map_length; auto|]. split; [rewrite <- HLp; lia|].
    exists zl, zh, d. split; [unfold zl; rewrite El; apply (moved_rows store X N F f 1); auto; lia|].
    split; [unfold zh; rewrite Eh'; apply (moved_rows store X N F f 1); auto; lia|].
    split; [intros i Hi; apply Hone; lia|]. split; [|apply (centre values q0 1 HP); auto].
    intros k Hk. fold values. rewrite <- (Hav k Hk). rewrite <- (Hstep k Hk). rewrite !(nth_map_in _ _ _ 0) by lia. ring.
  Qed.

  (** Each estimator: a function of the feature plus something else. *)
  Lemma gale_additive X N F es f q a (g : nat -> R -> R) (h : nat -> list R -> R) : rect X N F -> (f < F)%nat ->
    is_global_ale store predict_est X es f q a ->
    (forall i e, nth_error es i = Some (Some e) -> (forall rows, predict_est e rows = Ok (map (fun z => g i (nth f z 0) + h i z) rows)) /\ independent_of f (h i)) ->
    forall k, (1 <= k < length q)%nat ->
      (nth k a 0 - nth (k - 1) a 0) * INR (bin_count q k (feature_values X f)) =
      Rsum (map (fun i => g i (store (nth k q 0)) - g i (store (nth (k - 1) q 0))) (members q k (feature_values X f))).
  Proof.
    intros HX Hf (HP & HLa & HLe & low & high & d & Hlow & Hhigh & Hone & Hinc & _) Hadd k Hk. rewrite (Hinc k Hk). apply Rsum_map_ext.
    intros i Hi. apply members_in in Hi as [Hi Hb]. rewrite fv_length in Hi. rewrite fv_nth in Hb by auto.
    destruct (Hone i Hi) as (e & p & He & Hp & HL2 & ->). destruct (Hadd i e He) as [Hr Hind]. rewrite Hr in Hp. injection Hp as <-. cbn [map nth].
    assert (HFi : length (nth i X []) = F) by (apply (rect_row X N F); auto; destruct HX; lia).
    destruct (proj2 Hlow i k Hi Hk Hb) as [HLl Hzl]. destruct (proj2 Hhigh i k Hi Hk Hb) as [HLh Hzh].
    assert (E : h i (nth i low []) = h i (nth i high [])).
    { apply Hind; [congruence|]. intros j Hj. destruct (Nat.lt_ge_cases j F) as [HjF | HjF].
      - specialize (Hzl j ltac:(lia)). specialize (Hzh j ltac:(lia)). rewrite (proj2 (Nat.eqb_neq j f)) in Hzl, Hzh by auto. unfold mget in *. congruence.
      - rewrite !nth_overflow by lia. auto. }
    specialize (Hzl f ltac:(lia)). specialize (Hzh f ltac:(lia)). rewrite Nat.eqb_refl in Hzl, Hzh. unfold mget in Hzl, Hzh. rewrite Hzl, Hzh, E, Nat.sub_0_r. ring.
  Qed.

  Lemma gale_additive_float s X N F es f q a (g : nat -> R -> R) (h : nat -> list R -> R) : (forall v, store v = v) ->
    data_X est s = Some X -> local_estimators est s = Some es -> rect X N F -> (0 < N)%nat -> (f < F)%nat ->
    gale s f = Ok (q, a) ->
    (forall i e, nth_error es i = Some (Some e) -> (forall rows, predict_est e rows = Ok (map (fun z => g i (nth f z 0) + h i z) rows)) /\ independent_of f (h i)) ->
    forall k, (1 <= k < length q)%nat ->
      (nth k a 0 - nth (k - 1) a 0) * INR (bin_count q k (feature_values X f)) =
      Rsum (map (fun i => g i (nth k q 0) - g i (nth (k - 1) q 0)) (members q k (feature_values X f))).
  Proof.
    intros Hs HdX Hes HX HN Hf H Hadd k Hk. rewrite (gale_additive X N F es f q a g h HX Hf (gale_inv s X N F es f q a HdX Hes HX HN H) Hadd k Hk).
    rewrite !Hs. reflexivity.
  Qed.

  Lemma gale_number s X es f N F : data_X est s = Some X -> local_estimators est s = Some es -> rect X N F -> (0 < N)%nat -> length es <> N -> raises (gale s f).
  Proof.
    intros HdX Hes HX HN Hne. destruct (raises_dec (gale s f)) as [|[[q a] H]]; auto. exfalso.
    destruct (gale_inv s X N F es f q a HdX Hes HX HN H) as (_ & _ & HL & _). destruct HX. lia.
  Qed.

  Lemma gale_total s X N F es f : data_X est s = Some X -> local_estimators est s = Some (map Some es) -> rect X N F -> (f < F)%nat -> (3 <= N)%nat -> length es = N ->
    (exists x y, In x (feature_values X f) /\ In y (feature_values X f) /\ x <> y) ->
    (forall e, In e es -> forall a b, exists p, predict_est e [a; b] = Ok p /\ (2 <= length p)%nat) ->
    exists q a, gale s f = Ok (q, a).
  Proof.
    intros HdX Hes HX Hf HN HLe Hnc Hp. pose proof HX as [HLX _]. set (values := feature_values X f) in *.
    assert (HV : length values = N) by (unfold values; rewrite fv_length; auto).
    unfold global_ALE. rewrite HdX. cbn [need bind]. unfold column. rewrite (rect_ncols X N F) by (auto; lia). destruct (Nat.ltb_spec f F); [|lia]. cbn [bind]. change (map (fun x => nth f x 0) X) with values.
    destruct (adaptive_grid values 1) as [[q nq]|e] eqn:Hg.
    2:{ exfalso. assert (Hr : raises (adaptive_grid values 1)) by (exists e; auto). apply adaptive_raises in Hr; lia. }
    cbn [bind fst]. pose proof (adaptive_proper values 1 q nq ltac:(lia) Hnc Hg) as HP. pose proof HP as (Hs & HL2 & _).
    set (idx := bin_indices q values). assert (HI : length idx = N) by (unfold idx; rewrite idx_length; auto).
    assert (GG : forall s', exists l, mapM (fun i => getitem q (i - s')) idx = Ok l /\ length l = N).
    { intros s'. assert (E : mapM (fun i => getitem q (i - s')) idx = Ok (map (fun i => nth (i - s') q 0) idx)).
      { apply mapM_ok_iff. assert (Hr : forall i, In i idx -> (i - s' < length q)%nat) by (intros i Hi; apply (idx_range values q 1 HP) in Hi; lia).
        clear -Hr. induction idx as [|i l IH]; simpl; constructor; [apply getitem_lt; apply Hr; left; auto|apply IH; intros; apply Hr; right; auto]. }
      exists (map (fun i => nth (i - s') q 0) idx). split; auto. rewrite map_length; auto. }
    destruct (GG 1%nat) as (low & -> & HLl). cbn [bind].
    assert (Eh : exists high, mapM (fun i => getitem q i) idx = Ok high /\ length high = N).
    { destruct (GG 0%nat) as (high & E & Hh). exists high. split; auto. rewrite <- E. apply mapM_ext. intros; f_equal; lia. }
    destruct Eh as (high & -> & HLh). cbn [bind]. rewrite Hes. cbn [need bind].
    assert (HLzl : length (set_column store X f low) = N) by (rewrite set_column_length; lia). assert (HLzh : length (set_column store X f high) = N) by (rewrite set_column_length; lia).
    match goal with |- context [mapM ?g (seq 0 (length (map Some es)))] => assert (Ep : exists ps, mapM g (seq 0 (length (map Some es))) = Ok ps) end.
    { apply mapM_exists. intros i Hi. apply in_seq in Hi. rewrite map_length in Hi.
      destruct (nth_error es i) as [e|] eqn:Ee; [|apply nth_error_None in Ee; lia].
      rewrite (proj2 (get_est_ok est es i e) Ee). cbn [bind]. rewrite !(getitem_lt []) by lia. cbn [bind].
      destruct (Hp e (nth_error_In _ _ Ee) (nth i (set_column store X f low) []) (nth i (set_column store X f high) [])) as (p & -> & HLp). cbn [bind].
      rewrite !(getitem_lt 0) by lia. cbn [bind]. eauto. }
    destruct Ep as (ps & Ep). rewrite Ep. cbn [bind]. apply mapM_length in Ep. rewrite seq_length, map_length in Ep.
    unfold minus_arrays. rewrite !map_length, Nat.eqb_refl. cbn [bind]. rewrite map2_length, !map_length, Nat.min_id, HI, Ep, HLe, Nat.eqb_refl. cbn [negb].
    unfold idx. rewrite (keys values q 1 ltac:(lia) HP).
    match goal with |- context [mapM ?g (seq 1 (length q - 1))] => assert (Ea : exists avg, mapM g (seq 1 (length q - 1)) = Ok avg) end.
    { apply mapM_exists. intros k Hk. apply in_seq in Hk.
      rewrite (mask_members values q 1 HP 0) by (try lia; rewrite map2_length, !map_length; lia). cbn [bind].
      unfold average. rewrite map_map. match goal with |- context [Reqb ?z 0] => destruct (Reqb z 0) eqn:E end; [|eauto]. apply Reqb_true in E.
      exfalso. pose proof (members_ne values q 1 k ltac:(lia) HP ltac:(lia)) as Hne.
      assert (0 < Rsum (map (fun _ => 1) (members q k values))); [|lra]. apply Rsum_pos; [intros E'; apply map_eq_nil in E'; auto|]. intros x Hx. apply in_map_iff in Hx as (? & <- & _). lra. }
    destruct Ea as (avg & Ea). rewrite Ea. cbn [bind].
    destruct (trapezoid_ok values q 1 HP (0 :: cumsum avg)) as (t & ->).
    { apply mapM_length in Ea. rewrite seq_length in Ea. simpl. unfold cumsum. rewrite cumsum_from_length. lia. }
    cbn [bind]. eauto.
  Qed.

  (** local_ALE: estimator [k] on the neighbourhood of row [k]. *)
  Lemma lale_inv s X y es W N F f curves : data_X est s = Some X -> data_y est s = Some y -> length y = N -> local_estimators est s = Some es -> fitted_weights s W N -> rect X N F ->
    lale s f = Ok curves ->
    length curves = length es /\ forall k, (k < length es)%nat -> exists e w,
      nth_error es k = Some (Some e) /\ (k < N)%nat /\ Forall2 (fun j a => mget (Fin 0) W k j = Fin a) (positive_set W N k) w /\
      is_ale store (map (fun j => nth j X []) (positive_set W N k)) f (predict_est e) w false 5 (fst (nth k curves ([], []))) (snd (nth k curves ([], []))).
  Proof.
    intros HdX Hdy HLy Hes (W1 & W2 & nb & W3 & W4 & W5) HX H. unfold local_ALE in H. rewrite Hes in H. cbn [need bind] in H.
    pose proof (mapM_length _ _ _ H) as HL. rewrite seq_length in HL. split; [auto|]. intros k Hk. apply mapM_ok_iff in H.
    pose proof (Forall2_nth _ _ _ 0%nat ([], []) k H) as Hx. rewrite seq_length, seq_nth in Hx by lia. specialize (Hx Hk). simpl in Hx. clear H.
    apply bind_ok in Hx as ([[[e Xs] ys] ws] & Hv & Hx). apply bind_ok in Hx as (w & Hw & Hx).
    unfold local_view in Hv. rewrite Hes, HdX, Hdy, W2, W3 in Hv. cbn [need bind] in Hv.
    apply bind_ok in Hv as (e0 & He & Hv). apply bind_ok in Hv as (wr & Hwr & Hv). apply bind_ok in Hv as (mk & Hmk & Hv).
    assert (HkN : (k < N)%nat) by (apply getitem_ok in Hwr; assert (k < length W)%nat by (apply nth_error_Some; congruence); destruct W1; lia).
    rewrite (getitem_lt []) in Hwr by (destruct W1; lia). injection Hwr as <-. rewrite (getitem_lt []) in Hmk by (destruct W4; lia). injection Hmk as <-.
    assert (HM : forall j, (j < N)%nat -> nth j (nth k nb []) false = positive (mget (Fin 0) W k j)) by (intros j Hj; apply W5; auto).
    assert (HLm : length (nth k nb []) = N) by (apply (rect_row nb N N); auto).
    rewrite (mask_index_filter [] _ X N (fun j => positive (mget (Fin 0) W k j))) in Hv; auto; [|apply HX]. cbn [bind] in Hv.
    rewrite (mask_index_filter 0 _ y N (fun j => positive (mget (Fin 0) W k j))) in Hv; auto. cbn [bind] in Hv.
    rewrite (mask_index_filter (Fin 0) _ (nth k W []) N (fun j => positive (mget (Fin 0) W k j))) in Hv; auto; [|apply (rect_row W N N); auto]. cbn [bind] in Hv.
    assert (E : e0 = e /\ map (fun j => nth j X []) (positive_set W N k) = Xs /\ map (fun j => mget (Fin 0) W k j) (positive_set W N k) = ws).
    { apply (f_equal (fun r => match r with Ok t => Some t | _ => None end)) in Hv. inversion Hv. auto. }
    destruct E as (-> & <- & <-). clear Hv. apply get_est_nth in He. apply finite_weights_ok in Hw.
    assert (HwF : Forall2 (fun j a => mget (Fin 0) W k j = Fin a) (positive_set W N k) w).
    { clear -Hw. revert w Hw. generalize (positive_set W N k). induction l as [|j l IH]; intros w Hw; simpl in Hw; inversion Hw; subst; constructor; auto. }
    assert (HR : rect (map (fun j => nth j X []) (positive_set W N k)) (length (positive_set W N k)) F).
    { split; [apply map_length|]. apply Forall_forall. intros x Hin. apply in_map_iff in Hin as (j & <- & Hj). apply filter_In in Hj as [Hj _]. apply in_seq in Hj. apply (rect_row X N F); auto. lia. }
    destruct (nth k curves ([], [])) as [q a] eqn:Ec. cbn [fst snd].
    assert (Hpos : (0 < length (positive_set W N k))%nat).
    { destruct (positive_set W N k); [|simpl; lia]. simpl in Hx. unfold weighted_ale, column in Hx. simpl in Hx. discriminate. }
    destruct (wale_inv store _ _ F f (predict_est e) w false 5 q a HR Hpos ltac:(lia) Hx) as (HA & _ & _).
    exists e, w. split; [exact He|]. split; [exact HkN|]. split; [exact HwF|exact HA].
  Qed.

  (** Any location with at most five neighbours makes local_ALE fail. *)
  Lemma lale_few s X y es W N F f i : data_X est s = Some X -> data_y est s = Some y -> length y = N -> local_estimators est s = Some es -> fitted_weights s W N -> rect X N F ->
    (i < length es)%nat -> (length (positive_set W N i) <= 5)%nat -> raises (lale s f).
  Proof.
    intros HdX Hdy HLy Hes HW HX Hi Hc. destruct (raises_dec (lale s f)) as [|[curves H]]; auto. exfalso.
    destruct (lale_inv s X y es W N F f curves HdX Hdy HLy Hes HW HX H) as [_ Hk]. destruct (Hk i Hi) as (e & w & _ & _ & _ & HA).
    destruct HA as ((_ & HL2 & _ & _ & Hfl) & _). specialize (Hfl 1%nat ltac:(lia)).
    pose proof (bin_count_le (fst (nth i curves ([], []))) 1 (feature_values (map (fun j => nth j X []) (positive_set W N i)) f)) as HB.
    rewrite fv_length, map_length in HB. lia.
  Qed.

  Lemma lale_total s X y es W N F f : data_X est s = Some X -> data_y est s = Some y -> length y = N -> local_estimators est s = Some (map Some es) -> fitted_weights s W N -> rect X N F ->
    (f < F)%nat -> (length es <= N)%nat ->
    (forall e rows, In e es -> exists p, predict_est e rows = Ok p /\ length p = length rows) ->
    (forall k, (k < length es)%nat -> (5 < length (positive_set W N k))%nat /\
       (forall j, In j (positive_set W N k) -> exists a, mget (Fin 0) W k j = Fin a) /\
       exists i j, In i (positive_set W N k) /\ In j (positive_set W N k) /\ mget 0 X i f <> mget 0 X j f) ->
    exists curves, lale s f = Ok curves.
  Proof.
    intros HdX Hdy HLy Hes (W1 & W2 & nb & W3 & W4 & W5) HX Hf HLe Hpred Hk. unfold local_ALE. rewrite Hes. cbn [need bind].
    apply mapM_exists. intros k Hin. apply in_seq in Hin. rewrite map_length in Hin. destruct (Hk k ltac:(lia)) as (H5 & Hfin & i & j & Hi & Hj & Hij).
    destruct (nth_error es k) as [e|] eqn:Ee; [|apply nth_error_None in Ee; lia].
    unfold local_view. rewrite Hes, HdX, Hdy, W2, W3. cbn [need bind]. rewrite (proj2 (get_est_ok est es k e) Ee). cbn [bind].
    rewrite (getitem_lt []) by (destruct W1; lia). cbn [bind]. rewrite (getitem_lt []) by (destruct W4; lia). cbn [bind].
    assert (HM : forall j, (j < N)%nat -> nth j (nth k nb []) false = positive (mget (Fin 0) W k j)) by (intros j' Hj'; apply W5; auto; lia).
    assert (HLm : length (nth k nb []) = N) by (apply (rect_row nb N N); auto; lia).
    rewrite (mask_index_filter [] _ X N (fun j => positive (mget (Fin 0) W k j))); auto; [|apply HX]. cbn [bind].
    rewrite (mask_index_filter 0 _ y N (fun j => positive (mget (Fin 0) W k j))); auto. cbn [bind].
    rewrite (mask_index_filter (Fin 0) _ (nth k W []) N (fun j => positive (mget (Fin 0) W k j))); auto; [|apply (rect_row W N N); auto; lia]. cbn [bind].
    fold (positive_set W N k). set (P := positive_set W N k) in *.
    assert (HPN : forall j, In j P -> (j < N)%nat) by (intros j' Hj'; apply filter_In in Hj' as [Hj' _]; apply in_seq in Hj'; lia).
    assert (Ew : exists w, finite_weights (map (fun j => nth j (nth k W []) (Fin 0)) P) = Ok w /\ length w = length P /\ forall i, (i < length P)%nat -> 0 < nth i w 0).
    { assert (Hpos : forall j, In j P -> exists a, mget (Fin 0) W k j = Fin a /\ 0 < a).
      { intros j' Hj'. destruct (Hfin j' Hj') as [a Ha]. exists a. split; auto. apply filter_In in Hj' as [_ Hj']. rewrite Ha in Hj'. unfold positive in Hj'. destruct (Rlt_dec 0 a); [auto|discriminate]. }
      clear -Hpos. induction P as [|j P IH]; [exists []; split; [reflexivity|split; [reflexivity|simpl; lia]]|].
      destruct (Hpos j (or_introl eq_refl)) as (a & Ha & Hlt). destruct IH as (w & E & HL & Hw); [intros; apply Hpos; right; auto|].
      exists (a :: w). split; [|split; [simpl; lia|intros [|i] Hi; simpl in *; [auto|apply Hw; lia]]].
      apply finite_weights_ok. apply finite_weights_ok in E. simpl. constructor; auto. }
    destruct Ew as (w & -> & HLw & Hw). cbn [bind].
    assert (HR : rect (map (fun j => nth j X []) P) (length P) F).
    { split; [apply map_length|]. apply Forall_forall. intros x Hx. apply in_map_iff in Hx as (j' & <- & Hj'). apply (rect_row X N F); auto. }
    destruct (wale_total store (map (fun j => nth j X []) P) (length P) F f (predict_est e) w false 5 HR Hf ltac:(lia) ltac:(lia)) as (q & a & ->); auto; [| |eauto].
    - exists (mget 0 X i f), (mget 0 X j f). split; [|split]; auto; unfold feature_values; rewrite map_map; apply in_map_iff; [exists i|exists j]; auto.
    - intros rows HLr. destruct (Hpred e rows (nth_error_In _ _ Ee)) as (p & Hp & HLp). exists p. split; auto. lia.
  Qed.
End Ale3.

Section AleFit.
  Variable store : R -> R.
  Variable est : Type.
  Variable fit_est : nat -> matrix R -> list R -> list ext -> result est.
  Variable predict_est : est -> matrix R -> result (list R).
  Variable G : Type.
  Variable choice : G -> list nat -> nat -> G * list nat.
  Variable cpu : nat.
  Variable wm : filesystem -> list coords -> list coords -> filesystem * result weights.

  (** Estimator [k] was trained at location [locs k] but is shown the neighbourhood of location [k]. *)
  Lemma lale_after_fit c order g fs s0 X y coords given W N F f curves :
    valid_choice choice -> (0 < cpu)%nat -> rect X N F -> in_force wm fs coords given (WDense W) -> rect W N N ->
    schedule (num_tasks cpu c (num_locations c N)) order -> aligned c (WDense W) -> cache_data c = true ->
    let o := fit est fit_est predict_est G choice cpu wm c order g fs s0 X y coords given in
    o_result est G o = Ok tt -> local_ALE store est predict_est (o_state est G o) f = Ok curves ->
    exists locs, local_indices_ est (o_state est G o) = Some locs /\ length curves = length locs /\
      forall k, (k < length locs)%nat -> exists e w P,
        local_model fit_est X y (leave_local_out c) W N (nth k locs 0%nat) e /\
        P = filter (fun j => positive (used_weight (leave_local_out c) W k j)) (seq 0 N) /\
        Forall2 (fun j a => used_weight (leave_local_out c) W k j = Fin a) P w /\
        is_ale store (map (fun j => nth j X []) P) f (predict_est e) w false 5 (fst (nth k curves ([], []))) (snd (nth k curves ([], []))).
  Proof.
    intros Hch Hcpu HX Hf HR HS Hal Hcd o Hok Hl. assert (HLX : length X = N) by apply HX.
    assert (HH : holds (WDense W) W N) by (split; auto).
    destruct (fit_weight_attributes est fit_est predict_est G choice cpu wm c order g fs s0 X y coords given W N Hf HR Hok) as (W' & HW' & HU). fold o in HW'.
    destruct (fit_aligned est fit_est predict_est G choice cpu wm c order g fs s0 X y coords given (WDense W) W N Hch Hcpu HLX Hf HH HS Hal Hok)
      as (locs & es & ps & ys & rs & A1 & A2 & _ & _ & _ & _ & _ & _ & A9 & _ & _ & _ & A13). fold o in A1, A2.
    assert (HD : data_X est (o_state est G o) = Some X /\ data_y est (o_state est G o) = Some y /\ length y = N).
    { destruct (fit_inv _ _ _ _ _ _ _ _ _ _ _ _ _ _ _ _ Hok) as (w1 & g1 & l1 & preds & es1 & p1 & sc1 & Hck & _ & _ & _ & _ & _ & Eq).
      unfold o. rewrite Eq. cbn [o_state data_X data_y]. rewrite Hcd. split; auto. split; auto. apply check_ok in Hck as (E & _). lia. }
    destruct HD as (D1 & D2 & D3).
    destruct (lale_inv store est predict_est _ X y es W' N F f curves D1 D2 D3 A2 HW' HX Hl) as [HLc Hk].
    exists locs. split; [exact A1|]. split; [lia|]. intros k Hkl. destruct (Hk k ltac:(lia)) as (e & w & He & HkN & HwF & HA).
    destruct (A13 k Hkl) as (_ & _ & e' & Hm & _ & Hn). rewrite (nth_error_nth _ _ None He) in Hn. destruct (cache_estimator c); [|discriminate]. injection Hn as <-.
    assert (EP : positive_set W' N k = filter (fun j => positive (used_weight (leave_local_out c) W k j)) (seq 0 N)).
    { unfold positive_set. apply filter_ext_in. intros j Hj. apply in_seq in Hj. rewrite HU by lia. auto. }
    exists e, w, (positive_set W' N k). split; [exact Hm|]. split; [exact EP|]. split; [|exact HA].
    assert (HjN : forall j, In j (positive_set W' N k) -> (j < N)%nat) by (intros j Hj; apply filter_In in Hj as [Hj _]; apply in_seq in Hj; lia).
    clear -HwF HU HjN HkN. induction HwF; constructor; [rewrite <- HU; auto; apply HjN; left; auto|]. apply IHHwF. intros; apply HjN; right; auto.
  Qed.
End AleFit.
