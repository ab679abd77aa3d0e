(** Proofs for C186: repeated fits. *)
From Coq Require Import Lra Lia Psatz.
From Verif.Model Require Import Base Ext Csr Neighbour Distance WeightModel NumbaImpl Stacking StackingHistory Variation.
From Verif.Spec Require Import KernelSpec NeighbourSpec StackingSpec StackingHistorySpec VariationSpec.
From Verif.Proofs Require Import ListFacts SumFacts StackingHistoryProps StackingClaims2.
Open Scope string_scope.
Open Scope nat_scope.
Open Scope R_scope.

Section Dict.
  Context {I : Type}.
  Lemma get_set (d : dict I) k v k' : dict_get (dict_set d k v) k' = if String.eqb k k' then Some v else dict_get d k'.
  Proof.
    induction d as [|[a b] d IH]; simpl; auto. destruct (String.eqb a k) eqn:E.
    - apply String.eqb_eq in E as ->. simpl. destruct (String.eqb k k'); auto.
    - simpl. destruct (String.eqb a k') eqn:E'.
      + apply String.eqb_eq in E' as ->. rewrite String.eqb_sym in E. rewrite E. auto.
      + exact IH.
  Qed.
  Lemma get_update (e d : dict I) k : ~ In k (map fst e) -> dict_get (dict_update d e) k = dict_get d k.
  Proof.
    unfold dict_update. revert d. induction e as [|[a b] e IH]; simpl; auto. intros d H. rewrite IH by tauto. rewrite get_set.
    destruct (String.eqb a k) eqn:E; auto. apply String.eqb_eq in E. tauto.
  Qed.
  Lemma get_updated (e d : dict I) k v : NoDup (map fst e) -> In (k, v) e -> dict_get (dict_update d e) k = Some v.
  Proof.
    unfold dict_update. revert d. induction e as [|[a b] e IH]; simpl; [tauto|]. intros d HN [H|H]; inversion HN as [|? ? H1 H2].
    - injection H as -> ->. pose proof (get_update e (dict_set d k v) k) as G. unfold dict_update in G. rewrite G by auto. rewrite get_set, String.eqb_refl. auto.
    - apply IH; auto.
  Qed.
End Dict.

Section Stats.
  Lemma numbers_Fin x : numbers (map Fin x) = Some x.
  Proof. induction x; simpl; auto. rewrite IHx. auto. Qed.

  Lemma mean_is x : x <> [] -> is_mean x (mean x).
  Proof. intros H. unfold is_mean, mean. field. apply not_0_INR. destruct x; [contradiction|discriminate]. Qed.
  Lemma mean_unique x mu : x <> [] -> is_mean x mu -> mu = mean x.
  Proof.
    intros H E. unfold is_mean in E. assert (INR (length x) <> 0) by (apply not_0_INR; destruct x; [contradiction|discriminate]).
    unfold mean. rewrite <- E. field. auto.
  Qed.
  Lemma variance_nonneg x : 0 <= variance x.
  Proof.
    unfold variance, mean at 1. rewrite map_length. destruct x as [|a x]; [unfold Rsum; simpl; unfold Rdiv; lra|].
    apply Rmult_le_pos; [|apply Rlt_le, Rinv_0_lt_compat, lt_0_INR; simpl; lia].
    apply Rsum_nonneg. intros y Hy. apply in_map_iff in Hy as (v & <- & _). apply (Rle_0_sqr (v - mean (a :: x))).
  Qed.
  Lemma std_is x : x <> [] -> is_deviation x (sqrt (variance x)).
  Proof.
    intros H. split; [apply sqrt_pos|]. intros mu Hmu. rewrite (mean_unique x mu H Hmu). simpl. rewrite Rmult_1_r, sqrt_sqrt by apply variance_nonneg.
    unfold variance at 1, mean at 1. rewrite map_length.
    assert (INR (length x) <> 0) by (apply not_0_INR; destruct x; [contradiction|discriminate]).
    rewrite (Rsum_map_ext (fun v => (v - mean x) * ((v - mean x) * 1)) (fun v => (v - mean x) * (v - mean x))) by (intros; ring). field. auto.
  Qed.
  Lemma fold_max l : forall a, (forall v, v = a \/ In v l -> v <= fold_left Rmax l a) /\ (fold_left Rmax l a = a \/ In (fold_left Rmax l a) l).
  Proof.
    induction l as [|b l IH]; intros a; simpl; [split; [intros v [->|[]]; lra|auto]|]. destruct (IH (Rmax a b)) as [H1 H2]. split.
    - intros v [->|[->|H]]; [| |apply H1; auto]; eapply Rle_trans; try (apply H1; left; reflexivity); [apply Rmax_l|apply Rmax_r].
    - destruct H2 as [H2|H2]; auto. rewrite H2. unfold Rmax. destruct (Rle_dec a b); auto.
  Qed.
  Lemma fold_min l : forall a, (forall v, v = a \/ In v l -> fold_left Rmin l a <= v) /\ (fold_left Rmin l a = a \/ In (fold_left Rmin l a) l).
  Proof.
    induction l as [|b l IH]; intros a; simpl; [split; [intros v [->|[]]; lra|auto]|]. destruct (IH (Rmin a b)) as [H1 H2]. split.
    - intros v [->|[->|H]]; [| |apply H1; auto]; (eapply Rle_trans; [apply H1; left; reflexivity|]); [apply Rmin_l|apply Rmin_r].
    - destruct H2 as [H2|H2]; auto. rewrite H2. unfold Rmin. destruct (Rle_dec a b); auto.
  Qed.
  Lemma max_is x : x <> [] -> greatest x (fold_left Rmax x (hd 0 x)).
  Proof.
    destruct x as [|a x]; [contradiction|]. intros _. destruct (fold_max (a :: x) a) as [H1 H2]. split; [|intros v Hv; apply H1; auto].
    simpl hd. destruct H2 as [->|H2]; auto. left; auto.
  Qed.
  Lemma min_is x : x <> [] -> least x (fold_left Rmin x (hd 0 x)).
  Proof.
    destruct x as [|a x]; [contradiction|]. intros _. destruct (fold_min (a :: x) a) as [H1 H2]. split; [|intros v Hv; apply H1; auto].
    simpl hd. destruct H2 as [->|H2]; auto. left; auto.
  Qed.

  (** Bounds between the four numbers (Bhatia-Davis and Popoviciu). *)
  Lemma spread x mu s m M : is_mean x mu -> is_deviation x s -> greatest x M -> least x m ->
    m <= mu <= M /\ s <= (M - m) / 2 /\ s ^ 2 <= (M - mu) * (mu - m) /\ (s = 0 <-> forall v, In v x -> v = mu).
  Proof.
    intros Hmu [Hs HD] [HM1 HM2] [Hm1 Hm2]. assert (Hne : x <> []) by (intros ->; destruct HM1).
    assert (Hn : 0 < INR (length x)) by (apply lt_0_INR; destruct x; [contradiction|simpl; lia]).
    specialize (HD mu Hmu). unfold is_mean in Hmu.
    assert (L1 : Rsum (map (fun v => v) x) <= Rsum (map (fun _ => M) x)) by (apply Rsum_map_le; auto).
    assert (L2 : Rsum (map (fun _ => m) x) <= Rsum (map (fun v => v) x)) by (apply Rsum_map_le; auto).
    rewrite map_id, Rsum_map_const in L1, L2. rewrite <- Hmu in L1, L2.
    assert (m <= mu <= M) by (split; eapply Rmult_le_reg_l; eauto).
    assert (B : s ^ 2 <= (M - mu) * (mu - m)).
    { assert (E : Rsum (map (fun v => (v - mu) ^ 2) x) <= Rsum (map (fun v => (M + m - 2 * mu) * v + (mu * mu - M * m)) x)).
      { apply Rsum_map_le. intros v Hv. pose proof (HM2 v Hv). pose proof (Hm2 v Hv). nra. }
      rewrite Rsum_map_plus, Rsum_map_const, Rsum_map_scal, map_id, <- Hmu in E. rewrite <- HD in E.
      apply (Rmult_le_reg_l (INR (length x))); auto. nra. }
    split; auto. split; [|split; auto].
    - apply Rsqr_incr_0_var; [|lra]. unfold Rsqr. replace (s * s) with (s ^ 2) by ring.
      pose proof (pow2_ge_0 (M + m - 2 * mu)) as Q. replace ((M - m) / 2 * ((M - m) / 2)) with ((M - mu) * (mu - m) + (M + m - 2 * mu) ^ 2 / 4) by field. lra.
    - split.
      + intros ->. assert (Z0 : Rsum (map (fun v => (v - mu) ^ 2) x) = 0) by (rewrite <- HD; simpl; ring).
        intros v Hv. assert ((v - mu) ^ 2 = 0).
        { apply (Rsum_zero_elem (map (fun v => (v - mu) ^ 2) x)); auto.
          - intros y Hy. apply in_map_iff in Hy as (u & <- & _). apply pow2_ge_0.
          - apply in_map_iff. exists v; auto. }
        assert (v - mu = 0) by (apply Rsqr_0_uniq; unfold Rsqr; rewrite <- H0; ring). lra.
      + intros HA. rewrite Rsum_zero in HD; [apply Rmult_integral in HD as [HD|HD]; [lra|apply Rsqr_0_uniq; unfold Rsqr; rewrite <- HD; ring]|]. intros y Hy. apply in_map_iff in Hy as (u & <- & Hu). rewrite (HA u Hu). ring.
  Qed.
End Stats.

Section Line.
  Context {I world : Type}.
  Variable fit_once : bool -> world -> world * result (ext * ext * R).
  Notation fit_times := (fit_times world fit_once).

  Lemma times_ok extra n : forall w w' fits, fit_times extra n w = (w', Ok fits) -> length fits = n /\ successive fit_once extra w fits w'.
  Proof.
    induction n; intros w w' fits H; simpl in H; [injection H as <- <-; split; [auto|constructor]|].
    destruct (fit_once extra w) as [w1 [f|e]] eqn:E1; [|discriminate]. destruct (fit_times extra n w1) as [w2 rs] eqn:E2.
    destruct rs as [fs|e]; [|discriminate]. injection H as <- <-. destruct (IHn _ _ _ E2) as [H1 H2]. split; [simpl; lia|]. econstructor; eauto.
  Qed.

  Lemma dict10 (fits fits' : list (ext * ext * R)) info d : length fits = 10%nat -> length fits' = 10%nat -> @script_info I info ->
    d = dict_update (note_spread I true (map score_of fits') (note_fits I true 0 fits' (note_spread I false (map score_of fits) (note_fits I false 0 fits [])))) info ->
    reports false fits d /\ reports true fits' d /\ forall k v, In (k, v) info -> dict_get d k = Some v.
  Proof.
    intros L L' [HN HI] ->.
    assert (GU : forall k d, existsb (String.eqb k) ["f"; "coef"; "count"] = false -> dict_get (dict_update d info) k = dict_get d k).
    { intros k d Hk. apply get_update. intros H. apply HI in H. assert (existsb (String.eqb k) ["f"; "coef"; "count"] = true); [|congruence].
      apply existsb_exists. exists k. split; auto. apply String.eqb_refl. }
    assert (NE : forall l : list (ext * ext * R), length l = 10%nat -> forall x, map score_of l = map Fin x -> x <> []).
    { intros l Hl x E ->. destruct l; [discriminate|discriminate]. }
    assert (SC : forall A (l : list A), length l = 10%nat -> exists a0 a1 a2 a3 a4 a5 a6 a7 a8 a9, l = [a0; a1; a2; a3; a4; a5; a6; a7; a8; a9]).
    { intros A l Hl. do 10 (destruct l as [|? l]; [discriminate|]). destruct l; [|discriminate]. repeat eexists. }
    pose proof (NE fits L) as NE1. pose proof (NE fits' L') as NE2.
    set (sc := map score_of fits) in *. set (sc' := map score_of fits') in *.
    assert (ES : forall x, map (fun f => snd (fst f)) fits = map Fin x -> sc = map Fin x) by (intros x H; exact H).
    assert (ES' : forall x, map (fun f => snd (fst f)) fits' = map Fin x -> sc' = map Fin x) by (intros x H; exact H).
    clearbody sc sc'.
    destruct (SC _ fits L) as ([[b0 s0] t0] & [[b1 s1] t1] & [[b2 s2] t2] & [[b3 s3] t3] & [[b4 s4] t4] & [[b5 s5] t5] & [[b6 s6] t6] & [[b7 s7] t7] & [[b8 s8] t8] & [[b9 s9] t9] & ->).
    destruct (SC _ fits' L') as ([[c0 u0] v0] & [[c1 u1] v1] & [[c2 u2] v2] & [[c3 u3] v3] & [[c4 u4] v4] & [[c5 u5] v5] & [[c6 u6] v6] & [[c7 u7] v7] & [[c8 u8] v8] & [[c9 u9] v9] & ->).
    clear L L' NE SC.
    split; [|split].
    - split.
      + intros i base stacking t H. do 10 (destruct i as [|i]; [simpl in H; injection H as <- <- <-; split; (rewrite GU by reflexivity); reflexivity|]). destruct i; discriminate.
      + intros x Hx. pose proof (ES x Hx) as E. pose proof (NE1 x E) as Hne. subst sc. repeat split.
        * exists (mean x). split; [rewrite GU by reflexivity; cbn -[np_mean np_std np_max np_min map]; unfold np_mean, of_numbers; rewrite numbers_Fin; reflexivity|apply mean_is; auto].
        * exists (sqrt (variance x)). split; [rewrite GU by reflexivity; cbn -[np_mean np_std np_max np_min map]; unfold np_std, of_numbers; rewrite numbers_Fin; reflexivity|apply std_is; auto].
        * exists (fold_left Rmax x (hd 0 x)). split; [rewrite GU by reflexivity; cbn -[np_mean np_std np_max np_min map]; unfold np_max, of_numbers; rewrite numbers_Fin; reflexivity|apply max_is; auto].
        * exists (fold_left Rmin x (hd 0 x)). split; [rewrite GU by reflexivity; cbn -[np_mean np_std np_max np_min map]; unfold np_min, of_numbers; rewrite numbers_Fin; reflexivity|apply min_is; auto].
      + intros base stacking t H. simpl in H. injection H as <- <- <-. rewrite GU by reflexivity. reflexivity.
    - split.
      + intros i base stacking t H. do 10 (destruct i as [|i]; [simpl in H; injection H as <- <- <-; split; (rewrite GU by reflexivity); reflexivity|]). destruct i; discriminate.
      + intros x Hx. pose proof (ES' x Hx) as E. pose proof (NE2 x E) as Hne. subst sc'. repeat split.
        * exists (mean x). split; [rewrite GU by reflexivity; cbn -[np_mean np_std np_max np_min map]; unfold np_mean, of_numbers; rewrite numbers_Fin; reflexivity|apply mean_is; auto].
        * exists (sqrt (variance x)). split; [rewrite GU by reflexivity; cbn -[np_mean np_std np_max np_min map]; unfold np_std, of_numbers; rewrite numbers_Fin; reflexivity|apply std_is; auto].
        * exists (fold_left Rmax x (hd 0 x)). split; [rewrite GU by reflexivity; cbn -[np_mean np_std np_max np_min map]; unfold np_max, of_numbers; rewrite numbers_Fin; reflexivity|apply max_is; auto].
        * exists (fold_left Rmin x (hd 0 x)). split; [rewrite GU by reflexivity; cbn -[np_mean np_std np_max np_min map]; unfold np_min, of_numbers; rewrite numbers_Fin; reflexivity|apply min_is; auto].
      + intros base stacking t H. simpl in H. injection H as <- <- <-. rewrite GU by reflexivity. reflexivity.
    - intros k v H. apply get_updated; auto.
  Qed.

  Lemma finished w file info w' file' d : script_info info -> variation I world fit_once w file info = (w', file', Ok d) ->
    file' = (file ++ [d])%list /\ (forall k v, In (k, v) info -> dict_get d k = Some v) /\
    exists fits fits' w1, successive fit_once false w fits w1 /\ successive fit_once true w1 fits' w' /\ length fits = 10%nat /\ length fits' = 10%nat /\
      reports false fits d /\ reports true fits' d.
  Proof.
    intros HI H. unfold variation in H. destruct (fit_times false repeats w) as [w1 [fits|e]] eqn:E1; [|discriminate].
    destruct (fit_times true repeats w1) as [w2 [fits'|e]] eqn:E2; [|discriminate]. injection H as <- <- ED.
    destruct (times_ok _ _ _ _ _ E1) as [L1 S1]. destruct (times_ok _ _ _ _ _ E2) as [L2 S2].
    destruct (dict10 fits fits' info d L1 L2 HI (eq_sym ED)) as (R1 & R2 & R3). rewrite ED.
    split; auto. split; auto. exists fits, fits', w1. auto 10.
  Qed.

  Lemma unfinished w file info w' file' e : variation I world fit_once w file info = (w', file', Raise e) -> file' = file.
  Proof.
    intros H. unfold variation in H. destruct (fit_times false repeats w) as [w1 [fits|e1]] eqn:E1; [|injection H; auto].
    destruct (fit_times true repeats w1) as [w2 [fits'|e2]] eqn:E2; [discriminate|injection H; auto].
  Qed.
End Line.

Section Script.
  Variable est : Type.
  Variable fit_est : bool -> nat -> nat -> matrix R -> list R -> list R -> result est.
  Variable predict_est : est -> matrix R -> result (list R).
  Variable meta : Type.
  Variable fit_meta : R -> nat -> matrix R -> list R -> list R -> result meta.
  Variable predict_meta : meta -> matrix R -> result (list R).
  Variable solve : matrix R -> list R -> result (list R).
  Variable G : Type.
  Variable seed0 : G.
  Variable choice : G -> list nat -> nat -> G * list nat.
  Variable cpu : nat.
  Variable wm : list coords -> list coords -> result swts.
  Variable rt : nat -> runtime.
  Notation script_world := (script_world est meta G).
  Notation script_fit := (script_fit est fit_est predict_est meta fit_meta predict_meta solve G seed0 choice cpu wm rt).
  Notation v_fits := (v_fits est meta G).

  (** *** Durations *)
  Lemma fit_seconds sec rate X y points extra w w' b st t : script_fit sec rate X y points extra w = (w', Ok (b, st, t)) ->
    t = sec (v_fits w) /\ v_fits w' = S (v_fits w).
  Proof.
    unfold Variation.script_fit. intros H. injection H as <- H. split; [|reflexivity].
    destruct (so_result _ _ _ _) in H; [|discriminate]. cbn [bind] in H.
    destruct (ss_llocv_score _ _ _) in H; [|discriminate]. destruct (ss_llocv_stacking _ _ _) in H; [|discriminate]. injection H as _ _ <-. reflexivity.
  Qed.
  Lemma all_seconds sec rate X y points extra w fits w' : successive (script_fit sec rate X y points) extra w fits w' ->
    map snd fits = map sec (seq (v_fits w) (length fits)) /\ v_fits w' = (length fits + v_fits w)%nat.
  Proof.
    intros H. induction H as [w|w [[b st] t] w1 fits w' E H [IH1 IH2]]; [auto|]. destruct (fit_seconds _ _ _ _ _ _ _ _ _ _ _ E) as [-> EV].
    cbn [map length seq snd]. rewrite IH1, IH2, EV. split; [reflexivity|lia].
  Qed.
  Lemma tenth (l : list (ext * ext * R)) (sec : nat -> R) k : length l = 10%nat -> map snd l = map sec (seq k (length l)) ->
    exists b s, nth_error l 9 = Some (b, s, sec (k + 9)%nat).
  Proof.
    intros L E. destruct (nth_error l 9) as [[[b s] t]|] eqn:EN; [|apply nth_error_None in EN; lia]. exists b, s.
    assert (K : Some t = Some (sec (k + 9)%nat)).
    { transitivity (nth_error (map snd l) 9); [rewrite nth_error_map, EN; reflexivity|]. rewrite E, L, nth_error_map.
      rewrite (nth_error_nth' (seq k 10) 0%nat) by (rewrite seq_length; lia). rewrite seq_nth by lia. reflexivity. }
    injection K as ->. reflexivity.
  Qed.

  Lemma time_of_last {I} rate X y points sec w file info w' file' d : v_fits w = 0%nat -> @script_info I info ->
    variation I script_world (script_fit sec rate X y points) w file info = (w', file', Ok d) ->
    dict_get d "Stacking_Time" = Some (Num (Fin (sec 9%nat))) /\ dict_get d "Stacking_Extra_Time" = Some (Num (Fin (sec 19%nat))).
  Proof.
    intros HW HI H. destruct (finished _ _ _ _ _ _ _ HI H) as (_ & _ & f & f' & w1 & S1 & S2 & L1 & L2 & R1 & R2). clear H.
    destruct (all_seconds _ _ _ _ _ _ _ _ _ S1) as [B D]. destruct (all_seconds _ _ _ _ _ _ _ _ _ S2) as [B2 _].
    rewrite HW in B, D. rewrite D, L1 in B2.
    destruct (tenth f sec _ L1 B) as (b & s & N1). destruct (tenth f' sec _ L2 B2) as (b' & s' & N2).
    split; [exact (rep_time _ _ _ R1 _ _ _ N1)|exact (rep_time _ _ _ R2 _ _ _ N2)].
  Qed.
End Script.
