(** importance_score_local with sklearn's permutation importance (C172). *)
From Coq Require Import Lra Lia.
From Verif.Model Require Import Base Ext Csr Distance WeightModel Inspect LocalImportance.
From Verif.Spec Require Import NeighbourSpec WeightModelSpec InspectSpec LocalImportanceSpec.
From Verif.Proofs Require Import ListFacts SumFacts CsrFacts WeightModelFacts InspectProps InspectProps3 LocalImportanceProps LocalImportanceFacts.
Open Scope nat_scope.
Open Scope R_scope.

Section Api.
  Context {est : Type}.
  Variable predict_est : est -> matrix R -> result (list R).
  Context {G : Type}.
  Variable shuffle : G -> list nat -> G * list nat.
  Variable seed : nat -> G.
  Hypothesis HG : valid_permute shuffle.
  Notation sk := (fun i => permutation_importance_sk est predict_est G shuffle (seed i)).
  Notation local_score := (importance_score_local est sk).

  Lemma positive_in W N i j : In j (positive_set W N i) <-> (j < N)%nat /\ positive (mget (Fin 0) W i j) = true.
  Proof. unfold positive_set. rewrite filter_In, in_seq. intuition lia. Qed.

  Lemma positive_weights W N i w : Forall2 (fun j a => mget (Fin 0) W i j = Fin a) (positive_set W N i) w -> Forall (fun a => 0 < a) w.
  Proof.
    intros H. apply Forall_forall. intros a Ha. assert (HP : forall j, In j (positive_set W N i) -> positive (mget (Fin 0) W i j) = true) by (intros j Hj; apply positive_in in Hj; tauto).
    revert Ha HP. generalize (positive_set W N i) H. intros P HF. clear H. induction HF as [|j b P w Hb _ IH]; intros Ha HP; [destruct Ha|].
    destruct Ha as [<-|Ha]; [|apply IH; auto; intros; apply HP; right; auto].
    specialize (HP j (or_introl eq_refl)). rewrite Hb in HP. unfold positive in HP. destruct (Rlt_dec 0 b); [assumption|discriminate].
  Qed.
  Lemma positive_sum w : Forall (fun a => 0 < a) w -> (0 < length w)%nat -> 0 < Rsum w.
  Proof.
    intros H HL. destruct H as [|a w Ha H]; [simpl in HL; lia|]. rewrite Rsum_cons.
    assert (0 <= Rsum w); [|lra]. apply Rsum_nonneg. intros x Hx. rewrite Forall_forall in H. left. auto.
  Qed.

  Lemma local_rows (X : matrix R) N F (P : list nat) : rect X N F -> (forall j, In j P -> (j < N)%nat) -> rect (map (fun j => nth j X []) P) (length P) F.
  Proof.
    intros [HL HF] HP. split; [apply map_length|]. apply Forall_forall. intros x Hx. apply in_map_iff in Hx as (j & <- & Hj).
    rewrite Forall_forall in HF. apply HF, nth_In. rewrite HL. auto.
  Qed.

  Theorem local_written_out c order s X y es N F score W r m :
    fitted_model s X y es N F score -> fitted_weights s W N -> cache_data c = true -> cache_estimator c = true -> schedule N order ->
    local_score c order s r = Ok m ->
    length m = N /\
    forall i e, nth_error es i = Some e -> let P := positive_set W N i in (2 <= length P)%nat ->
      exists w, Forall2 (fun j a => mget (Fin 0) W i j = Fin a) P w /\
        mean_drops predict_est e (map (fun j => nth j X []) P) (map (fun j => nth j y 0) P) w F r (nth i m []).
  Proof.
    intros HM HW C1 C2 HS H. apply (importance_local_ok est sk c order s X y es N F score W r m HM HW C1 C2 HS) in H as [HL H].
    split; [exact HL|]. intros i e He P HP. specialize (H i e He). cbv zeta in H. fold P in H.
    pose proof HM as (_ & _ & _ & _ & _ & _ & HX & _).
    assert (HR : rect (map (fun j => nth j X []) P) (length P) F) by (apply (local_rows X N F); auto; intros j Hj; apply positive_in in Hj; tauto).
    destruct (sk_inv est predict_est G shuffle HG _ _ _ _ _ _ _ _ _ HR HP (map_length _ _) H) as (w & Hw & _ & HD).
    exists w. split; [|exact HD]. clearbody P. clear -Hw. remember (map (fun j => mget (Fin 0) W i j) P) as V. revert P HeqV.
    induction Hw as [|v a V w Hv _ IH]; intros [|j P] E; try discriminate; [constructor|]. injection E as E1 E. constructor; [congruence|apply IH, E].
  Qed.

  (** The drops at a location. *)
  Lemma at_location c order s X y es N F score W r m i e f :
    fitted_model s X y es N F score -> fitted_weights s W N -> cache_data c = true -> cache_estimator c = true -> schedule N order ->
    local_score c order s r = Ok m -> nth_error es i = Some e -> (f < F)%nat ->
    let P := positive_set W N i in (2 <= length P)%nat ->
    exists w ps ds, Forall2 (fun j a => mget (Fin 0) W i j = Fin a) P w /\ Forall (fun a => 0 < a) w /\ Rsum w <> 0 /\
      rect (map (fun j => nth j X []) P) (length P) F /\
      length ds = r /\ Forall (bijection (length P)) ps /\
      Forall2 (score_drop predict_est e (map (fun j => nth j X []) P) (map (fun j => nth j y 0) P) w f) ps ds /\ is_mean ds (nth f (nth i m []) NaN).
  Proof.
    intros HM HW C1 C2 HS H He Hf P HP. destruct (local_written_out c order s X y es N F score W r m HM HW C1 C2 HS H) as [_ HD].
    destruct (HD i e He HP) as (w & Hw & _ & ps & Hps & Hbij & Hd). fold P in Hw, Hbij, Hd. destruct (Hd f Hf) as (ds & D1 & D2).
    pose proof HM as (_ & _ & _ & _ & _ & _ & HX & _). pose proof (positive_weights W N i w Hw) as Hpos.
    exists w, ps, ds. split; [exact Hw|]. split; [exact Hpos|].
    split; [apply Rgt_not_eq, positive_sum; auto; rewrite <- (Forall2_len _ _ _ Hw); lia|].
    split; [apply (local_rows X N F); auto; intros j Hj; apply positive_in in Hj; tauto|].
    split; [rewrite <- (Forall2_len _ _ _ D1); exact Hps|]. rewrite map_length in Hbij. auto.
  Qed.

  Theorem local_unused c order s X y es N F score W r m i e f h :
    fitted_model s X y es N F score -> fitted_weights s W N -> cache_data c = true -> cache_estimator c = true -> schedule N order ->
    local_score c order s r = Ok m -> nth_error es i = Some e -> (f < F)%nat -> (0 < r)%nat -> (2 <= length (positive_set W N i))%nat ->
    answers predict_est e h -> ignores F f h -> nth f (nth i m []) NaN = Fin 0.
  Proof.
    intros HM HW C1 C2 HS H He Hf Hr HP Hh Hi.
    destruct (at_location c order s X y es N F score W r m i e f HM HW C1 C2 HS H He Hf HP) as (w & ps & ds & _ & _ & Hw & HR & HL & Hbij & D1 & D2).
    apply (mean_const ds _ 0 D2); [lia|]. apply (drops_mean ps _ _ ds D1). intros p d Hd. apply (drop_unused _ _ _ _ _ _ _ _ _ _ _ HR Hw Hh Hi Hd).
  Qed.

  Theorem local_constant c order s X y es N F score W r m i e f v :
    fitted_model s X y es N F score -> fitted_weights s W N -> cache_data c = true -> cache_estimator c = true -> schedule N order ->
    local_score c order s r = Ok m -> nth_error es i = Some e -> (f < F)%nat -> (0 < r)%nat -> (2 <= length (positive_set W N i))%nat ->
    (forall j, In j (positive_set W N i) -> nth f (nth j X []) 0 = v) -> nth f (nth i m []) NaN = Fin 0.
  Proof.
    intros HM HW C1 C2 HS H He Hf Hr HP Hv.
    destruct (at_location c order s X y es N F score W r m i e f HM HW C1 C2 HS H He Hf HP) as (w & ps & ds & _ & _ & Hw & HR & HL & Hbij & D1 & D2).
    apply (mean_const ds _ 0 D2); [lia|].
    assert (HV : forall x, In x (map (fun j => nth j X []) (positive_set W N i)) -> nth f x 0 = v) by (intros x Hx; apply in_map_iff in Hx as (j & <- & Hj); auto).
    clear HL D2. induction D1 as [|p d ps ds Hd D1 IH]; constructor; inversion Hbij; subst; auto.
    apply (drop_constant _ _ _ _ _ _ _ _ _ _ _ HR Hw H2 HV Hd).
  Qed.

  Theorem local_exact c order s X y es N F score W r m i e f :
    fitted_model s X y es N F score -> fitted_weights s W N -> cache_data c = true -> cache_estimator c = true -> schedule N order ->
    local_score c order s r = Ok m -> nth_error es i = Some e -> (f < F)%nat -> (0 < r)%nat ->
    let P := positive_set W N i in (2 <= length P)%nat ->
    predict_est e (map (fun j => nth j X []) P) = Ok (map (fun j => nth j y 0) P) ->
    exists a, nth f (nth i m []) NaN = Fin a /\ 0 <= a.
  Proof.
    intros HM HW C1 C2 HS H He Hf Hr P HP Hx.
    destruct (at_location c order s X y es N F score W r m i e f HM HW C1 C2 HS H He Hf HP) as (w & ps & ds & _ & Hpos & Hw & HR & HL & Hbij & D1 & D2).
    destruct D2 as [_ D2]. exists (Rsum ds / INR (length ds)). split; [apply D2; destruct ds; [simpl in HL; lia|discriminate]|].
    assert (HD : Forall (fun d => 0 <= d) ds).
    { apply (drops_mean ps _ _ ds D1). intros p d Hd. refine (drop_exact predict_est e _ _ w f p d _ Hx Hd).
      apply (Forall_impl _ (P := fun a => 0 < a)); [intros; lra|exact Hpos]. }
    apply Rmult_le_pos; [apply Rsum_nonneg; rewrite Forall_forall in HD; exact HD|]. left. apply Rinv_0_lt_compat. apply lt_0_INR. lia.
  Qed.

  (** An estimator that is right and linear in the feature. *)
  Theorem local_linear c order s X y es N F score W r m i e f h b g :
    fitted_model s X y es N F score -> fitted_weights s W N -> cache_data c = true -> cache_estimator c = true -> schedule N order ->
    local_score c order s r = Ok m -> nth_error es i = Some e -> (f < F)%nat -> (0 < r)%nat ->
    let P := positive_set W N i in let Xs := map (fun j => nth j X []) P in let ys := map (fun j => nth j y 0) P in (2 <= length P)%nat ->
    answers predict_est e h -> (forall x, length x = F -> h x = b * nth f x 0 + g x) -> ignores F f g -> map h Xs = ys ->
    exists w ps, Forall2 (fun j a => mget (Fin 0) W i j = Fin a) P w /\ length ps = r /\ Forall (bijection (length P)) ps /\
      forall avg, avg * Rsum w = Rsum (map2 Rmult w ys) ->
      let sst := Rsum (map2 Rmult w (map (fun a => (a - avg) * (a - avg)) ys)) in sst <> 0 ->
      nth f (nth i m []) NaN = Fin (b * b * (Rsum (map (displaced Xs w f) ps) / INR r) / sst).
  Proof.
    intros HM HW C1 C2 HS H He Hf Hr P Xs ys HP Hh Hl Hg Hx.
    destruct (at_location c order s X y es N F score W r m i e f HM HW C1 C2 HS H He Hf HP) as (w & ps & ds & Hww & Hpos & Hw & HR & HL & Hbij & D1 & D2).
    exists w, ps. split; [exact Hww|]. split; [rewrite (Forall2_len _ _ _ D1); exact HL|]. split; [exact Hbij|]. intros avg Ha sst Hs.
    fold P Xs in HR, D1. fold ys in D1.
    assert (E : Rsum ds * sst = b * b * Rsum (map (displaced Xs w f) ps)).
    { clear -D1 HR Hf Hh Hl Hg Hx Hw Ha Hs. induction D1 as [|p d ps ds Hd _ IH]; [cbn [map]; rewrite Rsum_nil; ring|]. cbn [map]. rewrite !Rsum_cons, Rmult_plus_distr_r, IH.
      pose proof (drop_linear predict_est e h b g Xs (length P) F ys w f p d avg HR Hf Hh Hl Hg Hx Hw Ha Hs Hd) as HD. cbv zeta in HD. fold sst in HD. rewrite HD.
      unfold displaced. cbv zeta. replace (length Xs) with (length P) by (unfold Xs; rewrite map_length; reflexivity). ring. }
    destruct D2 as [_ D2]. rewrite D2 by (destruct ds; [simpl in HL; lia|discriminate]). f_equal. rewrite HL.
    apply (Rmult_eq_reg_r sst); [|exact Hs]. unfold Rdiv at 1. rewrite Rmult_assoc, (Rmult_comm (/ INR r)), <- Rmult_assoc, E. field.
    split; [apply not_0_INR; lia|exact Hs].
  Qed.

  (** One neighbour. *)
  Theorem local_single c order s X y es N F score W r m i e j :
    fitted_model s X y es N F score -> fitted_weights s W N -> cache_data c = true -> cache_estimator c = true -> schedule N order ->
    local_score c order s r = Ok m -> nth_error es i = Some e -> (0 < r)%nat -> predicts predict_est F e ->
    positive_set W N i = [j] -> nth i m [] = repeat NaN F.
  Proof.
    intros HM HW C1 C2 HS H He Hr Hp HP. apply (importance_local_ok est sk c order s X y es N F score W r m HM HW C1 C2 HS) in H as [HL H].
    specialize (H i e He). cbv zeta in H. rewrite HP in H. cbn [map] in H. pose proof HM as (_ & _ & _ & _ & _ & _ & [HLX HX] & _).
    destruct (mget (Fin 0) W i j) as [a| | |] eqn:E; try (unfold permutation_importance_sk in H; cbn in H; discriminate).
    rewrite (sk_one est predict_est G shuffle HG (seed i) e _ _ a r F) in H; auto; [congruence|].
    rewrite Forall_forall in HX. apply HX, nth_In. rewrite HLX. assert (Hj : In j (positive_set W N i)) by (rewrite HP; left; auto). apply positive_in in Hj. tauto.
  Qed.

  (** It succeeds. *)
  Theorem local_succeeds c order s X y es N F score W r :
    fitted_model s X y es N F score -> fitted_weights s W N -> cache_data c = true -> cache_estimator c = true -> schedule N order ->
    (forall e, In e es -> predicts predict_est F e) -> (0 < r)%nat ->
    (forall i, (i < N)%nat -> (0 < length (positive_set W N i))%nat /\ forall j, (j < N)%nat -> exists a, mget (Fin 0) W i j = Fin a) ->
    exists m, local_score c order s r = Ok m.
  Proof.
    intros HM HW C1 C2 HS Hp Hr HF. pose proof HM as (_ & _ & _ & _ & _ & HLe & HX & _).
    assert (HI : forall i e, nth_error es i = Some e -> exists row,
      sk i e (map (fun j => nth j X []) (positive_set W N i)) (map (fun j => nth j y 0) (positive_set W N i)) (map (fun j => mget (Fin 0) W i j) (positive_set W N i)) r = Ok row).
    { intros i e He. assert (Hi : (i < N)%nat) by (rewrite <- HLe; apply nth_error_Some; congruence). destruct (HF i Hi) as [HP HW'].
      set (P := positive_set W N i) in *. assert (HPN : forall j, In j P -> (j < N)%nat) by (intros j Hj; apply positive_in in Hj; tauto).
      assert (Hw : exists w, map (fun j => mget (Fin 0) W i j) P = map Fin w /\ Forall2 (fun j a => mget (Fin 0) W i j = Fin a) P w).
      { clear -HPN HW'. induction P as [|j P IH]; [exists []; split; constructor|]. destruct (HW' j (HPN j (or_introl eq_refl))) as [a Ha].
        destruct IH as (w & E & HF2); [intros; apply HPN; right; auto|]. exists (a :: w). cbn [map]. rewrite Ha, E. split; [reflexivity|constructor; auto]. }
      destruct Hw as (w & Ew & Hw). pose proof (Forall2_len _ _ _ Hw) as HLw. pose proof (positive_weights W N i w Hw) as Hpos. cbv beta. rewrite Ew.
      pose proof (local_rows X N F P HX HPN) as HR.
      destruct (le_lt_dec 2 (length P)) as [H2|H2].
      - apply (sk_total est predict_est G shuffle HG (seed i) e _ _ w r (length P) F HR H2 (map_length _ _)); auto.
        + apply Rgt_not_eq, positive_sum; auto. lia.
        + apply Hp. apply nth_error_In in He. exact He.
      - destruct P as [|j [|j' P]]; simpl in HP, H2; try lia. destruct w as [|a [|? ?]]; simpl in HLw; try lia.
        eexists. apply (sk_one est predict_est G shuffle HG (seed i) e _ _ a r F); auto.
        + destruct HX as [HLX HX]. rewrite Forall_forall in HX. apply HX, nth_In. rewrite HLX. apply HPN. left; auto.
        + apply Hp. apply nth_error_In in He. exact He. }
    assert (HT : exists m, length m = length es /\ forall i e, nth_error es i = Some e ->
      sk i e (map (fun j => nth j X []) (positive_set W N i)) (map (fun j => nth j y 0) (positive_set W N i)) (map (fun j => mget (Fin 0) W i j) (positive_set W N i)) r = Ok (nth i m [])).
    { clear -HI. set (g := fun i e => sk i e (map (fun j => nth j X []) (positive_set W N i)) (map (fun j => nth j y 0) (positive_set W N i)) (map (fun j => mget (Fin 0) W i j) (positive_set W N i)) r).
      assert (A : forall l k, (forall i e, nth_error l i = Some e -> exists row, g (k + i)%nat e = Ok row) ->
        exists m, length m = length l /\ forall i e, nth_error l i = Some e -> g (k + i)%nat e = Ok (nth i m [])).
      { induction l as [|e l IH]; intros k Hk; [exists []; split; [reflexivity|]; intros [|i] e' He; discriminate|].
        destruct (Hk 0%nat e eq_refl) as [row Hrow]. destruct (IH (S k)) as (m & HL & Hm).
        { intros i e' He. destruct (Hk (S i) e' He) as [row' Hr']. exists row'. rewrite Nat.add_succ_r in Hr'. exact Hr'. }
        exists (row :: m). split; [simpl; congruence|]. intros [|i] e' He; [injection He as <-; exact Hrow|].
        cbn [nth]. rewrite Nat.add_succ_r. apply (Hm i e' He). }
      apply (A es 0%nat). exact HI. }
    destruct HT as (m & HL & Hm). exists m.
    apply (importance_local_ok est sk c order s X y es N F score W r m HM HW C1 C2 HS). split; [congruence|exact Hm].
  Qed.

  (** ** units *)
  Lemma sk_weights g e X y w c r : c <> 0 ->
    permutation_importance_sk est predict_est G shuffle g e X y (map Fin (map (Rmult c) w)) r = permutation_importance_sk est predict_est G shuffle g e X y (map Fin w) r.
  Proof.
    intros Hc. assert (HFW : forall w, finite_weights (map Fin w) = Ok w). { intros l. apply finite_weights_ok. clear. induction l; simpl; constructor; auto. }
    unfold permutation_importance_sk. rewrite !HFW. cbn [bind].
    assert (HS : forall X', score_est est predict_est e X' y (map (Rmult c) w) = score_est est predict_est e X' y w).
    { intros X'. unfold score_est. destruct (predict_est e X'); cbn [bind]; auto. apply r2_scale_weights, Hc. }
    rewrite HS. destruct (score_est est predict_est e X y w); cbn [bind]; auto. apply mapM_ext. intros f _. f_equal.
    generalize (seq 0 (length X)) as idx. generalize X as X0. revert g. induction r as [|r IH]; intros g X0 idx; cbn [permutation_scores]; auto.
    destruct (shuffle g idx) as [g' idx']. destruct (shuffle_column X0 idx' f); cbn [bind]; auto. rewrite HS, IH. reflexivity.
  Qed.

  Theorem local_weights_scale c order s s' X y es N F score score' W W' (k : nat -> R) r m :
    fitted_model s X y es N F score -> fitted_weights s W N ->
    fitted_model s' X y es N F score' -> fitted_weights s' W' N -> cache_data c = true -> cache_estimator c = true -> schedule N order ->
    (forall i, (i < N)%nat -> 0 < k i) ->
    (forall i j, (i < N)%nat -> (j < N)%nat -> exists a, mget (Fin 0) W i j = Fin a /\ mget (Fin 0) W' i j = Fin (k i * a)) ->
    local_score c order s r = Ok m -> local_score c order s' r = Ok m.
  Proof.
    intros HM HW HM' HW' C1 C2 HS Hk HWW H. apply (importance_local_ok est sk c order s X y es N F score W r m HM HW C1 C2 HS) in H as [HL H].
    apply (importance_local_ok est sk c order s' X y es N F score' W' r m HM' HW' C1 C2 HS). split; [exact HL|]. intros i e He P.
    pose proof HM as (_ & _ & _ & _ & _ & HLe & _). assert (Hi : (i < N)%nat) by (rewrite <- HLe; apply nth_error_Some; congruence).
    assert (EP : P = positive_set W N i).
    { apply filter_ext_in. intros j Hj. apply in_seq in Hj. destruct (HWW i j Hi ltac:(lia)) as (a & -> & ->). unfold positive. specialize (Hk i Hi).
      destruct (Rlt_dec 0 a) as [L|L]; destruct (Rlt_dec 0 (k i * a)) as [L'|L']; auto.
      - exfalso. apply L'. apply Rmult_lt_0_compat; auto.
      - exfalso. apply L. apply (Rmult_lt_reg_l (k i)); auto. rewrite Rmult_0_r. exact L'. }
    specialize (H i e He). cbv zeta in H. rewrite <- EP in H. rewrite <- H.
    assert (HPN : forall j, In j P -> (j < N)%nat) by (intros j Hj; rewrite EP in Hj; apply positive_in in Hj; tauto).
    assert (Hw : exists w, map (fun j => mget (Fin 0) W i j) P = map Fin w /\ map (fun j => mget (Fin 0) W' i j) P = map Fin (map (Rmult (k i)) w)).
    { clear -HPN HWW Hi. clearbody P. induction P as [|j P IH]; [exists []; split; reflexivity|]. destruct (HWW i j Hi (HPN j (or_introl eq_refl))) as (a & Ha & Hb).
      destruct IH as (w & E & E'); [intros; apply HPN; right; auto|]. exists (a :: w). cbn [map]. rewrite Ha, Hb, E, E'. split; reflexivity. }
    destruct Hw as (w & -> & ->). apply sk_weights. specialize (Hk i Hi). lra.
  Qed.

  Lemma sk_units g e e' X y w r a b : a <> 0 ->
    (forall rows, predict_est e' rows = match predict_est e rows with Ok p => Ok (map (fun v => a * v + b) p) | Raise x => Raise x end) ->
    permutation_importance_sk est predict_est G shuffle g e' X (map (fun v => a * v + b) y) w r = permutation_importance_sk est predict_est G shuffle g e X y w r.
  Proof.
    intros Ha He. unfold permutation_importance_sk. destruct (finite_weights w) as [w'|]; cbn [bind]; auto.
    assert (HS : forall X', score_est est predict_est e' X' (map (fun v => a * v + b) y) w' = score_est est predict_est e X' y w').
    { intros X'. unfold score_est. rewrite He. destruct (predict_est e X'); cbn [bind]; auto. apply r2_units, Ha. }
    rewrite HS. destruct (score_est est predict_est e X y w'); cbn [bind]; auto. apply mapM_ext. intros f _. f_equal.
    generalize (seq 0 (length X)) as idx. generalize X as X0. revert g. induction r as [|r IH]; intros g X0 idx; cbn [permutation_scores]; auto.
    destruct (shuffle g idx) as [g' idx']. destruct (shuffle_column X0 idx' f); cbn [bind]; auto. rewrite HS, IH. reflexivity.
  Qed.

  Theorem local_response_units c order s s' X y es es' N F score score' W r m a b :
    fitted_model s X y es N F score -> fitted_weights s W N ->
    fitted_model s' X (map (fun v => a * v + b) y) es' N F score' -> fitted_weights s' W N -> cache_data c = true -> cache_estimator c = true -> schedule N order ->
    a <> 0 ->
    Forall2 (fun e e' => forall rows, predict_est e' rows = match predict_est e rows with Ok p => Ok (map (fun v => a * v + b) p) | Raise x => Raise x end) es es' ->
    local_score c order s r = Ok m -> local_score c order s' r = Ok m.
  Proof.
    intros HM HW HM' HW' C1 C2 HS Ha HE H. apply (importance_local_ok est sk c order s X y es N F score W r m HM HW C1 C2 HS) in H as [HL H].
    apply (importance_local_ok est sk c order s' X _ es' N F score' W r m HM' HW' C1 C2 HS). split; [exact HL|]. intros i e' He' P.
    assert (Hex : exists e, nth_error es i = Some e /\ forall rows, predict_est e' rows = match predict_est e rows with Ok p => Ok (map (fun v => a * v + b) p) | Raise x => Raise x end).
    { clear -HE He'. revert i He'. induction HE as [|x x' l l' Hx _ IH]; intros [|i] He'; try discriminate.
      - injection He' as <-. exists x. split; [reflexivity|exact Hx].
      - apply (IH i He'). }
    destruct Hex as (e & He & Hee). specialize (H i e He). cbv zeta in H. fold P in H. rewrite <- H.
    assert (Ey : map (fun j => nth j (map (fun v => a * v + b) y) 0) P = map (fun v => a * v + b) (map (fun j => nth j y 0) P)).
    { pose proof HM as (_ & _ & _ & _ & _ & _ & _ & HLy & _). rewrite map_map. apply map_ext_in. intros j Hj. apply positive_in in Hj. apply (nth_map_in (fun v => a * v + b)). lia. }
    rewrite Ey. apply (sk_units (seed i) e e'); auto.
  Qed.
End Api.
