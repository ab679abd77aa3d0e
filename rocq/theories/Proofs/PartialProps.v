(** Partial dependence and ICE curves (C173). *)
From Coq Require Import Lra Lia Sorting.Sorted.
From Verif.Model Require Import Base Ext Csr Neighbour Distance WeightModel Inspect PartialDependence.
From Verif.Spec Require Import KernelSpec NeighbourSpec WeightModelSpec InspectSpec LocalImportanceSpec PartialSpec.
From Verif.Proofs Require Import ListFacts SumFacts CsrFacts InspectProps InspectProps3 InspectIce LocalImportanceFacts LocalImportanceApi PartialGrid.
Open Scope nat_scope.
Open Scope R_scope.

Lemma with_feature_same x f v : nth f x 0 = v -> with_feature x f v x.
Proof. intros <-. split; [reflexivity|]. intros j _. destruct (Nat.eqb_spec j f) as [->|]; reflexivity. Qed.
Lemma with_feature_length x f v x' : with_feature x f v x' -> length x' = length x.
Proof. intros [H _]. exact H. Qed.
Lemma with_feature_at x f v x' : (f < length x)%nat -> with_feature x f v x' -> nth f x' 0 = v.
Proof. intros Hf [_ H]. rewrite H, Nat.eqb_refl by auto. reflexivity. Qed.
Lemma with_feature_ignores F f h x v x' : ignores F f h -> length x = F -> with_feature x f v x' -> h x' = h x.
Proof.
  intros Hi HL H. pose proof H as [HL' Hj]. apply Hi; [congruence|exact HL|]. intros j Hne. destruct (le_lt_dec (length x) j) as [L|L].
  - rewrite !nth_overflow by lia. reflexivity.
  - rewrite Hj by exact L. destruct (Nat.eqb_spec j f); [contradiction|reflexivity].
Qed.

(** ** weighted averages *)
Lemma wa_unique w v a b : weighted_average w v a -> weighted_average w v b -> a = b.
Proof. intros [H1 H2] [_ H3]. apply (Rmult_eq_reg_r (Rsum w)); [congruence|exact H1]. Qed.
Lemma wa_linear w u v a b c d : length u = length w -> length v = length w -> weighted_average w u a -> weighted_average w v b ->
  weighted_average w (map2 (fun x y => c * x + d * y) u v) (c * a + d * b).
Proof.
  intros Lu Lv [H1 H2] [_ H3]. split; [exact H1|].
  assert (E : Rsum (map2 Rmult w (map2 (fun x y => c * x + d * y) u v)) = c * Rsum (map2 Rmult w u) + d * Rsum (map2 Rmult w v)).
  { clear H1 H2 H3. revert u v Lu Lv. induction w as [|z w IH]; intros [|x u] [|y v] Lu Lv; simpl in Lu, Lv; try discriminate; [cbn [map2]; rewrite !Rsum_nil; ring|].
    cbn [map2]. rewrite !Rsum_cons. rewrite (IH u v) by lia. ring. }
  rewrite E, <- H2, <- H3. ring.
Qed.
Lemma wsum_const w v c : length v = length w -> Forall (fun x => x = c) v -> Rsum (map2 Rmult w v) = c * Rsum w.
Proof.
  intros HL Hv. revert w HL. induction Hv as [|x v -> Hv IH]; intros [|z w] HL; simpl in HL; try discriminate; cbn [map2]; rewrite ?Rsum_nil, ?Rsum_cons; [ring|].
  rewrite IH by lia. ring.
Qed.
Lemma wa_mono w u v a b : length u = length w -> Forall (fun z => 0 <= z) w -> Forall2 Rle u v -> weighted_average w u a -> weighted_average w v b -> a <= b.
Proof.
  intros Lu Hw Huv [H1 H2] [_ H3].
  assert (E : Rsum (map2 Rmult w u) <= Rsum (map2 Rmult w v) /\ 0 <= Rsum w).
  { clear H1 H2 H3. revert w Lu Hw. induction Huv as [|x y u v Hxy Huv IH]; intros [|z w] Lu Hw; simpl in Lu; try discriminate; [cbn [map2]; rewrite !Rsum_nil; lra|].
    cbn [map2]. rewrite !Rsum_cons. inversion Hw; subst. destruct (IH w ltac:(lia) H2) as [A B]. split; [|lra]. apply Rplus_le_compat; [apply Rmult_le_compat_l; auto|auto]. }
  destruct E as [E S]. apply (Rmult_le_reg_r (Rsum w)); [lra|]. lra.
Qed.

Lemma pos_in W N i j : In j (positive_set W N i) <-> (j < N)%nat /\ positive (mget (Fin 0) W i j) = true.
Proof. unfold positive_set. rewrite filter_In, in_seq. intuition lia. Qed.
Lemma pos_weights W N i w : Forall2 (fun j a => mget (Fin 0) W i j = Fin a) (positive_set W N i) w -> Forall (fun a => 0 < a) w.
Proof.
  intros H. apply Forall_forall. intros a Ha. assert (HP : forall j, In j (positive_set W N i) -> positive (mget (Fin 0) W i j) = true) by (intros j Hj; apply pos_in in Hj; tauto).
  revert Ha HP. generalize (positive_set W N i) H. intros P HF. clear H. induction HF as [|j b P w Hb _ IH]; intros Ha HP; [destruct Ha|].
  destruct Ha as [<-|Ha]; [|apply IH; auto; intros; apply HP; right; auto].
  specialize (HP j (or_introl eq_refl)). rewrite Hb in HP. unfold positive in HP. destruct (Rlt_dec 0 b); [assumption|discriminate].
Qed.
Lemma near_rows (X : matrix R) N F W i : rect X N F -> rect (map (fun j => nth j X []) (positive_set W N i)) (length (positive_set W N i)) F.
Proof.
  intros [HL HF]. split; [apply map_length|]. apply Forall_forall. intros x Hx. apply in_map_iff in Hx as (j & <- & Hj).
  rewrite Forall_forall in HF. apply HF, nth_In. rewrite HL. apply pos_in in Hj. tauto.
Qed.

Lemma abs_between x b : Rabs x <= b <-> - b <= x <= b.
Proof. unfold Rabs. destruct (Rcase_abs x); split; intros; lra. Qed.

Section Curves.
  Context {est : Type}.
  Variable predict_est : est -> matrix R -> result (list R).
  Variable store : R -> R.
  Variable resolution : nat.
  Hypothesis Hres : (1 <= resolution)%nat.
  Notation sk := (partial_dependence_sk est predict_est store resolution).
  Notation grid := (grid_from_X_sk resolution).

  Lemma sk_partial_inv e X N F f q ind : rect X N F -> (f < F)%nat -> sk e X f = Ok (q, ind) ->
    (0 < N)%nat /\ is_grid resolution (values_of X f) q /\ length ind = N /\
    forall k, (k < length q)%nat -> exists p, predict_est e (map (fun row => list_set row f (store (nth k q 0))) X) = Ok p /\ length p = N /\ map (fun row => nth k row 0) ind = p.
  Proof.
    intros HR Hf H. pose proof HR as [HL HF]. unfold partial_dependence_sk in H. destruct X as [|x0 X0] eqn:EX; [discriminate|]. rewrite <- EX in *.
    apply bind_ok in H as (values & Hg & H). apply bind_ok in H as (preds & Hp & H). destruct (forallb _ preds) eqn:EF; [|discriminate].
    injection H as -> <-. apply (grid_ok resolution X N F f q HR Hf Hres) in Hg. split; [rewrite <- HL, EX; simpl; lia|]. split; [exact Hg|].
    split; [unfold transpose, tabulate; rewrite map_length, seq_length; exact HL|]. intros k Hk.
    pose proof (mapM_length _ _ _ Hp) as HLp. apply (mapM_nth _ _ _ k 0 []) in Hp; [|exact Hk]. exists (nth k preds []). split; [exact Hp|].
    rewrite forallb_forall in EF. assert (HLk : length (nth k preds []) = N) by (rewrite <- HL; apply Nat.eqb_eq, EF, nth_In; lia). split; [exact HLk|].
    apply (list_eq_nth 0); [rewrite map_length; unfold transpose, tabulate; rewrite map_length, seq_length; congruence|].
    intros j Hj. rewrite map_length in Hj. unfold transpose, tabulate in *. rewrite map_length, seq_length in Hj.
    rewrite (nth_map_in _ _ _ []) by (rewrite map_length, seq_length; exact Hj). rewrite (nth_map_in _ _ _ 0%nat) by (rewrite seq_length; exact Hj).
    rewrite seq_nth by exact Hj. rewrite Nat.add_0_l. rewrite (nth_map_in _ _ _ []) by lia. reflexivity.
  Qed.

  Lemma curve_written_out e X N F w f q a : rect X N F -> (f < F)%nat ->
    weighted_curve sk e X w f (q, a) ->
    (0 < N)%nat /\ is_grid resolution (values_of X f) q /\ length a = length q /\ length w = N /\
    forall k, (k < length q)%nat -> dependence_at predict_est store e X w f (nth k q 0) (nth k a 0).
  Proof.
    intros HR Hf (ind & H & HL & HLa & Hs & HA). cbn [fst snd] in *. destruct (sk_partial_inv e X N F f q ind HR Hf H) as (HN & HG & HLi & HP).
    split; [exact HN|]. split; [exact HG|]. split; [exact HLa|]. split; [congruence|]. intros k Hk. destruct (HP k Hk) as (p & Hp & HLp & E).
    exists (map (fun row => list_set row f (store (nth k q 0))) X), p. split; [|split; [exact Hp|rewrite <- E; apply HA, Hk]].
    clear. induction X as [|x X IH]; constructor; auto. apply list_set_with_feature.
  Qed.

  (** ** the two methods *)
  Theorem pd_written_out order s X y es N F score W curves by_feature i e f :
    fitted_model s X y es N F score -> fitted_weights s W N -> schedule N order ->
    partial_dependence est sk order s = Ok (curves, by_feature) -> nth_error es i = Some e -> (f < F)%nat ->
    let P := positive_set W N i in let Xs := map (fun j => nth j X []) P in let q := fst (nth f (nth i curves []) ([], [])) in let a := snd (nth f (nth i curves []) ([], [])) in
    exists w, Forall2 (fun j v => mget (Fin 0) W i j = Fin v) P w /\ is_grid resolution (values_of Xs f) q /\ length a = length q /\
      forall k, (k < length q)%nat -> dependence_at predict_est store e Xs w f (nth k q 0) (nth k a 0).
  Proof.
    intros HM HW HS H He Hf P Xs q a. apply (partial_dependence_ok est sk order s X y es N F score W _ HM HW HS) in H as (cv & [_ HC] & _ & E).
    injection E as <- _. destruct (HC i e He) as (w & Hw & _ & Hc). specialize (Hc f Hf). pose proof HM as (_ & _ & _ & _ & _ & _ & HX & _).
    assert (HR : rect Xs (length P) F) by (apply (near_rows X N F); exact HX).
    rewrite (surjective_pairing (nth f (nth i curves []) ([], []))) in Hc.
    destruct (curve_written_out e Xs (length P) F w f q a HR Hf Hc) as (_ & A & B & _ & C). exists w. auto.
  Qed.

  Theorem ice_written_out s X y es N F score W curves by_feature i e f :
    fitted_model s X y es N F score -> fitted_weights s W N ->
    local_ICE est predict_est grid store s = Ok (curves, by_feature) -> nth_error es i = Some e -> (f < F)%nat ->
    let P := positive_set W N i in let Xs := map (fun j => nth j X []) P in let q := fst (nth f (nth i curves []) ([], [])) in let a := snd (nth f (nth i curves []) ([], [])) in
    is_grid resolution (values_of Xs f) q /\
    exists rows, Forall2 (fun v x => with_feature (nth i X []) f (store v) x) q rows /\ predict_est e rows = Ok a.
  Proof.
    intros HM HW H He Hf P Xs q a. apply (local_ICE_ok est predict_est grid store s X y es N F score W _ HM HW) in H as (cv & [_ HC] & _ & E).
    injection E as <- _. destruct (HC i e He) as (_ & Hc). specialize (Hc f Hf). cbv zeta in Hc. destruct Hc as [Hg Hc]. split; [|exact Hc].
    pose proof HM as (_ & _ & _ & _ & _ & _ & HX & _).
    assert (HR : rect Xs (length P) F) by (apply (near_rows X N F); exact HX).
    apply (grid_ok resolution Xs (length P) F f q HR Hf Hres). exact Hg.
  Qed.

  (** ** shapes; numbers are stored as they are *)
  Lemma dependence_answers e h X w f v a : (forall u, store u = u) -> answers predict_est e h -> dependence_at predict_est store e X w f v a ->
    weighted_average w (map (fun x => h (list_set x f v)) X) a.
  Proof.
    intros Hst Hh (rows & p & Hr & Hp & Ha). rewrite (Hh _ _ Hp) in Ha. replace (map (fun x => h (list_set x f v)) X) with (map h rows); [exact Ha|].
    rewrite Hst in Hr. clear -Hr. induction Hr as [|x x' X rows Hx Hr IH]; cbn [map]; [reflexivity|]. f_equal; [|exact IH]. f_equal. apply with_feature_eq, Hx.
  Qed.

  Lemma curve_values order s X y es N F score W curves by_feature i e f h :
    fitted_model s X y es N F score -> fitted_weights s W N -> schedule N order -> (forall u, store u = u) -> answers predict_est e h ->
    partial_dependence est sk order s = Ok (curves, by_feature) -> nth_error es i = Some e -> (f < F)%nat ->
    let P := positive_set W N i in let Xs := map (fun j => nth j X []) P in let q := fst (nth f (nth i curves []) ([], [])) in let a := snd (nth f (nth i curves []) ([], [])) in
    exists w, Forall2 (fun j v => mget (Fin 0) W i j = Fin v) P w /\ Forall (fun z => 0 < z) w /\ length w = length Xs /\ rect Xs (length P) F /\ is_grid resolution (values_of Xs f) q /\ length a = length q /\
      forall k, (k < length q)%nat -> weighted_average w (map (fun x => h (list_set x f (nth k q 0))) Xs) (nth k a 0).
  Proof.
    intros HM HW HS Hst Hh H He Hf P Xs q a. destruct (pd_written_out order s X y es N F score W curves by_feature i e f HM HW HS H He Hf) as (w & Hw & HG & HL & HD).
    exists w. split; [exact Hw|]. split; [apply (pos_weights W N i w Hw)|]. pose proof HM as (_ & _ & _ & _ & _ & _ & HX & _).
    split; [unfold Xs; rewrite map_length; rewrite <- (Forall2_len _ _ _ Hw); reflexivity|].
    split; [apply (near_rows X N F); exact HX|]. split; [exact HG|]. split; [exact HL|].
    intros k Hk. apply (dependence_answers e h Xs w f _ _ Hst Hh (HD k Hk)).
  Qed.

  (** An effect proportional to the feature: a straight line. *)
  Theorem pd_interaction order s X y es N F score W curves by_feature i e f h r :
    fitted_model s X y es N F score -> fitted_weights s W N -> schedule N order -> (forall u, store u = u) ->
    answers predict_est e (fun z => nth f z 0 * h z + r z) -> ignores F f h -> ignores F f r ->
    partial_dependence est sk order s = Ok (curves, by_feature) -> nth_error es i = Some e -> (f < F)%nat ->
    let P := positive_set W N i in let Xs := map (fun j => nth j X []) P in let q := fst (nth f (nth i curves []) ([], [])) in let a := snd (nth f (nth i curves []) ([], [])) in
    (0 < length q)%nat ->
    exists w mu c, Forall2 (fun j v => mget (Fin 0) W i j = Fin v) P w /\ weighted_average w (map h Xs) mu /\ weighted_average w (map r Xs) c /\
      forall k, (k < length q)%nat -> nth k a 0 = mu * nth k q 0 + c.
  Proof.
    intros HM HW HS Hst Hh Hi1 Hi2 H He Hf P Xs q a Hq.
    destruct (curve_values order s X y es N F score W curves by_feature i e f _ HM HW HS Hst Hh H He Hf) as (w & Hw & _ & HLw & HR & HG & HL & HD).
    fold P Xs q a in HLw, HR, HG, HL, HD.
    assert (Hs : Rsum w <> 0) by (destruct (HD 0%nat Hq) as [Hs _]; exact Hs).
    assert (HA : forall g, exists m, weighted_average w (map g Xs) m).
    { intros g. exists (Rsum (map2 Rmult w (map g Xs)) / Rsum w). split; [exact Hs|field; exact Hs]. }
    destruct (HA h) as [mu Hmu], (HA r) as [c Hc]. exists w, mu, c. split; [exact Hw|]. split; [exact Hmu|]. split; [exact Hc|]. intros k Hk.
    apply (wa_unique _ _ _ _ (HD k Hk)). replace (map _ Xs) with (map2 (fun u v => nth k q 0 * u + 1 * v) (map h Xs) (map r Xs)).
    - replace (mu * nth k q 0 + c) with (nth k q 0 * mu + 1 * c) by ring. apply wa_linear; rewrite ?map_length; auto.
    - destruct HR as [_ HF]. clear -HF Hf Hi1 Hi2. induction Xs as [|x Xs IH]; cbn [map map2]; [reflexivity|]. inversion HF as [|? ? Hx HF']; subst. f_equal; [|apply IH, HF'].
      rewrite (with_feature_at x f (nth k q 0) (list_set x f (nth k q 0)) Hf (list_set_with_feature _ _ _)).
      rewrite (with_feature_ignores (length x) f h x _ _ Hi1 eq_refl (list_set_with_feature x f (nth k q 0))).
      rewrite (with_feature_ignores (length x) f r x _ _ Hi2 eq_refl (list_set_with_feature x f (nth k q 0))). ring.
  Qed.

  Lemma grid_le values q k l : is_grid resolution values q -> (2 <= resolution)%nat -> values <> [] -> (k <= l)%nat -> (l < length q)%nat -> nth k q 0 <= nth l q 0.
  Proof.
    intros HG H2 Hne Hkl Hl. destruct (grid_shape resolution values q H2 Hne HG) as (_ & HI & _). destruct (Nat.eq_dec k l) as [->|]; [lra|]. left. apply HI. lia.
  Qed.

  Theorem pd_rises order s X y es N F score W curves by_feature i e f h :
    fitted_model s X y es N F score -> fitted_weights s W N -> schedule N order -> (forall u, store u = u) -> (2 <= resolution)%nat ->
    answers predict_est e h -> rises_with F f h ->
    partial_dependence est sk order s = Ok (curves, by_feature) -> nth_error es i = Some e -> (f < F)%nat ->
    let q := fst (nth f (nth i curves []) ([], [])) in let a := snd (nth f (nth i curves []) ([], [])) in
    forall k l, (k <= l)%nat -> (l < length q)%nat -> nth k a 0 <= nth l a 0.
  Proof.
    intros HM HW HS Hst H2 Hh Hr H He Hf q a k l Hkl Hl.
    destruct (curve_values order s X y es N F score W curves by_feature i e f _ HM HW HS Hst Hh H He Hf) as (w & Hw & Hpos & HLw & HR & HG & HL & HD).
    fold q a in HG, HL, HD. set (Xs := map (fun j => nth j X []) (positive_set W N i)) in *.
    assert (Hne : values_of Xs f <> []).
    { destruct (HD l Hl) as [Hs _]. intros E. apply (f_equal (@length R)) in E. unfold values_of in E. rewrite map_length in E. simpl in E. destruct w; [apply Hs; reflexivity|simpl in HLw; lia]. }
    pose proof (grid_le _ _ k l HG H2 Hne Hkl Hl) as Hq.
    refine (wa_mono w _ _ _ _ _ _ _ (HD k ltac:(lia)) (HD l Hl)); [rewrite map_length; auto|apply (Forall_impl _ (P := fun z => 0 < z)); [intros; lra|auto]|].
    destruct HR as [_ HF]. clear -HF Hr Hq. induction Xs as [|x Xs IH]; cbn [map]; constructor; inversion HF; subst; auto.
    apply (Hr x (nth k q 0) (nth l q 0)); auto using list_set_with_feature.
  Qed.

  Theorem pd_steepness order s X y es N F score W curves by_feature i e f h L :
    fitted_model s X y es N F score -> fitted_weights s W N -> schedule N order -> (forall u, store u = u) ->
    answers predict_est e h -> steepness_at_most F f L h ->
    partial_dependence est sk order s = Ok (curves, by_feature) -> nth_error es i = Some e -> (f < F)%nat ->
    let q := fst (nth f (nth i curves []) ([], [])) in let a := snd (nth f (nth i curves []) ([], [])) in
    forall k l, (k < length q)%nat -> (l < length q)%nat -> Rabs (nth l a 0 - nth k a 0) <= L * Rabs (nth l q 0 - nth k q 0).
  Proof.
    intros HM HW HS Hst Hh Hr H He Hf q a k l Hk Hl.
    destruct (curve_values order s X y es N F score W curves by_feature i e f _ HM HW HS Hst Hh H He Hf) as (w & Hw & Hpos & HLw & HR & HG & HL & HD).
    fold q a in HG, HL, HD. set (Xs := map (fun j => nth j X []) (positive_set W N i)) in *.
    set (B := L * Rabs (nth l q 0 - nth k q 0)).
    assert (HD' : weighted_average w (map2 (fun u v => 1 * u + -1 * v) (map (fun x => h (list_set x f (nth l q 0))) Xs) (map (fun x => h (list_set x f (nth k q 0))) Xs)) (1 * nth l a 0 + -1 * nth k a 0)).
    { apply wa_linear; rewrite ?map_length; auto. }
    replace (1 * nth l a 0 + -1 * nth k a 0) with (nth l a 0 - nth k a 0) in HD' by ring.
    assert (Hb : Forall (fun d => - B <= d <= B) (map2 (fun u v => 1 * u + -1 * v) (map (fun x => h (list_set x f (nth l q 0))) Xs) (map (fun x => h (list_set x f (nth k q 0))) Xs))).
    { destruct HR as [_ HF]. clear -HF Hr. induction Xs as [|x Xs IH]; cbn [map map2]; constructor; inversion HF; subst; auto.
      pose proof (Hr x (nth k q 0) (nth l q 0) _ _ eq_refl (list_set_with_feature _ _ _) (list_set_with_feature _ _ _)) as A. fold B in A.
      apply abs_between in A. lra. }
    assert (Hsum : Rsum w <> 0) by apply HD'. apply abs_between.
    assert (HC : forall c, weighted_average w (map (fun _ => c) Xs) c).
    { intros c. split; [exact Hsum|]. symmetry. apply wsum_const; [rewrite map_length; auto|]. clear. induction Xs; cbn; constructor; auto. }
    assert (Hw0 : Forall (fun z => 0 <= z) w) by (apply (Forall_impl _ (P := fun z => 0 < z)); [intros; lra|auto]).
    split.
    - refine (wa_mono w (map (fun _ => - B) Xs) _ _ _ _ Hw0 _ (HC _) HD'); [rewrite map_length; auto|].
      clear -Hb. induction Xs as [|x Xs IH]; cbn [map map2] in *; constructor; inversion Hb; subst; auto. lra.
    - refine (wa_mono w _ (map (fun _ => B) Xs) _ _ _ Hw0 _ HD' (HC _)).
      + rewrite map2_length, !map_length. lia.
      + clear -Hb. induction Xs as [|x Xs IH]; cbn [map map2] in *; constructor; inversion Hb; subst; auto. lra.
  Qed.

  (** ** the two methods compared *)
  Theorem same_grid order s X y es N F score W curves by_feature curves' by_feature' i e f :
    fitted_model s X y es N F score -> fitted_weights s W N -> schedule N order ->
    partial_dependence est sk order s = Ok (curves, by_feature) -> local_ICE est predict_est grid store s = Ok (curves', by_feature') ->
    nth_error es i = Some e -> (f < F)%nat ->
    fst (nth f (nth i curves []) ([], [])) = fst (nth f (nth i curves' []) ([], [])).
  Proof.
    intros HM HW HS H H' He Hf. destruct (pd_written_out order s X y es N F score W curves by_feature i e f HM HW HS H He Hf) as (w & _ & G1 & _).
    destruct (ice_written_out s X y es N F score W curves' by_feature' i e f HM HW H' He Hf) as (G2 & _).
    pose proof HM as (_ & _ & _ & _ & _ & _ & HX & _). set (P := positive_set W N i) in *.
    assert (HR : rect (map (fun j => nth j X []) P) (length P) F) by (apply (near_rows X N F); exact HX).
    apply (grid_ok resolution _ _ F f _ HR Hf Hres) in G1. apply (grid_ok resolution _ _ F f _ HR Hf Hres) in G2. congruence.
  Qed.

  (** An additive estimator: the two curves are parallel. *)
  Theorem additive_parallel order s X y es N F score W curves by_feature curves' by_feature' i e f g r :
    fitted_model s X y es N F score -> fitted_weights s W N -> schedule N order -> (forall u, store u = u) ->
    answers predict_est e (fun z => g (nth f z 0) + r z) -> ignores F f r ->
    partial_dependence est sk order s = Ok (curves, by_feature) -> local_ICE est predict_est grid store s = Ok (curves', by_feature') ->
    nth_error es i = Some e -> (f < F)%nat ->
    let a := snd (nth f (nth i curves []) ([], [])) in let b := snd (nth f (nth i curves' []) ([], [])) in
    exists c, forall k, (k < length a)%nat -> nth k a 0 = nth k b 0 + c.
  Proof.
    intros HM HW HS Hst Hh Hi H H' He Hf a b. pose proof (same_grid order s X y es N F score W curves by_feature curves' by_feature' i e f HM HW HS H H' He Hf) as EG.
    destruct (curve_values order s X y es N F score W curves by_feature i e f _ HM HW HS Hst Hh H He Hf) as (w & Hw & _ & HLw & HR & HG & HL & HD).
    destruct (ice_written_out s X y es N F score W curves' by_feature' i e f HM HW H' He Hf) as (_ & rows & Hrows & Hb).
    fold a in HL, HD. fold b in Hb. rewrite EG in *. set (q := fst (nth f (nth i curves' []) ([], []))) in *. set (Xs := map (fun j => nth j X []) (positive_set W N i)) in *.
    destruct (le_lt_dec (length a) 0) as [Z|Z]; [exists 0; lia|].
    assert (Hs : Rsum w <> 0) by (destruct (HD 0%nat ltac:(lia)) as [Hs _]; exact Hs).
    set (m := Rsum (map2 Rmult w (map r Xs)) / Rsum w). assert (Hm : weighted_average w (map r Xs) m) by (split; [exact Hs|unfold m; field; exact Hs]).
    exists (m - r (nth i X [])). intros k Hk.
    assert (E1 : nth k a 0 = g (nth k q 0) + m).
    { apply (wa_unique _ _ _ _ (HD k ltac:(lia))).
      assert (HC : weighted_average w (map (fun _ => 1) Xs) 1).
      { split; [exact Hs|]. symmetry. apply wsum_const; [rewrite map_length; auto|]. clear. induction Xs; cbn; constructor; auto. }
      replace (map _ Xs) with (map2 (fun u v => g (nth k q 0) * u + 1 * v) (map (fun _ => 1) Xs) (map r Xs)).
      - replace (g (nth k q 0) + m) with (g (nth k q 0) * 1 + 1 * m) by ring. apply wa_linear; rewrite ?map_length; auto.
      - destruct HR as [_ HF]. clear -HF Hf Hi. induction Xs as [|x Xs IH]; cbn [map map2]; [reflexivity|]. inversion HF as [|? ? Hx HF']; subst. f_equal; [|apply IH, HF'].
        rewrite (with_feature_at x f (nth k q 0) (list_set x f (nth k q 0)) Hf (list_set_with_feature _ _ _)).
        rewrite (with_feature_ignores (length x) f r x _ _ Hi eq_refl (list_set_with_feature x f (nth k q 0))). ring. }
    assert (Hi' : (i < N)%nat) by (pose proof HM as (_ & _ & _ & _ & _ & <- & _); apply nth_error_Some; congruence).
    assert (HLi : length (nth i X []) = F). { pose proof HM as (_ & _ & _ & _ & _ & _ & [HLX HX] & _). rewrite Forall_forall in HX. apply HX, nth_In. lia. }
    assert (E2 : nth k b 0 = g (nth k q 0) + r (nth i X [])).
    { rewrite (Hh _ _ Hb). pose proof (Forall2_len _ _ _ Hrows) as HLr. rewrite (nth_map_in _ _ _ []) by (rewrite <- HLr; lia).
      assert (HF2 : with_feature (nth i X []) f (nth k q 0) (nth k rows [])).
      { assert (A : forall q rows k, Forall2 (fun v x => with_feature (nth i X []) f (store v) x) q rows -> (k < length q)%nat -> with_feature (nth i X []) f (nth k q 0) (nth k rows [])).
        { clear -Hst. intros q rows k HF. revert k. induction HF as [|v x q rows Hv HF IH]; intros [|k] Hk; simpl in Hk; try lia; [cbn; rewrite Hst in Hv; exact Hv|cbn; apply IH; lia]. }
        apply A; auto. lia. }
      assert (Hf' : (f < length (nth i X []))%nat) by lia. rewrite (with_feature_at _ _ _ _ Hf' HF2). rewrite (with_feature_ignores F f r _ _ _ Hi HLi HF2). reflexivity. }
    rewrite E1, E2. ring.
  Qed.

  (** The ICE curve at the location's own value shows the prediction for it. *)
  Theorem ice_own_value s X y es N F score W curves by_feature i e f h k :
    fitted_model s X y es N F score -> fitted_weights s W N -> (forall u, store u = u) -> answers predict_est e h ->
    local_ICE est predict_est grid store s = Ok (curves, by_feature) -> nth_error es i = Some e -> (f < F)%nat ->
    let q := fst (nth f (nth i curves []) ([], [])) in let b := snd (nth f (nth i curves []) ([], [])) in
    (k < length q)%nat -> nth k q 0 = nth f (nth i X []) 0 -> nth k b 0 = h (nth i X []).
  Proof.
    intros HM HW Hst Hh H He Hf q b Hk Hx. destruct (ice_written_out s X y es N F score W curves by_feature i e f HM HW H He Hf) as (_ & rows & Hrows & Hb).
    fold q in Hrows. fold b in Hb. rewrite (Hh _ _ Hb). pose proof (Forall2_len _ _ _ Hrows) as HLr. rewrite (nth_map_in _ _ _ []) by (rewrite <- HLr; lia).
    assert (A : forall q rows k, Forall2 (fun v x => with_feature (nth i X []) f (store v) x) q rows -> (k < length q)%nat -> with_feature (nth i X []) f (nth k q 0) (nth k rows [])).
    { clear -Hst. intros q rows k HF. revert k. induction HF as [|v x q rows Hv HF IH]; intros [|k] Hk; simpl in Hk; try lia; [cbn; rewrite Hst in Hv; exact Hv|cbn; apply IH; lia]. }
    specialize (A q rows k Hrows Hk). f_equal. rewrite (with_feature_eq _ _ _ _ A). symmetry. apply with_feature_eq, with_feature_same. auto.
  Qed.

  Theorem ice_own_neighbour s X y es N F score W curves by_feature i e f h :
    fitted_model s X y es N F score -> fitted_weights s W N -> (forall u, store u = u) -> answers predict_est e h ->
    local_ICE est predict_est grid store s = Ok (curves, by_feature) -> nth_error es i = Some e -> (f < F)%nat ->
    let P := positive_set W N i in let q := fst (nth f (nth i curves []) ([], [])) in let b := snd (nth f (nth i curves []) ([], [])) in
    In i P -> (length (nodup Req_EM_T (values_of (map (fun j => nth j X []) P) f)) < resolution)%nat ->
    exists k, (k < length q)%nat /\ nth k q 0 = nth f (nth i X []) 0 /\ nth k b 0 = h (nth i X []).
  Proof.
    intros HM HW Hst Hh H He Hf P q b Hin Hlt. destruct (ice_written_out s X y es N F score W curves by_feature i e f HM HW H He Hf) as ((G & _) & _).
    destruct (G Hlt) as [_ G']. assert (Hq : In (nth f (nth i X []) 0) q).
    { apply G'. unfold values_of. rewrite map_map. apply in_map_iff. exists i. split; [reflexivity|exact Hin]. }
    apply (In_nth _ _ 0) in Hq as (k & Hk & E). exists k. split; [exact Hk|]. split; [exact E|].
    apply (ice_own_value s X y es N F score W curves by_feature i e f h k HM HW Hst Hh H He Hf Hk E).
  Qed.

  (** ** when they raise *)
  Theorem large_raises order s X y es N F score W : (2 <= resolution)%nat ->
    fitted_model s X y es N F score -> fitted_weights s W N -> schedule N order ->
    (forall i f, (i < N)%nat -> (f < F)%nat -> (resolution <= distinct_values (map (fun j => nth j X []) (positive_set W N i)) f)%nat) ->
    raises (local_ICE est predict_est grid store s) /\ raises (partial_dependence est sk order s).
  Proof.
    intros H2 HM HW HS HD.
    assert (G : forall i f q, (i < N)%nat -> (f < F)%nat -> grid (map (fun j => nth j X []) (positive_set W N i)) f = Ok q -> length q = resolution).
    { intros i f q Hi Hf Hq. pose proof HM as (_ & _ & _ & _ & _ & _ & HX & _). set (P := positive_set W N i) in *.
      assert (HR : rect (map (fun j => nth j X []) P) (length P) F) by (apply (near_rows X N F); exact HX).
      apply (grid_ok resolution _ _ F f _ HR Hf Hres) in Hq. specialize (HD i f Hi Hf). unfold distinct_values in HD. fold P in HD.
      destruct Hq as [_ Hq]. destruct (Hq HD) as (lo & hi & _ & _ & _ & HL & _). exact HL. }
    split.
    - apply (ice_same_size est predict_est grid store s X y es N F score W resolution HM HW). exact G.
    - apply (pd_same_size est sk order s X y es N F score W resolution HM HW HS).
      intros i e f q He Hf Hq. assert (Hi : (i < N)%nat) by (pose proof HM as (_ & _ & _ & _ & _ & <- & _); apply nth_error_Some; congruence).
      unfold partial_dependence_sk in Hq. destruct (map (fun j => nth j X []) (positive_set W N i)) eqn:E; [discriminate|]. rewrite <- E in Hq.
      apply bind_ok in Hq as (v & Hv & Hq). apply bind_ok in Hq as (p & _ & Hq). destruct (forallb _ p); [|discriminate]. injection Hq as <-. cbn [fst]. apply (G i f v Hi Hf Hv).
  Qed.

  Theorem skewed_raises order s X y es N F score W i f v :
    fitted_model s X y es N F score -> fitted_weights s W N -> schedule N order -> (i < N)%nat -> (f < F)%nat ->
    let values := values_of (map (fun j => nth j X []) (positive_set W N i)) f in
    (resolution <= length (nodup Req_EM_T values))%nat ->
    (20 * count (fun x => Rltb x v) values + 20 <= length values)%nat -> (20 * count (fun x => Rltb v x) values + 40 <= length values)%nat ->
    raises (local_ICE est predict_est grid store s) /\ raises (partial_dependence est sk order s).
  Proof.
    intros HM HW HS Hi Hf values H1 H2 H3. assert (He : exists e, nth_error es i = Some e).
    { pose proof HM as (_ & _ & _ & _ & _ & HL & _). destruct (nth_error es i) eqn:E; [eauto|]. apply nth_error_None in E. lia. }
    destruct He as [e He]. pose proof (fun q => grid_skewed resolution values v q H1 H2 H3) as NG.
    split; unfold raises.
    - destruct (local_ICE est predict_est grid store s) as [[cv bf]|x] eqn:E; [|eexists; reflexivity]. exfalso.
      destruct (ice_written_out s X y es N F score W cv bf i e f HM HW E He Hf) as (G & _). apply (NG _ G).
    - destruct (partial_dependence est sk order s) as [[cv bf]|x] eqn:E; [|eexists; reflexivity]. exfalso.
      destruct (pd_written_out order s X y es N F score W cv bf i e f HM HW HS E He Hf) as (w & _ & G & _). apply (NG _ G).
  Qed.
End Curves.
