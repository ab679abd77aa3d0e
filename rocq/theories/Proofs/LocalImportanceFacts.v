(** What the drops of local importance are (C172). *)
From Coq Require Import Lra Lia.
From Verif.Model Require Import Base Ext Csr Distance WeightModel Inspect LocalImportance.
From Verif.Spec Require Import InspectSpec LocalImportanceSpec.
From Verif.Proofs Require Import ListFacts SumFacts CsrFacts InspectProps InspectProps3 LocalImportanceProps.
Open Scope nat_scope.
Open Scope R_scope.

Lemma mean_const ds m d : is_mean ds m -> (0 < length ds)%nat -> Forall (fun x => x = d) ds -> m = Fin d.
Proof.
  intros [_ H] HL HF. rewrite H by (destruct ds; [simpl in HL; lia|discriminate]). f_equal.
  assert (E : Rsum ds = INR (length ds) * d).
  { clear H HL. induction HF as [|x l -> _ IH]; [simpl; ring|]. rewrite Rsum_cons, IH. change (length (d :: l)) with (S (length l)). rewrite (S_INR (length l)). ring. }
  rewrite E. field. apply not_0_INR. lia.
Qed.

Lemma drops_mean ps (Q : R -> Prop) (D : (nat -> nat) -> R -> Prop) ds :
  Forall2 D ps ds -> (forall p d, D p d -> Q d) -> Forall Q ds.
Proof. intros H HQ. induction H; constructor; eauto. Qed.

Section Facts.
  Context {est : Type}.
  Variable predict_est : est -> matrix R -> result (list R).
  Notation score_drop := (score_drop predict_est).

  Lemma rearranged_ext X n F f p X' : rect X n F -> rearranged X f p X' ->
    (forall i, (i < n)%nat -> nth f (nth (p i) X []) 0 = nth f (nth i X []) 0) -> X' = X.
  Proof.
    intros [HL HF] [HL' HR] HE. apply (nth_ext _ _ [] []); [exact HL'|]. intros i Hi. rewrite HL' in Hi. destruct (HR i Hi) as [E V].
    apply (nth_ext _ _ 0 0); [exact E|]. intros j Hj. rewrite E in Hj. rewrite V by exact Hj.
    destruct (Nat.eqb_spec j f) as [->|]; [apply HE; lia|reflexivity].
  Qed.

  (** A feature with one value only. *)
  Lemma drop_constant e X n F y w f p d v : rect X n F -> Rsum w <> 0 -> bijection n p ->
    (forall x, In x X -> nth f x 0 = v) -> score_drop e X y w f p d -> d = 0.
  Proof.
    intros HR Hw Hp HC (q & s & X' & q' & s' & H1 & H2 & H3 & H4 & H5 & ->). pose proof HR as [HL _].
    assert (X' = X) as ->.
    { apply (rearranged_ext X n F f p X' HR H3). intros i Hi. rewrite (HC (nth i X [])) by (apply nth_In; lia).
      apply HC, nth_In. rewrite HL. apply bijection_lt; auto. }
    rewrite H1 in H4. injection H4 as <-. rewrite (wr2_unique _ _ _ _ _ Hw H2 H5). ring.
  Qed.

  (** A feature the estimator does not use. *)
  Lemma drop_unused e h X n F y w f p d : rect X n F -> Rsum w <> 0 -> answers predict_est e h -> ignores F f h ->
    score_drop e X y w f p d -> d = 0.
  Proof.
    intros HR Hw Hh Hf (q & s & X' & q' & s' & H1 & H2 & H3 & H4 & H5 & ->). pose proof HR as [HL HF]. pose proof H3 as [HL' HX'].
    assert (E : map h X' = map h X).
    { apply (nth_ext _ _ 0 0); [rewrite !map_length; exact HL'|]. intros i Hi. rewrite map_length, HL' in Hi.
      rewrite !(nth_map_in _ _ _ [] 0) by lia. destruct (HX' i Hi) as [E V]. rewrite Forall_forall in HF.
      assert (HFi : length (nth i X []) = F) by (apply HF, nth_In; lia).
      apply Hf; [congruence|exact HFi|]. intros j Hj. destruct (Nat.lt_ge_cases j F) as [Hlt|Hge].
      - rewrite V by lia. destruct (Nat.eqb_spec j f); [contradiction|reflexivity].
      - rewrite !nth_overflow by lia. reflexivity. }
    apply Hh in H1. apply Hh in H4. subst q q'. rewrite E in H5. rewrite (wr2_unique _ _ _ _ _ Hw H2 H5). ring.
  Qed.

  (** An estimator that is right at the observations looked at. *)
  Lemma sse_self w y : Rsum (map2 Rmult w (map2 (fun a b => (a - b) * (a - b)) y y)) = 0.
  Proof.
    revert w. induction y as [|a y IH]; intros [|b w]; cbn [map2]; auto. rewrite Rsum_cons, IH. ring.
  Qed.
  Lemma exact_score y w s : is_weighted_r2 y y w s -> s = 1.
  Proof.
    intros (m & _ & A & B & _). cbv zeta in *. rewrite sse_self in *.
    destruct (Req_dec (Rsum (map2 Rmult w (map (fun a => (a - m) * (a - m)) y))) 0) as [E|E]; [auto|]. rewrite (A E). field. exact E.
  Qed.
  Lemma wsum_nonneg w l : Forall (fun a => 0 <= a) w -> Forall (fun a => 0 <= a) l -> 0 <= Rsum (map2 Rmult w l).
  Proof.
    intros Hw. revert l. induction Hw as [|a w Ha _ IH]; intros l Hl; cbn [map2]; [rewrite Rsum_nil; lra|]. destruct Hl as [|b l Hb Hl]; cbn [map2]; [rewrite Rsum_nil; lra|].
    rewrite Rsum_cons. specialize (IH l Hl). assert (0 <= a * b) by (apply Rmult_le_pos; auto). lra.
  Qed.
  Lemma squares_nonneg y p : Forall (fun a => 0 <= a) (map2 (fun a b => (a - b) * (a - b)) y p).
  Proof. revert p. induction y; intros [|b p]; simpl; constructor; auto. apply Rle_0_sqr. Qed.
  Lemma score_at_most_one y p w s : Forall (fun a => 0 <= a) w -> is_weighted_r2 y p w s -> s <= 1.
  Proof.
    intros Hw (m & _ & A & B & C). cbv zeta in *.
    set (sse := Rsum (map2 Rmult w (map2 _ y p))) in *. set (sst := Rsum (map2 Rmult w (map _ y))) in *.
    assert (H1 : 0 <= sse) by (apply wsum_nonneg; auto; apply squares_nonneg).
    assert (H2 : 0 <= sst). { apply wsum_nonneg; auto. clear. induction y; simpl; constructor; auto. apply Rle_0_sqr. }
    destruct (Req_dec sst 0) as [E|E].
    - destruct (Req_dec sse 0) as [E'|E']; [rewrite (B E E')|rewrite (C E E')]; lra.
    - rewrite (A E). assert (0 <= sse / sst); [|lra]. apply Rmult_le_pos; [exact H1|]. left. apply Rinv_0_lt_compat. lra.
  Qed.
  Lemma drop_exact e X y w f p d : Forall (fun a => 0 <= a) w -> predict_est e X = Ok y -> score_drop e X y w f p d -> 0 <= d.
  Proof.
    intros Hw He (q & s & X' & q' & s' & H1 & H2 & H3 & H4 & H5 & ->). rewrite He in H1. injection H1 as <-.
    rewrite (exact_score _ _ _ H2). pose proof (score_at_most_one _ _ _ _ Hw H5). lra.
  Qed.

  (** ... and linear in the feature. *)
  Lemma drop_linear e h b g X n F y w f p d m : rect X n F -> (f < F)%nat -> answers predict_est e h ->
    (forall x, length x = F -> h x = b * nth f x 0 + g x) -> ignores F f g -> map h X = y ->
    Rsum w <> 0 -> m * Rsum w = Rsum (map2 Rmult w y) ->
    let sst := Rsum (map2 Rmult w (map (fun a => (a - m) * (a - m)) y)) in sst <> 0 ->
    score_drop e X y w f p d ->
    d * sst = b * b * Rsum (map2 Rmult w (map (fun i => (nth f (nth i X []) 0 - nth f (nth (p i) X []) 0) * (nth f (nth i X []) 0 - nth f (nth (p i) X []) 0)) (seq 0 n))).
  Proof.
    intros HR Hf Hh Hl Hg Hy Hw Hm sst Hs (q & s & X' & q' & s' & H1 & H2 & H3 & H4 & H5 & ->). pose proof HR as [HL HF]. pose proof H3 as [HL' HX'].
    apply Hh in H1. apply Hh in H4. subst q q'. rewrite Hy in H2. rewrite (exact_score _ _ _ H2).
    destruct H5 as (m' & Hm' & A & _ & _). assert (m' = m) by (apply (Rmult_eq_reg_r (Rsum w)); congruence). subst m'. cbv zeta in A. fold sst in A. rewrite (A Hs).
    replace (map2 (fun a c => (a - c) * (a - c)) y (map h X')) with
      (map (fun t => b * b * t) (map (fun i => (nth f (nth i X []) 0 - nth f (nth (p i) X []) 0) * (nth f (nth i X []) 0 - nth f (nth (p i) X []) 0)) (seq 0 n))).
    - assert (E : forall l, Rsum (map2 Rmult w (map (fun t => b * b * t) l)) = b * b * Rsum (map2 Rmult w l)).
      { clear. induction w as [|a w IH]; intros [|c l]; cbn [map map2]; rewrite ?Rsum_nil; try ring. rewrite !Rsum_cons, IH. ring. }
      rewrite E. field. exact Hs.
    - rewrite map_map. apply (nth_ext _ _ 0 0).
      + rewrite map_length, seq_length, map2_length, <- Hy, !map_length. lia.
      + intros i Hi. rewrite map_length, seq_length in Hi. rewrite (nth_map_in _ _ _ 0%nat 0) by (rewrite seq_length; exact Hi).
        rewrite seq_nth, Nat.add_0_l by exact Hi. rewrite (map2_nth _ _ _ _ 0 0) by (rewrite <- ?Hy, ?map_length; lia).
        rewrite <- Hy. rewrite !(nth_map_in _ _ _ [] 0) by lia. destruct (HX' i ltac:(lia)) as [E V]. rewrite Forall_forall in HF.
        assert (HFi : length (nth i X []) = F) by (apply HF, nth_In; lia).
        rewrite !Hl by congruence. rewrite V by lia. rewrite Nat.eqb_refl.
        replace (g (nth i X' [])) with (g (nth i X [])); [ring|]. apply Hg; [exact HFi|congruence|]. intros j Hj.
        destruct (Nat.lt_ge_cases j F) as [Hlt|Hge]; [|rewrite !nth_overflow by lia; reflexivity].
        rewrite V by lia. destruct (Nat.eqb_spec j f); [contradiction|reflexivity].
  Qed.
End Facts.

(** ** units *)
Lemma map2_scale c w l : map2 Rmult (map (Rmult c) w) l = map (Rmult c) (map2 Rmult w l).
Proof. revert l. induction w; intros [|b l]; simpl; auto. rewrite IHw. f_equal. ring. Qed.
Lemma Rsum_scale c l : Rsum (map (Rmult c) l) = c * Rsum l.
Proof. induction l; cbn [map]; rewrite ?Rsum_nil; [ring|]. rewrite !Rsum_cons, IHl. ring. Qed.
Lemma r2_scale_weights y p w c : c <> 0 -> r2_weighted y p (map (Rmult c) w) = r2_weighted y p w.
Proof.
  intros Hc. unfold r2_weighted. rewrite map_length. destruct (_ || _); [reflexivity|]. destruct y as [|a [|b y]]; [reflexivity|reflexivity|].
  set (Y := a :: b :: y). rewrite Rsum_scale. rewrite !(map2_comm Rmult Rmult Rmult_comm Y). rewrite !map2_scale, !Rsum_scale.
  destruct (Reqb_spec (Rsum w) 0) as [E|E].
  { destruct (Reqb_spec (c * Rsum w) 0) as [|E']; [reflexivity|]. exfalso. apply E'. rewrite E. ring. }
  destruct (Reqb_spec (c * Rsum w) 0) as [E'|_]; [apply Rmult_integral in E'; tauto|].
  replace (c * Rsum (map2 Rmult w Y) / (c * Rsum w)) with (Rsum (map2 Rmult w Y) / Rsum w) by (field; auto).
  cbv zeta. set (sst := Rsum (map2 Rmult w (map _ Y))). set (sse := Rsum (map2 Rmult w (map2 _ Y p))).
  assert (HB : forall x, Reqb (c * x) 0 = Reqb x 0).
  { intros x. destruct (Reqb_spec (c * x) 0) as [E1|E1]; destruct (Reqb_spec x 0) as [E2|E2]; auto.
    - apply Rmult_integral in E1. tauto.
    - exfalso. apply E1. rewrite E2. ring. }
  rewrite !HB. destruct (Reqb_spec sst 0) as [|Hs]; [reflexivity|]. do 2 f_equal. field. auto.
Qed.

Lemma r2_form y p w : (2 <= length y)%nat -> length y = length p -> length y = length w ->
  r2_weighted y p w = if Reqb (Rsum w) 0 then Raise ZeroDivisionError
    else let average := Rsum (map2 Rmult y w) / Rsum w in
      let numerator := Rsum (map2 Rmult w (map2 (fun a b => (a - b) * (a - b)) y p)) in
      let denominator := Rsum (map2 Rmult w (map (fun a => (a - average) * (a - average)) y)) in
      Ok (Fin (if Reqb denominator 0 then (if Reqb numerator 0 then 1 else 0) else 1 - numerator / denominator)).
Proof.
  intros H2 Hp Hw. unfold r2_weighted. rewrite <- Hp, <- Hw, Nat.eqb_refl. cbn [negb orb].
  destruct y as [|a [|b y]]; [simpl in H2; lia|simpl in H2; lia|reflexivity].
Qed.

Lemma r2_units Y p w a b : a <> 0 ->
  r2_weighted (map (fun v => a * v + b) Y) (map (fun v => a * v + b) p) w = r2_weighted Y p w.
Proof.
  intros Ha. destruct (Nat.eq_dec (length Y) (length p)) as [EP|EP].
  2:{ unfold r2_weighted. rewrite !map_length. apply Nat.eqb_neq in EP. rewrite EP. reflexivity. }
  destruct (Nat.eq_dec (length Y) (length w)) as [EL|EL].
  2:{ unfold r2_weighted. rewrite !map_length. apply Nat.eqb_neq in EL. rewrite EL, Bool.orb_true_r. reflexivity. }
  destruct (le_lt_dec 2 (length Y)) as [H2|H2].
  2:{ unfold r2_weighted. rewrite !map_length. destruct (_ || _); [reflexivity|]. destruct Y as [|? [|? ?]]; simpl in H2; try lia; reflexivity. }
  rewrite (r2_form Y p w) by assumption. rewrite r2_form by (rewrite ?map_length; assumption).
  destruct (Reqb_spec (Rsum w) 0) as [|Hw]; [reflexivity|]. cbv zeta.
  set (m := Rsum (map2 Rmult Y w) / Rsum w).
  assert (Em : Rsum (map2 Rmult (map (fun v => a * v + b) Y) w) / Rsum w = a * m + b).
  { assert (E : forall l w, length l = length w -> Rsum (map2 Rmult (map (fun v => a * v + b) l) w) = a * Rsum (map2 Rmult l w) + b * Rsum w).
    { clear. induction l as [|x l IH]; intros [|v w] HL; simpl in HL; try lia; cbn [map map2]; rewrite ?Rsum_nil; [ring|]. rewrite !Rsum_cons, IH by lia. ring. }
    rewrite E by exact EL. unfold m. field. exact Hw. }
  rewrite Em.
  assert (E1 : Rsum (map2 Rmult w (map (fun x => (x - (a * m + b)) * (x - (a * m + b))) (map (fun v => a * v + b) Y))) = a * a * Rsum (map2 Rmult w (map (fun x => (x - m) * (x - m)) Y))).
  { clearbody m. clear. generalize Y. intros l. revert w. induction l as [|x l IH]; intros [|v w]; cbn [map map2]; rewrite ?Rsum_nil; try ring. rewrite !Rsum_cons, IH. ring. }
  assert (E2 : Rsum (map2 Rmult w (map2 (fun x z => (x - z) * (x - z)) (map (fun v => a * v + b) Y) (map (fun v => a * v + b) p))) = a * a * Rsum (map2 Rmult w (map2 (fun x z => (x - z) * (x - z)) Y p))).
  { clearbody m. clear. generalize Y. intros l. revert w p. induction l as [|x l IH]; intros [|v w] [|z p]; cbn [map map2]; rewrite ?Rsum_nil; try ring. rewrite !Rsum_cons, IH. ring. }
  rewrite E1, E2. set (sst := Rsum (map2 Rmult w (map _ Y))). set (sse := Rsum (map2 Rmult w (map2 _ Y p))).
  assert (HA : a * a <> 0) by (intros H; apply Rmult_integral in H; tauto).
  assert (HB : forall x, Reqb (a * a * x) 0 = Reqb x 0).
  { intros x. destruct (Reqb_spec (a * a * x) 0) as [E3|E3]; destruct (Reqb_spec x 0) as [E4|E4]; auto.
    - apply Rmult_integral in E3. tauto.
    - exfalso. apply E3. rewrite E4. ring. }
  rewrite !HB. destruct (Reqb_spec sst 0) as [|Hs]; [reflexivity|]. do 2 f_equal. field. auto.
Qed.
