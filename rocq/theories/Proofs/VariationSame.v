(** Proofs for C186: without randomness of their own the learners score the same in every
    repeat. *)
From Coq Require Import Lra Lia.
From Verif.Model Require Import Base Ext Csr Neighbour Distance WeightModel NumbaImpl Stacking StackingHistory Variation.
From Verif.Spec Require Import KernelSpec NeighbourSpec StackingSpec StackingHistorySpec VariationSpec.
From Verif.Proofs Require Import ListFacts StackingHistoryProps StackingClaims2 VariationProps.
Open Scope string_scope.
Open Scope nat_scope.
Open Scope R_scope.

Section Same.
  Variable est : Type.
  Variable fit_est : bool -> nat -> nat -> matrix R -> list R -> list R -> result est.
  Variable predict_est : est -> matrix R -> result (list R).
  Variable meta : Type.
  Variable fit_meta : R -> nat -> matrix R -> list R -> list R -> result meta.
  Variable predict_meta : meta -> matrix R -> result (list R).
  Variable solve : matrix R -> list R -> result (list R).
  Variable G : Type.
  Variable seed0 : G.
  Variable choice : G -> list nat -> nat -> G * list nat.
  Variable cpu : nat.
  Variable wm : list coords -> list coords -> result swts.
  Variable rt : nat -> runtime.
  Notation script_world := (script_world est meta G).
  Notation script_fit := (script_fit est fit_est predict_est meta fit_meta predict_meta solve G seed0 choice cpu wm rt).
  Notation v_fits := (v_fits est meta G).
  Notation fit fe := (sfit est fe predict_est meta fit_meta predict_meta solve G seed0 choice cpu (fun fs s t => (fs, wm s t))).

  (** The global generator and the files have no influence. *)
  Lemma gen_fs fe r c g g' fs fs' s X y v given :
    so_result est meta G (fit fe r c g fs s X y v given) = so_result est meta G (fit fe r c g' fs' s X y v given) /\
    so_state est meta G (fit fe r c g fs s X y v given) = so_state est meta G (fit fe r c g' fs' s X y v given).
  Proof.
    unfold sfit. destruct (check_X_y X y); [|auto]. destruct v as [v|], given as [w|]; try (auto; fail).
    - change (leave_out_sample G seed0 choice r c g' w) with (leave_out_sample G seed0 choice r c g w).
      destruct (leave_out_sample G seed0 choice r c g w) as [[g1 L]|e]; [|auto].
      destruct (sample_locations G choice g1 _ _) as [[g2 locs]|e]; [|auto].
      destruct (shrink_w _ _ w) as [w' sh]. 
      match goal with |- context [match ?m with Ok _ => _ | Raise _ => _ end] => destruct m as [[nb [[preds XT] es]]|e]; [|auto] end.
      match goal with |- context [match ?m with Ok _ => _ | Raise _ => _ end] => destruct m as [[p score]|e]; [|auto] end.
      match goal with |- context [match ?m with Ok _ => _ | Raise _ => _ end] => destruct m as [[[g3 [[ps scores] ses]] score']|e]; auto end.
    - destruct (wm v v) as [w|e]; [|auto].
      change (leave_out_sample G seed0 choice r c g' w) with (leave_out_sample G seed0 choice r c g w).
      destruct (leave_out_sample G seed0 choice r c g w) as [[g1 L]|e]; [|auto].
      destruct (sample_locations G choice g1 _ _) as [[g2 locs]|e]; [|auto].
      destruct (shrink_w _ _ w) as [w' sh]. 
      match goal with |- context [match ?m with Ok _ => _ | Raise _ => _ end] => destruct m as [[nb [[preds XT] es]]|e]; [|auto] end.
      match goal with |- context [match ?m with Ok _ => _ | Raise _ => _ end] => destruct m as [[p score]|e]; [|auto] end.
      match goal with |- context [match ?m with Ok _ => _ | Raise _ => _ end] => destruct m as [[[g3 [[ps scores] ses]] score']|e]; auto end.
    - change (leave_out_sample G seed0 choice r c g' w) with (leave_out_sample G seed0 choice r c g w).
      destruct (leave_out_sample G seed0 choice r c g w) as [[g1 L]|e]; [|auto].
      destruct (sample_locations G choice g1 _ _) as [[g2 locs]|e]; [|auto].
      destruct (shrink_w _ _ w) as [w' sh]. 
      match goal with |- context [match ?m with Ok _ => _ | Raise _ => _ end] => destruct m as [[nb [[preds XT] es]]|e]; [|auto] end.
      match goal with |- context [match ?m with Ok _ => _ | Raise _ => _ end] => destruct m as [[p score]|e]; [|auto] end.
      match goal with |- context [match ?m with Ok _ => _ | Raise _ => _ end] => destruct m as [[[g3 [[ps scores] ses]] score']|e]; auto end.
  Qed.

  Variables (rate : R) (X : matrix R) (y : list R) (points : coords) (sec : nat -> R) (w : swts) (W : matrix R).
  Notation Xp := (map2 (fun x p => (x ++ p)%list) X points).
  Hypothesis Hfe : forall extra k, fit_est extra k = fit_est extra 0%nat.
  Hypothesis Hch : valid_choice choice.
  Hypothesis Hcpu : (0 < cpu)%nat.
  Hypothesis Hrt : forall k, valid_runtime (rt k) (length Xp) (Some cpu).
  Hypothesis Hrate : 0 <= rate.
  Hypothesis Hwm : wm [points] [points] = Ok w.
  Hypothesis HW : holds_real w W (length Xp).

  Lemma rates_ok : valid_rates (script_config rate).
  Proof. unfold valid_rates; simpl. repeat split; try intros ? E; try discriminate; try (injection E as <-); auto. Qed.

  Lemma same_scores extra a b a' b' f f' :
    script_fit sec rate X y points extra a = (a', Ok f) -> script_fit sec rate X y points extra b = (b', Ok f') -> fst f = fst f'.
  Proof.
    unfold Variation.script_fit. intros H H'. injection H as _ H. injection H' as _ H'.
    rewrite (Hfe extra (v_fits a)) in H. rewrite (Hfe extra (v_fits b)) in H'.
    set (c := script_config rate) in *. set (fe := fit_est extra 0%nat) in *.
    set (oa := fit fe (rt (v_fits a)) c (v_gen est meta G a) (v_files est meta G a) (v_object est meta G a extra) Xp y (Some [points]) None) in *.
    set (ob := fit fe (rt (v_fits b)) c (v_gen est meta G b) (v_files est meta G b) (v_object est meta G b extra) Xp y (Some [points]) None) in *.
    destruct (so_result est meta G oa) as [[]|] eqn:Ra; [|discriminate]. destruct (so_result est meta G ob) as [[]|] eqn:Rb; [|discriminate]. cbn [bind] in H, H'.
    set (g0 := v_gen est meta G a) in *. set (fs0 := v_files est meta G a) in *. set (s0 := v_object est meta G a extra) in *.
    (* the second run started like the first *)
    set (ob1 := fit fe (rt (v_fits b)) c g0 fs0 (v_object est meta G b extra) Xp y (Some [points]) None).
    destruct (gen_fs fe (rt (v_fits b)) c (v_gen est meta G b) g0 (v_files est meta G b) fs0 (v_object est meta G b extra) Xp y (Some [points]) None) as [R1 S1].
    fold ob ob1 in R1, S1.
    set (ob2 := fit fe (rt (v_fits b)) c g0 fs0 s0 Xp y (Some [points]) None).
    destruct (sfit_forgets est fe predict_est meta fit_meta predict_meta solve G seed0 choice cpu (fun fs s t => (fs, wm s t)) (rt (v_fits b)) c g0 fs0 (v_object est meta G b extra) s0 Xp y (Some [points]) None)
      as (R2 & _ & _ & _ & S2). fold ob1 ob2 in R2, S2. rewrite R1 in Rb. specialize (S2 Rb). destruct S2 as [S2 _]. rewrite R2 in Rb.
    assert (RW : real_weights (fun fs s t => (fs, wm s t)) fs0 (Some [points]) None w) by (right; split; auto; exists [points]; auto).
    assert (EQ : oa = ob2).
    { assert (E1 := any_schedule fe predict_est fit_meta predict_meta solve seed0 choice cpu (fun fs s t => (fs, wm s t)) (rt (v_fits a)) (rt (v_fits b)) c cpu g0 fs0 s0 Xp y (Some [points]) None w W
        Hch (Hrt _) Hcpu (Hrt _) (fun H => ltac:(discriminate H)) rates_ok RW HW Ra).
      assert (E2 := any_schedule fe predict_est fit_meta predict_meta solve seed0 choice cpu (fun fs s t => (fs, wm s t)) (rt (v_fits b)) (rt (v_fits b)) c cpu g0 fs0 s0 Xp y (Some [points]) None w W
        Hch (Hrt _) Hcpu (Hrt _) (fun H => eq_refl) rates_ok RW HW Rb).
      etransitivity; [symmetry; exact E1|exact E2]. }
    destruct S2 as (_ & _ & _ & _ & _ & _ & A & _ & _ & _ & _ & B). rewrite S1 in H'. rewrite A, B in H'. rewrite <- EQ in H'.
    destruct (ss_llocv_score est meta (so_state est meta G oa)); [|discriminate]. destruct (ss_llocv_stacking est meta (so_state est meta G oa)); [|discriminate].
    injection H as <-. injection H' as <-. reflexivity.
  Qed.

  Lemma successive_same extra fits : forall a b f0, successive (script_fit sec rate X y points) extra a fits b ->
    (exists c c', script_fit sec rate X y points extra c = (c', Ok f0)) -> Forall (fun f => fst f = fst f0) fits.
  Proof.
    induction fits as [|f fits IH]; intros a b f0 H H0; [constructor|]. inversion H as [|? ? w1 ? ? E1 E2]. subst. constructor; [|eapply IH; eauto].
    destruct H0 as (c & c' & E0). eapply same_scores; eauto.
  Qed.

  Lemma no_spread {I} a file info a' file' d : @script_info I info ->
    variation I script_world (script_fit sec rate X y points) a file info = (a', file', Ok d) ->
    forall extra, exists base stacking,
      (forall i, (i < 10)%nat -> dict_get d (prefix extra ++ "Base_" ++ digit i) = Some (Num base) /\ dict_get d (prefix extra ++ digit i) = Some (Num stacking)) /\
      (forall x, stacking = Fin x -> dict_get d (prefix extra ++ "Std") = Some (Num (Fin 0))).
  Proof.
    intros HI H extra. destruct (finished _ _ _ _ _ _ _ HI H) as (_ & _ & fits & fits' & w1 & S1 & S2 & L1 & L2 & R1 & R2).
    assert (Q : forall l u v, successive (script_fit sec rate X y points) extra u l v -> length l = 10%nat -> reports extra l d -> exists base stacking,
      (forall i, (i < 10)%nat -> dict_get d (prefix extra ++ "Base_" ++ digit i) = Some (Num base) /\ dict_get d (prefix extra ++ digit i) = Some (Num stacking)) /\
      (forall x, stacking = Fin x -> dict_get d (prefix extra ++ "Std") = Some (Num (Fin 0)))).
    { intros l u v S L R. destruct l as [|[[base st] t] l]; [discriminate|]. exists base, st.
      assert (F : Forall (fun f => fst f = (base, st)) ((base, st, t) :: l)).
      { eapply (successive_same extra _ u v (base, st, t)); eauto. inversion S; subst; eauto. }
      split.
      - intros i Hi. destruct (nth_error ((base, st, t) :: l) i) as [[[b' s'] t']|] eqn:E; [|apply nth_error_None in E; lia].
        rewrite Forall_forall in F. pose proof (F _ (nth_error_In _ _ E)) as EF. cbn in EF. injection EF as -> ->. exact (rep_scores _ _ _ R i base st t' E).
      - intros x ->. assert (EX : map (fun f => snd (fst f)) ((base, Fin x, t) :: l) = map Fin (repeat x 10)).
        { rewrite <- L. clear -F. induction F as [|f l' Hf HF IH]; [reflexivity|]. cbn [map length repeat]. rewrite Hf, IH. reflexivity. }
        destruct (rep_spread _ _ _ R _ EX) as ((mu & _ & Hmu) & (s & -> & Hs) & (M & _ & HM) & (m & _ & Hm)).
        destruct (spread _ mu s m M Hmu Hs HM Hm) as (_ & _ & _ & HZ). repeat f_equal. apply HZ.
        assert (mu = x). { unfold is_mean in Hmu. cbn in Hmu. lra. }
        intros z Hz. apply repeat_spec in Hz. congruence. }
    destruct extra; [eapply (Q fits'); eauto|eapply (Q fits); eauto].
  Qed.
End Same.
