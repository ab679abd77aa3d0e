(** C170: the ALE figures. *)
From Coq Require Import Lra Lia.
From Coquelicot Require Import Coquelicot.
From Verif.Model Require Import Base Ext Distance Simulation WeightModel Inspect Ale AlePlot.
From Verif.Spec Require Import KernelSpec InspectSpec AleSpec AleShapeSpec AlePlotSpec.
From Verif.Proofs Require Import InspectExamples AleProps2 AleExamples AleShape AleShapeExamples AlePlotProps.
Open Scope nat_scope.
Open Scope R_scope.

(** The figure shows the curve through the given points, and ten adjoining bars of
    equal width from the least value to the greatest; the height of a bar is the
    number of values in it, the last bar including its right end. *)
Theorem C170_figure : forall fvals ale x v v' fig,
  In v x -> In v' x -> v <> v' -> plot_ale fvals ale x = Ok fig ->
  exists lo hi, is_minimum x lo /\ is_maximum x hi /\ lo < hi /\
  List.length fvals = List.length ale /\ line fig = combine fvals ale /\ List.length (bars fig) = 10%nat /\
  (forall k, (k < 10)%nat -> let '(l, r, height) := nth k (bars fig) (0, 0, 0%nat) in
     l = lo + INR k * ((hi - lo) / 10) /\ r = lo + (INR k + 1) * ((hi - lo) / 10) /\
     height = number_inside (k =? 9)%nat l r x) /\
  list_sum (map snd (bars fig)) = List.length x.
Proof.
  intros fvals ale x v v' fig Hv Hv' Hn H. unfold plot_ale in H. destruct (Nat.eqb_spec (List.length fvals) (List.length ale)) as [E|]; [|discriminate].
  cbn [negb] in H. assert (Ef : fig = AleFigure (combine fvals ale) (histogram 10 x)) by congruence. subst fig. clear H. cbn [line bars].
  destruct (range_of_values x v v' Hv Hv' Hn) as [H1 H2]. exists (fst (hist_range x)), (snd (hist_range x)).
  split; [exact H1|]. split; [exact H2|]. split; [apply range_spec|]. split; [exact E|]. split; [reflexivity|].
  destruct (histogram_bars 10 ltac:(lia) x) as [HL HB]. split; [exact HL|]. split; [|apply histogram_total; lia].
  intros k Hk. rewrite (HB k Hk). rewrite (S_INR k). replace (INR 10) with 10 by (cbn; lra). split; [reflexivity|split; reflexivity].
Qed.
Print Assumptions C170_figure.

(** It is drawn exactly when the curve has as many abscissae as ordinates. *)
Theorem C170_figure_drawn : forall fvals ale x,
  (exists fig, plot_ale fvals ale x = Ok fig) <-> List.length fvals = List.length ale.
Proof.
  intros fvals ale x. unfold plot_ale. destruct (Nat.eqb_spec (List.length fvals) (List.length ale)); cbn [negb].
  - split; [auto|eexists; reflexivity].
  - split; [intros [? H]; discriminate|congruence].
Qed.
Print Assumptions C170_figure_drawn.

(** "The bars are the density their axis is labelled with" is false: their area is
    the number of values times a tenth of the range, so is 1 for one range only. *)
Theorem C170_bars_are_a_density_refuted : forall fvals ale x lo hi fig,
  is_minimum x lo -> is_maximum x hi -> lo < hi -> plot_ale fvals ale x = Ok fig ->
  area (bars fig) = INR (List.length x) * (hi - lo) / 10 /\
  (area (bars fig) = 1 <-> hi - lo = 10 / INR (List.length x)).
Proof.
  intros fvals ale x lo hi fig Hlo Hhi Hlt H. unfold plot_ale in H. destruct (Nat.eqb_spec (List.length fvals) (List.length ale)) as [E|]; [|discriminate].
  cbn [negb] in H. assert (Ef : fig = AleFigure (combine fvals ale) (histogram 10 x)) by congruence. subst fig. clear H. cbn [bars].
  destruct (range_of_values x lo hi (proj1 Hlo) (proj1 Hhi) ltac:(lra)) as [H1 H2].
  assert (E1 : fst (hist_range x) = lo). { apply Rle_antisym; [apply H1, Hlo|apply Hlo, H1]. }
  assert (E2 : snd (hist_range x) = hi). { apply Rle_antisym; [apply Hhi, H2|apply H2, Hhi]. }
  rewrite (histogram_area 10 ltac:(lia)), E1, E2. replace (INR 10) with 10 by (cbn; lra).
  assert (HN : 0 < INR (List.length x)) by (apply lt_0_INR; destruct Hlo as [Hin _]; destruct x; [destruct Hin|cbn; lia]).
  split; [field|]. split; intros Hx.
  - apply Rmult_eq_reg_l with (INR (List.length x)); [|lra]. transitivity 10; [lra|field; lra].
  - rewrite Hx. field. lra.
Qed.
Print Assumptions C170_bars_are_a_density_refuted.

(** The line "True value" of the simulation is the prediction beta * x * x2 averaged
    over x2 uniform between 2 below and 2 above the location's own centre. *)
Theorem C170_true_value : forall beta centre x,
  is_RInt (fun x2 => interaction_function beta x x2 * / 4) (centre - 2) (centre + 2) (true_value beta centre x).
Proof. exact true_mean. Qed.
Print Assumptions C170_true_value.

(** Moving the curve to the base value changes where it starts and no difference. *)
Theorem C170_shifted : forall ale base ale', shifted ale base = Ok ale' ->
  List.length ale' = List.length ale /\ nth 0 ale' 0 = base /\
  forall k l, (k < List.length ale)%nat -> (l < List.length ale)%nat -> nth k ale' 0 - nth l ale' 0 = nth k ale 0 - nth l ale 0.
Proof. exact shift_spec. Qed.
Print Assumptions C170_shifted.

(** For a perfect local model the curve's rise differs from that of the true line by
    at most the coefficient times the spread of x2 around the centre times the
    distance covered. *)
Theorem C170_close_to_true_value :
  forall store X N beta predictor w normalize m q a centre spread,
  (forall v, store v = v) -> rect X N 2 -> (0 < N)%nat -> (0 <= m)%Z ->
  rowwise predictor (fun z => interaction_function beta (nth 0 z 0) (nth 1 z 0)) ->
  (forall i, (i < N)%nat -> 0 <= nth i w 0) -> (forall i, (i < N)%nat -> Rabs (mget 0 X i 1 - centre) <= spread) ->
  weighted_ale store X 0 predictor (Some w) normalize m = Ok (q, a) ->
  forall k, (k < List.length q)%nat ->
  Rabs ((nth k a 0 - nth 0 a 0) - (true_value beta centre (nth k q 0) - true_value beta centre (nth 0 q 0)))
    <= Rabs beta * spread * (nth k q 0 - nth 0 q 0).
Proof. exact curve_near_line. Qed.
Print Assumptions C170_close_to_true_value.

(** "The STALE curve of a perfect model is the true line" is false: here, whatever
    the centre and the base value. *)
Theorem C170_perfect_model_on_true_line_refuted :
  exists X w q a, rect X 4 2 /\
    weighted_ale (fun v => v) X 0 i_pred (Some w) false 1 = Ok (q, a) /\ rowwise i_pred (fun z => interaction_function 1 (nth 0 z 0) (nth 1 z 0)) /\
    forall centre base a', shifted a base = Ok a' -> exists k, (k < List.length q)%nat /\ nth k a' 0 <> true_value 1 centre (nth k q 0).
Proof.
  destruct i_bent as (a & H & E1 & E2). exists eX, ew, [0; 3 / 2; 4], a. split; [exact eX_rect|]. split; [exact H|]. split.
  { intros rows. unfold i_pred. f_equal. apply map_ext. intros z. unfold interaction_function. ring. }
  intros c b a' Hs. destruct (shift_spec _ _ _ Hs) as (_ & _ & HD).
  assert (HL : List.length a = 3%nat).
  { destruct (wale_inv (fun v => v) eX 4 2 0 i_pred ew false 1 _ a eX_rect ltac:(lia) ltac:(lia) H) as [(_ & HL & _) _]. exact HL. }
  rewrite HL in HD. pose proof (HD 1%nat 0%nat ltac:(lia) ltac:(lia)) as D1. pose proof (HD 2%nat 1%nat ltac:(lia) ltac:(lia)) as D2.
  destruct (Req_dec (nth 0 a' 0) (true_value 1 c 0)) as [Z0|Z0]; [|exists 0%nat; split; [cbn; lia|exact Z0]].
  destruct (Req_dec (nth 1 a' 0) (true_value 1 c (3 / 2))) as [Z1|Z1]; [|exists 1%nat; split; [cbn; lia|exact Z1]].
  exists 2%nat. split; [cbn; lia|]. cbn [nth]. intros Z2. rewrite true_line in Z0, Z1. cbn [nth] in Z2. rewrite true_line in Z2.
  rewrite E1 in D1. rewrite E2 in D2. lra.
Qed.
Print Assumptions C170_perfect_model_on_true_line_refuted.

(** Three values between 0 and 2: two in the first bar, one in the last, area 6/10. *)
Example C170_example : exists fig, plot_ale [0; 1] [2; 3] [0; 1 / 10; 2] = Ok fig /\
  is_minimum [0; 1 / 10; 2] 0 /\ is_maximum [0; 1 / 10; 2] 2 /\ area (bars fig) = 6 / 10.
Proof.
  assert (H1 : is_minimum [0; 1 / 10; 2] 0) by (split; [now left|intros v [<-|[<-|[<-|[]]]]; lra]).
  assert (H2 : is_maximum [0; 1 / 10; 2] 2) by (split; [now right; right; left|intros v [<-|[<-|[<-|[]]]]; lra]).
  exists (AleFigure (combine [0; 1] [2; 3]) (histogram 10 [0; 1 / 10; 2])). split; [reflexivity|]. split; [exact H1|]. split; [exact H2|].
  destruct (C170_bars_are_a_density_refuted [0; 1] [2; 3] _ 0 2 _ H1 H2 ltac:(lra) eq_refl) as [E _]. rewrite E. cbn. lra.
Qed.
