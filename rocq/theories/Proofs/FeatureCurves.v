(** Partial dependence and ICE curves of features in other units. *)
From Coq Require Import Lra Lia Psatz Sorting.Sorted.
From Verif.Model Require Import Base Ext Sort Csr Neighbour Distance Ale WeightModel Inspect PartialDependence.
From Verif.Spec Require Import KernelSpec NeighbourSpec WeightModelSpec InspectSpec LocalImportanceSpec UnitsSpec FeatureUnitsSpec PartialSpec.
From Verif.Proofs Require Import ListFacts SortFacts SumFacts KernelFacts CsrFacts NeighbourProps WeightModelFacts WeightModelProps FitProps InspectProps InspectProps2 InspectProps3 InspectProps4 PartialGrid PartialProps Units FeatureUnits.
Open Scope string_scope.
Open Scope nat_scope.
Open Scope R_scope.

Section Grid.
  Variables a k : R.
  Hypothesis Ha : 0 < a.
  Notation g := (in_units a k).
  Lemma units_leb x y : Rleb (g x) (g y) = Rleb x y.
  Proof.
    destruct (Rleb x y) eqn:E; [apply Rleb_true in E|apply Rleb_false in E].
    - apply Rleb_true. unfold in_units. nra.
    - apply Rleb_false. unfold in_units. nra.
  Qed.
  Lemma units_eqb x y : Reqb (g x) (g y) = Reqb x y.
  Proof.
    destruct (Reqb x y) eqn:E.
    - apply Reqb_true in E. subst. apply Reqb_true. reflexivity.
    - destruct (Reqb (g x) (g y)) eqn:E'; auto. apply Reqb_true in E'. unfold in_units in E'.
      assert (x = y) by nra. subst. rewrite (proj2 (Reqb_true y y) eq_refl) in E. discriminate.
  Qed.
  Lemma sort_units l : sortR (map g l) = map g (sortR l).
  Proof.
    induction l as [|x l IH]; [reflexivity|]. cbn [map sortR]. rewrite IH. clear IH. induction (sortR l) as [|y s IH]; [reflexivity|].
    cbn [map insert]. rewrite units_leb. destruct (Rleb x y); [reflexivity|]. cbn [map]. f_equal. exact IH.
  Qed.
  Lemma unique_units l : unique (map g l) = map g (unique l).
  Proof.
    unfold unique. rewrite sort_units. induction (sortR l) as [|x s IH]; [reflexivity|]. destruct s as [|y s]; [reflexivity|].
    cbn [map dedup] in *. rewrite units_eqb. destruct (Reqb x y); [exact IH|]. cbn [map]. f_equal. exact IH.
  Qed.
  Lemma avi_units s v : s <> [] -> at_virtual_index (map g s) v = g (at_virtual_index s v).
  Proof.
    intros Hs. assert (0 < length s)%nat by (destruct s; [congruence|cbn; lia]). unfold at_virtual_index. rewrite map_length.
    assert (HN : forall i, (i < length s)%nat -> nth i (map g s) 0 = g (nth i s 0)) by (intros i Hi; apply nth_map_in; auto).
    destruct (Rltb v 0) eqn:E0; [apply HN; lia|]. destruct (Rleb (INR (length s - 1)) v) eqn:E1; [apply HN; lia|].
    apply Rltb_false in E0. apply Rleb_false in E1. cbv zeta.
    assert (Hi : (S (Z.to_nat (Rfloor v)) < length s)%nat).
    { destruct (Rfloor_spec v) as [F1 F2]. assert (0 <= Rfloor v)%Z.
      { assert (-1 < Rfloor v)%Z; [|lia]. apply lt_IZR. lra. }
      assert (INR (Z.to_nat (Rfloor v)) < INR (length s - 1)).
      { rewrite INR_IZR_INZ, Z2Nat.id by auto. lra. }
      apply INR_lt in H1. lia. }
    rewrite !HN by lia. unfold in_units. ring.
  Qed.
  Lemma quantile_units l p v : quantile_with virtual_mquantiles l p = Ok v -> quantile_with virtual_mquantiles (map g l) p = Ok (g v).
  Proof.
    unfold quantile_with. destruct (Rltb p 0 || Rltb 1 p)%bool; [discriminate|]. destruct l as [|x l]; [discriminate|].
    intros H. injection H as <-. cbn [map]. change (g x :: map g l) with (map g (x :: l)). rewrite sort_units, map_length.
    rewrite avi_units; [reflexivity|]. rewrite sortR_nil. discriminate.
  Qed.
  Lemma linspace_units lo hi n : (2 <= n)%nat -> linspace (g lo) (g hi) n = map g (linspace lo hi n).
  Proof.
    intros Hn. unfold linspace, tabulate. rewrite map_map. apply map_ext. intros i. unfold in_units, Rdiv. ring.
  Qed.

  Lemma grid_units_raw resolution X X' f v q : (1 <= resolution)%nat ->
    mapM (fun row => getitem row f) X = Ok v -> mapM (fun row => getitem row f) X' = Ok (map g v) ->
    grid_from_X_sk resolution X f = Ok q ->
    (grid_from_X_sk resolution X' f = Ok (map g q) \/ (resolution <= length (unique v))%nat /\ grid_from_X_sk resolution X' f = Raise ValueError).
  Proof.
    intros Hr Hv Hv'. unfold grid_from_X_sk. rewrite Hv, Hv'. cbn [bind]. cbv zeta. rewrite unique_units, map_length.
    destruct (Nat.ltb_spec (length (unique v)) resolution) as [L|L].
    - intros H. injection H as <-. left. reflexivity.
    - intros H. apply bind_ok in H as (lo & Hlo & H). apply bind_ok in H as (hi & Hhi & H).
      rewrite (quantile_units _ _ _ Hlo), (quantile_units _ _ _ Hhi). cbn [bind]. destruct (allclose lo hi); [discriminate|]. injection H as <-.
      destruct (allclose (g lo) (g hi)); [right; auto|]. left. apply (f_equal (@Ok _)).
      unfold linspace, tabulate. rewrite map_map. apply map_ext. intros i. unfold in_units, Rdiv. ring.
  Qed.
End Grid.

Lemma rect_units u (X : matrix R) N F : length u = F -> rect X N F -> rect (map (in_feature_units u) X) N F.
Proof.
  intros Hu [H1 H2]. split; [rewrite map_length; auto|]. apply Forall_forall. intros r Hr. apply in_map_iff in Hr as (x & <- & Hx).
  unfold in_feature_units. rewrite map2_length. rewrite Forall_forall in H2. rewrite (H2 x Hx). lia.
Qed.
Lemma nth_units u x F f : length u = F -> length x = F -> (f < F)%nat ->
  nth f (in_feature_units u x) 0 = in_units (fst (nth f u (0, 0))) (snd (nth f u (0, 0))) (nth f x 0).
Proof. intros Hu Hx Hf. unfold in_feature_units. rewrite (map2_nth _ _ _ _ (0, 0) 0) by lia. reflexivity. Qed.
Lemma values_units u (X : matrix R) N F f : length u = F -> rect X N F -> (f < F)%nat ->
  values_of (map (in_feature_units u) X) f = map (in_units (fst (nth f u (0, 0))) (snd (nth f u (0, 0)))) (values_of X f).
Proof.
  intros Hu [_ HX] Hf. unfold values_of. rewrite !map_map. apply map_ext_in. intros x Hx. rewrite Forall_forall in HX. apply (nth_units u x F); auto.
Qed.

(** The grid of a feature in other units, if there is one, is the grid in those
    units. *)
Theorem grid_units resolution u (X : matrix R) N F f q : (1 <= resolution)%nat -> rect X N F -> length u = F -> (f < F)%nat -> 0 < fst (nth f u (0, 0)) ->
  grid_from_X_sk resolution X f = Ok q ->
  let g := in_units (fst (nth f u (0, 0))) (snd (nth f u (0, 0))) in
  (grid_from_X_sk resolution (map (in_feature_units u) X) f = Ok (map g q) \/ grid_from_X_sk resolution (map (in_feature_units u) X) f = Raise ValueError) /\
  ((length (nodup Req_EM_T (values_of X f)) < resolution)%nat -> grid_from_X_sk resolution (map (in_feature_units u) X) f = Ok (map g q)).
Proof.
  intros Hr HX Hu Hf Ha Hq g.
  destruct (grid_units_raw (fst (nth f u (0, 0))) (snd (nth f u (0, 0))) Ha resolution X (map (in_feature_units u) X) f (values_of X f) q Hr) as [H|[L H]]; auto.
  - apply (values_ok X N F); auto.
  - rewrite <- (values_units u X N F f Hu HX Hf). apply (values_ok _ N F); auto. apply rect_units; auto.
  - split; [right; exact H|]. intros L'. rewrite unique_length in L. lia.
Qed.

(** The values of a feature within NumPy's absolute tolerance of each other. *)
Lemma tiny_values resolution values q : (resolution <= length (nodup Req_EM_T values))%nat -> (forall x y, In x values -> In y values -> x - y <= 1 / 10 ^ 8) ->
  ~ is_grid resolution values q.
Proof.
  intros L HT [_ G]. destruct (G L) as (lo & hi & H1 & H2 & H3 & _). apply H3.
  destruct (rank_range _ _ _ H1) as (l1 & m1 & I1 & I2 & _ & B1). destruct (rank_range _ _ _ H2) as (l2 & m2 & I3 & I4 & _ & B2).
  pose proof (cunnane_order _ _ _ H1 H2). pose proof (HT m2 l1 I4 I1). unfold too_close.
  assert (0 <= 1 / 10 ^ 5 * Rabs hi) by (apply Rmult_le_pos; [left; apply Rdiv_lt_0_compat; [lra|apply pow_lt; lra]|apply Rabs_pos]).
  rewrite Rabs_left1 by lra. lra.
Qed.

Section Curves.
  Context {est : Type}.
  Variable predict_est : est -> matrix R -> result (list R).
  Variable store : R -> R.
  Variable resolution : nat.
  Hypothesis Hres : (1 <= resolution)%nat.
  Notation sk := (partial_dependence_sk est predict_est store resolution).
  Notation grid := (grid_from_X_sk resolution).

  Theorem tiny_raises order s X y es N F score W i f :
    fitted_model s X y es N F score -> fitted_weights s W N -> schedule N order -> (i < N)%nat -> (f < F)%nat ->
    let values := values_of (map (fun j => nth j X []) (positive_set W N i)) f in
    (resolution <= length (nodup Req_EM_T values))%nat -> (forall x y, In x values -> In y values -> x - y <= 1 / 10 ^ 8) ->
    raises (local_ICE est predict_est grid store s) /\ raises (partial_dependence est sk order s).
  Proof.
    intros HM HW HS Hi Hf values H1 H2. assert (He : exists e, nth_error es i = Some e).
    { pose proof HM as (_ & _ & _ & _ & _ & HL & _). destruct (nth_error es i) eqn:E; [eauto|]. apply nth_error_None in E. lia. }
    destruct He as [e He]. pose proof (fun q => tiny_values resolution values q H1 H2) as NG.
    split; unfold raises.
    - destruct (local_ICE est predict_est grid store s) as [[cv bf]|x] eqn:E; [|eexists; reflexivity]. exfalso.
      destruct (ice_written_out predict_est store resolution Hres s X y es N F score W cv bf i e f HM HW E He Hf) as (G & _). apply (NG _ G).
    - destruct (partial_dependence est sk order s) as [[cv bf]|x] eqn:E; [|eexists; reflexivity]. exfalso.
      destruct (pd_written_out predict_est store resolution Hres order s X y es N F score W cv bf i e f HM HW HS E He Hf) as (w & _ & G & _). apply (NG _ G).
  Qed.

  Lemma scaled_nth f sc row : (f < length row)%nat -> nth f (scaled_feature f sc row) 0 = sc * nth f row 0.
  Proof. intros H. unfold scaled_feature. apply list_set_nth_eq. exact H. Qed.

  Theorem small_unit_raises X N F W i f : rect X N F -> (i < N)%nat -> (f < F)%nat ->
    (resolution <= length (nodup Req_EM_T (values_of (map (fun j => nth j X []) (positive_set W N i)) f)))%nat ->
    exists s0, 0 < s0 /\ forall sc, 0 < sc <= s0 -> forall order s y es score,
      fitted_model s (map (scaled_feature f sc) X) y es N F score -> fitted_weights s W N -> schedule N order ->
      raises (local_ICE est predict_est grid store s) /\ raises (partial_dependence est sk order s).
  Proof.
    intros HX Hi Hf HD. set (values := values_of (map (fun j => nth j X []) (positive_set W N i)) f) in *.
    assert (HB : exists B, 0 < B /\ forall x, In x values -> Rabs x <= B).
    { clear. induction values as [|x l (B & HB & IH)]; [exists 1; split; [lra|intros x []]|].
      exists (Rmax (Rabs x) B). split; [apply (Rlt_le_trans _ _ _ HB), Rmax_r|]. intros z [<-|Hz]; [apply Rmax_l|]. eapply Rle_trans; [apply IH; auto|apply Rmax_r]. }
    destruct HB as (B & HB & HBx). exists (1 / 10 ^ 8 / (2 * B)).
    assert (HT : 0 < 1 / 10 ^ 8) by (apply Rdiv_lt_0_compat; [lra|apply pow_lt; lra]).
    split; [apply Rdiv_lt_0_compat; lra|]. intros sc [Hs0 Hs1] order s y es score HM HW HS.
    assert (EV : values_of (map (fun j => nth j (map (scaled_feature f sc) X) []) (positive_set W N i)) f = map (fun v => sc * v + 0) values).
    { unfold values, values_of. rewrite !map_map. apply map_ext_in. intros j Hj. apply pos_in in Hj as [Hj _]. rewrite (nth_map_in _ _ _ []) by (destruct HX; lia).
      rewrite Rplus_0_r. apply scaled_nth. rewrite (rect_row X N F j HX Hj). exact Hf. }
    apply (tiny_raises order s (map (scaled_feature f sc) X) y es N F score W i f); auto.
    - rewrite EV. change (map (fun v => sc * v + 0) values) with (map (in_units sc 0) values). rewrite <- unique_length, unique_units, map_length, unique_length by auto. exact HD.
    - rewrite EV. intros x z Hx Hz. apply in_map_iff in Hx as (x0 & <- & Hx). apply in_map_iff in Hz as (z0 & <- & Hz).
      pose proof (HBx x0 Hx) as G1. pose proof (HBx z0 Hz) as G2. apply abs_between in G1, G2.
      assert (sc * (2 * B) <= 1 / 10 ^ 8).
      { apply (Rmult_le_compat_r (2 * B)) in Hs1; [|lra]. unfold Rdiv in Hs1 at 1. rewrite Rmult_assoc, Rinv_l, Rmult_1_r in Hs1 by lra. exact Hs1. }
      nra.
  Qed.

  (** ** the curves of models fitted to features in other units *)
  Variables (F : nat) (u : list (R * R)).
  Hypothesis Hu : length u = F.
  Hypothesis Hst : forall v, store v = v.
  Notation phi := (in_feature_units u).
  Notation gof f := (in_units (fst (nth f u (0, 0))) (snd (nth f u (0, 0)))).

  Lemma with_feature_units x f v x' : length x = F -> (f < F)%nat -> with_feature x f v x' -> with_feature (phi x) f (gof f v) (phi x').
  Proof.
    intros Hx Hf [HL HN]. assert (LP : forall z, length z = F -> length (phi z) = F) by (intros z Hz; unfold in_feature_units; rewrite map2_length; lia).
    split; [rewrite !LP; lia|]. intros j Hj. rewrite LP in Hj by auto. rewrite !(nth_units u _ F) by lia. rewrite HN by lia.
    destruct (Nat.eqb_spec j f); [subst; reflexivity|reflexivity].
  Qed.
  Lemma rows_units f v (Xs rows : matrix R) : rows_of F Xs -> (f < F)%nat -> Forall2 (fun x x' => with_feature x f v x') Xs rows ->
    rows_of F rows /\ Forall2 (fun x x' => with_feature x f (gof f v) x') (map phi Xs) (map phi rows).
  Proof.
    intros HX Hf H. induction H as [|x x' Xs rows Hx H IH]; [split; constructor|]. inversion HX as [|? ? Lx HX']. destruct (IH HX') as [I1 I2].
    split; [constructor; [apply (eq_trans (with_feature_length _ _ _ _ Hx)); auto|exact I1]|]. cbn [map]. constructor; [apply with_feature_units; auto|exact I2].
  Qed.
  Lemma rows_det f v (Xs r1 r2 : matrix R) : Forall2 (fun x x' => with_feature x f v x') Xs r1 -> Forall2 (fun x x' => with_feature x f v x') Xs r2 -> r1 = r2.
  Proof.
    intros H. revert r2. induction H as [|x x' Xs r1 Hx H IH]; intros r2 H2; inversion H2; subst; auto. f_equal; [|apply IH; auto].
    apply (with_feature_eq x f v) in Hx. apply (with_feature_eq x f v) in H3. congruence.
  Qed.

  Theorem curves_units order order' s s' X y y' es es' N score score' W curves by_feature curves' by_feature' i e e' f :
    fitted_model s X y es N F score -> fitted_model s' (map phi X) y' es' N F score' -> fitted_weights s W N -> fitted_weights s' W N -> schedule N order -> schedule N order' ->
    partial_dependence est sk order s = Ok (curves, by_feature) -> partial_dependence est sk order' s' = Ok (curves', by_feature') ->
    nth_error es i = Some e -> nth_error es' i = Some e' -> agrees predict_est F phi e e' -> (f < F)%nat -> 0 < fst (nth f u (0, 0)) ->
    let c := nth f (nth i curves []) ([], []) in
    nth f (nth i curves' []) ([], []) = (map (gof f) (fst c), snd c).
  Proof.
    intros HM HM' HW HW' HS HS' H H' He He' Hag Hf Ha c.
    destruct (pd_written_out predict_est store resolution Hres order s X y es N F score W curves by_feature i e f HM HW HS H He Hf) as (w & Hw & Hg & HL & Hk).
    destruct (pd_written_out predict_est store resolution Hres order' s' (map phi X) y' es' N F score' W curves' by_feature' i e' f HM' HW' HS' H' He' Hf) as (w' & Hw' & Hg' & HL' & Hk').
    fold c in Hg, HL, Hk. set (c' := nth f (nth i curves' []) ([], [])) in *.
    assert (w' = w).
    { clear -Hw Hw'. revert w' Hw'. induction Hw as [|j v P w E _ IH]; intros w' Hw'; inversion Hw'; subst; auto. f_equal; [congruence|auto]. }
    subst w'. pose proof HM as (_ & _ & _ & _ & _ & HLe & HX & _). set (P := positive_set W N i) in *. set (Xs := map (fun j => nth j X []) P) in *.
    assert (HR : rect Xs (length P) F) by (apply (near_rows X N F); exact HX).
    assert (EX : map (fun j => nth j (map phi X) []) P = map phi Xs).
    { unfold Xs. rewrite map_map. apply map_ext_in. intros j Hj. apply pos_in in Hj as [Hj _]. apply nth_map_in. destruct HX; lia. }
    rewrite EX in Hg', Hk'.
    assert (HR' : rect (map phi Xs) (length P) F) by (apply rect_units; auto).
    assert (EQ : fst c' = map (gof f) (fst c)).
    { apply (grid_ok resolution Xs (length P) F f _ HR Hf Hres) in Hg. apply (grid_ok resolution (map phi Xs) (length P) F f _ HR' Hf Hres) in Hg'.
      destruct (grid_units resolution u Xs (length P) F f (fst c) Hres HR Hu Hf Ha Hg) as [[E|E] _]; rewrite E in Hg'; [congruence|discriminate]. }
    rewrite (surjective_pairing c'). f_equal; [exact EQ|].
    apply (list_eq_nth 0); [rewrite HL', HL, EQ, map_length; reflexivity|]. intros k Hk0. rewrite HL', EQ, map_length in Hk0.
    specialize (Hk k Hk0). specialize (Hk' k). rewrite EQ, map_length in Hk'. specialize (Hk' Hk0). rewrite (nth_map_in _ _ _ 0) in Hk' by auto.
    destruct Hk as (rows & p & R1 & R2 & R3). destruct Hk' as (rows' & p' & R1' & R2' & R3'). rewrite Hst in R1, R1'.
    destruct (rows_units f _ Xs rows (proj2 HR) Hf R1) as [Q1 Q2]. assert (rows' = map phi rows) by (apply (rows_det f _ _ _ _ R1' Q2)). subst rows'.
    rewrite (Hag rows p Q1 R2) in R2'. injection R2' as <-. apply (wa_unique w p); auto.
  Qed.
End Curves.

Section Fit.
  Context {est : Type}.
  Variable fit_est : nat -> matrix R -> list R -> list ext -> result est.
  Variable predict_est : est -> matrix R -> result (list R).
  Variables (F : nat) (u : list (R * R)).
  Hypothesis Hu : length u = F.
  Hypothesis Hov : overlooks F (in_feature_units u) fit_est predict_est.
  Variable G : Type.
  Variable choice : G -> list nat -> nat -> G * list nat.
  Hypothesis Hch : valid_choice choice.
  Variable cpu : nat.
  Hypothesis Hcpu : (0 < cpu)%nat.
  Variable wm : filesystem -> list coords -> list coords -> filesystem * result weights.
  Variable store : R -> R.
  Hypothesis Hst : forall v, store v = v.
  Variable resolution : nat.
  Hypothesis Hres : (1 <= resolution)%nat.
  Notation FIT := (fit est fit_est predict_est G choice cpu wm).
  Notation PD := (partial_dependence est (partial_dependence_sk est predict_est store resolution)).

  Theorem fit_curves_units c order g fs s0 s0' X y coords given W N order1 order2 curves by_feature curves' by_feature' i f :
    rect X N F -> in_force wm fs coords given (WDense W) -> rect W N N -> schedule (num_tasks cpu c (num_locations c N)) order ->
    cache_data c = true -> cache_estimator c = true -> sample_local_rate c = None ->
    let o := FIT c order g fs s0 X y coords given in
    let o' := FIT c order g fs s0' (map (in_feature_units u) X) y coords given in
    o_result est G o = Ok tt -> schedule N order1 -> schedule N order2 ->
    PD order1 (o_state est G o) = Ok (curves, by_feature) -> PD order2 (o_state est G o') = Ok (curves', by_feature') ->
    (i < N)%nat -> (f < F)%nat -> 0 < fst (nth f u (0, 0)) ->
    nth f (nth i curves' []) ([], []) =
      (map (in_units (fst (nth f u (0, 0))) (snd (nth f u (0, 0)))) (fst (nth f (nth i curves []) ([], []))), snd (nth f (nth i curves []) ([], []))).
  Proof.
    intros HX Hf0 HW HS C1 C2 C3 o o' Hok HS1 HS2 H1 H2 Hi Hf Ha.
    assert (HL : length X = N) by apply HX. assert (HL' : length (map (in_feature_units u) X) = N) by (rewrite map_length; exact HL).
    assert (Hrw : rewrites F F (in_feature_units u)).
    { split; [lia|]. intros r Hr. unfold in_feature_units. rewrite map2_length. lia. }
    assert (HRX : rows_of F X) by apply HX.
    destruct (fit_rewritten fit_est predict_est F (in_feature_units u) Hov G choice cpu wm c order g fs s0 s0' X y coords given F Hrw HRX Hok)
      as (Hok' & es & es' & _ & _ & _ & _ & _ & E1 & E2 & HF2 & _). fold o in E1. fold o' in Hok', E2.
    assert (HH : holds (WDense W) W N) by (split; [exact HW|left; reflexivity]).
    destruct (fit_fitted est fit_est predict_est G choice cpu wm c order g fs s0 X y coords given (WDense W) W N Hch Hcpu HL Hf0 HH HS C1 C2 C3 Hok)
      as (e1 & score & F1 & ps & HM & _). fold o in HM.
    destruct (fit_fitted est fit_est predict_est G choice cpu wm c order g fs s0' (map (in_feature_units u) X) y coords given (WDense W) W N Hch Hcpu HL' Hf0 HH HS C1 C2 C3 Hok')
      as (e2 & score' & F2 & ps' & HM' & _). fold o' in HM'.
    destruct (fit_weight_attributes est fit_est predict_est G choice cpu wm c order g fs s0 X y coords given W N Hf0 HW Hok) as (W1 & HW1 & HU1). fold o in HW1.
    destruct (fit_weight_attributes est fit_est predict_est G choice cpu wm c order g fs s0' (map (in_feature_units u) X) y coords given W N Hf0 HW Hok') as (W2 & HW2 & HU2). fold o' in HW2.
    assert (W2 = W1).
    { apply (matrix_eq (Fin 0) _ _ N N); [apply HW2|apply HW1|]. intros a b Ha' Hb'. rewrite HU1, HU2 by auto. reflexivity. }
    subst W2.
    assert (EF : forall (A : matrix R) Fa, rect A N F -> rect A N Fa -> Fa = F).
    { intros A Fa [L1 A1] [_ A2]. destruct A as [|r A]; [cbn in L1; lia|]. inversion A1; inversion A2; congruence. }
    assert (F1 = F) by (apply (EF X); [exact HX|apply HM]). subst F1.
    assert (F2 = F) by (apply (EF (map (in_feature_units u) X)); [apply rect_units; auto|apply HM']). subst F2.
    assert (es = map Some e1) by (destruct HM as (_ & _ & _ & _ & E & _); congruence).
    assert (es' = map Some e2) by (destruct HM' as (_ & _ & _ & _ & E & _); congruence). subst es es'.
    assert (L1 : length e1 = N) by apply HM. assert (L2 : length e2 = N) by apply HM'.
    assert (HE : exists a b, nth_error e1 i = Some a /\ nth_error e2 i = Some b /\ agrees predict_est F (in_feature_units u) a b).
    { destruct (nth_error e1 i) as [a|] eqn:Ea; [|apply nth_error_None in Ea; lia]. destruct (nth_error e2 i) as [b|] eqn:Eb; [|apply nth_error_None in Eb; lia].
      exists a, b. split; [reflexivity|]. split; [reflexivity|]. clear -HF2 Ea Eb. revert e2 i HF2 Ea Eb.
      induction e1 as [|x e1 IH]; intros [|z e2] [|i] HF2 Ea Eb; try discriminate; inversion HF2; subst; cbn in Ea, Eb.
      - injection Ea as <-. injection Eb as <-. assumption.
      - eapply IH; eauto. }
    destruct HE as (a & b & Ea & Eb & Hag).
    eapply (curves_units predict_est store resolution Hres F u Hu Hst order1 order2 (o_state est G o) (o_state est G o') X y y e1 e2 N score score' W1); eauto.
  Qed.
End Fit.
