From Coq Require Import Lra Psatz Sorting.Sorted.
From Verif.Model Require Import Base Ext Sort Csr Neighbour Distance WeightModel Inspect.
From Verif.Spec Require Import KernelSpec NeighbourSpec WeightModelSpec InspectSpec.
From Verif.Proofs Require Import ListFacts SumFacts KernelFacts CsrFacts NeighbourFacts WeightModelFacts WeightModelProps FitProps PredictProps StackingFacts InspectProps.
Open Scope nat_scope.
Open Scope R_scope.

Lemma ext_positive_eq v : ext_positive v = positive v.
Proof. unfold ext_positive, egtb, positive. destruct v; try reflexivity. Qed.

Lemma positive_set_in W n i j : In j (positive_set W n i) <-> (j < n)%nat /\ positive (mget (Fin 0) W i j) = true.
Proof. unfold positive_set. rewrite filter_In, in_seq. intuition lia. Qed.

Lemma map2_col (m : matrix R) (w : list R) j : length m = length w ->
  map2 (fun row a => nth j row 0 * a) m w = map2 Rmult w (map (fun row => nth j row 0) m).
Proof.
  revert w. induction m as [|x m IH]; intros [|a w] H; simpl in *; try lia; auto. rewrite Rmult_comm. f_equal. apply IH. lia.
Qed.

Lemma average0_ok g m w a : average0 g m w = Ok a <->
  length m = length w /\ length a = g /\ Rsum w <> 0 /\
  forall j, (j < g)%nat -> weighted_average w (map (fun row => nth j row 0) m) (nth j a 0).
Proof.
  unfold average0. destruct (Nat.eqb_spec (length m) (length w)) as [EL|EL]; cbn [negb].
  2:{ split; [discriminate|intros [H _]; contradiction]. }
  unfold Reqb. destruct (Req_EM_T (Rsum w) 0) as [E0|E0]; [split; [discriminate|intros (_ & _ & H & _); contradiction]|].
  split.
  - intros H. injection H as <-. rewrite tabulate_length. repeat split; auto.
    rewrite tabulate_nth by auto. rewrite (map2_col m w j EL). field. auto.
  - intros (_ & HLa & _ & H). f_equal. apply (list_eq_nth 0); [rewrite tabulate_length; auto|].
    intros j Hj. rewrite tabulate_length in Hj. rewrite tabulate_nth by auto. destruct (H j Hj) as [_ HW]. rewrite (map2_col m w j EL), <- HW. field. auto.
Qed.

Lemma weighted_average_bounds w v a : length v = length w -> weighted_average w v a -> (forall x, In x w -> 0 <= x) ->
  forall lo hi, (forall i, (i < length w)%nat -> nth i w 0 <> 0 -> lo <= nth i v 0 <= hi) -> lo <= a <= hi.
Proof.
  intros HL [H0 HW] Hp lo hi Hb.
  assert (Hs : 0 < Rsum w) by (destruct (Rsum_nonneg w Hp); [auto|congruence]).
  assert (HB : lo * Rsum w <= Rsum (map2 Rmult w v) <= hi * Rsum w).
  { clear H0 HW Hs a. revert v HL Hb. induction w as [|x w IH]; intros [|z v] HL Hb; simpl in HL; try lia; simpl map2; rewrite ?Rsum_nil, ?Rsum_cons; [lra|].
    assert (Hx : 0 <= x) by (apply Hp; left; auto).
    destruct (IH (fun q Hq => Hp q (or_intror Hq)) v) as [I1 I2]; [lia|intros i Hi Hn; apply (Hb (S i)); [simpl; lia|auto]|].
    assert (lo * x <= x * z <= hi * x).
    { destruct (Req_dec x 0) as [-> |Hn]; [lra|]. destruct (Hb 0%nat) as [B1 B2]; [simpl; lia|exact Hn|]. simpl in B1, B2. split; nra. }
    lra. }
  split; apply (Rmult_le_reg_r (Rsum w)); lra.
Qed.

(** Rows of weight zero do not count. *)
Lemma weighted_average_zero_rows w v v' a : length v = length w -> length v' = length w ->
  (forall i, nth i w 0 <> 0 -> nth i v 0 = nth i v' 0) -> weighted_average w v a -> weighted_average w v' a.
Proof.
  intros H1 H2 H [H0 HW]. split; auto. rewrite HW. f_equal. apply (list_eq_nth 0); [rewrite !map2_length; lia|].
  intros i Hi. rewrite map2_length in Hi. rewrite !(map2_nth _ _ _ _ 0 0) by lia.
  destruct (Req_dec (nth i w 0) 0) as [E|E]; [rewrite E; lra|rewrite H; auto].
Qed.

Section PD.
  Variable est : Type.
  Variable predict_est : est -> matrix R -> result (list R).
  Variable permutation_importance : nat -> est -> matrix R -> list R -> list ext -> nat -> result (list ext).
  Variable sk_partial : est -> matrix R -> nat -> result (list R * matrix R).
  Variable grid_from_X : matrix R -> nat -> result (list R).
  Variable store : R -> R.
  Notation lpd := (local_partial_dependence est sk_partial).
  Notation lpd2 := (local_pd est sk_partial).

  Notation weighted_curve := (InspectSpec.weighted_curve sk_partial).

  Lemma lpd_ok e X w F curves : lpd e X w F = Ok curves <->
    length curves = F /\ forall f, (f < F)%nat -> weighted_curve e X w f (nth f curves ([], [])).
  Proof.
    unfold local_partial_dependence. split.
    - intros H. apply mapM_seq in H as [HL H]. split; auto. intros f Hf. specialize (H f ([], []) Hf). cbv beta in H.
      apply bind_ok in H as [[grid ind] [Hs H]]. apply bind_ok in H as [a [Ha H]]. injection H as H. rewrite <- H. cbn [fst snd] in *.
      apply average0_ok in Ha as (A1 & A2 & A3 & A4). exists ind. cbn [fst snd]. auto.
    - intros [HL H]. rewrite (mapM_all_ok _ (fun f => nth f curves ([], []))).
      + f_equal. symmetry. etransitivity; [apply (tabulate_of_list ([], []))|]. rewrite HL. reflexivity.
      + intros f Hf. apply in_seq in Hf. destruct (H f ltac:(lia)) as (ind & Hs & H1 & H2 & H3 & H4). rewrite Hs. cbn [bind fst snd].
        rewrite (proj2 (average0_ok _ _ _ (snd (nth f curves ([], []))))) by auto. cbn [bind]. destruct (nth f curves ([], [])); reflexivity.
  Qed.

  Lemma lpd_zero_weights e X w F : Rsum w = 0 -> (0 < F)%nat -> raises (lpd e X w F).
  Proof.
    intros H0 HF. apply raises_not_ok. intros curves H. apply lpd_ok in H as [_ H]. destruct (H 0%nat HF) as (ind & _ & _ & _ & H1 & _). contradiction.
  Qed.

  Lemma mask_index_filter {A} (d : A) mask l n p : length mask = n -> length l = n ->
    (forall i, (i < n)%nat -> nth i mask false = p i) -> mask_index mask l = Ok (map (fun i => nth i l d) (filter p (seq 0 n))).
  Proof.
    intros H1 H2 H. unfold mask_index. rewrite H1, H2, Nat.eqb_refl. f_equal. rewrite (select_take d) by lia. unfold take. f_equal.
    rewrite nonzero_filter, H1. apply filter_ext_in. intros i Hi. apply in_seq in Hi. apply H. lia.
  Qed.

  (** local_pd.py. *)
  Lemma local_pd_ok e X w N F curves : rect X N F -> (0 < N)%nat -> length w = N ->
    let P := filter (fun j => if Req_EM_T (nth j w 0) 0 then false else true) (seq 0 N) in
    lpd2 e X w = Ok curves <-> lpd e (map (fun j => nth j X []) P) (map (fun j => nth j w 0) P) F = Ok curves.
  Proof.
    intros HX HN Hw P. unfold local_pd.
    assert (HM : forall i, (i < N)%nat -> nth i (map (fun a => negb (Reqb a 0)) w) false = if Req_EM_T (nth i w 0) 0 then false else true).
    { intros i Hi. rewrite (nth_map_in _ _ _ 0) by lia. unfold Reqb. destruct (Req_EM_T (nth i w 0) 0); reflexivity. }
    rewrite (mask_index_filter [] _ X N (fun j => if Req_EM_T (nth j w 0) 0 then false else true)); [|rewrite map_length; auto|apply HX|exact HM].
    cbn [bind]. rewrite (mask_index_filter 0 _ w N (fun j => if Req_EM_T (nth j w 0) 0 then false else true)); [|rewrite map_length; auto|auto|exact HM].
    cbn [bind]. fold P. rewrite (rect_ncols X N F) by auto. tauto.
  Qed.

  (** ** one location's view *)
  Lemma local_view_ok s X y es N F score W i e : fitted_model s X y es N F score -> fitted_weights s W N -> nth_error es i = Some e ->
    let P := positive_set W N i in
    local_view est s i = Ok (e, map (fun j => nth j X []) P, map (fun j => nth j y 0) P, map (fun j => mget (Fin 0) W i j) P).
  Proof.
    intros (H1 & H2 & H3 & H4 & H5 & H6 & H7 & H8 & H9 & H10 & H11) (W1 & W2 & nb & W3 & W4 & W5) He P.
    assert (Hi : (i < N)%nat) by (rewrite <- H6; apply nth_error_Some; congruence).
    unfold local_view. rewrite H5, H3, H4, W2, W3. cbn [need bind]. rewrite (proj2 (get_est_ok est es i e) He). cbn [bind].
    rewrite (getitem_lt (@nil ext)) by (destruct W1; lia). cbn [bind]. rewrite (getitem_lt (@nil bool)) by (destruct W4; lia). cbn [bind].
    assert (HM : forall j, (j < N)%nat -> nth j (nth i nb []) false = positive (mget (Fin 0) W i j)) by (intros j Hj; apply W5; auto).
    assert (HL : length (nth i nb []) = N) by (apply (rect_row nb N N); auto).
    rewrite (mask_index_filter [] _ X N (fun j => positive (mget (Fin 0) W i j))); auto; [|apply H7]. cbn [bind].
    rewrite (mask_index_filter 0 _ y N (fun j => positive (mget (Fin 0) W i j))); auto. cbn [bind].
    rewrite (mask_index_filter (Fin 0) _ (nth i W []) N (fun j => positive (mget (Fin 0) W i j))); auto. apply (rect_row W N N); auto.
  Qed.

  Lemma views_ok s X y es N F score W : fitted_model s X y es N F score -> fitted_weights s W N ->
    exists views, mapM (local_view est s) (seq 0 N) = Ok views /\ length views = N /\
      forall i e d, nth_error es i = Some e -> let P := positive_set W N i in
        nth i views d = (e, map (fun j => nth j X []) P, map (fun j => nth j y 0) P, map (fun j => mget (Fin 0) W i j) P).
  Proof.
    intros HM HW. pose proof HM as (H1 & H2 & H3 & H4 & H5 & H6 & _).
    destruct (mapM (local_view est s) (seq 0 N)) as [views|e] eqn:E.
    - exists views. split; auto. apply mapM_seq in E as [HL E]. split; auto. intros i e d He P.
      assert (Hi : (i < N)%nat) by (rewrite <- H6; apply nth_error_Some; congruence).
      specialize (E i d Hi). rewrite (local_view_ok _ _ _ _ _ _ _ _ _ _ HM HW He) in E. symmetry. apply (f_equal (fun r => match r with Ok a => a | Raise _ => d end)) in E. exact E.
    - exfalso. assert (Hr : raises (mapM (local_view est s) (seq 0 N))) by (eexists; eauto).
      apply mapM_raises_iff in Hr as (i & Hi & e' & Hr). apply in_seq in Hi.
      destruct (nth_error es i) as [ei|] eqn:Ei; [|apply nth_error_None in Ei; lia].
      rewrite (local_view_ok _ _ _ _ _ _ _ _ _ _ HM HW Ei) in Hr. discriminate.
  Qed.

  Lemma parallel_views {A B} (f : A -> result B) views order rs (d : A) (d' : B) : schedule (length views) order ->
    (parallel order (map f views) = Ok rs <-> length rs = length views /\ forall i, (i < length views)%nat -> f (nth i views d) = Ok (nth i rs d')).
  Proof.
    intros HS. rewrite parallel_ok by (rewrite map_length; auto). split.
    - intros H. pose proof (Forall2_len _ _ _ H) as HL. rewrite map_length in HL. split; auto.
      clear HS HL. remember (map f views) as ts. revert views Heqts. induction H; intros [|v views] E; simpl in E; try discriminate; intros i Hi; simpl in Hi; [lia|].
      injection E as -> ->. destruct i; simpl; auto. apply IHForall2; auto. lia.
    - intros [HL H]. clear HS. revert rs HL H. induction views as [|v views IH]; intros [|q rs] HL H; simpl in HL; try lia; simpl; constructor.
      + apply (H 0%nat). simpl. lia.
      + apply IH; [lia|]. intros i Hi. apply (H (S i)). simpl. lia.
  Qed.

  Lemma importance_local_ok c order s X y es N F score W r m :
    fitted_model s X y es N F score -> fitted_weights s W N -> cache_data c = true -> cache_estimator c = true -> schedule N order ->
    (importance_score_local est permutation_importance c order s r = Ok m <->
     length m = N /\ forall i e, nth_error es i = Some e -> let P := positive_set W N i in
       permutation_importance i e (map (fun j => nth j X []) P) (map (fun j => nth j y 0) P) (map (fun j => mget (Fin 0) W i j) P) r = Ok (nth i m [])).
  Proof.
    intros HM HW C1 C2 HS. unfold importance_score_local. rewrite C1, C2. cbn [negb orb].
    pose proof HM as (H1 & H2 & H3 & H4 & H5 & H6 & H7 & H8 & H9 & _). rewrite H1. cbn [need bind].
    destruct (views_ok _ _ _ _ _ _ _ _ HM HW) as (views & -> & HL & HV). cbn [bind].
    destruct views as [|v0 vs] eqn:Ev; [simpl in HL; lia|]. rewrite <- Ev in *.
    assert (HLc : length (combine (seq 0 N) views) = N) by (rewrite combine_length, seq_length; lia).
    rewrite map2_combine, (parallel_views _ _ order m (0%nat, v0) []) by (rewrite HLc; auto). rewrite HLc.
    assert (HN : forall i, (i < N)%nat -> nth i (combine (seq 0 N) views) (0%nat, v0) = (i, nth i views v0)).
    { intros i Hi. rewrite combine_nth by (rewrite seq_length; lia). rewrite seq_nth by lia. reflexivity. }
    split; intros [HLm H]; split; auto.
    - intros i e He. assert (Hi : (i < N)%nat) by (rewrite <- H6; apply nth_error_Some; congruence).
      specialize (H i Hi). rewrite HN in H by exact Hi. cbn [fst snd] in H. rewrite (HV i e v0 He) in H. exact H.
    - intros i Hi. destruct (nth_error es i) as [e|] eqn:Ei; [|apply nth_error_None in Ei; lia].
      rewrite HN by exact Hi. cbn [fst snd]. rewrite (HV i e v0 Ei). apply (H i e Ei).
  Qed.

  (** ** the array of curves *)
  Lemma object_array_ok F curves out : (forall row, In row curves -> length row = F) ->
    (object_array F curves = Ok out <-> ~ same_length curves /\ out = (curves, transpose ([], []) F curves)).
  Proof.
    intros HR. unfold object_array.
    assert (HC : forall c, In c (concat curves) <-> exists row, In row curves /\ In c row).
    { intros c. rewrite in_concat. split; intros (row & A & B); eauto. }
    destruct (concat curves) as [|c0 cs] eqn:Ec.
    - split; [discriminate|]. intros [H _]. exfalso. apply H. exists 0%nat. intros row c Hr Hc. exfalso. apply (HC c). eauto.
    - destruct (forallb _ cs) eqn:Ef.
      + split; [discriminate|]. intros [H _]. exfalso. apply H. exists (curve_length c0). intros row c Hr Hc.
        assert (Hin : In c (c0 :: cs)) by (apply HC; eauto). destruct Hin as [<-|Hin]; [reflexivity|].
        rewrite forallb_forall in Ef. specialize (Ef c Hin). apply Nat.eqb_eq in Ef. exact Ef.
      + split.
        * intros H. injection H as <-. split; auto. intros [n Hn].
          assert (H0 : curve_length c0 = n) by (destruct (proj1 (HC c0) (or_introl eq_refl)) as (row & A & B); apply (Hn row c0 A B)).
          enough (forallb (fun c => (curve_length c =? curve_length c0)%nat) cs = true) by congruence.
          apply forallb_forall. intros c Hc. apply Nat.eqb_eq. destruct (proj1 (HC c) (or_intror Hc)) as (row & A & B). rewrite H0. apply (Hn row c A B).
        * intros [_ ->]. reflexivity.
  Qed.

  Notation pd_curves := (InspectSpec.pd_curves sk_partial).

  Lemma finite_weights_ok ws w : finite_weights ws = Ok w <-> Forall2 (fun v a => v = Fin a) ws w.
  Proof.
    unfold finite_weights. rewrite mapM_ok_iff. revert w. induction ws as [|v ws IH]; intros w; split; intros H; inversion H; subst; constructor; auto; try (apply IH; auto).
    - destruct v; congruence.
  Qed.

  Lemma partial_dependence_ok order s X y es N F score W out :
    fitted_model s X y es N F score -> fitted_weights s W N -> schedule N order ->
    (partial_dependence est sk_partial order s = Ok out <->
     exists curves, pd_curves X W es N F curves /\ ~ same_length curves /\ out = (curves, transpose ([], []) F curves)).
  Proof.
    intros HM HW HS. unfold partial_dependence. pose proof HM as (H1 & H2 & H3 & H4 & H5 & H6 & H7 & H8 & H9 & _). rewrite H1. cbn [need bind].
    destruct (views_ok _ _ _ _ _ _ _ _ HM HW) as (views & -> & HL & HV). cbn [bind]. rewrite H2. cbn [need bind].
    destruct views as [|v0 vs] eqn:Ev; [simpl in HL; lia|]. rewrite <- Ev in *.
    assert (HP : forall curves, parallel order (map (fun v => let '(e, Xs, _, ws) := v in w <- finite_weights ws ;; lpd e Xs w F) views) = Ok curves <->
      pd_curves X W es N F curves).
    { intros curves. rewrite (parallel_views _ views order curves v0 []) by (rewrite HL; auto). rewrite HL. unfold pd_curves.
      assert (Hone : forall i e, nth_error es i = Some e ->
        ((let '(e, Xs, _, ws) := nth i views v0 in w <- finite_weights ws ;; lpd e Xs w F) = Ok (nth i curves []) <->
         exists w, Forall2 (fun j a => mget (Fin 0) W i j = Fin a) (positive_set W N i) w /\ length (nth i curves []) = F /\
           forall f, (f < F)%nat -> weighted_curve e (map (fun j => nth j X []) (positive_set W N i)) w f (nth f (nth i curves []) ([], [])))).
      { intros i e He. rewrite (HV i e v0 He). rewrite bind_ok. split; intros (w & A & B); exists w.
        - apply finite_weights_ok in A. apply lpd_ok in B. split; auto. clear -A. remember (map _ _) as l. revert Heql. generalize (positive_set W N i). induction A; intros [|j P] E; simpl in E; try discriminate; constructor.
          + injection E as E _. congruence.
          + apply IHA. injection E. auto.
        - split; [|apply lpd_ok; exact B]. apply finite_weights_ok. clear -A. induction A; simpl; constructor; auto. }
      split; intros [HLc H]; split; auto.
      - intros i e He. apply Hone; auto. apply H. rewrite <- H6. apply nth_error_Some. congruence.
      - intros i Hi. destruct (nth_error es i) as [e|] eqn:Ei; [|apply nth_error_None in Ei; lia]. apply (Hone i e Ei). apply H; auto. }
    assert (HR : forall curves, pd_curves X W es N F curves -> forall row, In row curves -> length row = F).
    { intros curves [HLc Hc] row Hin. apply (In_nth _ _ []) in Hin as (i & Hi & <-). destruct (nth_error es i) as [e|] eqn:Ei; [|apply nth_error_None in Ei; lia].
      destruct (Hc i e Ei) as (w & _ & A & _). exact A. }
    rewrite bind_ok. split.
    - intros (curves & A & B). apply HP in A. exists curves. split; auto. apply (object_array_ok F curves out (HR _ A)) in B. exact B.
    - intros (curves & A & B). exists curves. split; [apply HP; auto|]. apply (object_array_ok F curves out (HR _ A)). exact B.
  Qed.

  Notation ice_curves := (InspectSpec.ice_curves predict_est grid_from_X store).

  Lemma with_feature_eq x f v x' : with_feature x f v x' -> x' = list_set x f v.
  Proof.
    intros [A B]. apply (list_eq_nth 0); [rewrite list_set_length; auto|]. intros j Hj. rewrite A in Hj. rewrite B by auto.
    destruct (Nat.eqb_spec j f) as [-> |Hn]; [rewrite list_set_nth_eq; auto|rewrite list_set_nth_neq; auto].
  Qed.

  Lemma local_ICE_ok s X y es N F score W out :
    fitted_model s X y es N F score -> fitted_weights s W N ->
    (local_ICE est predict_est grid_from_X store s = Ok out <->
     exists curves, ice_curves X W es N F curves /\ ~ same_length curves /\ out = (curves, transpose ([], []) F curves)).
  Proof.
    intros HM HW. unfold local_ICE. pose proof HM as (H1 & H2 & H3 & H4 & H5 & H6 & H7 & H8 & H9 & _). rewrite H1, H2, H3. cbn [need bind].
    set (fn := fun i : nat => _).
    assert (Hone : forall i e row, nth_error es i = Some e -> (fn i = Ok row <-> length row = F /\
      forall f, (f < F)%nat -> let c := nth f row ([], []) in
        grid_from_X (map (fun j => nth j X []) (positive_set W N i)) f = Ok (fst c) /\
        exists rows, Forall2 (fun v x => with_feature (nth i X []) f (store v) x) (fst c) rows /\ predict_est e rows = Ok (snd c))).
    { intros i e row He. assert (Hi : (i < N)%nat) by (rewrite <- H6; apply nth_error_Some; congruence).
      unfold fn. rewrite (local_view_ok _ _ _ _ _ _ _ _ _ _ HM HW He). cbn [bind]. rewrite (getitem_lt (@nil R)) by (destruct H7; lia). cbn [bind].
      assert (HC : forall f c, ice_curve est predict_est grid_from_X store e (map (fun j => nth j X []) (positive_set W N i)) (nth i X []) f = Ok c <->
        grid_from_X (map (fun j => nth j X []) (positive_set W N i)) f = Ok (fst c) /\
        exists rows, Forall2 (fun v x => with_feature (nth i X []) f (store v) x) (fst c) rows /\ predict_est e rows = Ok (snd c)).
      { intros f c. unfold ice_curve. rewrite bind_ok. split.
        - intros (vs & A & B). apply bind_ok in B as (q & B & C). injection C as <-. cbn [fst snd]. split; auto. eexists. split; [|exact B].
          clear. induction vs; simpl; constructor; auto. apply list_set_with_feature.
        - intros [A (rows & B & C)]. exists (fst c). split; auto. apply bind_ok. exists (snd c).
          assert (rows = map (fun v => list_set (nth i X []) f (store v)) (fst c)) as <-.
          { clear -B. induction B; simpl; auto. f_equal; auto. apply with_feature_eq; auto. }
          split; auto. destruct c; reflexivity. }
      split.
      - intros H. apply mapM_seq in H as [HLr H]. split; auto. intros f Hf. apply HC. apply H. auto.
      - intros [HLr H]. rewrite (mapM_all_ok _ (fun f => nth f row ([], []))).
        + f_equal. symmetry. etransitivity; [apply (tabulate_of_list ([], []))|]. rewrite HLr. reflexivity.
        + intros f Hf. apply in_seq in Hf. apply HC. apply H. lia. }
    assert (HP : forall curves, mapM fn (seq 0 N) = Ok curves <-> ice_curves X W es N F curves).
    { intros curves. unfold ice_curves. split.
      - intros H. apply mapM_seq in H as [HLc H]. split; auto. intros i e He. apply (Hone i e _ He). apply H. rewrite <- H6. apply nth_error_Some. congruence.
      - intros [HLc H]. rewrite (mapM_all_ok _ (fun i => nth i curves [])).
        + f_equal. symmetry. etransitivity; [apply (tabulate_of_list [])|]. rewrite HLc. reflexivity.
        + intros i Hi. apply in_seq in Hi. destruct (nth_error es i) as [e|] eqn:Ei; [|apply nth_error_None in Ei; lia]. apply (Hone i e _ Ei). apply H. auto. }
    assert (HR : forall curves, ice_curves X W es N F curves -> forall row, In row curves -> length row = F).
    { intros curves [HLc Hc] row Hin. apply (In_nth _ _ []) in Hin as (i & Hi & <-). destruct (nth_error es i) as [e|] eqn:Ei; [|apply nth_error_None in Ei; lia].
      apply (Hc i e Ei). }
    rewrite bind_ok. split.
    - intros (curves & A & B). apply HP in A. exists curves. split; auto. apply (object_array_ok F curves out (HR _ A)) in B. exact B.
    - intros (curves & A & B). exists curves. split; [apply HP; auto|]. apply (object_array_ok F curves out (HR _ A)). exact B.
  Qed.

  (** ** too few estimators *)
  Lemma view_missing s es i : local_estimators est s = Some es -> (length es <= i)%nat -> raises (local_view est s i).
  Proof.
    intros H1 HL. unfold local_view. rewrite H1. cbn [need bind]. unfold get_est, getitem. rewrite (proj2 (nth_error_None _ _)) by auto. eexists; reflexivity.
  Qed.

  Lemma sampled_inspection_raises c order s es N r :
    n_obs est s = Some N -> local_estimators est s = Some es -> (length es < N)%nat ->
    raises (importance_score_local est permutation_importance c order s r) /\
    raises (partial_dependence est sk_partial order s) /\
    raises (local_ICE est predict_est grid_from_X store s).
  Proof.
    intros H1 H2 HL.
    assert (HV : raises (mapM (local_view est s) (seq 0 N))) by (apply mapM_raises_iff; exists (length es); split; [apply in_seq; lia|apply (view_missing s es); auto]).
    destruct HV as [e HV]. unfold importance_score_local, partial_dependence, local_ICE. rewrite H1. cbn [need bind]. rewrite HV. cbn [bind].
    split; [destruct (_ || _); eexists; reflexivity|]. split; [eexists; reflexivity|].
    destruct (n_features_in est s) as [F|]; cbn [need bind]; [|eexists; reflexivity]. destruct (data_X est s) as [X|]; cbn [need bind]; [|eexists; reflexivity].
    match goal with |- raises (bind ?m _) => assert (HR : raises m) end.
    { apply mapM_raises_iff. exists (length es). split; [apply in_seq; lia|]. destruct (view_missing s es (length es) H2 (le_n _)) as [e' ->]. eexists; reflexivity. }
    destruct HR as [e' ->]. eexists; reflexivity.
  Qed.
End PD.
