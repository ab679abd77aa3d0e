(** C168: shapes of ALE curves. *)
From Coq Require Import Lra Psatz Sorting.Sorted.
From Verif.Model Require Import Base Ext Sort Csr Neighbour Distance WeightModel Inspect Ale.
From Verif.Spec Require Import KernelSpec InspectSpec AleSpec AleShapeSpec.
From Verif.Proofs Require Import ListFacts SumFacts KernelFacts SortFacts CsrFacts AdaptiveFacts WeightFacts NeighbourFacts WeightModelFacts StackingFacts InspectProps InspectProps3 AleFacts AleGrid AleProps AleProps2 AleProps3.
Open Scope nat_scope.
Open Scope R_scope.

(** Averages. *)
Lemma wsum_map {A} (u v : A -> R) l : Rsum (map2 Rmult (map u l) (map v l)) = Rsum (map (fun i => u i * v i) l).
Proof. induction l; cbn [map map2]; [reflexivity|]. rewrite !Rsum_cons, IHl. reflexivity. Qed.
Lemma Rsum_map_le {A} (u v : A -> R) l : (forall i, In i l -> u i <= v i) -> Rsum (map u l) <= Rsum (map v l).
Proof.
  induction l as [|x l IH]; intros H; cbn [map]; [cbn; lra|]. rewrite !Rsum_cons.
  pose proof (H x (or_introl eq_refl)). specialize (IH (fun i Hi => H i (or_intror Hi))). lra.
Qed.
Lemma Rsum_map_scale {A} (c : R) (u : A -> R) l : Rsum (map (fun i => c * u i) l) = c * Rsum (map u l).
Proof. induction l as [|x l IH]; cbn [map]; [cbn; ring|]. rewrite !Rsum_cons, IH. ring. Qed.

Lemma average_le {A} (u v v' : A -> R) l a a' : (forall i, In i l -> 0 <= u i) -> (forall i, In i l -> v i <= v' i) ->
  average_of (map u l) (map v l) a -> average_of (map u l) (map v' l) a' -> a <= a'.
Proof.
  intros Hu Hv [Hn Ha] [_ Ha']. rewrite wsum_map in Ha, Ha'.
  assert (0 <= Rsum (map u l)). { pose proof (Rsum_map_le (fun _ => 0) u l Hu) as H. rewrite Rsum_zero in H; [exact H|]. intros x Hx. apply in_map_iff in Hx as (? & <- & _). reflexivity. }
  assert (Rsum (map (fun i => u i * v i) l) <= Rsum (map (fun i => u i * v' i) l)).
  { apply Rsum_map_le. intros i Hi. apply Rmult_le_compat_l; auto. }
  nra.
Qed.
Lemma average_ext {A} (u v v' : A -> R) l a : (forall i, In i l -> v i = v' i) -> average_of (map u l) (map v l) a -> average_of (map u l) (map v' l) a.
Proof. intros H. replace (map v' l) with (map v l); [auto|]. apply map_ext_in. exact H. Qed.
Lemma average_lin {A} (u v v' : A -> R) l a a' c c' : average_of (map u l) (map v l) a -> average_of (map u l) (map v' l) a' ->
  average_of (map u l) (map (fun i => c * v i + c' * v' i) l) (c * a + c' * a').
Proof.
  intros [Hn Ha] [_ Ha']. split; auto. rewrite wsum_map in *.
  rewrite (map_ext (fun i => u i * (c * v i + c' * v' i)) (fun i => c * (u i * v i) + c' * (u i * v' i))) by (intros; ring).
  transitivity (c * Rsum (map (fun i => u i * v i) l) + c' * Rsum (map (fun i => u i * v' i) l)); [rewrite <- Ha, <- Ha'; ring|].
  clear. induction l as [|x l IH]; cbn [map]; [cbn; ring|]. rewrite !Rsum_cons, <- IH. ring.
Qed.
Lemma average_unique w v a a' : average_of w v a -> average_of w v a' -> a = a'.
Proof. intros [Hn E] [_ E']. rewrite <- E' in E. nra. Qed.
Lemma average_constant {A} (u : A -> R) l c : Rsum (map u l) <> 0 -> average_of (map u l) (map (fun _ => c) l) c.
Proof.
  intros H. split; auto. rewrite wsum_map. rewrite <- Rsum_map_scale. f_equal. apply map_ext. intros; ring.
Qed.

(** Equal steps and the same normalisation: equal curves. *)
Lemma curve_eq (q values a b : list R) m : proper_grid m values q -> (0 <= m)%Z -> length a = length q -> length b = length q ->
  (forall k, (1 <= k < length q)%nat -> nth k a 0 - nth (k - 1) a 0 = nth k b 0 - nth (k - 1) b 0) ->
  nth 0 a 0 = nth 0 b 0 \/ (centred q values a /\ centred q values b) -> a = b.
Proof.
  intros HP Hm HLa HLb HS H0.
  assert (HD : forall k, (k < length q)%nat -> nth k a 0 - nth k b 0 = nth 0 a 0 - nth 0 b 0).
  { induction k as [|k IH]; intros Hk; [reflexivity|]. specialize (IH ltac:(lia)). specialize (HS (Datatypes.S k) ltac:(lia)).
    replace (Datatypes.S k - 1)%nat with k in HS by lia. lra. }
  assert (HE : nth 0 a 0 - nth 0 b 0 = 0).
  { destruct H0 as [H0|[Ca Cb]]; [lra|]. unfold centred in Ca, Cb.
    set (d := nth 0 a 0 - nth 0 b 0) in *.
    assert (E : Rsum (map (fun k => INR (bin_count q k values) * ((nth (k - 1) a 0 + nth k a 0) / 2)) (seq 1 (length q - 1))) =
                Rsum (map (fun k => INR (bin_count q k values) * ((nth (k - 1) b 0 + nth k b 0) / 2)) (seq 1 (length q - 1))) +
                d * Rsum (map (fun k => INR (bin_count q k values)) (seq 1 (length q - 1)))).
    { assert (HI : forall k, In k (seq 1 (length q - 1)) -> (k - 1 < length q)%nat /\ (k < length q)%nat) by (intros k Hk; apply in_seq in Hk; lia).
      clear - HD HI. induction (seq 1 (length q - 1)) as [|k l IH]; cbn [map]; [cbn; ring|]. rewrite !Rsum_cons, IH by (intros; apply HI; right; auto).
      destruct (HI k (or_introl eq_refl)) as [A B]. pose proof (HD _ A). pose proof (HD _ B). 
      replace (nth (k - 1) a 0) with (nth (k - 1) b 0 + d) by lra. replace (nth k a 0) with (nth k b 0 + d) by lra. field. }
    rewrite Ca, Cb, (counts_sum values q m HP) in E.
    assert (0 < INR (length values)). { apply lt_0_INR. destruct HP as (_ & _ & [Hin _] & _). destruct values; [destruct Hin|simpl; lia]. }
    nra. }
  apply (nth_ext _ _ 0 0); [congruence|]. intros k Hk. specialize (HD k ltac:(lia)). lra.
Qed.

Section Shape.
  Variable store : R -> R.

  Lemma moved_row X N F f q s rows k i : rect X N F -> (f < F)%nat -> moved store X f q s rows -> (1 <= k < length q)%nat ->
    In i (members q k (feature_values X f)) -> nth i rows [] = list_set (nth i X []) f (store (nth (k - s) q 0)).
  Proof.
    intros HX Hf [HL HM] Hk Hi. apply members_in in Hi as [Hi Hb]. rewrite fv_length in Hi. rewrite fv_nth in Hb by auto.
    destruct (HM i k Hi Hk Hb) as [HLi Hz]. assert (HFi : length (nth i X []) = F) by (apply (rect_row X N F); auto; destruct HX; lia).
    apply (nth_ext _ _ 0 0); [rewrite list_set_length; exact HLi|]. intros j Hj. rewrite HLi in Hj. specialize (Hz j Hj). unfold mget at 1 in Hz. rewrite Hz.
    destruct (Nat.eqb_spec j f) as [E|Hn]; [subst j|].
    - rewrite list_set_nth_eq by lia. reflexivity.
    - rewrite list_set_nth_neq by auto. reflexivity.
  Qed.

  Lemma ale_feature X N F f pred w norm m q a : rect X N F -> is_ale store X f pred w norm m q a -> (f < F)%nat.
  Proof.
    intros HX ((Hs & H2 & [Hi _] & [Hj _] & _) & _). destruct (Nat.lt_ge_cases f F) as [L|Ge]; auto. exfalso.
    pose proof (SSlt_nth q 0 (length q - 1) Hs ltac:(lia)) as Hlt.
    assert (HZ : forall v, In v (feature_values X f) -> v = 0).
    { intros v Hv. apply in_map_iff in Hv as (x & <- & Hx). apply nth_overflow. destruct HX as [_ HX]. rewrite Forall_forall in HX. rewrite (HX x Hx). exact Ge. }
    rewrite (HZ _ Hi), (HZ _ Hj) in Hlt. lra.
  Qed.

  Lemma ale_steps X N F f G pred w norm m q a : rect X N F -> rowwise pred G ->
    is_ale store X f pred w norm m q a ->
    (forall k, (1 <= k < length q)%nat ->
      average_of (map (fun i => nth i w 0) (members q k (feature_values X f)))
        (map (fun i => G (list_set (nth i X []) f (store (nth k q 0))) - G (list_set (nth i X []) f (store (nth (k - 1) q 0)))) (members q k (feature_values X f)))
        (nth k a 0 - nth (k - 1) a 0)) /\
    (norm = false -> average_of (map (fun i => nth i w 0) (members q 1 (feature_values X f)))
        (map (fun i => G (list_set (nth i X []) f (store (nth 0 q 0)))) (members q 1 (feature_values X f))) (nth 0 a 0)).
  Proof.
    intros HX HG H. pose proof (ale_feature X N F f pred w norm m q a HX H) as Hf.
    destruct H as (HP & HLa & low & high & pl & ph & Hlow & Hhigh & Epl & Eph & HLl & HLh & Hinc & Hb & _).
    rewrite HG in Epl, Eph. injection Epl as <-. injection Eph as <-. rewrite map_length in HLl, HLh. split.
    - intros k Hk. eapply average_ext; [|apply (Hinc k Hk)]. intros i Hi. pose proof (members_in _ _ _ _ Hi) as [Hlt _]. rewrite fv_length in Hlt. cbn beta.
      rewrite !(nth_map_in G _ i []) by lia.
      rewrite (moved_row X N F f q 1 low k i HX Hf Hlow Hk Hi), (moved_row X N F f q 0 high k i HX Hf Hhigh Hk Hi). rewrite Nat.sub_0_r. reflexivity.
    - intros En. eapply average_ext; [|apply (Hb En)]. intros i Hi. pose proof (members_in _ _ _ _ Hi) as [Hlt _]. rewrite fv_length in Hlt. cbn beta.
      rewrite !(nth_map_in G _ i []) by lia. destruct HP as (_ & H2 & _).
      rewrite (moved_row X N F f q 1 low 1 i HX Hf Hlow ltac:(lia) Hi). reflexivity.
  Qed.

  Lemma differ_set f x u v : differ_only_at f (list_set x f u) (list_set x f v).
  Proof. split; [rewrite !list_set_length; reflexivity|]. intros j Hj. rewrite !list_set_nth_neq by auto. reflexivity. Qed.
  Lemma differ_set_l f x u : differ_only_at f (list_set x f u) x.
  Proof. split; [apply list_set_length|]. intros j Hj. rewrite list_set_nth_neq by auto. reflexivity. Qed.

  Lemma row_len X N F f q k i : rect X N F -> In i (members q k (feature_values X f)) -> length (nth i X []) = F.
  Proof. intros HX Hi. apply members_in in Hi as [Hi _]. rewrite fv_length in Hi. apply (rect_row X N F); auto. destruct HX; lia. Qed.

  Hypothesis Hstore : forall v, store v = v.

  (** An effect proportional to the feature, with a factor given by the others. *)
  Theorem interaction X N F f h r pred w norm m q a : rect X N F ->
    rowwise pred (fun z => nth f z 0 * h z + r z) -> independent_of f h -> independent_of f r ->
    is_ale store X f pred w norm m q a ->
    forall k, (1 <= k < length q)%nat -> exists slope,
      average_of (map (fun i => nth i w 0) (members q k (feature_values X f))) (map (fun i => h (nth i X [])) (members q k (feature_values X f))) slope /\
      nth k a 0 - nth (k - 1) a 0 = slope * (nth k q 0 - nth (k - 1) q 0).
  Proof.
    intros HX HG Hh Hr H k Hk. pose proof (ale_steps X N F f _ pred w norm m q a HX HG H) as [HS _]. specialize (HS k Hk). rewrite !Hstore in HS.
    pose proof H as (HP & _). pose proof (ale_feature X N F f pred w norm m q a HX H) as Hf.
    pose proof (SSlt_nth q (k - 1) k (proj1 HP) ltac:(lia)) as Hlt.
    set (D := nth k q 0 - nth (k - 1) q 0) in *. assert (HD : 0 < D) by (unfold D; lra).
    exists ((nth k a 0 - nth (k - 1) a 0) / D). split; [|field; lra].
    destruct HS as [Hn HS]. split; [exact Hn|]. rewrite wsum_map in *.
    apply (Rmult_eq_reg_l D); [|lra]. rewrite <- (Rsum_map_scale D (fun i => nth i w 0 * h (nth i X []))).
    transitivity ((nth k a 0 - nth (k - 1) a 0) * Rsum (map (fun i => nth i w 0) (members q k (feature_values X f)))); [field; lra|]. rewrite HS.
    f_equal. apply map_ext_in. intros i Hi. pose proof (row_len X N F f q k i HX Hi) as HFi.
    rewrite !list_set_nth_eq by lia.
    rewrite !(Hh (list_set _ _ _) (nth i X [])), !(Hr (list_set _ _ _) (nth i X [])); try apply differ_set_l; unfold D; try ring.
  Qed.

  (** ... which is a straight line if the factor has the same mean in every bin. *)
  Theorem straight_line X N F f h r pred w norm m q a mu : rect X N F ->
    rowwise pred (fun z => nth f z 0 * h z + r z) -> independent_of f h -> independent_of f r ->
    is_ale store X f pred w norm m q a ->
    (forall k, (1 <= k < length q)%nat ->
      average_of (map (fun i => nth i w 0) (members q k (feature_values X f))) (map (fun i => h (nth i X [])) (members q k (feature_values X f))) mu) ->
    exists c, forall k, (k < length q)%nat -> nth k a 0 = mu * nth k q 0 + c.
  Proof.
    intros HX HG Hh Hr H Hmu. exists (nth 0 a 0 - mu * nth 0 q 0). induction k as [|k IH]; intros Hk; [ring|].
    specialize (IH ltac:(lia)). destruct (interaction X N F f h r pred w norm m q a HX HG Hh Hr H (Datatypes.S k) ltac:(lia)) as (s & Hs & E).
    rewrite (average_unique _ _ _ _ Hs (Hmu (Datatypes.S k) ltac:(lia))) in E. replace (Datatypes.S k - 1)%nat with k in E by lia. lra.
  Qed.

  Lemma steps_mono (q a : list R) : (forall k, (1 <= k < length q)%nat -> 0 <= nth k a 0 - nth (k - 1) a 0) ->
    forall k l, (k <= l)%nat -> (l < length q)%nat -> nth k a 0 <= nth l a 0.
  Proof.
    intros H k l Hkl. induction Hkl as [|l Hkl IH]; intros Hl; [lra|]. specialize (IH ltac:(lia)). specialize (H (Datatypes.S l) ltac:(lia)).
    replace (Datatypes.S l - 1)%nat with l in H by lia. lra.
  Qed.

  Theorem increasing X N F f G pred w norm m q a : rect X N F ->
    rowwise pred G -> increasing_in f G -> (forall i, (i < N)%nat -> 0 <= nth i w 0) ->
    is_ale store X f pred w norm m q a ->
    forall k l, (k <= l)%nat -> (l < length q)%nat -> nth k a 0 <= nth l a 0.
  Proof.
    intros HX HG HI Hw H. apply steps_mono. intros k Hk. pose proof (ale_steps X N F f _ pred w norm m q a HX HG H) as [HS _]. specialize (HS k Hk). rewrite !Hstore in HS.
    pose proof H as (HP & _). pose proof (ale_feature X N F f pred w norm m q a HX H) as Hf.
    pose proof (SSlt_nth q (k - 1) k (proj1 HP) ltac:(lia)) as Hlt.
    eapply average_le; [| |apply average_constant; apply (proj1 HS)|exact HS].
    - intros i Hi. apply members_in in Hi as [Hi _]. rewrite fv_length in Hi. apply Hw. destruct HX; lia.
    - intros i Hi. cbn beta. pose proof (row_len X N F f q k i HX Hi) as HFi.
      pose proof (HI _ _ (differ_set f (nth i X []) (nth (k - 1) q 0) (nth k q 0))) as HL. rewrite !list_set_nth_eq in HL by lia. specialize (HL ltac:(lra)). lra.
  Qed.

  Theorem lipschitz X N F f G L pred w norm m q a : rect X N F ->
    rowwise pred G -> lipschitz_in f L G -> (forall i, (i < N)%nat -> 0 <= nth i w 0) ->
    is_ale store X f pred w norm m q a ->
    forall k l, (k <= l)%nat -> (l < length q)%nat -> Rabs (nth l a 0 - nth k a 0) <= L * (nth l q 0 - nth k q 0).
  Proof.
    intros HX HG HI Hw H.
    assert (HS : forall k, (1 <= k < length q)%nat -> Rabs (nth k a 0 - nth (k - 1) a 0) <= L * (nth k q 0 - nth (k - 1) q 0)).
    { intros k Hk. pose proof (ale_steps X N F f _ pred w norm m q a HX HG H) as [HS _]. specialize (HS k Hk). rewrite !Hstore in HS.
      pose proof H as (HP & _). pose proof (ale_feature X N F f pred w norm m q a HX H) as Hf.
      pose proof (SSlt_nth q (k - 1) k (proj1 HP) ltac:(lia)) as Hlt.
      assert (HW : forall i, In i (members q k (feature_values X f)) -> 0 <= nth i w 0).
      { intros i Hi. apply members_in in Hi as [Hi _]. rewrite fv_length in Hi. apply Hw. destruct HX; lia. }
      assert (HB : forall i, In i (members q k (feature_values X f)) ->
         Rabs (G (list_set (nth i X []) f (nth k q 0)) - G (list_set (nth i X []) f (nth (k - 1) q 0))) <= L * (nth k q 0 - nth (k - 1) q 0)).
      { intros i Hi. pose proof (row_len X N F f q k i HX Hi) as HFi.
        pose proof (HI _ _ (differ_set f (nth i X []) (nth (k - 1) q 0) (nth k q 0))) as HL. rewrite !list_set_nth_eq in HL by lia.
        rewrite (Rabs_right (nth k q 0 - nth (k - 1) q 0)) in HL by lra. exact HL. }
      apply Rabs_le. split.
      - eapply average_le; [exact HW| |apply average_constant; apply (proj1 HS)|exact HS]. intros i Hi. cbn beta.
        specialize (HB i Hi). unfold Rabs in HB; destruct (Rcase_abs _) in HB; lra.
      - eapply average_le; [exact HW| |exact HS|apply average_constant; apply (proj1 HS)]. intros i Hi. cbn beta.
        specialize (HB i Hi). unfold Rabs in HB; destruct (Rcase_abs _) in HB; lra. }
    intros k l Hkl. induction Hkl as [|l Hkl IH]; intros Hl; [rewrite !Rminus_diag_eq by reflexivity; rewrite Rabs_R0; lra|].
    specialize (IH ltac:(lia)). specialize (HS (Datatypes.S l) ltac:(lia)). replace (Datatypes.S l - 1)%nat with l in HS by lia.
    pose proof (Rabs_triang (nth (Datatypes.S l) a 0 - nth l a 0) (nth l a 0 - nth k a 0)) as HT.
    replace (nth (Datatypes.S l) a 0 - nth l a 0 + (nth l a 0 - nth k a 0)) with (nth (Datatypes.S l) a 0 - nth k a 0) in HT by ring. lra.
  Qed.
End Shape.

(** The grid does not depend on the predictor, the weights or the normalisation. *)
Lemma wale_grid store X f pred w norm m q a : weighted_ale store X f pred w norm m = Ok (q, a) ->
  exists values nq, column X f = Ok values /\ adaptive_grid values m = Ok (q, nq).
Proof.
  intros H. unfold weighted_ale in H. apply bind_ok in H as (values & Hc & H). apply bind_ok in H as ((q0 & nq) & Hg & H). cbn [fst] in H.
  exists values, nq. split; auto. repeat (apply bind_ok in H as (? & _ & H)).
  destruct norm; [apply bind_ok in H as (? & _ & H)|]; apply ok_pair in H as [<- _]; exact Hg.
Qed.
Lemma same_grid store X f pred w norm m q a pred' w' norm' q' a' : weighted_ale store X f pred w norm m = Ok (q, a) ->
  weighted_ale store X f pred' w' norm' m = Ok (q', a') -> q' = q.
Proof.
  intros H H'. apply wale_grid in H as (v & n & Hc & Hg). apply wale_grid in H' as (v' & n' & Hc' & Hg'). congruence.
Qed.

Lemma centred_lin q values a b c d : length a = length q -> length b = length q -> centred q values a -> centred q values b ->
  centred q values (map2 (fun x y => c * x + d * y) a b).
Proof.
  unfold centred. intros HA HB Ca Cb.
  assert (HI : forall k, In k (seq 1 (length q - 1)) -> (k - 1 < length q)%nat /\ (k < length q)%nat) by (intros k Hk; apply in_seq in Hk; lia).
  assert (E : forall l, (forall k, In k l -> (k - 1 < length q)%nat /\ (k < length q)%nat) ->
    Rsum (map (fun k => INR (bin_count q k values) * ((nth (k - 1) (map2 (fun x y => c * x + d * y) a b) 0 + nth k (map2 (fun x y => c * x + d * y) a b) 0) / 2)) l) =
    c * Rsum (map (fun k => INR (bin_count q k values) * ((nth (k - 1) a 0 + nth k a 0) / 2)) l) +
    d * Rsum (map (fun k => INR (bin_count q k values) * ((nth (k - 1) b 0 + nth k b 0) / 2)) l)).
  { induction l as [|k l IH]; intros Hl; cbn [map]; [cbn; ring|]. rewrite !Rsum_cons, IH by (intros; apply Hl; right; auto).
    destruct (Hl k (or_introl eq_refl)). rewrite !(map2_nth _ a b _ 0 0) by lia. field. }
  rewrite E by exact HI. rewrite Ca, Cb. ring.
Qed.

Theorem linear_combination store X N F f p1 p2 p3 G1 G2 c d w norm m q1 a1 q2 a2 q3 a3 : rect X N F -> (0 < N)%nat -> (0 <= m)%Z ->
  rowwise p1 G1 -> rowwise p2 G2 -> rowwise p3 (fun z => c * G1 z + d * G2 z) ->
  weighted_ale store X f p1 (Some w) norm m = Ok (q1, a1) -> weighted_ale store X f p2 (Some w) norm m = Ok (q2, a2) ->
  weighted_ale store X f p3 (Some w) norm m = Ok (q3, a3) ->
  q1 = q3 /\ q2 = q3 /\ length a1 = length q3 /\ length a2 = length q3 /\
  forall k, (k < length q3)%nat -> nth k a3 0 = c * nth k a1 0 + d * nth k a2 0.
Proof.
  intros HX HN Hm G1p G2p G3p H1 H2 H3. pose proof (same_grid _ _ _ _ _ _ _ _ _ _ _ _ _ _ H3 H1) as E1. pose proof (same_grid _ _ _ _ _ _ _ _ _ _ _ _ _ _ H3 H2) as E2. subst q1 q2.
  destruct (ale_steps store X N F f _ _ w norm m _ _ HX G1p (proj1 (wale_inv _ _ _ _ _ _ _ _ _ _ _ HX HN Hm H1))) as [S1 B1].
  destruct (ale_steps store X N F f _ _ w norm m _ _ HX G2p (proj1 (wale_inv _ _ _ _ _ _ _ _ _ _ _ HX HN Hm H2))) as [S2 B2].
  destruct (ale_steps store X N F f _ _ w norm m _ _ HX G3p (proj1 (wale_inv _ _ _ _ _ _ _ _ _ _ _ HX HN Hm H3))) as [S3 B3].
  destruct (wale_inv _ _ _ _ _ _ _ _ _ _ _ HX HN Hm H1) as ((_ & L1 & _) & _). destruct (wale_inv _ _ _ _ _ _ _ _ _ _ _ HX HN Hm H2) as ((_ & L2 & _) & _).
  destruct (wale_inv _ _ _ _ _ _ _ _ _ _ _ HX HN Hm H3) as ((HP & L3 & _) & _).
  split; [reflexivity|]. split; [reflexivity|]. split; [exact L1|]. split; [exact L2|].
  assert (LM : length (map2 (fun x y => c * x + d * y) a1 a2) = length q3) by (rewrite map2_length; lia).
  assert (E : a3 = map2 (fun x y => c * x + d * y) a1 a2).
  { apply (curve_eq q3 (feature_values X f) _ _ m HP Hm L3 LM).
    - intros k Hk. rewrite !(map2_nth _ a1 a2 _ 0 0) by lia.
      transitivity (c * (nth k a1 0 - nth (k - 1) a1 0) + d * (nth k a2 0 - nth (k - 1) a2 0)); [|ring].
      eapply average_unique; [apply (S3 k Hk)|]. pose proof (average_lin _ _ _ _ _ _ c d (S1 k Hk) (S2 k Hk)) as HA.
      eapply average_ext; [|exact HA]. intros i Hi. cbn beta. ring.
    - destruct norm.
      + right. split; [apply (wale_centred _ _ _ _ _ _ _ _ _ _ HX HN Hm H3)|].
        apply centred_lin; auto; [apply (wale_centred _ _ _ _ _ _ _ _ _ _ HX HN Hm H1)|apply (wale_centred _ _ _ _ _ _ _ _ _ _ HX HN Hm H2)].
      + left. destruct HP as (_ & HQ & _). rewrite (map2_nth _ a1 a2 _ 0 0) by lia.
        eapply average_unique; [apply (B3 eq_refl)|]. exact (average_lin _ _ _ _ _ _ c d (B1 eq_refl) (B2 eq_refl)). }
  intros k Hk. rewrite E, (map2_nth _ a1 a2 _ 0 0) by lia. reflexivity.
Qed.

(** The curves of local_ALE and global_ALE. *)
Section Models.
  Context {est : Type} (predict_est : est -> matrix R -> result (list R)).
  Variable store : R -> R.
  Hypothesis Hstore : forall v, store v = v.

  Theorem local_increasing s X y es W N F f curves : data_X est s = Some X -> data_y est s = Some y -> length y = N ->
    local_estimators est s = Some es -> fitted_weights s W N -> rect X N F ->
    (forall e, In (Some e) es -> exists G, rowwise (predict_est e) G /\ increasing_in f G) ->
    local_ALE store est predict_est s f = Ok curves ->
    forall q a, In (q, a) curves -> forall k l, (k <= l)%nat -> (l < length q)%nat -> nth k a 0 <= nth l a 0.
  Proof.
    intros HdX Hdy HLy Hes HW HX HI H q a Hin. destruct (lale_inv store est predict_est s X y es W N F f curves HdX Hdy HLy Hes HW HX H) as [HL HC].
    apply (In_nth _ _ ([], [])) in Hin as (i & Hi & E). rewrite HL in Hi. destruct (HC i Hi) as (e & w & He & Hlt & Hw & HA). rewrite E in HA. cbn [fst snd] in HA.
    destruct (HI e (nth_error_In _ _ He)) as (G & HG & HM).
    assert (HR : rect (map (fun j => nth j X []) (positive_set W N i)) (length (positive_set W N i)) F).
    { split; [apply map_length|]. apply Forall_forall. intros x Hx. apply in_map_iff in Hx as (j & <- & Hj). apply filter_In in Hj as [Hj _]. apply in_seq in Hj. apply (rect_row X N F); auto. lia. }
    apply (increasing store Hstore _ _ F f G (predict_est e) w false 5 q a HR HG HM).
    - intros j Hj. pose proof (Forall2_nth _ _ _ 0%nat 0 j Hw) as Hx. specialize (Hx Hj). cbn beta in Hx.
      assert (HP : In (nth j (positive_set W N i) 0%nat) (positive_set W N i)) by (apply nth_In; exact Hj).
      apply filter_In in HP as [_ HP]. rewrite Hx in HP. unfold positive in HP. cbn in HP. unfold Rltb in HP. destruct (Rlt_dec 0 (nth j w 0)); [lra|discriminate].
    - exact HA.
  Qed.

  Theorem global_increasing s X es N F f q a : data_X est s = Some X -> local_estimators est s = Some es -> rect X N F -> (0 < N)%nat -> (f < F)%nat ->
    (forall e, In (Some e) es -> exists G, rowwise (predict_est e) G /\ increasing_in f G) ->
    global_ALE store est predict_est s f = Ok (q, a) ->
    forall k l, (k <= l)%nat -> (l < length q)%nat -> nth k a 0 <= nth l a 0.
  Proof.
    intros HdX Hes HX HN Hf HI H. destruct (gale_inv store est predict_est s X N F es f q a HdX Hes HX HN H) as (HP & HLa & HLe & low & high & d & Hlow & Hhigh & Hone & Hinc & _).
    apply steps_mono. intros k Hk. specialize (Hinc k Hk).
    assert (Hpos : 0 < INR (bin_count q k (feature_values X f))).
    { apply lt_0_INR. destruct HP as (_ & _ & _ & _ & HF). specialize (HF k Hk). lia. }
    assert (0 <= Rsum (map (fun i => nth i d 0) (members q k (feature_values X f)))); [|nra].
    apply Rle_trans with (Rsum (map (fun _ => 0) (members q k (feature_values X f)))); [right; symmetry; apply Rsum_zero; intros x Hx; apply in_map_iff in Hx as (? & <- & _); reflexivity|].
    apply Rsum_map_le. intros i Hi. pose proof (members_in _ _ _ _ Hi) as [Hlt _]. rewrite fv_length in Hlt.
    destruct (Hone i Hlt) as (e & p & He & Hp & _ & ->). destruct (HI e (nth_error_In _ _ He)) as (G & HG & HM). rewrite HG in Hp. injection Hp as <-. cbn [map nth].
    rewrite (moved_row store X N F f q 1 low k i HX Hf Hlow Hk Hi), (moved_row store X N F f q 0 high k i HX Hf Hhigh Hk Hi), !Hstore, Nat.sub_0_r.
    pose proof (row_len X N F f q k i HX Hi) as HFi. pose proof (SSlt_nth q (k - 1) k (proj1 HP) ltac:(lia)).
    pose proof (HM _ _ (differ_set f (nth i X []) (nth (k - 1) q 0) (nth k q 0))) as HL. rewrite !list_set_nth_eq in HL by lia. specialize (HL ltac:(lra)). lra.
  Qed.
End Models.

