(** Facts special to single precision. *)
From Coq Require Import Lra Psatz ZArith.
From Flocq.Core Require Import Core.
From Verif.Model Require Import Base Ext Sort Kernel Distance WeightMatrix KernelFloat WeightFloat Float32.
From Verif.Spec Require Import KernelSpec WeightSpec FloatSpec WeightFloatSpec.
From Verif.Proofs Require Import ListFacts KernelFacts SortFacts AdaptiveFacts KernelProps KernelExamples SumFacts CsrFacts WeightFacts WeightProps FloatFacts Float64Facts FloatNorm Float32Facts WeightFloatFacts WeightFloatProps WeightFloatThms WeightFloatSame.
Open Scope string_scope.
Open Scope nat_scope.
Open Scope R_scope.

Lemma repr_int32 z : (Z.abs z <= 2 ^ 24)%Z -> representable fl32 (IZR z).
Proof.
  intros H. assert (HM : Rabs (IZR z) <= float_max32).
  { rewrite <- abs_IZR. apply Rle_trans with (bpow radix2 24); [change (bpow radix2 24) with (IZR (2 ^ 24)); apply IZR_le; exact H|apply bpow_max32; lia]. }
  apply repr32. split; [|exact HM].
  destruct (Z.eq_dec (Z.abs z) (2 ^ 24)) as [E|N].
  - assert (Hb : generic_format radix2 (FLT_exp (-149) 24) (bpow radix2 24)) by (apply generic_format_FLT_bpow; [reflexivity|lia]).
    destruct (Z.abs_spec z) as [[_ E']|[_ E']]; rewrite E' in E.
    + rewrite E. exact Hb.
    + replace z with (- 2 ^ 24)%Z by lia. rewrite opp_IZR. apply generic_format_opp. exact Hb.
  - apply generic_format_FLT. exists (Float radix2 z 0); [unfold F2R; simpl; ring|simpl; lia|simpl; lia].
Qed.
Lemma repr_count n m : (Z.of_nat n <= 2 ^ 24)%Z -> (m <= n)%nat -> representable fl32 (INR m).
Proof. intros H L. rewrite INR_IZR_INZ. apply repr_int32. lia. Qed.

(** Adding from left to right meets [sums_rows] for rows of up to 2^24 entries. *)
Lemma left_to_right32 n : (Z.of_nat n <= 2 ^ 24)%Z -> sums_rows fl32 (left_to_right fl32) n.
Proof.
  intros Hn ws HL HF. destruct ws as [|w ws]; [exists 0; split; [reflexivity|constructor]|].
  assert (G : forall l pre a, float_sum fl32 pre a -> Forall (fun w => 0 <= w <= 1 /\ representable fl32 w) (pre ++ l) ->
     (length (pre ++ l) <= n)%nat ->
     exists s, fold_left (fun a w => rounded fl32 (eadd a w)) (map Fin l) (Fin a) = Fin s /\ float_sum fl32 (pre ++ l) s).
  { induction l as [|x l IH]; intros pre a Ha HF' HL'.
    - exists a. rewrite app_nil_r. split; [reflexivity|exact Ha].
    - cbn [map fold_left eadd rounded].
      assert (HFa : Forall (fun w => 0 <= w <= 1 /\ representable fl32 w) (pre ++ [x])).
      { apply Forall_app in HF' as [F1 F2]. inversion F2; subst. apply Forall_app. split; auto. }
      assert (HFp : Forall (fun w => 0 <= w <= 1 /\ representable fl32 w) pre) by (apply Forall_app in HF'; apply HF').
      assert (Hx : 0 <= x <= 1) by (apply Forall_app in HFa as [_ F2]; inversion F2; subst; tauto).
      rewrite app_length in HL'. simpl in HL'.
      assert (La : a <= INR (length pre)).
      { apply (float_sum_le_len fl32 rounding32 pre a Ha).
        - intros m Hm. apply (repr_count n); [exact Hn|lia].
        - eapply Forall_impl; [|exact HFp]. simpl. intros; lra. }
      assert (Ga : 0 <= a).
      { refine (proj1 (float_sum_props fl32 rounding32 pre a Ha _)). eapply Forall_impl; [|exact HFp]. simpl. intros y Hy. split; [lra|tauto]. }
      assert (EX : exists s, fl32 (a + x) = Fin s).
      { assert (L : 0 <= a + x <= INR (S (length pre))) by (rewrite S_INR; lra).
        pose proof (proj1 rounding32 _ _ (proj1 L)) as M0. pose proof (proj1 rounding32 _ _ (proj2 L)) as M1.
        pose proof (repr_count n (S (length pre)) Hn ltac:(lia)) as R1. assert (R0 : representable fl32 0) by apply rounding32.
        unfold representable in R0, R1. rewrite R0 in M0. rewrite R1 in M1. destruct (fl32 (a + x)); simpl in *; try contradiction. eauto. }
      destruct EX as (s & Es). rewrite Es.
      destruct (IH (pre ++ [x])%list s) as (t & Et & Ft).
      + apply (fs_add _ _ pre [x] a x); [apply Permutation_refl|exact Ha|constructor|exact Es].
      + rewrite <- app_assoc. exact HF'.
      + rewrite <- app_assoc, app_length. simpl. lia.
      + exists t. split; [exact Et|]. rewrite <- app_assoc in Ft. exact Ft. }
  destruct (G ws [w] w (fs_one _ w) HF) as (s & Es & Fs); [simpl; simpl in HL; lia|]. exists s. split; [exact Es|exact Fs].
Qed.

Section S32.
  Variable fexp fcube : R -> ext.
  Hypothesis HE : faithful_exp fl32 fexp.
  Hypothesis HC : faithful_cube fl32 fcube.
  Variable rowsum : list ext -> ext.
  Variable quantile : R -> list R -> R.
  Variable Ds : list (matrix R).
  Variable kt : dim_arg string.
  Variable bw : dim_arg R.
  Variable nc : dim_arg count_arg.
  Variable r c : nat.
  Variable W : matrix ext.
  Hypothesis HV : valid_distances Ds r c.
  Hypothesis Hr : (0 < r)%nat.
  Hypothesis Hc : (Z.of_nat c <= 2 ^ 24)%Z.
  Hypothesis HS : sums_rows fl32 rowsum c.
  Hypothesis HW : weight_matrix_from_distance_fl fl32 fexp fcube rowsum quantile Ds kt bw nc = Ok W.

  Lemma count_le m : (m <= c)%nat -> INR m <= bpow radix2 24.
  Proof. intros H. rewrite INR_IZR_INZ. change (bpow radix2 24) with (IZR (2 ^ 24)). apply IZR_le. lia. Qed.

  (** A weight that is not too small stays positive after normalisation. *)
  Lemma normalised_lower (p : nat -> R) s vs j e : (-100 <= e <= 0)%Z ->
    (forall j, (j < c)%nat -> 0 <= p j <= 1 /\ representable fl32 (p j)) ->
    float_sum fl32 (tabulate c p) s -> normalise_row_fl fl32 (map Fin (tabulate c p)) (Fin s) = map Fin vs ->
    (j < c)%nat -> bpow radix2 e <= p j -> bpow radix2 (e - 24) <= nth j vs 0.
  Proof.
    intros He HP HF Ev Hj L. pose proof (bpow_gt_0 radix2 e) as Be.
    assert (HFp : Forall (fun w => 0 <= w /\ representable fl32 w) (tabulate c p)).
    { apply (proj2 (Forall_nth_lt _ 0 _)). rewrite tabulate_length. intros i Hi. rewrite tabulate_nth by exact Hi. destruct (HP i Hi). split; [lra|auto]. }
    assert (HF1 : Forall (fun w => w <= 1) (tabulate c p)).
    { apply (proj2 (Forall_nth_lt _ 0 _)). rewrite tabulate_length. intros i Hi. rewrite tabulate_nth by exact Hi. destruct (HP i Hi). lra. }
    assert (Ls : s <= bpow radix2 24).
    { eapply Rle_trans; [apply (float_sum_le_len fl32 rounding32 _ _ HF); [|exact HF1]|rewrite tabulate_length; apply count_le; lia].
      rewrite tabulate_length. intros m Hm. apply (repr_count c); auto. }
    destruct (float_sum_props fl32 rounding32 _ _ HF HFp) as (G0 & _ & GW & _).
    assert (Lp : p j <= s). { apply GW. rewrite <- (tabulate_nth c p j 0) by exact Hj. apply nth_In. rewrite tabulate_length. exact Hj. }
    destruct (normalise_unit fl32 rounding32 (tabulate c p) s HFp HF) as (vs' & Ev' & _ & _ & _ & HQ & _).
    rewrite Ev in Ev'. apply fin_map_inj in Ev'. subst vs'.
    specialize (HQ j ltac:(rewrite tabulate_length; exact Hj) ltac:(lra)). rewrite tabulate_nth in HQ by exact Hj.
    eapply ge_fl32; [apply (repr_bpow32 (e - 24)); lia| |exact HQ].
    replace (e - 24)%Z with (e + - (24))%Z by lia. rewrite bpow_plus, bpow_opp. unfold Rdiv.
    apply Rmult_le_compat; [lra| |exact L|apply Rinv_le_contravar; [lra|exact Ls]].
    left. apply Rinv_0_lt_compat. apply bpow_gt_0.
  Qed.

  Hypothesis Hbw : forall dim b, arg_at bw dim = Some b -> 0 <= b.
  Hypothesis Hqu : forall q row, Forall (Rle 0) row -> 0 <= quantile q row.

  Theorem coincident32 i j v : (i < r)%nat -> (j < c)%nat -> (forall D, In D Ds -> mget 0 D i j = 0) ->
    mget NaN W i j = Fin v -> bpow radix2 (-24) <= v.
  Proof.
    intros Hi Hj HD.
    destruct (row_facts fl32 fexp fcube rounding32 HE HC rowsum quantile Ds kt bw nc r c W HV Hr HS HW) as (ks & ps & bs & raw & p & s & V & H1 & H2 & H3 & H4 & HM & H5 & E & HVr & H8).
    rewrite E, (nth_get V r c i j HVr Hi Hj). intros Ev. injection Ev as <-.
    assert (E1 : p i j = 1).
    { apply (coincident_one fl32 fexp fcube rounding32 HE HC quantile Ds kt bw nc r c HV Hbw Hqu ks ps bs raw (p i j) i j H1 H2); auto; [intros; apply H3; auto|apply H4; auto]. }
    apply (normalised_lower (p i) (s i) (nth i V []) j 0); [lia| |apply H5; auto|apply H8; auto|exact Hj|rewrite E1; simpl; lra].
    intros; split; apply H4; auto.
  Qed.

  (** In a single dimension the support is exact. *)
  Lemma boxcar_inside b d w : d <= b -> weighs_fl fl32 fexp fcube "boxcar" b d w -> w = 1.
  Proof.
    intros Hd H. apply (weighs_fl_entry fl32 fexp fcube "boxcar" b d w _ eq_refl) in H. unfold kernel_entry_fl in H.
    assert (E : Rltb b d = false) by (apply Rltb_false; lra). rewrite E, andb_false_r in H. injection H as <-. reflexivity.
  Qed.

  Theorem support32 k q b i j : length Ds = 1%nat -> requests kt bw nc 0 k q -> (i < r)%nat -> (j < c)%nat ->
    row_bandwidth_fl quantile q (nth i (nth 0 Ds []) []) b -> 0 < b -> representable fl32 b ->
    entries (representable fl32) (nth 0 Ds []) -> (vanishing_kernel k \/ k = "boxcar") ->
    (mget NaN W i j <> Fin 0 <-> inside k b (mget 0 (nth 0 Ds []) i j)).
  Proof.
    intros H1d HQ Hi Hj HB Hb Rb HRep Hk. set (d := mget 0 (nth 0 Ds []) i j).
    assert (Hd0 : (0 < length Ds)%nat) by lia.
    assert (Hd : 0 <= d) by (apply (dist_nonneg Ds r c HV 0 i j); auto).
    assert (Rd : representable fl32 d).
    { pose proof (proj1 (Forall_nth_lt _ ([] : matrix R) _) (proj2 HV) 0%nat Hd0) as [HR1 _].
      unfold d, mget. apply (proj1 (Forall_nth_lt (representable fl32) 0 _)); [apply (proj1 (Forall_nth_lt _ [] _) HRep)|].
      - destruct HR1 as [-> _]. exact Hi.
      - rewrite (rect_row _ _ _ _ HR1 Hi). exact Hj. }
    split.
    - intros HN. destruct (Rlt_le_dec d b) as [L|L]; [destruct Hk as [Hk| ->]; [left; split; auto|right; split; [auto|lra]]|].
      destruct Hk as [Hk| ->].
      + exfalso. apply HN. apply (fl_outside fl32 fexp fcube rounding32 HE HC rowsum quantile Ds kt bw nc r c W HV Hr HS HW 0 k q b i j Hd0 Hi Hj HQ HB Hb). left. split; auto.
      + destruct (Req_dec d b) as [E|N]; [right; split; [auto|lra]|]. exfalso. apply HN.
        apply (fl_outside fl32 fexp fcube rounding32 HE HC rowsum quantile Ds kt bw nc r c W HV Hr HS HW 0 "boxcar" q b i j Hd0 Hi Hj HQ HB Hb). right. split; [auto|]. fold d. lra.
    - intros HI.
      destruct (row_facts fl32 fexp fcube rounding32 HE HC rowsum quantile Ds kt bw nc r c W HV Hr HS HW) as (ks & ps & bs & raw & p & s & V & H1 & H2 & H3 & H4 & HM & H5 & E & HVr & H8).
      rewrite E, (nth_get V r c i j HVr Hi Hj). intros E0. injection E0 as E0.
      destruct (requests_unique _ _ _ _ _ _ _ _ HQ (H1 0%nat Hd0)) as [-> ->].
      pose proof (row_bandwidth_fl_unique _ _ _ _ _ HB (H2 0%nat i Hd0 Hi)) as ->.
      destruct (H3 0%nat i j Hd0 Hi Hj) as (HWt & _). fold d in HWt.
      assert (Ep : p i j = raw 0%nat i j) by (apply H4; auto).
      assert (Lp : bpow radix2 (-72) <= p i j).
      { rewrite Ep. destruct HI as [[Hv L]|[Eb L]].
        - apply (inside32_lower fexp fcube (ks 0%nat) (bs 0%nat i) d _ HC Rd Rb Hd Hv L HWt).
        - rewrite Eb in HWt. rewrite (boxcar_inside _ _ _ L HWt). apply (bpow_le radix2 (-72) 0). lia. }
      assert (Hl : bpow radix2 (-72 - 24) <= nth j (nth i V []) 0).
      { apply (normalised_lower (p i) (s i)); [lia| |apply H5; auto|apply H8; auto|exact Hj|exact Lp]. intros; split; apply H4; auto. }
      pose proof (bpow_gt_0 radix2 (-72 - 24)). lra.
  Qed.
End S32.

(** Three dimensions can underflow. *)
Lemma fl32_tiny a : 0 <= a -> a <= bpow radix2 (-160) -> fl32 a = Fin 0.
Proof.
  intros H0 [H|H]; [|rewrite H; clear H a H0].
  - destruct H0 as [H0|<-]; [|apply rounding32].
    assert (E : round32 a = 0).
    { unfold round32. apply (round_N_small_pos radix2 _ _ _ (mag radix2 a)).
      - pose proof (bpow_mag_le radix2 a ltac:(lra)). pose proof (bpow_mag_gt radix2 a). rewrite Rabs_pos_eq in * by lra. auto.
      - assert (mag radix2 a <= -160)%Z by (apply mag_le_bpow; [lra|rewrite Rabs_pos_eq by lra; auto]). unfold FLT_exp. lia. }
    unfold fl32. rewrite E, Rabs_R0. destruct (Rle_dec 0 float_max32); [reflexivity|]. pose proof float_max32_pos. lra.
  - assert (E : round32 (bpow radix2 (-160)) = 0).
    { unfold round32. apply (round_N_small_pos radix2 _ _ _ (-159)).
      - split; [apply bpow_le; lia|apply bpow_lt; lia].
      - unfold FLT_exp. lia. }
    unfold fl32. rewrite E, Rabs_R0. destruct (Rle_dec 0 float_max32); [reflexivity|]. pose proof float_max32_pos. lra.
Qed.

Lemma tricube_small w : weighs_fl fl32 exp32 cube32 "tricube" 1 below_one32 w -> w <= bpow radix2 (-60).
Proof.
  intros H. apply (weighs_fl_entry fl32 exp32 cube32 "tricube" 1 below_one32 w _ eq_refl) in H. unfold kernel_entry_fl in H. fold (norm_fl fl32 below_one32 1) in H.
  assert (HU : 0 < bpow radix2 (-24)) by apply bpow_gt_0.
  assert (HU1 : bpow radix2 (-24) < 1) by (apply (bpow_lt radix2 (-24) 0); reflexivity).
  assert (E : Rltb 1 below_one32 = false) by (apply Rltb_false; unfold below_one32; lra). rewrite E, andb_false_r in H.
  replace (norm_fl fl32 below_one32 1) with (Fin below_one32) in H.
  2:{ unfold norm_fl, fdiv, ediv. destruct (Req_EM_T 1 0); [lra|]. unfold rounded. replace (below_one32 / 1) with below_one32 by field.
      pose proof below_one_repr32 as R1. unfold representable in R1. rewrite R1. reflexivity. }
  simpl eabs in H. rewrite Rabs_pos_eq in H by (unfold below_one32; lra). simpl fcube_ext in H.
  assert (Hu : 0 <= below_one32 <= 1) by (unfold below_one32; lra).
  destruct (cube32_faithful below_one32 Hu) as (v & Ev & _ & Fv). rewrite Ev in H.
  assert (Hv : 0 <= v <= 1) by (destruct (cube_unit fl32 cube32 rounding32 cube32_faithful _ Hu) as (v' & Ev' & Hv'); rewrite Ev in Ev'; injection Ev' as <-; auto).
  assert (E4 : bpow radix2 (-22) = 4 * bpow radix2 (-24)) by (change (-22)%Z with (2 + -24)%Z; rewrite bpow_plus; change (bpow radix2 2) with (IZR 4); reflexivity).
  assert (R4 : representable fl32 (1 - bpow radix2 (-22))).
  { apply repr32. assert (E5 : 1 - bpow radix2 (-22) = F2R (Float radix2 (2 ^ 22 - 1) (-22))).
    { unfold F2R; cbn [Fnum Fexp]. rewrite minus_IZR. change (IZR (2 ^ 22)) with (bpow radix2 22).
      assert (bpow radix2 22 * bpow radix2 (-22) = 1) by (rewrite <- bpow_plus; reflexivity). lra. }
    split.
    - rewrite E5. apply generic_format_FLT. exists (Float radix2 (2 ^ 22 - 1) (-22)); [reflexivity|reflexivity|]. simpl. lia.
    - assert (0 < bpow radix2 (-22) < 1) by (split; [apply bpow_gt_0|apply (bpow_lt radix2 (-22) 0); reflexivity]).
      rewrite Rabs_pos_eq by lra. pose proof (bpow_max32 0 ltac:(lia)) as HM. simpl in HM. lra. }
  assert (Lv : 1 - bpow radix2 (-22) <= v).
  { apply Fv; [exact R4|]. rewrite E4. unfold below_one32. set (e := bpow radix2 (-24)) in *. 
    replace ((1 - e) ^ 3) with (1 - 4 * e + e * (1 + 3 * e - e * e)) by ring. assert (0 <= e * (1 + 3 * e - e * e)) by (apply Rmult_le_pos; nra). lra. }
  destruct (one_minus fl32 rounding32 v Hv) as (z & Ez & Hz). rewrite Ez in H. simpl in H.
  assert (Lz : z <= bpow radix2 (-22)).
  { unfold fsub, esub, eopp, eadd, rounded in Ez. eapply le_fl32; [apply (repr_bpow32 (-22)); lia| |exact Ez]. lra. }
  destruct (cube32_faithful z Hz) as (x & Ex & _ & Fx). rewrite Ex in H. injection H as <-.
  apply Rle_trans with (bpow radix2 (-66)); [|apply bpow_le; lia].
  apply Fx; [apply (repr_bpow32 (-66)); lia|].
  change (-66)%Z with (-22 + (-22 + -22))%Z. rewrite !bpow_plus. set (t := bpow radix2 (-22)) in *.
  replace (t * (t * t)) with (t ^ 3) by ring. apply pow_incr. lra.
Qed.

Definition near_edge : matrix R := [[0; below_one32]].
Lemma below_one32_bounds : 0 <= below_one32 < 1.
Proof.
  assert (0 < bpow radix2 (-24)) by apply bpow_gt_0. assert (bpow radix2 (-24) < 1) by (apply (bpow_lt radix2 (-24) 0); reflexivity).
  unfold below_one32. lra.
Qed.
Lemma near_edge_valid : valid_distances [near_edge; near_edge; near_edge] 1 2.
Proof.
  pose proof below_one32_bounds. assert (H1 : rect near_edge 1 2 /\ entries (Rle 0) near_edge).
  { split; [split; [reflexivity|repeat constructor]|].
    constructor; [constructor; [lra|constructor; [lra|constructor]]|constructor]. }
  split; [discriminate|]. constructor; [exact H1|constructor; [exact H1|constructor; [exact H1|constructor]]].
Qed.

Lemma three_dimensions : exists W,
  weight_matrix_from_distance_fl fl32 exp32 cube32 (left_to_right fl32) exact_quantile
    [near_edge; near_edge; near_edge] (DScal "tricube") (DScal 1) DNone = Ok W /\ mget NaN W 0 1 = Fin 0.
Proof.
  pose proof near_edge_valid as HV.
  pose proof (outcome fl32 exp32 cube32 (left_to_right fl32) exact_quantile [near_edge; near_edge; near_edge] (DScal "tricube") (DScal 1) DNone) as HO.
  destruct (weight_matrix_from_distance_fl fl32 exp32 cube32 (left_to_right fl32) exact_quantile
    [near_edge; near_edge; near_edge] (DScal "tricube") (DScal 1) DNone) as [W|e] eqn:EW.
  2:{ exfalso. destruct (proj2 (wm_success [near_edge; near_edge; near_edge] (DScal "tricube") (DScal 1) DNone 1 2 HV ltac:(lia))) as [W HW].
      - split; [intros [H _]; discriminate|]. intros dim _. exists "tricube", (FixedBandwidth 1). split; [|exact I].
        split; [reflexivity|]. split; [unfold known_kernel; auto 9|]. repeat split.
      - rewrite HW in HO. exact HO. }
  exists W. split; [reflexivity|].
  assert (HS : sums_rows fl32 (left_to_right fl32) 2) by (apply left_to_right32; lia).
  destruct (wfl_inv fl32 exp32 cube32 rounding32 exp32_faithful cube32_faithful _ _ _ _ _ _ 1 2 HV ltac:(lia) HS W EW)
    as (ks & ps & bs & raw & p & s & V & H1 & H2 & H3 & H4 & H5 & E & HVr & H8).
  rewrite E, (nth_get V 1 2 0 1 HVr) by lia. f_equal.
  assert (Ep : p 0%nat 1%nat = 0).
  { destruct (H4 0%nat 1%nat ltac:(lia) ltac:(lia)) as [_ F].
    assert (HL : forall dim, (dim < 3)%nat -> 0 <= raw dim 0%nat 1%nat <= bpow radix2 (-60) /\ representable fl32 (raw dim 0%nat 1%nat)).
    { intros dim Hd. destruct (H3 dim 0%nat 1%nat ltac:(simpl; lia) ltac:(lia) ltac:(lia)) as [HWt [U1 U2]].
      split; [split; [lra|]|exact U2]. apply tricube_small.
      pose proof (H1 dim ltac:(simpl; lia)) as (K1 & _ & _ & _ & K2). simpl in K1, K2. injection K1 as K1. injection K2 as K2. rewrite <- K1 in HWt.
      pose proof (H2 dim 0%nat ltac:(simpl; lia) ltac:(lia)) as HB. rewrite <- K2 in HB. simpl in HB. rewrite HB in HWt.
      replace (mget 0 (nth dim [near_edge; near_edge; near_edge] []) 0 1) with below_one32 in HWt; [exact HWt|].
      destruct dim as [|[|[|dim]]]; try reflexivity. lia. }
    change (raw_at [near_edge; near_edge; near_edge] raw 0 1) with [raw 0%nat 0%nat 1%nat; raw 1%nat 0%nat 1%nat; raw 2%nat 0%nat 1%nat] in F.
    destruct (HL 0%nat ltac:(lia)) as [A RA]. destruct (HL 1%nat ltac:(lia)) as [B RB]. destruct (HL 2%nat ltac:(lia)) as [C _].
    cbn [map fold_left] in F.
    assert (L1 : bpow radix2 (-60) <= 1) by (apply (bpow_le radix2 (-60) 0); lia).
    destruct (fmul_unit fl32 rounding32 (raw 0%nat 0%nat 1%nat) (raw 1%nat 0%nat 1%nat)) as (x & Ex & _); [split; [lra|exact RA]|split; [lra|exact RB]|].
    rewrite Ex in F.
    unfold fmul, emul, rounded in Ex.
    assert (Lx : x <= bpow radix2 (-120)).
    { eapply le_fl32; [apply (repr_bpow32 (-120)); lia| |exact Ex]. change (-120)%Z with (-60 + -60)%Z. rewrite bpow_plus. apply Rmult_le_compat; lra. }
    assert (Gx : 0 <= x) by (eapply ge_fl32; [exact (proj1 (proj2 (proj2 rounding32)))| |exact Ex]; apply Rmult_le_pos; lra).
    unfold fmul, emul, rounded in F. rewrite fl32_tiny in F.
    - injection F as <-. reflexivity.
    - apply Rmult_le_pos; lra.
    - apply Rle_trans with (bpow radix2 (-120) * bpow radix2 (-60)); [apply Rmult_le_compat; lra|]. rewrite <- bpow_plus. apply bpow_le. lia. }
  destruct (normalise_unit fl32 rounding32 (tabulate 2 (p 0%nat)) (s 0%nat)) as (vs & Ev & _ & _ & HZ & _).
  - apply (p_row fl32 2 p 0). intros j Hj. apply H4; lia.
  - apply H5; lia.
  - rewrite H8 in Ev by lia. apply fin_map_inj in Ev. subst vs. apply HZ; [rewrite tabulate_length; lia|]. rewrite tabulate_nth by lia. exact Ep.
Qed.

(** With an integer neighbour count the bandwidth is one of the distances. *)
Lemma nearest_support32 fexp fcube rowsum quantile D kt nc r c W k z b i j :
  faithful_exp fl32 fexp -> faithful_cube fl32 fcube ->
  valid_distances [D] r c -> (0 < r)%nat -> (Z.of_nat c <= 2 ^ 24)%Z -> sums_rows fl32 rowsum c ->
  entries (representable fl32) D ->
  weight_matrix_from_distance_fl fl32 fexp fcube rowsum quantile [D] kt DNone nc = Ok W ->
  arg_at kt 0 = Some k -> (vanishing_kernel k \/ k = "boxcar") -> arg_at nc 0 = Some (CInt z) ->
  (i < r)%nat -> (j < c)%nat -> kth_smallest (nth i D []) (Z.to_nat z) b -> 0 < b ->
  (mget NaN W i j <> Fin 0 <-> inside k b (mget 0 D i j)).
Proof.
  intros HE HC HV Hr Hc HS HRep HW Ek Hk En Hi Hj HB Hb.
  destruct (row_facts fl32 fexp fcube rounding32 HE HC rowsum quantile [D] kt DNone nc r c W HV Hr HS HW) as (ks & ps & bs & _ & _ & _ & _ & H1 & H2 & _).
  pose proof (H1 0%nat ltac:(simpl; lia)) as HQ. pose proof (H2 0%nat i ltac:(simpl; lia) Hi) as HB'.
  assert (Ep : ps 0%nat = NearestCount z) by (destruct HQ as (_ & _ & _ & _ & E); simpl in E; rewrite En in E; congruence).
  assert (Ek' : ks 0%nat = k) by (destruct HQ as (E & _); congruence).
  rewrite Ep, Ek' in *. simpl in HB'.
  apply (support32 fexp fcube HE HC rowsum quantile [D] kt DNone nc r c W HV Hr Hc HS HW k (NearestCount z) b i j eq_refl HQ Hi Hj); auto.
  - simpl. tauto.
  - assert (HIn : In b (nth i D [])) by apply HB.
    pose proof (proj2 HV) as HF. inversion HF as [|? ? [HR1 _] _]; subst.
    assert (HRow : Forall (representable fl32) (nth i D [])).
    { apply (proj1 (Forall_nth_lt _ [] _) HRep). destruct HR1 as [-> _]. exact Hi. }
    rewrite Forall_forall in HRow. auto.
Qed.
