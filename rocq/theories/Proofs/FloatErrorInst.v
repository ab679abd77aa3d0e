(** The error bound for single and double precision; a row it does not cover; an example. *)
From Coq Require Import Lra Psatz ZArith.
From Flocq.Core Require Import Core.
From Verif.Model Require Import Base Ext Sort Kernel Distance WeightMatrix KernelFloat WeightFloat Float64 Float32.
From Verif.Spec Require Import KernelSpec WeightSpec FloatSpec WeightFloatSpec FloatErrorSpec.
From Verif.Proofs Require Import ListFacts KernelFacts SortFacts AdaptiveFacts KernelProps KernelExamples SumFacts CsrFacts WeightFacts WeightProps FloatFacts Float64Facts FloatNorm Float32Facts WeightFloatFacts WeightFloatProps WeightFloatThms WeightFloatExamples FloatError FloatErrorMatrix.
Open Scope string_scope.
Open Scope nat_scope.
Open Scope R_scope.

Lemma wide_of fl a b m : rounding fl -> (b <= a)%Z -> (a <= -6)%Z -> representable fl (bpow radix2 m) -> (2 - 2 * a <= m)%Z -> wide fl (bpow radix2 a + bpow radix2 b).
Proof.
  intros HR Hab Ha Hm Hle. pose proof (bpow_gt_0 radix2 a) as Pa. pose proof (bpow_gt_0 radix2 b) as Pb.
  assert (L1 : bpow radix2 b <= bpow radix2 a) by (apply bpow_le; auto).
  assert (L2 : bpow radix2 a <= 1 / 64). { apply Rle_trans with (bpow radix2 (-6)); [apply bpow_le; auto|]. simpl. lra. }
  split; [split; lra|]. intros z Hz.
  assert (Z1 : z <= bpow radix2 m).
  { apply Rle_trans with (4 / bpow radix2 a ^ 2).
    - eapply Rle_trans; [apply Hz|]. apply Rmult_le_compat_l; [lra|]. apply Rinv_le_contravar; [apply pow_lt; lra|]. apply pow_incr. lra.
    - apply Rle_trans with (bpow radix2 (2 - 2 * a)); [|apply bpow_le; auto].
      right. replace (2 - 2 * a)%Z with (2 + (- a + - a))%Z by lia. rewrite !bpow_plus, bpow_opp. change (bpow radix2 2) with 4. field. lra. }
  pose proof (proj1 HR 0 z (proj1 Hz)) as M0. pose proof (proj1 HR z _ Z1) as M1.
  assert (F0 : fl 0 = Fin 0) by apply HR. unfold representable in Hm. rewrite F0 in M0. rewrite Hm in M1.
  destruct (fl z) as [q| | |]; simpl in *; try contradiction. eauto.
Qed.
Lemma wide64 : wide fl64 (bpow radix2 (-53) + bpow radix2 (-1075)).
Proof. apply (wide_of fl64 (-53) (-1075) 108 rounding64); try lia. apply repr_bpow. lia. Qed.
Lemma wide32 : wide fl32 (bpow radix2 (-24) + bpow radix2 (-150)).
Proof. apply (wide_of fl32 (-24) (-150) 50 rounding32); try lia. apply repr_bpow32. lia. Qed.

(** One new location, one far training point: the exact weight is 1, the computed one 0. *)
Lemma far_row : exists d W W',
  valid_distances [[[d]]] 1 1 /\
  weight_matrix_from_distance [A2 [[d]]] (DScal "gaussian") RNone (DScal 1) DNone = Ok W /\ mget NaN W 0 0 = Fin 1 /\
  weight_matrix_from_distance_fl fl64 exp64 cube64 (left_to_right fl64) exact_quantile [[[d]]] (DScal "gaussian") (DScal 1) DNone = Ok W' /\
  mget NaN W' 0 0 = Fin 0.
Proof.
  exists 50.
  assert (HV : valid_distances [[[50]]] 1 1).
  { split; [discriminate|]. constructor; [|constructor]. split; [split; [reflexivity|repeat constructor]|]. constructor; [|constructor]. constructor; [lra|constructor]. }
  assert (HK : weighs_fl fl64 exp64 cube64 "gaussian" 1 50 0).
  { apply (weighs_fl_entry fl64 exp64 cube64 "gaussian" 1 50 0 _ eq_refl). unfold kernel_entry_fl.
    unfold fdiv, ediv. destruct (Req_EM_T 1 0); [lra|]. unfold rounded. replace (50 / 1) with 50 by field.
    pose proof (repr_int 50 ltac:(reflexivity)) as E. unfold representable in E. rewrite E. cbn [nan_to_num compact_kernel existsb String.eqb Ascii.eqb Bool.eqb orb andb].
    replace (fsquare fl64 (Fin 50)) with (Fin 2500).
    - unfold fmul, emul, rounded. replace (-0.5 * 2500) with (-1250) by lra.
      pose proof (repr_int (-1250) ltac:(reflexivity)) as E2. unfold representable in E2. rewrite E2. exact exp_underflow.
    - unfold fsquare, fmul, emul, rounded. replace (50 * 50) with 2500 by lra. symmetry. apply (repr_int 2500). reflexivity. }
  set (w := kernel_value "gaussian" 1 50).
  assert (Hk : known_kernel "gaussian") by (unfold known_kernel; auto 9).
  assert (Hw : 0 < w). { unfold w, kernel_value. cbn. destruct (Req_EM_T 1 0); [lra|apply exp_pos]. }
  exists [[Fin 1]], [[Fin 0]]. split; [exact HV|]. split; [|split; [reflexivity|split; [|reflexivity]]].
  - apply (wm_complete [[[50]]] (DScal "gaussian") (DScal 1) DNone 1 1 (fun _ _ _ => w) [[Fin 1]] HV ltac:(lia) eq_refl).
    + intros dim Hd. simpl in Hd. assert (dim = 0%nat) as -> by lia. exists "gaussian", (FixedBandwidth 1), [1].
      split; [repeat split; simpl; auto|]. split; [reflexivity|]. split.
      * intros i Hi. assert (i = 0%nat) as -> by lia. reflexivity.
      * intros i j Hi Hj. assert (i = 0%nat) as -> by lia. assert (j = 0%nat) as -> by lia. reflexivity.
    + clearbody w. cbn. unfold safe_div. destruct (Req_EM_T (w * 1 + 0) 0); [lra|].
      replace (w * 1 / (w * 1 + 0)) with 1 by (field; lra). reflexivity.
  - unfold weight_matrix_from_distance_fl. cbn [map one_shape forallb negb is_none andb]. cbv zeta.
    cbn [List.length broadcast_arg repeat seq mapM getitem nth_error bind weight_by_distance_fl kernel_name].
    unfold weighs_fl in HK. rewrite HK. cbn [bind prod_fl fold_left map left_to_right]. unfold normalise_row_fl, eis_zero.
    replace (Reqb 0 0) with true by (unfold Reqb; destruct (Req_EM_T 0 0); [reflexivity|lra]).
    cbn [map]. unfold fdiv, ediv. destruct (Req_EM_T 1 0); [lra|]. cbn [rounded]. replace (0 / 1) with 0 by lra.
    replace (fl64 0) with (Fin 0) by (symmetry; apply rounding64). reflexivity.
Qed.

Lemma fx_exact : weight_matrix_from_distance [A2 fx_D] (DScal "linear") RNone (DScal 2) DNone = Ok fx_W.
Proof.
  apply (wm_complete [fx_D] (DScal "linear") (DScal 2) DNone 1 4 (fun _ _ j => nth j [1; 1/2; 1/2; 0] 0) fx_W fx_valid ltac:(lia) eq_refl).
  - intros dim Hd. simpl in Hd. assert (dim = 0%nat) as -> by lia. exists "linear", (FixedBandwidth 2), [2].
    split; [repeat split; simpl; unfold known_kernel; auto|]. split; [reflexivity|]. split.
    + intros i Hi. assert (i = 0%nat) as -> by lia. reflexivity.
    + intros i j Hi Hj. assert (i = 0%nat) as -> by lia. unfold mget, fx_D, kernel_value. cbn [nth].
      destruct j as [|[|[|[|j]]]]; try lia; cbn; repeat destruct Req_EM_T; repeat destruct Rle_dec; lra.
  - unfold fx_W. cbn. unfold safe_div. destruct (Req_EM_T _ 0) as [E|_]; [lra|]. repeat (f_equal; try lra).
Qed.

Lemma example_small : 21 * (INR (length [fx_D]) * INR 4) * (bpow radix2 (-24) + bpow radix2 (-150)) <= 1.
Proof.
  assert (bpow radix2 (-150) <= bpow radix2 (-24)) by (apply bpow_le; lia).
  assert (bpow radix2 (-24) <= bpow radix2 (-8)) by (apply bpow_le; lia). simpl in *. lra.
Qed.
