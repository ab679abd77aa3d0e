(** Binary64 satisfies the assumptions on rounded arithmetic; facts special to it. *)
From Coq Require Import ZArith Lra Psatz.
From Flocq.Core Require Import Core.
From Flocq.Prop Require Import Relative Plus_error.
From Verif.Model Require Import Base Ext Kernel KernelFloat Float64.
From Verif.Spec Require Import KernelSpec FloatSpec.
From Verif.Proofs Require Import ListFacts KernelFacts FloatFacts.
Open Scope string_scope.
Open Scope nat_scope.
Open Scope R_scope.

Notation fexp64 := (FLT_exp (-1074) 53).
Local Instance prec53 : Prec_gt_0 53 := eq_refl.
Notation fmt := (generic_format radix2 fexp64).

Lemma pow_bpow n : 2 ^ n = bpow radix2 (Z.of_nat n).
Proof. rewrite bpow_powerRZ, <- pow_powerRZ. reflexivity. Qed.

Lemma float_max_eq : float_max = IZR (2 ^ 53 - 1) * bpow radix2 971.
Proof.
  unfold float_max. rewrite !pow_bpow.
  change (Z.of_nat 52) with 52%Z. change (Z.of_nat 1023) with (52 + 971)%Z. rewrite bpow_plus, minus_IZR.
  replace (IZR (2 ^ 53)) with (2 * bpow radix2 52) by (simpl; lra).
  assert (bpow radix2 52 <> 0) by (apply Rgt_not_eq, bpow_gt_0). field. auto.
Qed.
Lemma float_max_pos : 0 < float_max.
Proof. rewrite float_max_eq. apply Rmult_lt_0_compat; [apply IZR_lt; reflexivity|apply bpow_gt_0]. Qed.
Lemma bpow_max e : (e <= 1023)%Z -> bpow radix2 e <= float_max.
Proof.
  intros H. rewrite float_max_eq. apply Rle_trans with (bpow radix2 (52 + 971)); [apply bpow_le; lia|].
  rewrite bpow_plus. apply Rmult_le_compat_r; [apply bpow_ge_0|]. simpl. lra.
Qed.

Lemma fl64_fin a r : fl64 a = Fin r -> r = round64 a /\ Rabs r <= float_max.
Proof.
  unfold fl64. destruct (Rle_dec (Rabs (round64 a)) float_max) as [H|H].
  - intros E. injection E as <-. auto.
  - destruct (Rlt_dec 0 (round64 a)); discriminate.
Qed.
Lemma repr64 r : representable fl64 r <-> fmt r /\ Rabs r <= float_max.
Proof.
  split.
  - intros H. destruct (fl64_fin _ _ H) as [E M]. split; auto. rewrite E. apply generic_format_round; typeclasses eauto.
  - intros [F M]. unfold representable, fl64, round64. rewrite round_generic by (auto; typeclasses eauto).
    destruct (Rle_dec (Rabs r) float_max); [auto|contradiction].
Qed.
Lemma repr_bpow e : (-1074 <= e <= 1023)%Z -> representable fl64 (bpow radix2 e).
Proof.
  intros H. apply repr64. split; [apply generic_format_FLT_bpow; [typeclasses eauto|lia]|].
  rewrite Rabs_pos_eq by apply bpow_ge_0. apply bpow_max. lia.
Qed.

Lemma rounding64 : rounding fl64.
Proof.
  split; [|split; [|split; [|split]]].
  - intros a b H. assert (L : round64 a <= round64 b) by (apply round_le; auto; typeclasses eauto).
    unfold fl64. pose proof float_max_pos. destruct (Rle_dec (Rabs (round64 a)) float_max) as [A|A], (Rle_dec (Rabs (round64 b)) float_max) as [B|B].
    + exact L.
    + destruct (Rlt_dec 0 (round64 b)); [exact I|]. simpl. apply B. unfold Rabs in *. repeat destruct (Rcase_abs _); lra.
    + destruct (Rlt_dec 0 (round64 a)); [|exact I]. simpl. apply A. unfold Rabs in *. repeat destruct (Rcase_abs _); lra.
    + destruct (Rlt_dec 0 (round64 a)), (Rlt_dec 0 (round64 b)); try exact I. simpl. lra.
  - intros a r H. apply repr64. destruct (fl64_fin _ _ H) as [E M]. split; auto. rewrite E. apply generic_format_round; typeclasses eauto.
  - apply repr64. split; [apply generic_format_0|]. rewrite Rabs_R0. left; apply float_max_pos.
  - apply (repr_bpow 0). lia.
  - intros a H. apply repr64 in H. apply repr64. destruct H as [F M]. split; [apply generic_format_opp; auto|]. rewrite Rabs_Ropp. auto.
Qed.

Lemma u_ro_eq : u_ro radix2 53 = bpow radix2 (-53).
Proof. unfold u_ro. rewrite bpow_plus. change (bpow radix2 1) with 2. change (- (53))%Z with (-53)%Z. lra. Qed.

Lemma accurate64 : accurate fl64 (bpow radix2 (-53)) (bpow radix2 (-1075)).
Proof.
  assert (HU : 0 < bpow radix2 (-53)) by apply bpow_gt_0.
  assert (HU1 : bpow radix2 (-53) < 1) by (apply (bpow_lt radix2 (-53) 0); reflexivity).
  assert (HD : forall e, Rabs e <= bpow radix2 (-53) / (1 + bpow radix2 (-53)) -> Rabs e <= bpow radix2 (-53)).
  { intros e He. eapply Rle_trans; [exact He|]. apply Rmult_le_reg_r with (1 + bpow radix2 (-53)); [lra|]. field_simplify; [nra|lra]. }
  split; [lra|]. split; [apply bpow_ge_0|]. split.
  - intros a b s Ha Hb E. apply repr64 in Ha. apply repr64 in Hb. apply fl64_fin in E. destruct E as [E _].
    destruct (FLT_plus_error_N_ex radix2 (-1074) 53 (fun x => negb (Z.even x)) a b (proj1 Ha) (proj1 Hb)) as (eps & He & Er).
    rewrite u_ro_eq in He. apply HD in He. unfold round64 in E. rewrite Er in E. subst s.
    replace ((a + b) * (1 + eps) - (a + b)) with (eps * (a + b)) by ring. rewrite Rabs_mult.
    apply Rmult_le_compat_r; [apply Rabs_pos|auto].
  - intros a s E. apply fl64_fin in E. destruct E as [E _].
    destruct (relative_error_N_FLT'_ex radix2 (-1074) 53 ltac:(reflexivity) (fun x => negb (Z.even x)) a) as (eps & eta & He & Ht & _ & Er).
    rewrite u_ro_eq in He. apply HD in He. unfold round64 in E. rewrite Er in E. subst s.
    replace (a * (1 + eps) + eta - a) with (eps * a + eta) by ring.
    eapply Rle_trans; [apply Rabs_triang|]. rewrite Rabs_mult. apply Rplus_le_compat.
    + apply Rmult_le_compat_r; [apply Rabs_pos|auto].
    + eapply Rle_trans; [exact Ht|]. change (-1074)%Z with (1 + -1075)%Z. rewrite bpow_plus. change (bpow radix2 1) with 2. lra.
Qed.

(** The largest number below 1. *)
Definition below_one : R := 1 - bpow radix2 (-53).
Lemma below_one_repr : representable fl64 below_one.
Proof.
  apply repr64. unfold below_one.
  assert (E : 1 - bpow radix2 (-53) = F2R (Float radix2 (2 ^ 53 - 1) (-53))).
  { unfold F2R; cbn [Fnum Fexp]. rewrite minus_IZR. change (IZR (2 ^ 53)) with (bpow radix2 53).
    assert (bpow radix2 53 * bpow radix2 (-53) = 1) by (rewrite <- bpow_plus; reflexivity). lra. }
  split.
  - rewrite E. apply generic_format_FLT. exists (Float radix2 (2 ^ 53 - 1) (-53)); [reflexivity|reflexivity|]. simpl. lia.
  - assert (0 < bpow radix2 (-53) < 1) by (split; [apply bpow_gt_0|apply (bpow_lt radix2 (-53) 0); reflexivity]).
    rewrite Rabs_pos_eq by lra. pose proof (bpow_max 0 ltac:(lia)). simpl in H0. simpl in *. lra.
Qed.

(** A quotient of two different numbers of the format, the smaller by the larger,
    stays away from 1. *)
Lemma quotient_below_one d b : representable fl64 d -> representable fl64 b -> 0 <= d < b -> d / b <= below_one.
Proof.
  intros Hd Hb [H0 H]. apply repr64 in Hd. apply repr64 in Hb. destruct Hd as [Fd _], Hb as [Fb _].
  assert (HU : 0 < bpow radix2 (-53)) by apply bpow_gt_0.
  unfold below_one. destruct H0 as [H0|<-].
  2:{ unfold Rdiv. rewrite Rmult_0_l. assert (bpow radix2 (-53) < 1) by (apply (bpow_lt radix2 (-53) 0); reflexivity). lra. }
  set (ed := cexp radix2 fexp64 d). set (eb := cexp radix2 fexp64 b).
  assert (HE : (ed <= eb)%Z) by (apply FLT_exp_monotone, mag_le; lra).
  assert (HM : exists m, d = IZR m * bpow radix2 ed /\ (m < 2 ^ 53)%Z).
  { exists (Ztrunc (scaled_mantissa radix2 fexp64 d)). split; [exact Fd|].
    apply lt_IZR. apply Rle_lt_trans with (Rabs (scaled_mantissa radix2 fexp64 d)).
    - rewrite <- scaled_mantissa_generic by auto. apply Rle_abs.
    - eapply Rlt_le_trans; [apply scaled_mantissa_lt_bpow|]. change (IZR (2 ^ 53)) with (bpow radix2 53).
      apply bpow_le. unfold cexp, FLT_exp. lia. }
  destruct HM as (m & Ed & Hm).
  assert (HN : exists n, b = IZR n * bpow radix2 ed).
  { exists (Ztrunc (scaled_mantissa radix2 fexp64 b) * 2 ^ (eb - ed))%Z. rewrite mult_IZR.
    replace (IZR (2 ^ (eb - ed))) with (bpow radix2 (eb - ed)).
    - rewrite Rmult_assoc, <- bpow_plus. replace (eb - ed + ed)%Z with eb by lia. exact Fb.
    - symmetry. apply (IZR_Zpower radix2). lia. }
  destruct HN as (n & Eb).
  assert (HP : 0 < bpow radix2 ed) by apply bpow_gt_0.
  assert (Hmn : (m < n)%Z). { apply lt_IZR. apply Rmult_lt_reg_r with (bpow radix2 ed); auto. rewrite <- Ed, <- Eb. auto. }
  assert (Hm0 : 0 < IZR m). { apply Rmult_lt_reg_r with (bpow radix2 ed); auto. rewrite <- Ed. lra. }
  assert (HI : IZR m <= IZR n - 1) by (rewrite <- minus_IZR; apply IZR_le; lia).
  assert (Hm53 : IZR m + 1 <= bpow radix2 53). { change (bpow radix2 53) with (IZR (2 ^ 53)). rewrite <- plus_IZR. apply IZR_le. lia. }
  assert (EI : bpow radix2 (-53) * bpow radix2 53 = 1) by (rewrite <- bpow_plus; reflexivity).
  rewrite Ed, Eb. replace (IZR m * bpow radix2 ed / (IZR n * bpow radix2 ed)) with (IZR m / IZR n) by (field; split; lra).
  set (U := bpow radix2 (-53)) in *. set (P := bpow radix2 53) in *.
  apply Rle_trans with (IZR m / (IZR m + 1)).
  - apply Rmult_le_compat_l; [lra|]. apply Rinv_le_contravar; lra.
  - apply Rmult_le_reg_r with (IZR m + 1); [lra|]. replace (IZR m / (IZR m + 1) * (IZR m + 1)) with (IZR m) by (field; lra).
    assert (U * (IZR m + 1) <= 1) by (rewrite <- EI; apply Rmult_le_compat_l; lra). lra.
Qed.

Lemma ge_fl64 a r s : representable fl64 r -> r <= a -> fl64 a = Fin s -> r <= s.
Proof. intros H L E. pose proof (proj1 rounding64 _ _ L) as M. unfold representable in H. rewrite H, E in M. exact M. Qed.
Lemma le_fl64 a r s : representable fl64 r -> a <= r -> fl64 a = Fin s -> s <= r.
Proof. intros H L E. pose proof (proj1 rounding64 _ _ L) as M. unfold representable in H. rewrite H, E in M. exact M. Qed.

Lemma inside64 fexp fcube k b d w : faithful_cube fl64 fcube ->
  representable fl64 d -> representable fl64 b -> 0 <= d -> vanishing_kernel k -> d < b ->
  weighs_fl fl64 fexp fcube k b d w -> 0 < w.
Proof.
  intros HC Rd Rb H0 Hk H HW. assert (Hk' : known_kernel k) by (unfold known_kernel; destruct Hk as [->|[->| ->]]; auto 9).
  destruct (kernel_expr_fl_known fl64 fexp fcube k Hk') as [f Hf]. apply (weighs_fl_entry fl64 fexp fcube _ _ _ _ f Hf) in HW.
  unfold kernel_entry_fl in HW. fold (norm_fl fl64 d b) in HW.
  assert (E2 : Rltb b d = false) by (apply Rltb_false; lra). rewrite E2, andb_false_r in HW.
  destruct (norm_inside fl64 rounding64 d b ltac:(lra)) as (u & Eu & Hu). rewrite Eu in HW.
  assert (HU : 0 < bpow radix2 (-53)) by apply bpow_gt_0.
  assert (HU1 : bpow radix2 (-53) < 1) by (apply (bpow_lt radix2 (-53) 0); reflexivity).
  assert (Hq : u <= below_one).
  { unfold norm_fl, fdiv, ediv in Eu. destruct (Req_EM_T b 0); [lra|]. unfold rounded in Eu.
    destruct (fl64 (d / b)) as [r| | |] eqn:E; simpl in Eu; try discriminate.
    - injection Eu as <-. eapply le_fl64; [apply below_one_repr| |exact E]. apply quotient_below_one; auto; lra.
    - injection Eu as <-. unfold below_one. assert (0 < float_max) by apply float_max_pos. lra.
    - injection Eu as <-. unfold below_one. lra. }
  assert (OM : forall v z, v <= below_one -> fsub fl64 (Fin 1) (Fin v) = Fin z -> bpow radix2 (-53) <= z).
  { intros v z Hv Ez. unfold fsub, esub, eopp, eadd, rounded in Ez. eapply ge_fl64; [apply (repr_bpow (-53)); lia| |exact Ez]. unfold below_one in Hv. lra. }
  assert (HQ : 0 <= below_one <= 1) by (unfold below_one; lra).
  destruct Hk as [->|[->| ->]]; inversion Hf; subst f; clear Hf.
  - specialize (OM _ _ Hq HW). lra.
  - destruct (square_unit fl64 rounding64 u Hu) as (v & Ev & Hv). rewrite Ev in HW.
    destruct (one_minus fl64 rounding64 v Hv) as (z & Ez & Hz). rewrite Ez in HW.
    assert (v <= below_one). { unfold fsquare, fmul, emul, rounded in Ev. eapply le_fl64; [apply below_one_repr| |exact Ev]. nra. }
    specialize (OM _ _ H1 Ez). unfold fsquare, fmul, emul, rounded in HW.
    assert (bpow radix2 (-106) <= w).
    { eapply ge_fl64; [apply (repr_bpow (-106)); lia| |exact HW]. change (-106)%Z with (-53 + -53)%Z. rewrite bpow_plus. nra. }
    pose proof (bpow_gt_0 radix2 (-106)). lra.
  - simpl eabs in HW. rewrite Rabs_pos_eq in HW by lra. simpl fcube_ext in HW.
    destruct (HC u Hu) as (v & Ev & _ & Fv). rewrite Ev in HW.
    assert (Hv : 0 <= v <= 1) by (destruct (cube_unit fl64 fcube rounding64 HC u Hu) as (v' & Ev' & Hv'); rewrite Ev in Ev'; injection Ev' as <-; auto).
    assert (Hvq : v <= below_one). { apply Fv; [apply below_one_repr|]. assert (0 <= u * u <= 1) by nra. replace (u ^ 3) with (u * (u * u)) by ring. nra. }
    destruct (one_minus fl64 rounding64 v Hv) as (z & Ez & Hz). rewrite Ez in HW. simpl in HW.
    specialize (OM _ _ Hvq Ez).
    destruct (HC z Hz) as (x & Ex & _ & Fx). rewrite Ex in HW. injection HW as <-.
    assert (bpow radix2 (-159) <= x).
    { apply Fx; [apply repr_bpow; lia|]. change (-159)%Z with (-53 + (-53 + -53))%Z. rewrite !bpow_plus.
      set (U := bpow radix2 (-53)) in *. replace (U * (U * U)) with (U ^ 3) by ring. apply pow_incr. lra. }
    pose proof (bpow_gt_0 radix2 (-159)). lra.
Qed.

Lemma compose_faithful fl f x r : rounding fl -> fl (f x) = Fin r -> faithful fl f (fun t => fl (f t)) x.
Proof.
  intros HR E. exists r. split; [exact E|]. split; [apply (proj1 (proj2 HR) _ _ E)|].
  intros a Ha. unfold representable in Ha. split; intros L; pose proof (proj1 HR _ _ L) as M; rewrite Ha, E in M; exact M.
Qed.
Lemma exp64_faithful : faithful_exp fl64 exp64.
Proof.
  intros x Hx. destruct (fl_unit fl64 rounding64 (exp x)) as (r & E & _).
  - split; [left; apply exp_pos|]. rewrite <- exp_0. destruct Hx as [Hx| ->]; [left; apply exp_increasing; auto|lra].
  - exact (compose_faithful fl64 exp x r rounding64 E).
Qed.
Lemma cube64_faithful : faithful_cube fl64 cube64.
Proof.
  intros x Hx. destruct (fl_unit fl64 rounding64 (x ^ 3)) as (r & E & _).
  - split; [apply pow_le; lra|]. rewrite <- (pow1 3). apply pow_incr; lra.
  - exact (compose_faithful fl64 (fun t => t ^ 3) x r rounding64 E).
Qed.
Lemma exp64_increasing : increasing_on (fun t => t <= 0) exp64.
Proof. intros a b _ _ H. apply rounding64. destruct H as [H| ->]; [left; apply exp_increasing; auto|lra]. Qed.
Lemma cube64_increasing : increasing_on (fun t => 0 <= t <= 1) cube64.
Proof. intros a b Ha Hb H. apply rounding64. apply pow_incr. lra. Qed.

(** Underflow of the smooth kernels. *)
Lemma repr_int z : (Z.abs z < 2 ^ 53)%Z -> representable fl64 (IZR z).
Proof.
  intros H. apply repr64. split.
  - apply generic_format_FLT. exists (Float radix2 z 0); [unfold F2R; simpl; ring|exact H|simpl; lia].
  - rewrite <- abs_IZR. eapply Rle_trans; [|apply (bpow_max 53); lia]. change (bpow radix2 53) with (IZR (2 ^ 53)). apply IZR_le. lia.
Qed.
Lemma exp_underflow : fl64 (exp (-1250)) = Fin 0.
Proof.
  assert (HB : exp (-1250) < bpow radix2 (-1250)).
  { assert (E : exp (-1250) = / (exp 1) ^ 1250).
    { replace (-1250) with (- (1250)) by lra. rewrite exp_Ropp. f_equal. replace 1250 with (INR 1250 * 1) by (rewrite INR_IZR_INZ; simpl; ring). rewrite <- Rpower_pow by apply exp_pos. unfold Rpower. rewrite ln_exp. reflexivity. }
    rewrite E. change (-1250)%Z with (- Z.of_nat 1250)%Z. rewrite bpow_opp, <- pow_bpow.
    apply Rinv_lt_contravar; [apply Rmult_lt_0_compat; apply pow_lt; [lra|apply exp_pos]|].
    assert (2 < exp 1) by (pose proof (exp_ineq1 1); lra).
    assert (HP : forall n, (0 < n)%nat -> 2 ^ n < exp 1 ^ n).
    { induction n as [|n IH]; [lia|intros _]. destruct n; [simpl; lra|]. specialize (IH ltac:(lia)).
      change (2 * 2 ^ S n < exp 1 * exp 1 ^ S n). assert (0 < 2 ^ S n) by (apply pow_lt; lra). nra. }
    apply HP. lia. }
  pose proof (exp_pos (-1250)) as HP.
  assert (E : round64 (exp (-1250)) = 0).
  { unfold round64. apply (round_N_small_pos radix2 _ _ _ (mag radix2 (exp (-1250)))).
    - pose proof (bpow_mag_le radix2 (exp (-1250)) ltac:(lra)). pose proof (bpow_mag_gt radix2 (exp (-1250))).
      rewrite Rabs_pos_eq in * by lra. auto.
    - assert (mag radix2 (exp (-1250)) <= -1250)%Z by (apply mag_le_bpow; [lra|rewrite Rabs_pos_eq by lra; auto]).
      unfold FLT_exp. lia. }
  unfold fl64. rewrite E, Rabs_R0. destruct (Rle_dec 0 float_max); [reflexivity|]. pose proof float_max_pos. lra.
Qed.

Lemma smooth_underflow k : smooth_kernel k -> exists b d, representable fl64 b /\ representable fl64 d /\ 0 < b /\ 0 <= d /\
  weighs_fl fl64 exp64 cube64 k b d 0.
Proof.
  assert (H1 : representable fl64 1) by (apply (repr_int 1); reflexivity).
  assert (HM : fl64 (-1250) = Fin (-1250)) by (apply (repr_int (-1250)); reflexivity).
  assert (HH : fmul fl64 (Fin (-0.5)) (Fin 2500) = Fin (-1250)).
  { unfold fmul, emul, rounded. replace (-0.5 * 2500) with (-1250) by lra. exact HM. }
  assert (HN : forall z, (Z.abs z < 2 ^ 53)%Z -> norm_fl fl64 (IZR z) 1 = Fin (IZR z)).
  { intros z Hz. unfold norm_fl, fdiv, ediv. destruct (Req_EM_T 1 0); [lra|]. unfold rounded. replace (IZR z / 1) with (IZR z) by field.
    pose proof (repr_int z Hz) as E. unfold representable in E. rewrite E. reflexivity. }
  intros [-> | ->].
  - exists 1, 50. split; [auto|]. split; [apply (repr_int 50); reflexivity|]. split; [lra|]. split; [lra|].
    apply (weighs_fl_entry fl64 exp64 cube64 "gaussian" 1 50 0 _ eq_refl). unfold kernel_entry_fl. fold (norm_fl fl64 50 1).
    rewrite (HN 50%Z ltac:(reflexivity)). cbn [compact_kernel existsb String.eqb Ascii.eqb Bool.eqb orb andb].
    replace (fsquare fl64 (Fin 50)) with (Fin 2500).
    + rewrite HH. exact exp_underflow.
    + unfold fsquare, fmul, emul, rounded. replace (50 * 50) with 2500 by lra. symmetry. apply (repr_int 2500). reflexivity.
  - exists 1, 2500. split; [auto|]. split; [apply (repr_int 2500); reflexivity|]. split; [lra|]. split; [lra|].
    apply (weighs_fl_entry fl64 exp64 cube64 "exponential" 1 2500 0 _ eq_refl). unfold kernel_entry_fl. fold (norm_fl fl64 2500 1).
    rewrite (HN 2500%Z ltac:(reflexivity)). cbn [compact_kernel existsb String.eqb Ascii.eqb Bool.eqb orb andb].
    simpl eabs. rewrite Rabs_pos_eq by lra. rewrite HH. exact exp_underflow.
Qed.
Lemma below_one_bounds : 0 <= below_one < 1.
Proof.
  unfold below_one. pose proof (bpow_gt_0 radix2 (-53)). assert (bpow radix2 (-53) < 1) by (apply (bpow_lt radix2 (-53) 0); reflexivity). lra.
Qed.
