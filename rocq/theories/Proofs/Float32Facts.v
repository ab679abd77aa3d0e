(** Binary32 satisfies the assumptions on rounded arithmetic; facts special to it. *)
From Coq Require Import ZArith Lra Psatz.
From Flocq.Core Require Import Core.
From Flocq.Prop Require Import Relative Plus_error.
From Verif.Model Require Import Base Ext Kernel KernelFloat Float32.
From Verif.Spec Require Import KernelSpec FloatSpec.
From Verif.Proofs Require Import ListFacts KernelFacts FloatFacts Float64Facts.
Open Scope string_scope.
Open Scope nat_scope.
Open Scope R_scope.

Notation fexp32 := (FLT_exp (-149) 24).
Local Instance prec24 : Prec_gt_0 24 := eq_refl.
Notation fmt32 := (generic_format radix2 fexp32).

Lemma float_max32_pos : 0 < float_max32.
Proof. unfold float_max32. apply Rmult_lt_0_compat; [apply IZR_lt; reflexivity|apply bpow_gt_0]. Qed.
Lemma bpow_max32 e : (e <= 127)%Z -> bpow radix2 e <= float_max32.
Proof.
  intros H. unfold float_max32. apply Rle_trans with (bpow radix2 (23 + 104)); [apply bpow_le; lia|].
  rewrite bpow_plus. apply Rmult_le_compat_r; [apply bpow_ge_0|]. simpl. lra.
Qed.

Lemma fl32_fin a r : fl32 a = Fin r -> r = round32 a /\ Rabs r <= float_max32.
Proof.
  unfold fl32. destruct (Rle_dec (Rabs (round32 a)) float_max32) as [H|H].
  - intros E. injection E as <-. auto.
  - destruct (Rlt_dec 0 (round32 a)); discriminate.
Qed.
Lemma repr32 r : representable fl32 r <-> fmt32 r /\ Rabs r <= float_max32.
Proof.
  split.
  - intros H. destruct (fl32_fin _ _ H) as [E M]. split; auto. rewrite E. apply generic_format_round; typeclasses eauto.
  - intros [F M]. unfold representable, fl32, round32. rewrite round_generic by (auto; typeclasses eauto).
    destruct (Rle_dec (Rabs r) float_max32); [auto|contradiction].
Qed.
Lemma repr_bpow32 e : (-149 <= e <= 127)%Z -> representable fl32 (bpow radix2 e).
Proof.
  intros H. apply repr32. split; [apply generic_format_FLT_bpow; [typeclasses eauto|lia]|].
  rewrite Rabs_pos_eq by apply bpow_ge_0. apply bpow_max32. lia.
Qed.

Lemma rounding32 : rounding fl32.
Proof.
  split; [|split; [|split; [|split]]].
  - intros a b H. assert (L : round32 a <= round32 b) by (apply round_le; auto; typeclasses eauto).
    unfold fl32. pose proof float_max32_pos. destruct (Rle_dec (Rabs (round32 a)) float_max32) as [A|A], (Rle_dec (Rabs (round32 b)) float_max32) as [B|B].
    + exact L.
    + destruct (Rlt_dec 0 (round32 b)); [exact I|]. simpl. apply B. unfold Rabs in *. repeat destruct (Rcase_abs _); lra.
    + destruct (Rlt_dec 0 (round32 a)); [|exact I]. simpl. apply A. unfold Rabs in *. repeat destruct (Rcase_abs _); lra.
    + destruct (Rlt_dec 0 (round32 a)), (Rlt_dec 0 (round32 b)); try exact I. simpl. lra.
  - intros a r H. apply repr32. destruct (fl32_fin _ _ H) as [E M]. split; auto. rewrite E. apply generic_format_round; typeclasses eauto.
  - apply repr32. split; [apply generic_format_0|]. rewrite Rabs_R0. left; apply float_max32_pos.
  - apply (repr_bpow32 0). lia.
  - intros a H. apply repr32 in H. apply repr32. destruct H as [F M]. split; [apply generic_format_opp; auto|]. rewrite Rabs_Ropp. auto.
Qed.

Lemma u_ro_eq32 : u_ro radix2 24 = bpow radix2 (-24).
Proof. unfold u_ro. rewrite bpow_plus. change (bpow radix2 1) with 2. change (- (24))%Z with (-24)%Z. lra. Qed.

Lemma accurate32 : accurate fl32 (bpow radix2 (-24)) (bpow radix2 (-150)).
Proof.
  assert (HU : 0 < bpow radix2 (-24)) by apply bpow_gt_0.
  assert (HU1 : bpow radix2 (-24) < 1) by (apply (bpow_lt radix2 (-24) 0); reflexivity).
  assert (HD : forall e, Rabs e <= bpow radix2 (-24) / (1 + bpow radix2 (-24)) -> Rabs e <= bpow radix2 (-24)).
  { intros e He. eapply Rle_trans; [exact He|]. apply Rmult_le_reg_r with (1 + bpow radix2 (-24)); [lra|]. field_simplify; [nra|lra]. }
  split; [lra|]. split; [apply bpow_ge_0|]. split.
  - intros a b s Ha Hb E. apply repr32 in Ha. apply repr32 in Hb. apply fl32_fin in E. destruct E as [E _].
    destruct (FLT_plus_error_N_ex radix2 (-149) 24 (fun x => negb (Z.even x)) a b (proj1 Ha) (proj1 Hb)) as (eps & He & Er).
    rewrite u_ro_eq32 in He. apply HD in He. unfold round32 in E. rewrite Er in E. subst s.
    replace ((a + b) * (1 + eps) - (a + b)) with (eps * (a + b)) by ring. rewrite Rabs_mult.
    apply Rmult_le_compat_r; [apply Rabs_pos|auto].
  - intros a s E. apply fl32_fin in E. destruct E as [E _].
    destruct (relative_error_N_FLT'_ex radix2 (-149) 24 ltac:(reflexivity) (fun x => negb (Z.even x)) a) as (eps & eta & He & Ht & _ & Er).
    rewrite u_ro_eq32 in He. apply HD in He. unfold round32 in E. rewrite Er in E. subst s.
    replace (a * (1 + eps) + eta - a) with (eps * a + eta) by ring.
    eapply Rle_trans; [apply Rabs_triang|]. rewrite Rabs_mult. apply Rplus_le_compat.
    + apply Rmult_le_compat_r; [apply Rabs_pos|auto].
    + eapply Rle_trans; [exact Ht|]. change (-149)%Z with (1 + -150)%Z. rewrite bpow_plus. change (bpow radix2 1) with 2. lra.
Qed.

(** The largest number below 1. *)
Definition below_one32 : R := 1 - bpow radix2 (-24).
Lemma below_one_repr32 : representable fl32 below_one32.
Proof.
  apply repr32. unfold below_one32.
  assert (E : 1 - bpow radix2 (-24) = F2R (Float radix2 (2 ^ 24 - 1) (-24))).
  { unfold F2R; cbn [Fnum Fexp]. rewrite minus_IZR. change (IZR (2 ^ 24)) with (bpow radix2 24).
    assert (bpow radix2 24 * bpow radix2 (-24) = 1) by (rewrite <- bpow_plus; reflexivity). lra. }
  split.
  - rewrite E. apply generic_format_FLT. exists (Float radix2 (2 ^ 24 - 1) (-24)); [reflexivity|reflexivity|]. simpl. lia.
  - assert (0 < bpow radix2 (-24) < 1) by (split; [apply bpow_gt_0|apply (bpow_lt radix2 (-24) 0); reflexivity]).
    rewrite Rabs_pos_eq by lra. pose proof (bpow_max32 0 ltac:(lia)). simpl in H0. simpl in *. lra.
Qed.

(** A quotient of two different numbers of the format, the smaller by the larger,
    stays away from 1. *)
Lemma quotient_below_one32 d b : representable fl32 d -> representable fl32 b -> 0 <= d < b -> d / b <= below_one32.
Proof.
  intros Hd Hb [H0 H]. apply repr32 in Hd. apply repr32 in Hb. destruct Hd as [Fd _], Hb as [Fb _].
  assert (HU : 0 < bpow radix2 (-24)) by apply bpow_gt_0.
  unfold below_one32. destruct H0 as [H0|<-].
  2:{ unfold Rdiv. rewrite Rmult_0_l. assert (bpow radix2 (-24) < 1) by (apply (bpow_lt radix2 (-24) 0); reflexivity). lra. }
  set (ed := cexp radix2 fexp32 d). set (eb := cexp radix2 fexp32 b).
  assert (HE : (ed <= eb)%Z) by (apply FLT_exp_monotone, mag_le; lra).
  assert (HM : exists m, d = IZR m * bpow radix2 ed /\ (m < 2 ^ 24)%Z).
  { exists (Ztrunc (scaled_mantissa radix2 fexp32 d)). split; [exact Fd|].
    apply lt_IZR. apply Rle_lt_trans with (Rabs (scaled_mantissa radix2 fexp32 d)).
    - rewrite <- scaled_mantissa_generic by auto. apply Rle_abs.
    - eapply Rlt_le_trans; [apply scaled_mantissa_lt_bpow|]. change (IZR (2 ^ 24)) with (bpow radix2 24).
      apply bpow_le. unfold cexp, FLT_exp. lia. }
  destruct HM as (m & Ed & Hm).
  assert (HN : exists n, b = IZR n * bpow radix2 ed).
  { exists (Ztrunc (scaled_mantissa radix2 fexp32 b) * 2 ^ (eb - ed))%Z. rewrite mult_IZR.
    replace (IZR (2 ^ (eb - ed))) with (bpow radix2 (eb - ed)).
    - rewrite Rmult_assoc, <- bpow_plus. replace (eb - ed + ed)%Z with eb by lia. exact Fb.
    - symmetry. apply (IZR_Zpower radix2). lia. }
  destruct HN as (n & Eb).
  assert (HP : 0 < bpow radix2 ed) by apply bpow_gt_0.
  assert (Hmn : (m < n)%Z). { apply lt_IZR. apply Rmult_lt_reg_r with (bpow radix2 ed); auto. rewrite <- Ed, <- Eb. auto. }
  assert (Hm0 : 0 < IZR m). { apply Rmult_lt_reg_r with (bpow radix2 ed); auto. rewrite <- Ed. lra. }
  assert (HI : IZR m <= IZR n - 1) by (rewrite <- minus_IZR; apply IZR_le; lia).
  assert (Hm5332 : IZR m + 1 <= bpow radix2 24). { change (bpow radix2 24) with (IZR (2 ^ 24)). rewrite <- plus_IZR. apply IZR_le. lia. }
  assert (EI : bpow radix2 (-24) * bpow radix2 24 = 1) by (rewrite <- bpow_plus; reflexivity).
  rewrite Ed, Eb. replace (IZR m * bpow radix2 ed / (IZR n * bpow radix2 ed)) with (IZR m / IZR n) by (field; split; lra).
  set (U := bpow radix2 (-24)) in *. set (P := bpow radix2 24) in *.
  apply Rle_trans with (IZR m / (IZR m + 1)).
  - apply Rmult_le_compat_l; [lra|]. apply Rinv_le_contravar; lra.
  - apply Rmult_le_reg_r with (IZR m + 1); [lra|]. replace (IZR m / (IZR m + 1) * (IZR m + 1)) with (IZR m) by (field; lra).
    assert (U * (IZR m + 1) <= 1) by (rewrite <- EI; apply Rmult_le_compat_l; lra). lra.
Qed.

Lemma ge_fl32 a r s : representable fl32 r -> r <= a -> fl32 a = Fin s -> r <= s.
Proof. intros H L E. pose proof (proj1 rounding32 _ _ L) as M. unfold representable in H. rewrite H, E in M. exact M. Qed.
Lemma le_fl32 a r s : representable fl32 r -> a <= r -> fl32 a = Fin s -> s <= r.
Proof. intros H L E. pose proof (proj1 rounding32 _ _ L) as M. unfold representable in H. rewrite H, E in M. exact M. Qed.

Lemma inside32_lower fexp fcube k b d w : faithful_cube fl32 fcube ->
  representable fl32 d -> representable fl32 b -> 0 <= d -> vanishing_kernel k -> d < b ->
  weighs_fl fl32 fexp fcube k b d w -> bpow radix2 (-72) <= w.
Proof.
  intros HC Rd Rb H0 Hk H HW. assert (Hk' : known_kernel k) by (unfold known_kernel; destruct Hk as [->|[->| ->]]; auto 9).
  destruct (kernel_expr_fl_known fl32 fexp fcube k Hk') as [f Hf]. apply (weighs_fl_entry fl32 fexp fcube _ _ _ _ f Hf) in HW.
  unfold kernel_entry_fl in HW. fold (norm_fl fl32 d b) in HW.
  assert (E2 : Rltb b d = false) by (apply Rltb_false; lra). rewrite E2, andb_false_r in HW.
  destruct (norm_inside fl32 rounding32 d b ltac:(lra)) as (u & Eu & Hu). rewrite Eu in HW.
  assert (HU : 0 < bpow radix2 (-24)) by apply bpow_gt_0.
  assert (HU1 : bpow radix2 (-24) < 1) by (apply (bpow_lt radix2 (-24) 0); reflexivity).
  assert (Hq : u <= below_one32).
  { unfold norm_fl, fdiv, ediv in Eu. destruct (Req_EM_T b 0); [lra|]. unfold rounded in Eu.
    destruct (fl32 (d / b)) as [r| | |] eqn:E; simpl in Eu; try discriminate.
    - injection Eu as <-. eapply le_fl32; [apply below_one_repr32| |exact E]. apply quotient_below_one32; auto; lra.
    - injection Eu as <-. unfold below_one32. assert (0 < float_max) by apply float_max_pos. lra.
    - injection Eu as <-. unfold below_one32. lra. }
  assert (OM : forall v z, v <= below_one32 -> fsub fl32 (Fin 1) (Fin v) = Fin z -> bpow radix2 (-24) <= z).
  { intros v z Hv Ez. unfold fsub, esub, eopp, eadd, rounded in Ez. eapply ge_fl32; [apply (repr_bpow32 (-24)); lia| |exact Ez]. unfold below_one32 in Hv. lra. }
  assert (HQ : 0 <= below_one32 <= 1) by (unfold below_one32; lra).
  destruct Hk as [->|[->| ->]]; inversion Hf; subst f; clear Hf.
  - specialize (OM _ _ Hq HW). pose proof (bpow_le radix2 (-72) (-24) ltac:(lia)). lra.
  - destruct (square_unit fl32 rounding32 u Hu) as (v & Ev & Hv). rewrite Ev in HW.
    destruct (one_minus fl32 rounding32 v Hv) as (z & Ez & Hz). rewrite Ez in HW.
    assert (v <= below_one32). { unfold fsquare, fmul, emul, rounded in Ev. eapply le_fl32; [apply below_one_repr32| |exact Ev]. nra. }
    specialize (OM _ _ H1 Ez). unfold fsquare, fmul, emul, rounded in HW.
    assert (bpow radix2 (-48) <= w).
    { eapply ge_fl32; [apply (repr_bpow32 (-48)); lia| |exact HW]. change (-48)%Z with (-24 + -24)%Z. rewrite bpow_plus. nra. }
    pose proof (bpow_le radix2 (-72) (-48) ltac:(lia)). lra.
  - simpl eabs in HW. rewrite Rabs_pos_eq in HW by lra. simpl fcube_ext in HW.
    destruct (HC u Hu) as (v & Ev & _ & Fv). rewrite Ev in HW.
    assert (Hv : 0 <= v <= 1) by (destruct (cube_unit fl32 fcube rounding32 HC u Hu) as (v' & Ev' & Hv'); rewrite Ev in Ev'; injection Ev' as <-; auto).
    assert (Hvq : v <= below_one32). { apply Fv; [apply below_one_repr32|]. assert (0 <= u * u <= 1) by nra. replace (u ^ 3) with (u * (u * u)) by ring. nra. }
    destruct (one_minus fl32 rounding32 v Hv) as (z & Ez & Hz). rewrite Ez in HW. simpl in HW.
    specialize (OM _ _ Hvq Ez).
    destruct (HC z Hz) as (x & Ex & _ & Fx). rewrite Ex in HW. injection HW as <-.
    { apply Fx; [apply repr_bpow32; lia|]. change (-72)%Z with (-24 + (-24 + -24))%Z. rewrite !bpow_plus.
      set (U := bpow radix2 (-24)) in *. replace (U * (U * U)) with (U ^ 3) by ring. apply pow_incr. lra. }
Qed.

Lemma inside32 fexp fcube k b d w : faithful_cube fl32 fcube ->
  representable fl32 d -> representable fl32 b -> 0 <= d -> vanishing_kernel k -> d < b ->
  weighs_fl fl32 fexp fcube k b d w -> 0 < w.
Proof.
  intros HC Rd Rb H0 Hk H HW. pose proof (inside32_lower fexp fcube k b d w HC Rd Rb H0 Hk H HW).
  pose proof (bpow_gt_0 radix2 (-72)). lra.
Qed.

Lemma exp32_faithful : faithful_exp fl32 exp32.
Proof.
  intros x Hx. destruct (fl_unit fl32 rounding32 (exp x)) as (r & E & _).
  - split; [left; apply exp_pos|]. rewrite <- exp_0. destruct Hx as [Hx| ->]; [left; apply exp_increasing; auto|lra].
  - exact (compose_faithful fl32 exp x r rounding32 E).
Qed.
Lemma cube32_faithful : faithful_cube fl32 cube32.
Proof.
  intros x Hx. destruct (fl_unit fl32 rounding32 (x ^ 3)) as (r & E & _).
  - split; [apply pow_le; lra|]. rewrite <- (pow1 3). apply pow_incr; lra.
  - exact (compose_faithful fl32 (fun t => t ^ 3) x r rounding32 E).
Qed.
Lemma exp32_increasing : increasing_on (fun t => t <= 0) exp32.
Proof. intros a b _ _ H. apply rounding32. destruct H as [H| ->]; [left; apply exp_increasing; auto|lra]. Qed.
Lemma cube32_increasing : increasing_on (fun t => 0 <= t <= 1) cube32.
Proof. intros a b Ha Hb H. apply rounding32. apply pow_incr. lra. Qed.

