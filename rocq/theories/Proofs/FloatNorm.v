(** Rounded products, row sums and normalisation. *)
From Coq Require Import Lra Psatz Permutation.
From Verif.Model Require Import Base Ext Kernel KernelFloat.
From Verif.Spec Require Import KernelSpec FloatSpec.
From Verif.Proofs Require Import ListFacts SumFacts KernelFacts FloatFacts.
Open Scope string_scope.
Open Scope nat_scope.
Open Scope R_scope.

Lemma Rabs_le_inv x y : Rabs x <= y -> - y <= x <= y.
Proof. unfold Rabs. destruct (Rcase_abs x); lra. Qed.

Section Norm.
  Variable fl fexp fcube : R -> ext.
  Hypothesis HR : rounding fl.
  Hypothesis HE : faithful_exp fl fexp.
  Hypothesis HC : faithful_cube fl fcube.
  Let mono : forall a b, a <= b -> ele (fl a) (fl b) := proj1 HR.
  Let fl0 : fl 0 = Fin 0. Proof. apply HR. Qed.
  Let fl1 : fl 1 = Fin 1. Proof. apply HR. Qed.
  Let onto a r : fl a = Fin r -> representable fl r. Proof. apply HR. Qed.

  Lemma rounded_repr x w : rounded fl x = Fin w -> representable fl w.
  Proof. destruct x; simpl; intros H; try discriminate. eapply onto; eauto. Qed.
  Lemma fexp_repr x w : x = NInf \/ (exists r, x = Fin r /\ r <= 0) -> fexp_ext fexp x = Fin w -> representable fl w.
  Proof.
    intros [-> | (r & -> & Hr)] H.
    - simpl in H. injection H as <-. exact fl0.
    - simpl in H. destruct (HE r Hr) as (z & E & Rz & _). rewrite E in H. injection H as <-. auto.
  Qed.

  Lemma entry_repr k f d b w : known_kernel k -> kernel_expr_fl fl fexp fcube k = Some f -> 0 <= d ->
    kernel_entry_fl fl k f d b = Fin w -> representable fl w.
  Proof.
    intros Hk Hf Hd. unfold kernel_entry_fl. fold (norm_fl fl d b).
    destruct (compact_kernel k && Rltb b d)%bool eqn:EC; [intros H; injection H as <-; exact fl0|].
    kcases Hk; inversion Hf; subst f; clear Hf; intros H.
    - eapply rounded_repr; exact H.
    - injection H as <-. exact fl1.
    - eapply fexp_repr; [|exact H]. apply (half_neg fl HR). apply (square_nonneg fl HR). apply norm_not_nan.
    - eapply fexp_repr; [|exact H]. apply (half_neg fl HR). apply abs_nonneg. apply norm_not_nan.
    - injection H as <-. exact fl1.
    - eapply rounded_repr; exact H.
    - assert (Hle : d <= b) by (simpl in EC; apply Rltb_false in EC; lra).
      destruct (norm_inside fl HR d b ltac:(lra)) as (u & Eu & Hu). rewrite Eu in H. simpl eabs in H.
      rewrite Rabs_pos_eq in H by lra. simpl fcube_ext in H.
      destruct (cube_unit fl fcube HR HC u Hu) as (v & Ev & Hv). rewrite Ev in H.
      destruct (one_minus fl HR v Hv) as (z & Ez & Hz). rewrite Ez in H. simpl in H.
      destruct (HC z Hz) as (x & Ex & Rx & _). rewrite Ex in H. injection H as <-. auto.
  Qed.

  Lemma kernel_function_fl_entry D bw k W i j w : known_kernel k -> entries (Rle 0) D ->
    kernel_function_fl fl fexp fcube D bw k = Ok W -> (i < length W)%nat -> (j < length (nth i W []))%nat ->
    nth j (nth i W []) NaN = Fin w -> representable fl w.
  Proof.
    intros Hk HD E Hi Hj Hw. destruct (kernel_expr_fl_known fl fexp fcube k Hk) as [f Hf].
    unfold kernel_function_fl in E. rewrite Hf in E. destruct (bandwidth_rows (nrows D) bw) as [bs|]; [|discriminate]. cbn [bind] in E.
    injection E as <-.
    assert (HI : In (nth i (map2 (fun row b => map (fun d => kernel_entry_fl fl k f d b) row) D bs) []) (map2 (fun row b => map (fun d => kernel_entry_fl fl k f d b) row) D bs)) by (apply nth_In; auto).
    set (R := nth i _ _) in *. assert (HJ : In (nth j R NaN) R) by (apply nth_In; auto). rewrite Hw in HJ. clearbody R.
    clear - HI HJ Hk HD Hf HR HE HC fl0 fl1 onto mono. revert bs HI. induction D as [|row D IH]; intros [|b bs] HI; simpl in HI; try contradiction.
    inversion HD; subst. destruct HI as [E|HI]; [|eapply IH; eauto].
    rewrite <- E in HJ. apply in_map_iff in HJ. destruct HJ as (d & Ed & Hd). eapply entry_repr; eauto.
    rewrite Forall_forall in H1. auto.
  Qed.

  (** Products over the dimensions. *)
  Lemma product_from ws : Forall (fun w => 0 <= w <= 1 /\ representable fl w) ws ->
    forall a, 0 <= a <= 1 -> representable fl a ->
    exists p, fold_left (fmul fl) (map Fin ws) (Fin a) = Fin p /\ 0 <= p <= 1 /\ representable fl p /\
      p <= a /\ (forall w, In w ws -> p <= w) /\ (a = 1 -> (forall w, In w ws -> w = 1) -> p = 1).
  Proof.
    induction 1 as [|w ws [Hw Rw] HF IH]; intros a Ha Ra; simpl.
    - exists a. repeat split; auto; try lra. intros w [].
    - destruct (fl_unit fl HR (a * w)) as (q & Eq & Hq); [nra|].
      change (fmul fl (Fin a) (Fin w)) with (fl (a * w)). rewrite Eq.
      assert (Qa : q <= a). { pose proof (mono (a * w) a ltac:(nra)) as M. unfold representable in Ra. rewrite Eq, Ra in M. exact M. }
      assert (Qw : q <= w). { pose proof (mono (a * w) w ltac:(nra)) as M. unfold representable in Rw. rewrite Eq, Rw in M. exact M. }
      destruct (IH q Hq (onto _ _ Eq)) as (p & Ep & Hp & Rp & Pq & Pw & P1). exists p. rewrite Ep.
      split; [auto|]. split; [auto|]. split; [auto|]. split; [lra|]. split.
      + intros v [<-|Hv]; [lra|auto].
      + intros Ea E1. apply P1; [|auto]. assert (w = 1) by auto. subst. rewrite Rmult_1_l, fl1 in Eq. congruence.
  Qed.

  Lemma product_unit ws : Forall (fun w => 0 <= w <= 1 /\ representable fl w) ws ->
    exists p, product_fl fl (map Fin ws) = Fin p /\ 0 <= p <= 1 /\ representable fl p /\
      (forall w, In w ws -> p <= w) /\ ((forall w, In w ws -> w = 1) -> p = 1).
  Proof.
    intros H. destruct (product_from ws H 1 ltac:(lra) fl1) as (p & E & Hp & Rp & _ & Pw & P1). exists p. repeat split; auto; lra.
  Qed.

  (** Row sums. *)
  Lemma float_sum_props l s : float_sum fl l s -> Forall (fun w => 0 <= w /\ representable fl w) l ->
    0 <= s /\ representable fl s /\ (forall w, In w l -> w <= s) /\ (s = 0 -> forall w, In w l -> w = 0).
  Proof.
    intros HS. induction HS as [|x|l l1 l2 a b s HP H1 IH1 H2 IH2 E]; intros HF.
    - split; [lra|]. split; [exact fl0|]. split; intros; contradiction.
    - inversion HF; subst. destruct H1. split; [auto|]. split; [auto|]. split; [intros w [<-|[]]; lra|intros -> w [<-|[]]; auto].
    - assert (HF' : Forall (fun w => 0 <= w /\ representable fl w) (l1 ++ l2)).
      { apply Forall_forall. intros w Hw. rewrite Forall_forall in HF. apply HF. apply (Permutation_in w (Permutation_sym HP)). auto. }
      apply Forall_app in HF'. destruct HF' as [F1 F2].
      destruct (IH1 F1) as (A0 & AR & AM & AZ). destruct (IH2 F2) as (B0 & BR & BM & BZ).
      assert (a <= s). { pose proof (mono a (a + b) ltac:(lra)) as M. unfold representable in AR. rewrite AR, E in M. exact M. }
      assert (b <= s). { pose proof (mono b (a + b) ltac:(lra)) as M. unfold representable in BR. rewrite BR, E in M. exact M. }
      split; [lra|]. split; [eapply onto; eauto|]. split.
      + intros w Hw. apply (Permutation_in w HP), in_app_or in Hw. destruct Hw as [Hw|Hw]; [specialize (AM w Hw)|specialize (BM w Hw)]; lra.
      + intros Hs w Hw. apply (Permutation_in w HP), in_app_or in Hw. destruct Hw as [Hw|Hw]; [apply AZ|apply BZ]; auto; lra.
  Qed.

  Lemma Rsum_perm l l' : Permutation l l' -> Rsum l = Rsum l'.
  Proof. induction 1; simpl in *; unfold Rsum in *; simpl in *; lra. Qed.
  Lemma Rsum_app' l l' : Rsum (l ++ l') = Rsum l + Rsum l'.
  Proof. unfold Rsum. induction l; simpl; lra. Qed.
  Lemma Rsum_nonneg' l : Forall (Rle 0) l -> 0 <= Rsum l.
  Proof. unfold Rsum. induction 1; simpl; lra. Qed.

  Section Accuracy.
    Variable u eta : R.
    Hypothesis HA : accurate fl u eta.
    Let Hu : 0 <= u < 1. Proof. apply HA. Qed.

    Lemma pow_lo m n : (m <= n)%nat -> (1 - u) ^ n <= (1 - u) ^ m.
    Proof.
      intros H. replace n with (m + (n - m))%nat by lia. rewrite pow_add.
      assert (0 <= (1 - u) ^ m) by (apply pow_le; lra).
      assert ((1 - u) ^ (n - m) <= 1) by (eapply Rle_trans; [apply pow_incr with (y := 1); lra|rewrite pow1; lra]). nra.
    Qed.
    Lemma pow_hi m n : (m <= n)%nat -> (1 + u) ^ m <= (1 + u) ^ n.
    Proof. intros H. apply Rle_pow; [lra|auto]. Qed.

    (** Any grouping and order of [n >= 1] non-negative numbers: at most [n - 1] roundings each. *)
    Lemma float_sum_error l s : float_sum fl l s -> Forall (fun w => 0 <= w /\ representable fl w) l ->
      Rsum l * (1 - u) ^ (length l - 1) <= s <= Rsum l * (1 + u) ^ (length l - 1).
    Proof.
      intros HS. induction HS as [|x|l l1 l2 a b s HP H1 IH1 H2 IH2 E]; intros HF.
      - simpl. lra.
      - simpl. lra.
      - assert (HF' : Forall (fun w => 0 <= w /\ representable fl w) (l1 ++ l2)).
        { apply Forall_forall. intros w Hw. rewrite Forall_forall in HF. apply HF. apply (Permutation_in w (Permutation_sym HP)). auto. }
        apply Forall_app in HF'. destruct HF' as [F1 F2].
        destruct (float_sum_props _ _ H1 F1) as (A0 & AR & _ & AZ). destruct (float_sum_props _ _ H2 F2) as (B0 & BR & _ & BZ).
        specialize (IH1 F1). specialize (IH2 F2).
        rewrite (Rsum_perm _ _ HP), Rsum_app', (Permutation_length HP), app_length.
        assert (P1 : 0 <= Rsum l1) by (apply Rsum_nonneg'; eapply Forall_impl; [|exact F1]; simpl; tauto).
        assert (P2 : 0 <= Rsum l2) by (apply Rsum_nonneg'; eapply Forall_impl; [|exact F2]; simpl; tauto).
        destruct (Nat.eq_dec (length l1) 0) as [Z1|N1].
        { destruct l1; [|simpl in Z1; lia].
          assert (a = 0). { simpl in IH1. lra. }
          subst a. rewrite Rplus_0_l in E. unfold representable in BR. rewrite BR in E. injection E as <-. simpl (Rsum []). simpl length. rewrite Rplus_0_l. exact IH2. }
        destruct (Nat.eq_dec (length l2) 0) as [Z2|N2].
        { destruct l2; [|simpl in Z2; lia].
          assert (b = 0). { simpl in IH2. lra. }
          subst b. rewrite Rplus_0_r in E. unfold representable in AR. rewrite AR in E. injection E as <-. simpl (Rsum []). simpl length. rewrite Rplus_0_r, Nat.add_0_r. exact IH1. }
        assert (HS : (1 - u) * (a + b) <= s <= (1 + u) * (a + b)).
        { pose proof (proj1 (proj2 (proj2 HA)) a b s AR BR E) as HB. rewrite (Rabs_pos_eq (a + b)) in HB by lra.
          apply Rabs_le_inv in HB. lra. }
        set (m := (length l1 + length l2 - 1)%nat).
        assert (L1 : (1 - u) ^ (length l1 - 1) >= (1 - u) ^ (m - 1)) by (apply Rle_ge, pow_lo; lia).
        assert (L2 : (1 - u) ^ (length l2 - 1) >= (1 - u) ^ (m - 1)) by (apply Rle_ge, pow_lo; lia).
        assert (U1 : (1 + u) ^ (length l1 - 1) <= (1 + u) ^ (m - 1)) by (apply pow_hi; lia).
        assert (U2 : (1 + u) ^ (length l2 - 1) <= (1 + u) ^ (m - 1)) by (apply pow_hi; lia).
        assert (EM : m = S (m - 1)) by lia. rewrite EM. cbn [pow].
        assert (LA : Rsum l1 * (1 - u) ^ (m - 1) <= a) by (eapply Rle_trans; [apply Rmult_le_compat_l; [auto|apply Rge_le; exact L1]|tauto]).
        assert (LB : Rsum l2 * (1 - u) ^ (m - 1) <= b) by (eapply Rle_trans; [apply Rmult_le_compat_l; [auto|apply Rge_le; exact L2]|tauto]).
        assert (UA : a <= Rsum l1 * (1 + u) ^ (m - 1)) by (eapply Rle_trans; [apply IH1|apply Rmult_le_compat_l; auto]).
        assert (UB : b <= Rsum l2 * (1 + u) ^ (m - 1)) by (eapply Rle_trans; [apply IH2|apply Rmult_le_compat_l; auto]).
        set (p := (1 - u) ^ (m - 1)) in *. set (q := (1 + u) ^ (m - 1)) in *. split; nra.
    Qed.
  End Accuracy.

  (** Normalisation. *)
  Lemma normalise_unit ws s : Forall (fun w => 0 <= w /\ representable fl w) ws -> float_sum fl ws s ->
    exists vs, normalise_row_fl fl (map Fin ws) (Fin s) = map Fin vs /\ length vs = length ws /\
      Forall (fun v => 0 <= v <= 1) vs /\
      (forall i, (i < length ws)%nat -> nth i ws 0 = 0 -> nth i vs 0 = 0) /\
      (forall i, (i < length ws)%nat -> s <> 0 -> fl (nth i ws 0 / s) = Fin (nth i vs 0)) /\
      (forall i j, (i < length ws)%nat -> (j < length ws)%nat -> nth i ws 0 <= nth j ws 0 -> nth i vs 0 <= nth j vs 0).
  Proof.
    intros HF HS. destruct (float_sum_props ws s HS HF) as (S0 & SR & SM & SZ).
    unfold normalise_row_fl. simpl eis_zero. set (t := if Reqb s 0 then 1 else s).
    assert (ET : (if Reqb s 0 then Fin 1 else Fin s) = Fin t) by (unfold t; destruct (Reqb s 0); reflexivity). rewrite ET.
    assert (Ht : 0 < t) by (unfold t; destruct (Reqb s 0) eqn:E; [lra|]; apply Reqb_false in E; lra).
    assert (HT : forall w, In w ws -> 0 <= w <= t).
    { intros w Hw. rewrite Forall_forall in HF. destruct (HF w Hw). split; auto. unfold t. destruct (Reqb s 0) eqn:E; [|auto].
      apply Reqb_true in E. rewrite (SZ E w Hw). lra. }
    assert (HV : forall w, In w ws -> exists v, fdiv fl (Fin w) (Fin t) = Fin v /\ fl (w / t) = Fin v /\ 0 <= v <= 1).
    { intros w Hw. specialize (HT w Hw). unfold fdiv, ediv. destruct (Req_EM_T t 0); [lra|]. simpl.
      destruct (fl_unit fl HR (w / t)) as (v & Ev & Bv).
      - split; [apply Rmult_le_pos; [lra|left; apply Rinv_0_lt_compat; auto]|]. apply Rmult_le_reg_r with t; auto. field_simplify; lra.
      - exists v. auto. }
    set (g := fun w => match fl (w / t) with Fin v => v | _ => 0 end).
    assert (HG : forall w, In w ws -> fdiv fl (Fin w) (Fin t) = Fin (g w) /\ fl (w / t) = Fin (g w) /\ 0 <= g w <= 1).
    { intros w Hw. destruct (HV w Hw) as (v & A & B & C). unfold g. rewrite B. auto. }
    assert (HN : forall i, (i < length ws)%nat -> nth i (map g ws) 0 = g (nth i ws 0)).
    { intros i Hi. rewrite (nth_indep _ 0 (g 0)) by (rewrite map_length; auto). apply map_nth. }
    exists (map g ws). split; [|split; [|split; [|split; [|split]]]].
    - rewrite !map_map. apply map_ext_in. intros w Hw. apply HG; auto.
    - apply map_length.
    - apply Forall_forall. intros v Hv. apply in_map_iff in Hv. destruct Hv as (w & <- & Hw). apply HG; auto.
    - intros i Hi E. rewrite HN, E by auto. unfold g, Rdiv. rewrite Rmult_0_l, fl0. reflexivity.
    - intros i Hi Hs. rewrite HN by auto.
      assert (EQ : t = s) by (unfold t; destruct (Reqb s 0) eqn:E; [apply Reqb_true in E; contradiction|auto]). rewrite <- EQ.
      apply HG. apply nth_In; auto.
    - intros i j Hi Hj L. rewrite !HN by auto.
      assert (LD : nth i ws 0 / t <= nth j ws 0 / t) by (apply Rmult_le_compat_r; [left; apply Rinv_0_lt_compat; auto|auto]).
      pose proof (mono _ _ LD) as M. destruct (HG (nth i ws 0)) as (_ & E1 & _); [apply nth_In; auto|].
      destruct (HG (nth j ws 0)) as (_ & E2 & _); [apply nth_In; auto|]. rewrite E1, E2 in M. exact M.
  Qed.

  Lemma normalise_sum u eta ws s : accurate fl u eta ->
    Forall (fun w => 0 <= w /\ representable fl w) ws -> float_sum fl ws s -> (exists w, In w ws /\ w <> 0) ->
    exists vs, normalise_row_fl fl (map Fin ws) (Fin s) = map Fin vs /\
      (1 - u) / (1 + u) ^ (length ws - 1) - INR (length ws) * eta <= Rsum vs <= (1 + u) / (1 - u) ^ (length ws - 1) + INR (length ws) * eta.
  Proof.
    intros HA HF HS (w0 & Hw0 & N0). destruct (float_sum_props ws s HS HF) as (S0 & SR & SM & SZ).
    assert (Hs : 0 < s). { destruct S0 as [|E]; auto. exfalso. apply N0, SZ; auto. }
    pose proof (float_sum_error u eta HA ws s HS HF) as HB. destruct HA as (Hu & He & _ & HQ).
    destruct (normalise_unit ws s HF HS) as (vs & E & LV & _ & _ & HD & _). exists vs. split; [auto|].
    assert (HT : (1 - u) * (Rsum ws / s) - INR (length ws) * eta <= Rsum vs <= (1 + u) * (Rsum ws / s) + INR (length ws) * eta).
    { assert (HD' : forall i, (i < length ws)%nat -> fl (nth i ws 0 / s) = Fin (nth i vs 0)) by (intros; apply HD; auto; lra).
      clear - HD' LV HF Hs HQ Hu He. revert vs LV HD'. induction ws as [|w ws IH]; intros [|v vs] LV HD'; try (simpl in LV; lia).
      - simpl. unfold Rdiv. lra.
      - inversion HF; subst. specialize (IH H2 vs ltac:(simpl in LV; lia)).
        assert (HD2 : forall i, (i < length ws)%nat -> fl (nth i ws 0 / s) = Fin (nth i vs 0)).
        { intros i Hi. apply (HD' (S i)). simpl. lia. }
        specialize (IH HD2). pose proof (HD' 0%nat ltac:(simpl; lia)) as E0. simpl in E0. apply HQ in E0.
        assert (0 <= w / s) by (apply Rmult_le_pos; [tauto|left; apply Rinv_0_lt_compat; auto]).
        rewrite (Rabs_pos_eq (w / s)) in E0 by auto. apply Rabs_le_inv in E0.
        change (length (w :: ws)) with (S (length ws)). rewrite S_INR.
        change (Rsum (w :: ws)) with (w + Rsum ws). change (Rsum (v :: vs)) with (v + Rsum vs).
        replace ((w + Rsum ws) / s) with (w / s + Rsum ws / s) by (unfold Rdiv; ring). lra. }
    set (m := (length ws - 1)%nat) in *. set (T := Rsum ws) in *.
    assert (P1 : 0 < (1 - u) ^ m) by (apply pow_lt; lra). assert (P2 : 0 < (1 + u) ^ m) by (apply pow_lt; lra).
    assert (A1 : / (1 + u) ^ m <= T / s).
    { apply Rmult_le_reg_r with (s * (1 + u) ^ m); [nra|]. replace (/ (1 + u) ^ m * (s * (1 + u) ^ m)) with s by (field; lra).
      replace (T / s * (s * (1 + u) ^ m)) with (T * (1 + u) ^ m) by (field; lra). lra. }
    assert (A2 : T / s <= / (1 - u) ^ m).
    { apply Rmult_le_reg_r with (s * (1 - u) ^ m); [nra|]. replace (/ (1 - u) ^ m * (s * (1 - u) ^ m)) with s by (field; lra).
      replace (T / s * (s * (1 - u) ^ m)) with (T * (1 - u) ^ m) by (field; lra). lra. }
    assert (B1 : (1 - u) / (1 + u) ^ m <= (1 - u) * (T / s)) by (apply Rmult_le_compat_l; [lra|exact A1]).
    assert (B2 : (1 + u) * (T / s) <= (1 + u) / (1 - u) ^ m) by (apply Rmult_le_compat_l; [lra|exact A2]). lra.
  Qed.

  (** The dask bisquare. *)
  Lemma dask_bisquare_fl d b : 0 <= d -> 0 <= b ->
    exists f w w', kernel_expr_fl fl fexp fcube "bisquare" = Some f /\
      kernel_entry_fl fl "bisquare" f d b = Fin w /\ kernel_entry_dask_bisquare_fl fl d b = Fin w' /\ w = w'.
  Proof.
    intros Hd Hb. exists (fun u => fsquare fl (fsub fl (Fin 1) (fsquare fl u))). unfold kernel_entry_fl, kernel_entry_dask_bisquare_fl. fold (norm_fl fl d b).
    cbn [compact_kernel existsb String.eqb Ascii.eqb Bool.eqb orb].
    assert (Z : fsquare fl (fsub fl (Fin 1) (fsquare fl (Fin 1))) = Fin 0).
    { assert (M1 : fsub fl (Fin 1) (Fin 1) = Fin 0) by (unfold fsub, esub, eopp, eadd, rounded; rewrite Rplus_opp_r; exact fl0).
      assert (S1 : fsquare fl (Fin 1) = Fin 1) by (unfold fsquare, fmul, emul, rounded; rewrite Rmult_1_l; exact fl1).
      rewrite S1, M1. unfold fsquare, fmul, emul, rounded. rewrite Rmult_0_l. exact fl0. }
    destruct (Rle_dec d b) as [Hle|Hgt].
    - assert (E2 : Rltb b d = false) by (apply Rltb_false; lra). rewrite E2.
      destruct (norm_inside fl HR d b ltac:(lra)) as (u & Eu & Hu). rewrite Eu. simpl (egtb _ _).
      assert (E3 : Rltb 1 u = false) by (apply Rltb_false; lra). rewrite E3. simpl andb. cbv iota.
      destruct (square_unit fl HR u Hu) as (v & Ev & Hv). destruct (one_minus fl HR v Hv) as (z & Ez & Hz).
      destruct (square_unit fl HR z Hz) as (x & Ex & _). exists x, x. rewrite Ev, Ez, Ex. repeat split.
    - assert (E2 : Rltb b d = true) by (apply Rltb_true; lra). rewrite E2. simpl andb. cbv iota.
      exists 0, 0. split; [reflexivity|]. split; [reflexivity|]. split; [|reflexivity].
      assert (EG : (if egtb (norm_fl fl d b) (Fin 1) then Fin 1 else norm_fl fl d b) = Fin 1).
      { destruct (norm_mono fl HR b d b ltac:(lra) Hb) as [M _].
        destruct Hb as [Hb|<-].
        - rewrite (norm_self fl HR b Hb) in M. destruct (norm_fl fl d b) as [r| | |] eqn:EN; simpl in M; try contradiction.
          + simpl. destruct (Rltb 1 r) eqn:ER; [reflexivity|]. apply Rltb_false in ER. f_equal. lra.
          + reflexivity.
        - rewrite norm_far by lra. reflexivity. }
      rewrite EG. exact Z.
  Qed.

  Lemma dask_agrees_fl D bw k : entries (Rle 0) D ->
    match bw with BScalar b => 0 <= b | BColumn bs => Forall (Rle 0) bs end ->
    kernel_function_dask_fl fl fexp fcube D bw k = kernel_function_fl fl fexp fcube D bw k.
  Proof.
    intros HD Hb. unfold kernel_function_dask_fl, kernel_function_fl.
    destruct (bandwidth_rows (nrows D) bw) as [bs|] eqn:EB; [|reflexivity]. cbn [bind].
    assert (HB : Forall (Rle 0) bs).
    { destruct bw as [b|bs']; simpl in EB.
      - injection EB as <-. apply Forall_forall. intros x Hx. apply repeat_spec in Hx. subst. auto.
      - destruct (length bs' =? nrows D)%nat; [|discriminate]. injection EB as <-. auto. }
    destruct (kernel_expr_fl fl fexp fcube k) as [f|] eqn:EF; [|reflexivity]. f_equal.
    destruct (String.eqb_spec k "bisquare") as [->|]; [|reflexivity].
    apply map2_ext_in. intros row b Hrow Hbb. apply map_ext_in. intros d Hd.
    unfold entries in HD. rewrite Forall_forall in HD, HB. specialize (HD row Hrow). rewrite Forall_forall in HD.
    destruct (dask_bisquare_fl d b (HD d Hd) (HB b Hbb)) as (f' & w & w' & Ef & E1 & E2 & <-).
    rewrite EF in Ef. injection Ef as <-. congruence.
  Qed.
End Norm.
