(** Facts about rounded arithmetic and the rounded kernels. *)
From Coq Require Import Lra Psatz.
From Verif.Model Require Import Base Ext Kernel KernelFloat.
From Verif.Spec Require Import KernelSpec FloatSpec.
From Verif.Proofs Require Import ListFacts KernelFacts.
Open Scope string_scope.
Open Scope nat_scope.
Open Scope R_scope.

Section Facts.
  Variable fl fexp fcube : R -> ext.
  Hypothesis HR : rounding fl.
  Hypothesis HE : faithful_exp fl fexp.
  Hypothesis HC : faithful_cube fl fcube.

  Let mono : forall a b, a <= b -> ele (fl a) (fl b) := proj1 HR.
  Let fl0 : fl 0 = Fin 0. Proof. apply HR. Qed.
  Let fl1 : fl 1 = Fin 1. Proof. apply HR. Qed.

  Lemma fl_nonneg a : 0 <= a -> (exists r, fl a = Fin r /\ 0 <= r) \/ fl a = PInf.
  Proof. intros H. pose proof (mono _ _ H) as M. rewrite fl0 in M. destruct (fl a); simpl in M; try contradiction; eauto. Qed.
  Lemma fl_nonpos a : a <= 0 -> (exists r, fl a = Fin r /\ r <= 0) \/ fl a = NInf.
  Proof. intros H. pose proof (mono _ _ H) as M. rewrite fl0 in M. destruct (fl a); simpl in M; try contradiction; eauto. Qed.
  Lemma fl_unit a : 0 <= a <= 1 -> exists r, fl a = Fin r /\ 0 <= r <= 1.
  Proof.
    intros [H0 H1]. pose proof (mono _ _ H0) as M0. pose proof (mono _ _ H1) as M1. rewrite fl0 in M0. rewrite fl1 in M1.
    destruct (fl a); simpl in *; try contradiction. eauto.
  Qed.
  Lemma fl_repr a r : fl a = Fin r -> fl r = Fin r.
  Proof. apply HR. Qed.

  Lemma exp_unit x : x <= 0 -> exists r, fexp x = Fin r /\ 0 <= r <= 1.
  Proof.
    intros Hx. destruct (HE x Hx) as (r & E & _ & F). exists r. split; auto. split.
    - apply F; [apply fl0|]. left; apply exp_pos.
    - apply F; [apply fl1|]. rewrite <- exp_0. destruct Hx as [Hx| ->]; [left; apply exp_increasing; auto|lra].
  Qed.
  Lemma exp_zero : fexp 0 = Fin 1.
  Proof.
    destruct (HE 0 (Rle_refl 0)) as (r & E & _ & F). rewrite E. f_equal. destruct (F 1 fl1) as [F1 F2]. rewrite exp_0 in *. lra.
  Qed.
  Lemma cube_unit x : 0 <= x <= 1 -> exists r, fcube x = Fin r /\ 0 <= r <= 1.
  Proof.
    intros Hx. destruct (HC x Hx) as (r & E & _ & F). exists r. split; auto. split.
    - apply F; [apply fl0|]. apply pow_le; lra.
    - apply F; [apply fl1|]. rewrite <- (pow1 3). apply pow_incr; lra.
  Qed.
  Lemma cube_zero : fcube 0 = Fin 0.
  Proof.
    destruct (HC 0 ltac:(lra)) as (r & E & _ & F). rewrite E. f_equal. destruct (F 0 fl0) as [F1 F2]. rewrite pow_ne_zero in * by lia. lra.
  Qed.
  Lemma cube_one : fcube 1 = Fin 1.
  Proof.
    destruct (HC 1 ltac:(lra)) as (r & E & _ & F). rewrite E. f_equal. destruct (F 1 fl1) as [F1 F2]. rewrite pow1 in *. lra.
  Qed.

  (** The argument of exp. *)
  Lemma half_neg x : x = PInf \/ (exists r, x = Fin r /\ 0 <= r) ->
    fmul fl (Fin (-0.5)) x = NInf \/ exists r, fmul fl (Fin (-0.5)) x = Fin r /\ r <= 0.
  Proof.
    intros [-> | (r & -> & Hr)].
    - left. unfold fmul, emul. cbn [esign]. destruct (Rlt_dec 0 (-0.5)); [lra|]. destruct (Rlt_dec (-0.5) 0); [reflexivity|lra].
    - unfold fmul, emul, rounded. destruct (fl_nonpos (-0.5 * r)) as [(s & -> & Hs)| ->]; [nra| |]; eauto.
  Qed.
  Lemma expo_unit x : x = PInf \/ (exists r, x = Fin r /\ 0 <= r) ->
    exists w, fexp_ext fexp (fmul fl (Fin (-0.5)) x) = Fin w /\ 0 <= w <= 1.
  Proof.
    intros H. destruct (half_neg x H) as [E|(r & E & Hr)]; rewrite E; simpl.
    - exists 0. split; auto; lra.
    - apply exp_unit; auto.
  Qed.
  Lemma square_nonneg x : x <> NaN -> fsquare fl x = PInf \/ exists r, fsquare fl x = Fin r /\ 0 <= r.
  Proof.
    destruct x as [r| | |]; intros H; try congruence; try (left; reflexivity).
    unfold fsquare, fmul, emul, rounded. destruct (fl_nonneg (r * r)) as [|]; [nra|right; auto|left; auto].
  Qed.
  Lemma abs_nonneg x : x <> NaN -> eabs x = PInf \/ exists r, eabs x = Fin r /\ 0 <= r.
  Proof. destruct x as [r| | |]; intros H; try congruence; simpl; auto. right. eexists; split; eauto. apply Rabs_pos. Qed.

  (** The normalised distance. *)
  Definition norm_fl (d b : R) : ext := nan_to_num (fdiv fl (Fin d) (Fin b)).
  Lemma fl_not_nan a : fl a <> NaN.
  Proof. pose proof (mono a a (Rle_refl a)) as M. destruct (fl a); simpl in M; congruence || contradiction. Qed.
  Lemma norm_not_nan d b : norm_fl d b <> NaN.
  Proof. unfold norm_fl. destruct (fdiv fl (Fin d) (Fin b)); simpl; congruence. Qed.
  Lemma norm_inside d b : 0 <= d <= b -> exists u, norm_fl d b = Fin u /\ 0 <= u <= 1.
  Proof.
    intros [Hd Hb]. unfold norm_fl, fdiv, ediv. destruct (Req_EM_T b 0) as [Eb|Nb].
    - assert (d = 0) as -> by lra. destruct (Rlt_dec 0 0); [lra|]. simpl. exists 0. split; auto; lra.
    - unfold rounded. destruct (fl_unit (d / b)) as (u & E & Hu).
      + split; [apply Rmult_le_pos; [auto|left; apply Rinv_0_lt_compat; lra]|]. apply Rmult_le_reg_r with b; [lra|]. field_simplify; lra.
      + rewrite E. exists u. auto.
  Qed.
  Lemma norm_zero b : norm_fl 0 b = Fin 0.
  Proof.
    unfold norm_fl, fdiv, ediv. destruct (Req_EM_T b 0) as [Eb|Nb].
    - destruct (Rlt_dec 0 0); [lra|]. reflexivity.
    - unfold Rdiv. rewrite Rmult_0_l. simpl. rewrite fl0. reflexivity.
  Qed.
  Lemma norm_self b : 0 < b -> norm_fl b b = Fin 1.
  Proof.
    intros H. unfold norm_fl, fdiv, ediv. destruct (Req_EM_T b 0); [lra|]. unfold Rdiv. rewrite Rinv_r by auto. simpl. rewrite fl1. reflexivity.
  Qed.
  Lemma norm_far d : 0 < d -> norm_fl d 0 = PInf.
  Proof. intros H. unfold norm_fl, fdiv, ediv. destruct (Req_EM_T 0 0); [|congruence]. destruct (Rlt_dec 0 d); [reflexivity|lra]. Qed.

  Lemma one_minus u : 0 <= u <= 1 -> exists w, fsub fl (Fin 1) (Fin u) = Fin w /\ 0 <= w <= 1.
  Proof. intros H. unfold fsub, esub, eopp, eadd, rounded. apply fl_unit. lra. Qed.
  Lemma square_unit u : 0 <= u <= 1 -> exists w, fsquare fl (Fin u) = Fin w /\ 0 <= w <= 1.
  Proof. intros H. unfold fsquare, fmul, emul, rounded. apply fl_unit. nra. Qed.

  Lemma entry_unit k f d b : known_kernel k -> kernel_expr_fl fl fexp fcube k = Some f -> 0 <= d ->
    exists w, kernel_entry_fl fl k f d b = Fin w /\ 0 <= w <= 1.
  Proof.
    intros Hk Hf Hd. unfold kernel_entry_fl. fold (norm_fl d b).
    destruct (Rle_dec d b) as [Hle|Hgt].
    - assert (E2 : Rltb b d = false) by (apply Rltb_false; lra). rewrite E2, andb_false_r.
      destruct (norm_inside d b (conj Hd Hle)) as (u & Eu & Hu). rewrite Eu.
      kcases Hk; inversion Hf; subst f; clear Hf.
      + apply one_minus; auto.
      + exists 1; split; auto; lra.
      + apply expo_unit. apply square_nonneg. discriminate.
      + apply expo_unit. apply abs_nonneg. discriminate.
      + exists 1; split; auto; lra.
      + destruct (square_unit u Hu) as (v & -> & Hv). destruct (one_minus v Hv) as (z & -> & Hz). apply square_unit; auto.
      + simpl eabs. rewrite Rabs_pos_eq by lra. simpl fcube_ext. destruct (cube_unit u Hu) as (v & -> & Hv).
        destruct (one_minus v Hv) as (z & -> & Hz). simpl. apply cube_unit; auto.
    - assert (E2 : Rltb b d = true) by (apply Rltb_true; lra). rewrite E2, andb_true_r.
      kcases Hk; inversion Hf; subst f; clear Hf; cbn [compact_kernel existsb String.eqb Ascii.eqb Bool.eqb orb].
      all: try (exists 0; split; [reflexivity|lra]).
      + exists 1; split; [reflexivity|lra].
      + apply expo_unit. apply square_nonneg. apply norm_not_nan.
      + apply expo_unit. apply abs_nonneg. apply norm_not_nan.
  Qed.

  Lemma kernel_expr_fl_known k : known_kernel k -> exists f, kernel_expr_fl fl fexp fcube k = Some f.
  Proof. intros H; kcases H; eexists; reflexivity. Qed.
  Lemma weighs_fl_entry k b d w f : kernel_expr_fl fl fexp fcube k = Some f ->
    (weighs_fl fl fexp fcube k b d w <-> kernel_entry_fl fl k f d b = Fin w).
  Proof.
    intros Hf. unfold weighs_fl, kernel_function_fl, bandwidth_rows. cbn [nrows List.length repeat bind]. rewrite Hf. simpl.
    split; intros H; [congruence|rewrite H; reflexivity].
  Qed.

  Lemma bounded_fl k D bw : known_kernel k -> entries (Rle 0) D ->
    match bw with BScalar _ => True | BColumn bs => length bs = length D end ->
    exists W, kernel_function_fl fl fexp fcube D bw k = Ok (mmap Fin W) /\
      map (@length R) W = map (@length R) D /\ entries (fun w => 0 <= w <= 1) W.
  Proof.
    intros Hk HD Hb. destruct (kernel_expr_fl_known k Hk) as [f Hf].
    assert (HB : exists bs, bandwidth_rows (nrows D) bw = Ok bs /\ length bs = length D).
    { destruct bw as [b|bs]; simpl.
      - eexists; split; eauto. apply repeat_length.
      - exists bs. split; auto. unfold nrows. rewrite Hb, Nat.eqb_refl. reflexivity. }
    destruct HB as (bs & EB & LB). unfold kernel_function_fl. rewrite EB, Hf. cbn [bind].
    assert (HA : exists W, map2 (fun row b => map (fun d => kernel_entry_fl fl k f d b) row) D bs = mmap Fin W /\
      map (@length R) W = map (@length R) D /\ entries (fun w => 0 <= w <= 1) W).
    { clear EB Hb bw. revert bs LB. induction D as [|row D IH]; intros [|b bs] LB; try (simpl in LB; lia).
      - exists []. repeat split; constructor.
      - inversion HD; subst. destruct (IH ltac:(auto) bs ltac:(simpl in LB; lia)) as (W & E1 & E2 & E3).
        assert (HW : exists ws, map (fun d => kernel_entry_fl fl k f d b) row = map Fin ws /\ length ws = length row /\ Forall (fun w => 0 <= w <= 1) ws).
        { clear - Hk Hf H1 HR HE HC mono fl0 fl1. induction row as [|d row IH]; [exists []; repeat split; constructor|].
          inversion H1; subst. destruct (IH H3) as (ws & A & B & C). destruct (entry_unit k f d b Hk Hf H2) as (w & E & Hw).
          exists (w :: ws). simpl. rewrite E, A, B. repeat split; auto. }
        destruct HW as (ws & A & B & C). exists (ws :: W). simpl. rewrite A, E1, B, E2. repeat split. constructor; auto. }
    destruct HA as (W & -> & H). exists W. auto.
  Qed.

  Lemma coincident_fl k b : known_kernel k -> 0 <= b -> weighs_fl fl fexp fcube k b 0 1.
  Proof.
    intros Hk Hb. destruct (kernel_expr_fl_known k Hk) as [f Hf]. apply (weighs_fl_entry _ _ _ _ f Hf).
    unfold kernel_entry_fl. fold (norm_fl 0 b). rewrite norm_zero.
    assert (E2 : Rltb b 0 = false) by (apply Rltb_false; lra). rewrite E2, andb_false_r.
    assert (S0 : fsquare fl (Fin 0) = Fin 0) by (unfold fsquare, fmul, emul, rounded; rewrite Rmult_0_l; exact fl0).
    assert (M1 : fsub fl (Fin 1) (Fin 0) = Fin 1) by (unfold fsub, esub, eopp, eadd, rounded; replace (1 + - 0) with 1 by ring; exact fl1).
    assert (H0 : fmul fl (Fin (-0.5)) (Fin 0) = Fin 0) by (unfold fmul, emul, rounded; rewrite Rmult_0_r; exact fl0).
    assert (A0 : eabs (Fin 0) = Fin 0) by (simpl; rewrite Rabs_R0; reflexivity).
    kcases Hk; inversion Hf; subst f; clear Hf; rewrite ?A0, ?S0, ?M1, ?H0; auto; simpl fexp_ext; simpl fcube_ext.
    - apply exp_zero.
    - apply exp_zero.
    - unfold fsquare, fmul, emul, rounded. rewrite Rmult_1_l. exact fl1.
    - rewrite cube_zero, M1. apply cube_one.
  Qed.

  Lemma zero_bandwidth_fl k d : known_kernel k -> k <> "uniform" -> 0 < d -> weighs_fl fl fexp fcube k 0 d 0.
  Proof.
    intros Hk Hu Hd. destruct (kernel_expr_fl_known k Hk) as [f Hf]. apply (weighs_fl_entry _ _ _ _ f Hf).
    unfold kernel_entry_fl. fold (norm_fl d 0). rewrite norm_far by auto.
    assert (E2 : Rltb 0 d = true) by (apply Rltb_true; lra). rewrite E2, andb_true_r.
    assert (HN : fmul fl (Fin (-0.5)) PInf = NInf).
    { unfold fmul, emul. cbn [esign]. destruct (Rlt_dec 0 (-0.5)); [lra|]. destruct (Rlt_dec (-0.5) 0); [reflexivity|lra]. }
    kcases Hk; try congruence; inversion Hf; subst f; clear Hf; try reflexivity;
      cbn [compact_kernel existsb String.eqb Ascii.eqb Bool.eqb orb].
    - replace (fsquare fl PInf) with PInf by reflexivity. rewrite HN. reflexivity.
    - simpl eabs. rewrite HN. reflexivity.
  Qed.

  Lemma outside_fl k b d w : 0 <= d -> 0 < b -> (vanishing_kernel k /\ b <= d) \/ (k = "boxcar" /\ b < d) ->
    weighs_fl fl fexp fcube k b d w -> w = 0.
  Proof.
    intros Hd Hb Hc H. assert (Hk : known_kernel k) by (unfold known_kernel; destruct Hc as [[[->|[->| ->]] _]|[-> _]]; auto 9).
    destruct (kernel_expr_fl_known k Hk) as [f Hf]. apply (weighs_fl_entry _ _ _ _ f Hf) in H.
    unfold kernel_entry_fl in H. fold (norm_fl d b) in H.
    destruct (Rlt_dec b d) as [Hlt|Hge].
    - assert (E2 : Rltb b d = true) by (apply Rltb_true; lra). rewrite E2, andb_true_r in H.
      destruct Hc as [[[->|[->| ->]] _]|[-> _]]; simpl in H; congruence.
    - destruct Hc as [[Hv Hbd]|[_ Hbd]]; [|lra]. assert (d = b) as -> by lra.
      rewrite norm_self in H by auto. assert (E2 : Rltb b b = false) by (apply Rltb_false; lra). rewrite E2, andb_false_r in H.
      assert (M1 : fsub fl (Fin 1) (Fin 1) = Fin 0) by (unfold fsub, esub, eopp, eadd, rounded; rewrite Rplus_opp_r; exact fl0).
      assert (S1 : fsquare fl (Fin 1) = Fin 1) by (unfold fsquare, fmul, emul, rounded; rewrite Rmult_1_l; exact fl1).
      assert (S0 : fsquare fl (Fin 0) = Fin 0) by (unfold fsquare, fmul, emul, rounded; rewrite Rmult_0_l; exact fl0).
      destruct Hv as [->|[->| ->]]; inversion Hf; subst f; clear Hf.
      + rewrite M1 in H. congruence.
      + rewrite S1, M1, S0 in H. congruence.
      + simpl eabs in H. rewrite Rabs_R1 in H. simpl fcube_ext in H. rewrite cube_one, M1 in H. simpl in H. rewrite cube_zero in H. congruence.
  Qed.

  (** Monotonicity. *)
  Lemma ele_trans x y z : ele x y -> ele y z -> ele x z.
  Proof. destruct x, y, z; simpl; intros; auto; try contradiction; lra. Qed.
  Lemma ele_fin a x b : ele (Fin a) x -> x = Fin b -> a <= b.
  Proof. intros H ->. exact H. Qed.
  Lemma norm_mono d1 d2 b : 0 <= d1 <= d2 -> 0 <= b -> ele (norm_fl d1 b) (norm_fl d2 b) /\ ele (Fin 0) (norm_fl d1 b).
  Proof.
    intros [H1 H2] Hb. unfold norm_fl, fdiv, ediv. destruct (Req_EM_T b 0) as [->|Nb].
    - destruct (Rlt_dec 0 d1), (Rlt_dec 0 d2); try lra; simpl; auto. destruct (Rlt_dec d1 0); [lra|]. simpl. split; auto; lra.
      destruct (Rlt_dec d1 0), (Rlt_dec d2 0); try lra. simpl. split; lra.
    - assert (L : d1 / b <= d2 / b) by (apply Rmult_le_compat_r; [left; apply Rinv_0_lt_compat; lra|auto]).
      assert (L0 : 0 <= d1 / b) by (apply Rmult_le_pos; [auto|left; apply Rinv_0_lt_compat; lra]).
      unfold rounded. pose proof (mono _ _ L) as M.
      destruct (fl_nonneg _ L0) as [(r & E & Hr)|E]; rewrite E in *; destruct (fl (d2 / b)); simpl in *; try contradiction; auto.
  Qed.
  Lemma fl_ge0 a : 0 <= a -> ele (Fin 0) (fl a).
  Proof. intros H. pose proof (mono _ _ H) as M. rewrite fl0 in M. exact M. Qed.
  Lemma fl_le0 a : a <= 0 -> ele (fl a) (Fin 0).
  Proof. intros H. pose proof (mono _ _ H) as M. rewrite fl0 in M. exact M. Qed.
  Lemma ele_pinf x : x <> NaN -> ele x PInf.
  Proof. destruct x; simpl; auto. Qed.
  Lemma ele_ninf x : x <> NaN -> ele NInf x.
  Proof. destruct x; simpl; auto. Qed.
  Lemma square_mono x y : ele x y -> ele (Fin 0) x -> ele (fsquare fl x) (fsquare fl y) /\ ele (Fin 0) (fsquare fl x).
  Proof.
    destruct x as [a| | |], y as [b| | |]; intros H H0; simpl in H, H0; try contradiction.
    - unfold fsquare, fmul, emul, rounded. split; [apply mono; nra|]. apply fl_ge0. nra.
    - replace (fsquare fl PInf) with PInf by reflexivity. unfold fsquare, fmul, emul, rounded. split.
      + apply ele_pinf, fl_not_nan.
      + apply fl_ge0. nra.
    - split; exact I.
  Qed.
  Lemma half_mono x y : ele x y -> ele (Fin 0) x -> ele (fmul fl (Fin (-0.5)) y) (fmul fl (Fin (-0.5)) x) /\ ele (fmul fl (Fin (-0.5)) x) (Fin 0).
  Proof.
    assert (HN : fmul fl (Fin (-0.5)) PInf = NInf).
    { unfold fmul, emul. cbn [esign]. destruct (Rlt_dec 0 (-0.5)); [lra|]. destruct (Rlt_dec (-0.5) 0); [reflexivity|lra]. }
    destruct x as [a| | |], y as [b| | |]; intros H H0; simpl in H, H0; try contradiction; rewrite ?HN.
    - unfold fmul, emul, rounded. split; [apply mono; nra|]. apply fl_le0. nra.
    - unfold fmul, emul, rounded. split.
      + apply ele_ninf, fl_not_nan.
      + apply fl_le0. nra.
    - simpl. auto.
  Qed.
  Lemma expo_mono x y : increasing_on (fun t => t <= 0) fexp -> ele x y -> ele y (Fin 0) -> ele (fexp_ext fexp x) (fexp_ext fexp y).
  Proof.
    intros HI H H0. destruct x as [a| | |], y as [b| | |]; simpl in *; try contradiction; try lra.
    - apply HI; lra.
    - destruct (exp_unit b H0) as (r & -> & Hr). simpl. lra.
  Qed.
  Lemma abs_id x : ele (Fin 0) x -> eabs x = x.
  Proof. destruct x; simpl; intros; try contradiction; auto. rewrite Rabs_pos_eq; auto. Qed.

  Lemma nearer_fl k b d1 d2 w1 w2 :
    increasing_on (fun t => t <= 0) fexp -> increasing_on (fun t => 0 <= t <= 1) fcube ->
    known_kernel k -> 0 <= b -> 0 <= d1 <= d2 ->
    weighs_fl fl fexp fcube k b d1 w1 -> weighs_fl fl fexp fcube k b d2 w2 -> w2 <= w1.
  Proof.
    intros IE IC Hk Hb Hd H1 H2. destruct (kernel_expr_fl_known k Hk) as [f Hf].
    apply (weighs_fl_entry _ _ _ _ f Hf) in H1. apply (weighs_fl_entry _ _ _ _ f Hf) in H2.
    destruct (entry_unit k f d1 b Hk Hf ltac:(lra)) as (w1' & E1 & B1). rewrite E1 in H1. injection H1 as ->.
    unfold kernel_entry_fl in E1, H2. fold (norm_fl d1 b) in E1. fold (norm_fl d2 b) in H2.
    destruct (norm_mono d1 d2 b Hd Hb) as [M M0].
    destruct (Rlt_dec b d2) as [Hlt|Hge].
    - assert (E2 : Rltb b d2 = true) by (apply Rltb_true; lra). rewrite E2, andb_true_r in H2.
      kcases Hk; inversion Hf; subst f; clear Hf; cbn [compact_kernel existsb String.eqb Ascii.eqb Bool.eqb orb andb] in E1, H2;
        try (injection H2 as <-; lra).
      + injection E1 as <-. injection H2 as <-. lra.
      + destruct (square_mono _ _ M M0) as [S S0]. destruct (half_mono _ _ S S0) as [G G0].
        pose proof (expo_mono _ _ IE G G0) as L. rewrite E1, H2 in L. exact L.
      + rewrite (abs_id (norm_fl d1 b)) in E1 by auto. rewrite (abs_id (norm_fl d2 b)) in H2 by (eapply ele_trans; eauto). destruct (half_mono _ _ M M0) as [G G0].
        pose proof (expo_mono _ _ IE G G0) as L. rewrite E1, H2 in L. exact L.
    - assert (E2 : Rltb b d2 = false) by (apply Rltb_false; lra). rewrite E2, andb_false_r in H2.
      assert (E3 : Rltb b d1 = false) by (apply Rltb_false; lra). rewrite E3, andb_false_r in E1.
      destruct (norm_inside d1 b ltac:(lra)) as (u1 & U1 & B1'). destruct (norm_inside d2 b ltac:(lra)) as (u2 & U2 & B2').
      rewrite U1, U2 in *. simpl in M.
      assert (OM : forall a c x y, a <= c -> fsub fl (Fin 1) (Fin a) = Fin x -> fsub fl (Fin 1) (Fin c) = Fin y -> y <= x).
      { intros a c x y Hac Ex Ey. unfold fsub, esub, eopp, eadd, rounded in Ex, Ey. pose proof (mono (1 + - c) (1 + - a) ltac:(lra)) as Q. rewrite Ex, Ey in Q. exact Q. }
      assert (SQ : forall a c x y, 0 <= a <= c -> fsquare fl (Fin a) = Fin x -> fsquare fl (Fin c) = Fin y -> x <= y).
      { intros a c x y Hac Ex Ey. unfold fsquare, fmul, emul, rounded in Ex, Ey. pose proof (mono (a * a) (c * c) ltac:(nra)) as Q. rewrite Ex, Ey in Q. exact Q. }
      assert (CU : forall a c x y, 0 <= a -> a <= c -> c <= 1 -> fcube a = Fin x -> fcube c = Fin y -> x <= y).
      { intros a c x y H0 Hac Hc Ex Ey. pose proof (IC a c ltac:(lra) ltac:(lra) Hac) as Q. rewrite Ex, Ey in Q. exact Q. }
      kcases Hk; inversion Hf; subst f; clear Hf.
      + exact (OM u1 u2 _ _ M E1 H2).
      + injection E1 as <-. injection H2 as <-. lra.
      + destruct (square_mono (Fin u1) (Fin u2) M M0) as [S S0]. destruct (half_mono _ _ S S0) as [G G0].
        pose proof (expo_mono _ _ IE G G0) as L. rewrite E1, H2 in L. exact L.
      + rewrite !abs_id in * by (simpl; lra). destruct (half_mono (Fin u1) (Fin u2) M M0) as [G G0].
        pose proof (expo_mono _ _ IE G G0) as L. rewrite E1, H2 in L. exact L.
      + injection E1 as <-. injection H2 as <-. lra.
      + destruct (square_unit u1 B1') as (v1 & V1 & C1). destruct (square_unit u2 B2') as (v2 & V2 & C2). rewrite V1 in E1. rewrite V2 in H2.
        destruct (one_minus v1 C1) as (z1 & Z1 & D1). destruct (one_minus v2 C2) as (z2 & Z2 & D2). rewrite Z1 in E1. rewrite Z2 in H2.
        pose proof (SQ _ _ _ _ (conj (proj1 B1') M) V1 V2) as Q1. pose proof (OM _ _ _ _ Q1 Z1 Z2) as Q2.
        apply (SQ z2 z1); auto. lra.
      + rewrite (abs_id (Fin u1)) in E1 by (simpl; lra). rewrite (abs_id (Fin u2)) in H2 by (simpl; lra). simpl fcube_ext in E1, H2.
        destruct (cube_unit u1 B1') as (v1 & V1 & C1). destruct (cube_unit u2 B2') as (v2 & V2 & C2). rewrite V1 in E1. rewrite V2 in H2.
        destruct (one_minus v1 C1) as (z1 & Z1 & D1). destruct (one_minus v2 C2) as (z2 & Z2 & D2). rewrite Z1 in E1. rewrite Z2 in H2. simpl in E1, H2.
        pose proof (CU _ _ _ _ (proj1 B1') M (proj2 B2') V1 V2) as Q1. pose proof (OM _ _ _ _ Q1 Z1 Z2) as Q2.
        apply (CU z2 z1); auto; lra.
  Qed.
End Facts.
