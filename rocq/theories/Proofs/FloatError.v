(** How far the rounded kernel weights are from the exact ones. *)
From Coq Require Import Lra Psatz.
From Verif.Model Require Import Base Ext Kernel KernelFloat.
From Verif.Spec Require Import KernelSpec FloatSpec FloatErrorSpec.
From Verif.Proofs Require Import ListFacts KernelFacts FloatFacts FloatNorm.
Open Scope string_scope.
Open Scope nat_scope.
Open Scope R_scope.

(** [1 + t <= exp t], as [(1 + t) * exp (-t) <= 1]. *)
Lemma one_plus_exp t : 0 <= t -> (1 + t) * exp (- t) <= 1.
Proof.
  intros Ht. rewrite exp_Ropp. pose proof (exp_pos t). pose proof (exp_ineq1_le t).
  apply Rmult_le_reg_r with (exp t); [lra|]. rewrite Rmult_assoc, Rinv_l by lra. lra.
Qed.

(** The exponential turns a relative error of its argument into an absolute one. *)
Lemma exp_close h t a : 0 <= h -> 0 <= t -> 0 <= a <= 1 / 4 -> Rabs (h - t) <= a * (t + 1) ->
  Rabs (exp (- h) - exp (- t)) <= 4 / 3 * a.
Proof.
  intros Hh Ht Ha Hd. apply Rabs_le_inv in Hd.
  assert (G : forall x y, 0 <= x -> exp (- x) - exp (- (x + y)) <= y * exp (- x)).
  { intros x y Hx. rewrite Ropp_plus_distr, exp_plus. pose proof (exp_pos (- x)). pose proof (exp_ineq1_le (- y)). nra. }
  pose proof (one_plus_exp h Hh) as Eh. pose proof (one_plus_exp t Ht) as Et.
  pose proof (exp_pos (- h)) as Ph. pose proof (exp_pos (- t)) as Pt.
  apply Rabs_le. destruct (Rle_dec t h) as [L|L].
  - pose proof (G t (h - t) Ht) as D. replace (t + (h - t)) with h in D by ring.
    assert (exp (- h) <= exp (- t)). { destruct L as [L| ->]; [left; apply exp_increasing; lra|lra]. }
    assert ((h - t) * exp (- t) <= a * ((1 + t) * exp (- t))) by nra. split; nra.
  - pose proof (G h (t - h) Hh) as D. replace (h + (t - h)) with t in D by ring.
    assert (exp (- t) <= exp (- h)) by (left; apply exp_increasing; lra).
    assert (T : (t + 1) * (1 - a) <= 1 + h) by nra.
    assert (t + 1 <= 4 / 3 * (1 + h)) by nra.
    assert ((t - h) * exp (- h) <= 4 / 3 * a * ((1 + h) * exp (- h))) by nra. split; nra.
Qed.

Section Error.
  Variable fl fexp fcube : R -> ext.
  Variable u eta : R.
  Hypothesis HR : rounding fl.
  Hypothesis HE : faithful_exp fl fexp.
  Hypothesis HC : faithful_cube fl fcube.
  Hypothesis HA : accurate fl u eta.
  Let e := u + eta.
  Let mono : forall a b, a <= b -> ele (fl a) (fl b) := proj1 HR.

  Lemma e_nonneg : 0 <= e.
  Proof. unfold e. destruct HA as (H & H' & _). lra. Qed.

  Lemma fl_close a s : fl a = Fin s -> Rabs (s - a) <= e * (Rabs a + 1).
  Proof.
    intros H. destruct HA as (Hu & Hn & _ & H2). pose proof (H2 a s H). pose proof (Rabs_pos a). unfold e. nra.
  Qed.
  Lemma fl_close_unit a s : 0 <= a <= 1 -> fl a = Fin s -> Rabs (s - a) <= e.
  Proof.
    intros Ha H. destruct HA as (Hu & Hn & _ & H2). pose proof (H2 a s H) as D. rewrite (Rabs_pos_eq a) in D by lra. unfold e. nra.
  Qed.

  (** A faithful result is at most two units off. *)
  Lemma faithful_close f g x r : 0 <= f x <= 1 -> faithful fl f g x -> g x = Fin r -> Rabs (r - f x) <= 2 * e.
  Proof.
    intros Hf (r' & E & Rr & HF) E'. rewrite E in E'. injection E' as ->.
    destruct (fl_unit fl HR (f x) Hf) as (s & Es & Hs). pose proof (proj1 (proj2 HR) _ _ Es) as Rs.
    pose proof (fl_close_unit _ _ Hf Es) as Ds. apply Rabs_le_inv in Ds. pose proof e_nonneg as He.
    assert (Hr : 0 <= r <= 1).
    { split; [apply (HF 0); [apply HR|lra]|apply (HF 1); [apply HR|lra]]. }
    assert (LE : forall a, representable fl a -> a <= f x -> a <= s).
    { intros a Ra La. pose proof (mono _ _ La) as M. unfold representable in Ra. rewrite Ra, Es in M. exact M. }
    assert (GE : forall a, representable fl a -> f x <= a -> s <= a).
    { intros a Ra La. pose proof (mono _ _ La) as M. unfold representable in Ra. rewrite Ra, Es in M. exact M. }
    set (z := (s + r) / 2). assert (Hz : 0 <= z <= 1) by (unfold z; lra).
    destruct (fl_unit fl HR z Hz) as (t & Et & Ht). pose proof (proj1 (proj2 HR) _ _ Et) as Rt.
    pose proof (fl_close_unit _ _ Hz Et) as Dt. apply Rabs_le_inv in Dt.
    assert (HT : t <= s \/ s <= t) by lra.
    apply Rabs_le. unfold z in *.
    destruct (Rle_dec r (f x)) as [Lr|Lr].
    - pose proof (LE r Rr Lr) as Hrs. destruct (Rle_dec s (f x)) as [Ls|Ls].
      + pose proof (proj1 (HF s Rs) Ls). assert (r = s) by lra. subst. lra.
      + destruct (Rle_dec t (f x)) as [Lt|Lt].
        * pose proof (proj1 (HF t Rt) Lt). pose proof (LE t Rt Lt). lra.
        * pose proof (GE t Rt ltac:(lra)). lra.
    - pose proof (GE r Rr ltac:(lra)) as Hrs. destruct (Rle_dec s (f x)) as [Ls|Ls].
      + destruct (Rle_dec t (f x)) as [Lt|Lt].
        * pose proof (LE t Rt Lt). lra.
        * pose proof (proj2 (HF t Rt) ltac:(lra)). lra.
      + pose proof (proj2 (HF s Rs) ltac:(lra)). assert (r = s) by lra. subst. lra.
  Qed.

  (** The steps of the compact kernels. *)
  Lemma ratio_unit d b : 0 < b -> 0 <= d <= b -> 0 <= d / b <= 1.
  Proof.
    intros Hb Hd. split; [apply Rmult_le_pos; [lra|left; apply Rinv_0_lt_compat; lra]|].
    apply Rmult_le_reg_r with b; [lra|]. unfold Rdiv. rewrite Rmult_assoc, Rinv_l by lra. lra.
  Qed.
  Lemma norm_close d b q : 0 < b -> 0 <= d <= b -> norm_fl fl d b = Fin q -> Rabs (q - d / b) <= e.
  Proof.
    intros Hb Hd E. pose proof (ratio_unit d b Hb Hd) as Hx.
    unfold norm_fl, fdiv, ediv in E. destruct (Req_EM_T b 0); [lra|]. unfold rounded in E.
    destruct (fl_unit fl HR _ Hx) as (r & Er & Hr). rewrite Er in E. simpl in E. injection E as <-. apply fl_close_unit; auto.
  Qed.
  Lemma one_minus_close v x z m : 0 <= v <= 1 -> 0 <= x <= 1 -> Rabs (v - x) <= m -> fsub fl (Fin 1) (Fin v) = Fin z -> Rabs (z - (1 - x)) <= m + e.
  Proof.
    intros Hv Hx Hm E. unfold fsub, esub, eopp, eadd, rounded in E.
    pose proof (fl_close_unit (1 + - v) z ltac:(lra) E) as D. apply Rabs_le_inv in D, Hm. apply Rabs_le. lra.
  Qed.
  Lemma square_close v x z m : 0 <= v <= 1 -> 0 <= x <= 1 -> Rabs (v - x) <= m -> fsquare fl (Fin v) = Fin z -> Rabs (z - x ^ 2) <= 2 * m + e.
  Proof.
    intros Hv Hx Hm E. unfold fsquare, fmul, emul, rounded in E.
    pose proof (fl_close_unit (v * v) z ltac:(nra) E) as D.
    assert (D2 : Rabs (v * v - x ^ 2) <= 2 * m).
    { replace (v * v - x ^ 2) with ((v - x) * (v + x)) by ring.
      rewrite Rabs_mult, (Rabs_pos_eq (v + x)) by lra. pose proof (Rabs_pos (v - x)). nra. }
    apply Rabs_le_inv in D, D2. apply Rabs_le. lra.
  Qed.
  Lemma cube_close v x z m : 0 <= v <= 1 -> 0 <= x <= 1 -> Rabs (v - x) <= m -> fcube v = Fin z -> Rabs (z - x ^ 3) <= 3 * m + 2 * e.
  Proof.
    intros Hv Hx Hm E. assert (Hv3 : 0 <= v ^ 3 <= 1).
    { split; [apply pow_le; lra|]. rewrite <- (pow1 3). apply pow_incr; lra. }
    pose proof (faithful_close (fun t => t ^ 3) fcube v z Hv3 (HC v Hv) E) as D. cbv beta in D.
    assert (D3 : Rabs (v ^ 3 - x ^ 3) <= 3 * m).
    { replace (v ^ 3 - x ^ 3) with ((v - x) * (v * v + v * x + x * x)) by ring.
      assert (P : 0 <= v * v + v * x + x * x <= 3). { destruct Hv, Hx. assert (0 <= v * v <= 1) by nra. assert (0 <= v * x <= 1) by nra. assert (0 <= x * x <= 1) by nra. lra. }
      rewrite Rabs_mult, (Rabs_pos_eq (v * v + v * x + x * x)) by apply P. pose proof (Rabs_pos (v - x)). nra. }
    apply Rabs_le_inv in D, D3. apply Rabs_le. lra.
  Qed.

  (** The smooth kernels. *)
  Hypothesis HW : wide fl e.
  Let He : 0 < e <= 1 / 32. Proof. apply HW. Qed.

  Lemma fl_inf z : 0 <= z -> fl z = PInf -> 4 / e ^ 2 < z.
  Proof.
    intros Hz E. destruct (Rle_dec z (4 / e ^ 2)) as [L|L]; [|lra].
    destruct (proj2 HW z (conj Hz L)) as [r Er]. congruence.
  Qed.
  Lemma far_large : 64 <= 2 / e /\ 2 / e <= 4 / e ^ 2.
  Proof.
    assert (I : 32 <= / e). { replace 32 with (/ (1 / 32)) by field. apply Rinv_le_contravar; lra. }
    unfold Rdiv. split; [lra|]. replace (4 * / e ^ 2) with (2 * / e * (2 * / e)) by (field; lra). nra.
  Qed.
  (** [exp (- t)] for large [t]. *)
  Lemma exp_far t : / (2 * e) <= t -> exp (- t) <= 2 * e.
  Proof.
    intros H. assert (P : 0 < / (2 * e)) by (apply Rinv_0_lt_compat; lra).
    pose proof (one_plus_exp t ltac:(lra)) as O. pose proof (exp_pos (- t)) as P2.
    assert (T : t * exp (- t) <= 1) by nra.
    assert (T2 : / (2 * e) * exp (- t) <= 1) by nra.
    apply Rmult_le_reg_l with (/ (2 * e)); [exact P|]. rewrite Rinv_l by lra. exact T2.
  Qed.

  Lemma half_fin s : 0 <= s -> fl s = Fin s -> exists h, fmul fl (Fin (-0.5)) (Fin s) = Fin (- h) /\ 0 <= h /\ Rabs (h - s / 2) <= e * (s / 2 + 1).
  Proof.
    intros Hs Rs. unfold fmul, emul, rounded.
    assert (Rm : fl (- s) = Fin (- s)) by (apply HR; exact Rs).
    assert (R0 : fl 0 = Fin 0) by apply HR.
    pose proof (mono (- s) (-0.5 * s) ltac:(lra)) as M. pose proof (mono (-0.5 * s) 0 ltac:(lra)) as M0. rewrite Rm in M. rewrite R0 in M0.
    destruct (fl (-0.5 * s)) as [r| | |] eqn:E; cbn [ele] in M, M0; try contradiction.
    exists (- r). split; [f_equal; ring|]. split; [lra|].
    pose proof (fl_close _ _ E) as D. assert (E5 : -0.5 * s = - (s / 2)) by lra. rewrite E5 in D.
    rewrite Rabs_Ropp, (Rabs_pos_eq (s / 2)) in D by lra. rewrite <- Rabs_Ropp. replace (- (- r - s / 2)) with (r - - (s / 2)) by ring. exact D.
  Qed.

  Lemma fexp_close h r : 0 <= h -> fexp (- h) = Fin r -> Rabs (r - exp (- h)) <= 2 * e.
  Proof.
    intros Hh E. apply (faithful_close exp fexp (- h) r); auto.
    - split; [left; apply exp_pos|]. rewrite <- exp_0. destruct Hh as [Hh| <-]; [left; apply exp_increasing; lra|rewrite Ropp_0; lra].
    - apply HE. lra.
  Qed.

  Lemma smooth_close h t a r : 0 <= h -> 0 <= t -> 0 <= a <= 1 / 4 -> Rabs (h - t) <= a * (t + 1) -> fexp (- h) = Fin r ->
    Rabs (r - exp (- t)) <= 4 / 3 * a + 2 * e.
  Proof.
    intros Hh Ht Ha Hd E. pose proof (exp_close h t a Hh Ht Ha Hd) as D. pose proof (fexp_close h r Hh E) as D'.
    apply Rabs_le_inv in D, D'. apply Rabs_le. lra.
  Qed.

  Lemma exponential_close x w : 0 <= x ->
    fexp_ext fexp (fmul fl (Fin (-0.5)) (eabs (nan_to_num (fl x)))) = Fin w -> Rabs (w - exp (- (x / 2))) <= 6 * e.
  Proof.
    intros Hx E. destruct far_large as [F1 F2]. destruct (fl_nonneg fl HR x Hx) as [(q & Eq & Hq)|Eq]; rewrite Eq in E.
    - pose proof (fl_close _ _ Eq) as D. rewrite (Rabs_pos_eq x Hx) in D. pose proof (proj1 (proj2 HR) _ _ Eq) as Rq.
      simpl in E. rewrite (Rabs_pos_eq q Hq) in E. destruct (half_fin q Hq Rq) as (h & Eh & Hh & Dh).
      change (fl (-0.5 * q)) with (fmul fl (Fin (-0.5)) (Fin q)) in E. rewrite Eh in E. simpl in E.
      assert (Dt : Rabs (h - x / 2) <= 3 * e * (x / 2 + 1)). { apply Rabs_le_inv in D, Dh. apply Rabs_le. nra. }
      pose proof (smooth_close h (x / 2) (3 * e) w Hh ltac:(lra) ltac:(lra) Dt E) as R. lra.
    - assert (X : exp (- (x / 2)) <= 2 * e).
      { apply exp_far. pose proof (fl_inf x Hx Eq) as L. assert (/ (2 * e) = 1 / 4 * (2 / e)) by (field; lra). lra. }
      simpl in E. destruct (half_neg fl HR PInf (or_introl eq_refl)) as [Z|(r & Z & _)].
      + change (fmul fl (Fin (-0.5)) PInf) with (fmul fl (Fin (-0.5)) (eabs PInf)) in Z. cbn [nan_to_num eabs] in *. rewrite Z in E. simpl in E. injection E as <-.
        pose proof (exp_pos (- (x / 2))). rewrite Rabs_left1; lra.
      + exfalso. unfold fmul, emul in Z. cbn [esign] in Z. destruct (Rlt_dec 0 (-0.5)); [lra|]. destruct (Rlt_dec (-0.5) 0); [discriminate|lra].
  Qed.

  Lemma gaussian_close x w : 0 <= x ->
    fexp_ext fexp (fmul fl (Fin (-0.5)) (fsquare fl (nan_to_num (fl x)))) = Fin w -> Rabs (w - exp (- (x ^ 2 / 2))) <= 10 * e.
  Proof.
    intros Hx E. destruct far_large as [F1 F2].
    assert (Inf : forall v, fexp_ext fexp (fmul fl (Fin (-0.5)) PInf) = Fin v -> v = 0).
    { intros v Ev. destruct (half_neg fl HR PInf (or_introl eq_refl)) as [Z|(r & Z & _)].
      - rewrite Z in Ev. simpl in Ev. congruence.
      - exfalso. unfold fmul, emul in Z. cbn [esign] in Z. destruct (Rlt_dec 0 (-0.5)); [lra|]. destruct (Rlt_dec (-0.5) 0); [discriminate|lra]. }
    assert (Far : 1 / e <= x -> Rabs (0 - exp (- (x ^ 2 / 2))) <= 10 * e).
    { intros L. assert (X : exp (- (x ^ 2 / 2)) <= 2 * e).
      { apply exp_far. assert (/ (2 * e) = 1 / 2 * (1 / e)) by (field; lra). assert (1 / e = 1 / 2 * (2 / e)) by (field; lra). nra. }
      pose proof (exp_pos (- (x ^ 2 / 2))). rewrite Rabs_left1; lra. }
    assert (Half : 1 / e = 1 / 2 * (2 / e)) by (field; lra).
    destruct (fl_nonneg fl HR x Hx) as [(q & Eq & Hq)|Eq]; rewrite Eq in E.
    - pose proof (fl_close _ _ Eq) as D. rewrite (Rabs_pos_eq x Hx) in D. cbn [nan_to_num] in E. unfold fsquare in E.
      change (fmul fl (Fin q) (Fin q)) with (fl (q * q)) in E.
      destruct (fl_nonneg fl HR (q * q) ltac:(nra)) as [(s & Es & Hs)|Es]; rewrite Es in E.
      + pose proof (fl_close _ _ Es) as D2. rewrite (Rabs_pos_eq (q * q)) in D2 by nra. pose proof (proj1 (proj2 HR) _ _ Es) as Rs.
        destruct (half_fin s Hs Rs) as (h & Eh & Hh & Dh). rewrite Eh in E. simpl in E.
        assert (Dq : Rabs (q * q - x ^ 2) <= e * (13 / 4 * x ^ 2 + 5 / 4)).
        { replace (q * q - x ^ 2) with ((q - x) * (q + x)) by ring. rewrite Rabs_mult, (Rabs_pos_eq (q + x)) by lra.
          assert (Q : q + x <= 2 * x + e * (x + 1)) by (apply Rabs_le_inv in D; lra).
          assert (Rabs (q - x) * (q + x) <= e * (x + 1) * (2 * x + e * (x + 1))) by (apply Rmult_le_compat; try lra; apply Rabs_pos).
          assert ((x + 1) * (2 * x + e * (x + 1)) <= 13 / 4 * x ^ 2 + 5 / 4).
          { assert (e * (x + 1) <= 1 / 32 * (x + 1)) by nra. assert ((x + 1) * (e * (x + 1)) <= 1 / 32 * (x + 1) ^ 2) by nra.
            assert (0 <= (x - 1) ^ 2) by (apply pow2_ge_0). nra. }
          nra. }
        assert (Dt : Rabs (h - x ^ 2 / 2) <= 6 * e * (x ^ 2 / 2 + 1)).
        { assert (X2 : 0 <= x ^ 2) by (apply pow2_ge_0). set (X := x ^ 2) in *. clearbody X.
          apply Rabs_le_inv in Dq, D2, Dh.
          assert (e * (13 / 4 * X + 5 / 4) <= 1 / 32 * (13 / 4 * X + 5 / 4)) by nra.
          assert (Q2 : q * q <= X + 1 / 32 * (13 / 4 * X + 5 / 4)) by lra.
          assert (S1 : - (e * (X * 9 / 2 + 5 / 2)) <= s - X <= e * (X * 9 / 2 + 5 / 2)).
          { assert (e * (q * q + 1) <= e * (X * 5 / 4 + 5 / 4)) by nra. lra. }
          assert (e * (X * 9 / 2 + 5 / 2) <= 1 / 32 * (X * 9 / 2 + 5 / 2)) by nra.
          assert (S2 : e * (s / 2 + 1) <= e * (3 / 4 * X + 5 / 4)) by nra.
          apply Rabs_le. nra. }
        pose proof (smooth_close h (x ^ 2 / 2) (6 * e) w Hh ltac:(nra) ltac:(lra) Dt E) as R. lra.
      + apply Inf in E. subst w. apply Far. pose proof (fl_inf (q * q) ltac:(nra) Es) as L.
        assert (Q : 2 / e < q). { replace (4 / e ^ 2) with (2 / e * (2 / e)) in L by (field; lra). nra. }
        apply Rabs_le_inv in D. assert (e * (x + 1) <= 1 / 32 * (x + 1)) by nra. nra.
    - cbn [nan_to_num] in E. change (fsquare fl PInf) with PInf in E. apply Inf in E. subst w. apply Far.
      pose proof (fl_inf x Hx Eq). lra.
  Qed.

  Theorem kernel_close k b d w w' : known_kernel k -> 0 <= b -> 0 <= d ->
    weighs k b d w -> weighs_fl fl fexp fcube k b d w' -> Rabs (w' - w) <= kernel_error k * e.
  Proof.
    intros Hk Hb Hd H H'. apply weighs_iff in H; auto. subst w.
    destruct (kernel_expr_fl_known fl fexp fcube k Hk) as [f Hf]. pose proof H' as H2. apply (weighs_fl_entry fl fexp fcube _ _ _ _ f Hf) in H'.
    destruct (Req_EM_T b 0) as [Zb|Nb].
    { subst b. assert (E : w' = kernel_value k 0 d).
      { destruct (String.eqb_spec k "uniform") as [->|Nu].
        - unfold kernel_entry_fl in H'. inversion Hf; subst f. simpl in H'. unfold kernel_value. simpl. congruence.
        - rewrite kernel_value_zero_bandwidth by auto. destruct (Req_EM_T d 0) as [->|Nd].
          + pose proof (coincident_fl fl fexp fcube HR HE HC k 0 Hk (Rle_refl 0)) as C. apply (weighs_fl_entry fl fexp fcube _ _ _ _ f Hf) in C. congruence.
          + pose proof (zero_bandwidth_fl fl fexp fcube k d Hk Nu ltac:(lra)) as C. apply (weighs_fl_entry fl fexp fcube _ _ _ _ f Hf) in C. congruence. }
      rewrite E, Rminus_diag_eq, Rabs_R0 by reflexivity. apply Rmult_le_pos; [|lra].
      unfold kernel_error. repeat destruct (String.eqb _ _); lra. }
    assert (Pb : 0 < b) by lra. assert (Px : 0 <= d / b) by (apply Rmult_le_pos; [lra|left; apply Rinv_0_lt_compat; lra]).
    assert (EN : norm_fl fl d b = nan_to_num (fl (d / b))).
    { unfold norm_fl, fdiv, ediv. destruct (Req_EM_T b 0); [lra|]. reflexivity. }
    unfold kernel_entry_fl in H'. fold (norm_fl fl d b) in H'.
    unfold kernel_value. destruct (Req_EM_T b 0); [lra|].
    destruct (Rle_dec d b) as [L|L].
    - assert (E2 : Rltb b d = false) by (apply Rltb_false; lra). rewrite E2, andb_false_r in H'.
      pose proof (ratio_unit d b Pb (conj Hd L)) as Hx.
      destruct (norm_inside fl HR d b (conj Hd L)) as (q & Eq & Hq). pose proof (norm_close d b q Pb (conj Hd L) Eq) as Dq.
      kcases Hk; inversion Hf; subst f; clear Hf; cbn [String.eqb Ascii.eqb Bool.eqb kernel_error]; unfold kernel_error; cbn [String.eqb Ascii.eqb Bool.eqb].
      + rewrite Eq in H'. pose proof (one_minus_close q (d / b) w' e Hq Hx Dq H'). lra.
      + injection H' as <-. rewrite Rminus_diag_eq, Rabs_R0 by reflexivity. lra.
      + rewrite EN in H'. pose proof (gaussian_close (d / b) w' Px H') as R. replace (- (d / b) ^ 2 / 2) with (- ((d / b) ^ 2 / 2)) by lra. exact R.
      + rewrite EN in H'. pose proof (exponential_close (d / b) w' Px H') as R. rewrite (Rabs_pos_eq (d / b) Px). replace (- (d / b) / 2) with (- (d / b / 2)) by lra. exact R.
      + injection H' as <-. rewrite Rminus_diag_eq, Rabs_R0 by reflexivity. lra.
      + rewrite Eq in H'. destruct (square_unit fl HR q Hq) as (v & Ev & Hv). rewrite Ev in H'.
        pose proof (square_close q (d / b) v e Hq Hx Dq Ev) as Dv. destruct (one_minus fl HR v Hv) as (z & Ez & Hz). rewrite Ez in H'.
        assert (X2 : 0 <= (d / b) ^ 2 <= 1) by nra. pose proof (one_minus_close v _ z _ Hv X2 Dv Ez) as Dz.
        pose proof (square_close z (1 - (d / b) ^ 2) w' _ Hz ltac:(lra) Dz H'). lra.
      + rewrite Eq in H'. simpl eabs in H'. rewrite Rabs_pos_eq in H' by lra. simpl fcube_ext in H'.
        destruct (cube_unit fl fcube HR HC q Hq) as (v & Ev & Hv). rewrite Ev in H'.
        pose proof (cube_close q (d / b) v e Hq Hx Dq Ev) as Dv. destruct (one_minus fl HR v Hv) as (z & Ez & Hz). rewrite Ez in H'. simpl in H'.
        assert (X3 : 0 <= (d / b) ^ 3 <= 1). { split; [apply pow_le; lra|]. rewrite <- (pow1 3). apply pow_incr; lra. }
        pose proof (one_minus_close v _ z _ Hv X3 Dv Ez) as Dz.
        pose proof (cube_close z (1 - (d / b) ^ 3) w' _ Hz ltac:(lra) Dz H'). lra.
    - assert (E2 : Rltb b d = true) by (apply Rltb_true; lra). rewrite E2, andb_true_r in H'.
      kcases Hk; inversion Hf; subst f; clear Hf; unfold kernel_error; cbn [String.eqb Ascii.eqb Bool.eqb];
        cbn [compact_kernel existsb String.eqb Ascii.eqb Bool.eqb orb] in H'.
      1, 5, 6, 7: (injection H' as <-; rewrite Rminus_diag_eq, Rabs_R0 by reflexivity; lra).
      + injection H' as <-. rewrite Rminus_diag_eq, Rabs_R0 by reflexivity. lra.
      + rewrite EN in H'. pose proof (gaussian_close (d / b) w' Px H') as R. replace (- (d / b) ^ 2 / 2) with (- ((d / b) ^ 2 / 2)) by lra. exact R.
      + rewrite EN in H'. pose proof (exponential_close (d / b) w' Px H') as R. rewrite (Rabs_pos_eq (d / b) Px). replace (- (d / b) / 2) with (- (d / b / 2)) by lra. exact R.
  Qed.
End Error.
