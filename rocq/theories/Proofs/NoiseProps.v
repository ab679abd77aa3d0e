(** Small errors in distances and coordinates. *)
From Coq Require Import Lra Psatz.
From Verif.Model Require Import Base Ext Sort Kernel Distance WeightMatrix.
From Verif.Spec Require Import KernelSpec WeightSpec DistanceSpec NoiseSpec.
From Verif.Proofs Require Import ListFacts SumFacts SortFacts KernelFacts AdaptiveFacts WeightFacts WeightProps DistanceFacts.
Open Scope string_scope.
Open Scope nat_scope.
Open Scope R_scope.

(** The profile of a kernel: value at the ratio distance/bandwidth. *)
Lemma exp_lip a c : 0 <= a <= c -> 0 <= exp (- a) - exp (- c) <= c - a.
Proof.
  intros H. split.
  - destruct (Req_dec a c) as [->|]; [lra|]. pose proof (exp_increasing (- c) (- a) ltac:(lra)). lra.
  - replace (exp (- c)) with (exp (- a) * exp (- (c - a))) by (rewrite <- exp_plus; f_equal; ring).
    pose proof (exp_ineq1_le (- (c - a))) as H1. pose proof (exp_pos (- a)) as H2.
    assert (H3 : exp (- a) <= 1). { rewrite <- exp_0. destruct (Req_dec a 0) as [->|]; [rewrite Ropp_0; lra|]. left. apply exp_increasing. lra. }
    nra.
Qed.

Lemma gauss_lip u v : 0 <= u <= v -> 0 <= exp (- u ^ 2 / 2) - exp (- v ^ 2 / 2) <= v - u.
Proof.
  intros H. destruct (Req_dec u v) as [->|Hne]; [lra|].
  destruct (MVT_cor2 (fun x => - exp (- x ^ 2 / 2)) (fun x => x * exp (- x ^ 2 / 2)) u v) as (c & Hc & Hi); [lra| |].
  - intros x _. assert (D : derivable_pt_lim (fun x => - exp (- x ^ 2 / 2)) x (- (exp (- x ^ 2 / 2) * (- (2 * x) / 2)))).
    { apply (derivable_pt_lim_opp (fun x => exp (- x ^ 2 / 2))). 
      apply (derivable_pt_lim_comp (fun x => - x ^ 2 / 2) exp); [|apply derivable_pt_lim_exp].
      replace (- (2 * x) / 2) with (- (INR 2 * x ^ Nat.pred 2) * / 2 ) by (simpl; field).
      unfold Rdiv. apply (derivable_pt_lim_ext (fun x => (/ 2) * (- x ^ 2))); [intros; ring|].
      replace (- (INR 2 * x ^ Nat.pred 2) * / 2) with (/ 2 * - (INR 2 * x ^ Nat.pred 2)) by ring.
      apply (derivable_pt_lim_scal (fun x => - x ^ 2)). apply (derivable_pt_lim_opp (fun x => x ^ 2)). apply derivable_pt_lim_pow. }
    replace (x * exp (- x ^ 2 / 2)) with (- (exp (- x ^ 2 / 2) * (- (2 * x) / 2))) by field. exact D.
  - assert (B : 0 <= c * exp (- c ^ 2 / 2) <= 1).
    { pose proof (exp_pos (- c ^ 2 / 2)) as P. split; [apply Rmult_le_pos; lra|].
      pose proof (exp_ineq1_le (c ^ 2 / 2)) as E1.
      assert (E2 : exp (c ^ 2 / 2) * exp (- c ^ 2 / 2) = 1) by (rewrite <- exp_plus, <- exp_0; f_equal; field).
      assert (E3 : c <= exp (c ^ 2 / 2)) by nra.
      rewrite <- E2. apply Rmult_le_compat_r; lra. }
    nra.
Qed.

Lemma bisquare_lip u v : 0 <= u <= v -> v <= 1 -> 0 <= (1 - u ^ 2) ^ 2 - (1 - v ^ 2) ^ 2 <= 2 * (v - u).
Proof.
  intros H Hv. replace ((1 - u ^ 2) ^ 2 - (1 - v ^ 2) ^ 2) with ((v - u) * ((u + v) * (2 - u ^ 2 - v ^ 2))) by ring.
  assert (A : 0 <= (u + v) * (2 - u ^ 2 - v ^ 2)) by (apply Rmult_le_pos; nra).
  assert (B : (u + v) * (2 - u ^ 2 - v ^ 2) <= 2).
  { set (s := u + v). assert (Q : u ^ 2 + v ^ 2 >= s ^ 2 / 2) by (unfold s; nra). assert (Hs : 0 <= s) by (unfold s; lra).
    assert (s * (2 - u ^ 2 - v ^ 2) <= s * (2 - s ^ 2 / 2)) by (apply Rmult_le_compat_l; lra).
    assert (s * (2 - s ^ 2 / 2) <= 2). { assert (0 <= s * (s - 1) ^ 2) by (apply Rmult_le_pos; [lra|apply pow2_ge_0]). pose proof (pow2_ge_0 (s - 5/4)). nra. }
    lra. }
  nra.
Qed.

Lemma tricube_lip u v : 0 <= u <= v -> v <= 1 -> 0 <= (1 - u ^ 3) ^ 3 - (1 - v ^ 3) ^ 3 <= 9 / 4 * (v - u).
Proof.
  intros H Hv. destruct (Req_dec u v) as [->|Hne]; [lra|].
  destruct (MVT_cor2 (fun x => - (1 - x ^ 3) ^ 3) (fun x => 9 * (x * (1 - x ^ 3)) ^ 2) u v) as (c & Hc & Hi); [lra| |].
  - intros x _.
    assert (D : derivable_pt_lim (fun x => - (1 - x ^ 3) ^ 3) x (- (INR 3 * (1 - x ^ 3) ^ Nat.pred 3 * (0 - INR 3 * x ^ Nat.pred 3)))).
    { apply (derivable_pt_lim_opp (fun x => (1 - x ^ 3) ^ 3)).
      apply (derivable_pt_lim_comp (fun x => 1 - x ^ 3) (fun y => y ^ 3)); [|apply derivable_pt_lim_pow].
      apply (derivable_pt_lim_minus (fun _ => 1) (fun x => x ^ 3)); [apply derivable_pt_lim_const|apply derivable_pt_lim_pow]. }
    replace (9 * (x * (1 - x ^ 3)) ^ 2) with (- (INR 3 * (1 - x ^ 3) ^ Nat.pred 3 * (0 - INR 3 * x ^ Nat.pred 3))) by (simpl; ring). exact D.
  - assert (C01 : 0 <= c <= 1) by lra.
    assert (B0 : 0 <= c * (1 - c ^ 3)). { apply Rmult_le_pos; [lra|]. assert (c ^ 3 <= 1); [|lra]. rewrite <- (pow1 3). apply pow_incr. lra. }
    assert (B1 : c * (1 - c ^ 3) <= 1 / 2). { pose proof (pow2_ge_0 (c ^ 2 - 2 / 5)). pose proof (pow2_ge_0 (c - 5 / 8)). nra. }
    assert (B : 0 <= 9 * (c * (1 - c ^ 3)) ^ 2 <= 9 / 4) by nra.
    nra.
Qed.

(** Every kernel but boxcar. *)
Lemma kernel_value_lip k b d d' : known_kernel k -> k <> "boxcar" -> 0 < b -> 0 <= d <= d' ->
  0 <= kernel_value k b d - kernel_value k b d' <= 9 / 4 * ((d' - d) / b).
Proof.
  intros Hk Hne Hb Hd. unfold kernel_value. destruct (Req_EM_T b 0); [lra|].
  set (u := d / b). set (v := d' / b).
  assert (Huv : 0 <= u <= v).
  { unfold u, v, Rdiv. assert (0 < / b) by (apply Rinv_0_lt_compat; auto). split; [apply Rmult_le_pos; lra|apply Rmult_le_compat_r; lra]. }
  replace ((d' - d) / b) with (v - u) by (unfold u, v; field; lra).
  assert (U1 : d <= b <-> u <= 1).
  { unfold u. split; intros H0; [apply (Rmult_le_reg_r b); auto; field_simplify; lra|].
    apply (Rmult_le_compat_r b) in H0; [|lra]. unfold Rdiv in H0. rewrite Rmult_assoc, Rinv_l in H0; lra. }
  assert (V1 : d' <= b <-> v <= 1).
  { unfold v. split; intros H0; [apply (Rmult_le_reg_r b); auto; field_simplify; lra|].
    apply (Rmult_le_compat_r b) in H0; [|lra]. unfold Rdiv in H0. rewrite Rmult_assoc, Rinv_l in H0; lra. }
  destruct Hk as [->|[->|[->|[->|[->|[->| ->]]]]]]; cbn [String.eqb Ascii.eqb Bool.eqb]; cbn.
  - (* linear *) destruct (Rle_dec d b), (Rle_dec d' b); lra.
  - (* uniform *) lra.
  - (* gaussian *) pose proof (gauss_lip u v Huv) as G. simpl in G. lra.
  - (* exponential *) rewrite !Rabs_right by lra. pose proof (exp_lip (u / 2) (v / 2) ltac:(lra)) as G.
    replace (- u / 2) with (- (u / 2)) by field. replace (- v / 2) with (- (v / 2)) by field. lra.
  - congruence.
  - (* bisquare *) destruct (Rle_dec d b) as [A|A], (Rle_dec d' b) as [B|B]; try lra.
    + pose proof (bisquare_lip u v Huv (proj1 V1 B)) as G. simpl in G. lra.
    + assert (v > 1) by (destruct (Rle_dec v 1); [exfalso; apply B, V1; auto|lra]).
      pose proof (bisquare_lip u 1 ltac:(split; [lra|apply U1; auto]) ltac:(lra)) as G. simpl in G. lra.
  - (* tricube *) destruct (Rle_dec d b) as [A|A], (Rle_dec d' b) as [B|B]; try lra.
    + pose proof (tricube_lip u v Huv (proj1 V1 B)) as G. simpl in G. lra.
    + assert (v > 1) by (destruct (Rle_dec v 1); [exfalso; apply B, V1; auto|lra]).
      pose proof (tricube_lip u 1 ltac:(split; [lra|apply U1; auto]) ltac:(lra)) as G. simpl in G. lra.
Qed.

Lemma kernel_value_close k b d d' : known_kernel k -> k <> "boxcar" -> 0 < b -> 0 <= d -> 0 <= d' ->
  Rabs (kernel_value k b d - kernel_value k b d') <= 9 / 4 * (Rabs (d - d') / b).
Proof.
  intros Hk Hne Hb H1 H2. destruct (Rle_dec d d') as [H|H].
  - pose proof (kernel_value_lip k b d d' Hk Hne Hb ltac:(lra)) as G. rewrite Rabs_pos_eq by lra. rewrite (Rabs_minus_sym d), (Rabs_pos_eq (d' - d)) by lra. lra.
  - pose proof (kernel_value_lip k b d' d Hk Hne Hb ltac:(lra)) as G. rewrite Rabs_minus_sym, Rabs_pos_eq by lra. rewrite (Rabs_pos_eq (d - d')) by lra. lra.
Qed.

Theorem kernel_close k b d d' w w' : known_kernel k -> k <> "boxcar" -> 0 < b -> 0 <= d -> 0 <= d' ->
  weighs k b d w -> weighs k b d' w' -> Rabs (w - w') <= 9 / 4 * (Rabs (d - d') / b).
Proof. intros Hk Hne Hb H1 H2 A B. apply weighs_iff in A; auto. apply weighs_iff in B; auto. subst. apply kernel_value_close; auto. Qed.

Theorem boxcar_jump b e : 0 < b -> 0 < e -> exists d d', 0 <= d /\ 0 <= d' /\ Rabs (d - d') <= e /\ weighs "boxcar" b d 1 /\ weighs "boxcar" b d' 0.
Proof.
  intros Hb He. exists b, (b + e). split; [lra|]. split; [lra|]. split; [rewrite Rabs_minus_sym, Rabs_pos_eq; lra|].
  assert (Hk : known_kernel "boxcar") by (unfold known_kernel; tauto).
  split; apply weighs_iff; auto; try lra; unfold kernel_value; cbn; (destruct (Req_EM_T b 0); [lra|]).
  - destruct (Rle_dec b b); lra.
  - destruct (Rle_dec (b + e) b); lra.
Qed.

(** Bandwidths. *)
Lemma close_length e row row' : close e row row' -> length row = length row'.
Proof. intros H. induction H; cbn; congruence. Qed.
Lemma Rabs_split x e : Rabs x <= e -> - e <= x <= e.
Proof. intros H. unfold Rabs in H. destruct (Rcase_abs x); lra. Qed.
Lemma close_count e row row' v v' : close e row row' -> v + e < v' ->
  (count (fun x => Rleb x v) row <= count (fun x => Rltb x v') row')%nat.
Proof.
  intros H Hv. unfold count. induction H as [|x x' l l' Hx Hl IH]; [auto|]. cbn [filter].
  destruct (Rleb x v) eqn:E.
  - apply Rleb_true in E. assert (E' : Rltb x' v' = true). { apply Rltb_true. unfold Rabs in Hx. destruct (Rcase_abs (x - x')); lra. }
    rewrite E'. cbn [length]. lia.
  - destruct (Rltb x' v'); cbn [length]; lia.
Qed.
Lemma close_sym e row row' : close e row row' -> close e row' row.
Proof. intros H. induction H; constructor; auto. rewrite Rabs_minus_sym. auto. Qed.
Lemma kth_close e row row' k v v' : close e row row' -> kth_smallest row k v -> kth_smallest row' k v' -> Rabs (v - v') <= e.
Proof.
  intros H (A1 & A2 & A3) (B1 & B2 & B3). apply Rabs_le. split.
  - destruct (Rle_dec v' (v + e)) as [|N]; [lra|]. pose proof (close_count e row row' v v' H ltac:(lra)). lia.
  - destruct (Rle_dec v (v' + e)) as [|N]; [lra|]. pose proof (close_count e row' row v' v (close_sym _ _ _ H) ltac:(lra)). lia.
Qed.

Theorem bandwidth_close e p row row' b b' : 0 <= e -> close e row row' -> row_bandwidth p row b -> row_bandwidth p row' b' -> Rabs (b - b') <= e.
Proof.
  intros He H. pose proof (close_length _ _ _ H) as HL. destruct p as [b0|z|q]; simpl.
  - intros -> ->. replace (b0 - b0) with 0 by ring. rewrite Rabs_R0. auto.
  - intros (_ & _ & A) (_ & _ & B). eapply kth_close; eauto.
  - intros (Hq & Hne & A1 & A2 & A3) (_ & Hne' & B1 & B2 & B3). cbv zeta in *. rewrite <- HL in *.
    set (n := length row) in *. set (h := (INR n + 1 / 3) * q + 1 / 3) in *.
    assert (Hn : (0 < n)%nat) by (unfold n; destruct row; [contradiction|simpl; lia]).
    destruct (Rlt_dec h 1) as [Hh1|Hh1]; [eapply kth_close; eauto|].
    destruct (Rle_dec (INR n) h) as [Hhn|Hhn]; [eapply kth_close; eauto|].
    set (j := Z.to_nat (Rfloor h)). pose proof (Rfloor_spec h) as Hf.
    assert (H0 : (1 <= Rfloor h)%Z). { replace 1%Z with (Rfloor 1) by (apply (Rfloor_IZR 1)). apply Rfloor_mono; lra. }
    assert (Ej : INR j = IZR (Rfloor h)) by (unfold j; rewrite INR_IZR_INZ, Z2Nat.id by lia; auto).
    assert (Hj : (1 <= j < n)%nat). { split; [unfold j; lia|]. apply INR_lt. lra. }
    assert (Hh : INR j <= h < INR j + 1) by lra.
    assert (K1 : forall l, length l = n -> kth_smallest l j (nth (j - 1) (sortR l) 0)).
    { intros l Hl. replace j with (S (j - 1)) at 1 by lia. apply sorted_kth. lia. }
    assert (K2 : forall l, length l = n -> kth_smallest l (S j) (nth j (sortR l) 0)) by (intros l Hl; apply sorted_kth; lia).
    rewrite (A3 j _ _ Hj Hh (K1 row eq_refl) (K2 row eq_refl)), (B3 j _ _ Hj Hh (K1 row' (eq_sym HL)) (K2 row' (eq_sym HL))).
    pose proof (kth_close e row row' j _ _ H (K1 row eq_refl) (K1 row' (eq_sym HL))) as C1.
    pose proof (kth_close e row row' (S j) _ _ H (K2 row eq_refl) (K2 row' (eq_sym HL))) as C2.
    set (t := h - INR j) in *. assert (Ht : 0 <= t <= 1) by (unfold t; lra).
    apply Rabs_split in C1. apply Rabs_split in C2. apply Rabs_le. nra.
Qed.

(** Products and row totals. *)
Lemma prod_close n f g s : 0 <= s -> (forall d, (d < n)%nat -> 0 <= f d <= 1 /\ 0 <= g d <= 1 /\ Rabs (f d - g d) <= s) ->
  Rabs (Rprod (tabulate n f) - Rprod (tabulate n g)) <= INR n * s.
Proof.
  intros Hs H. unfold tabulate. assert (H' : forall d, In d (seq 0 n) -> 0 <= f d <= 1 /\ 0 <= g d <= 1 /\ Rabs (f d - g d) <= s) by (intros d Hd; apply in_seq in Hd; apply H; lia).
  clear H. rewrite <- (seq_length n 0) at 3. induction (seq 0 n) as [|d l IH]; [simpl; rewrite Rminus_diag_eq, Rabs_R0 by auto; lra|].
  cbn [map length]. rewrite S_INR. change (Rprod (f d :: map f l)) with (f d * Rprod (map f l)). change (Rprod (g d :: map g l)) with (g d * Rprod (map g l)).
  destruct (H' d (or_introl eq_refl)) as (A & B & C). specialize (IH (fun d' Hd' => H' d' (or_intror Hd'))).
  assert (PF : 0 <= Rprod (map f l) <= 1). { apply Rprod_bounds. intros x Hx. apply in_map_iff in Hx. destruct Hx as (d' & <- & Hd'). apply H'. right. auto. }
  replace (f d * Rprod (map f l) - g d * Rprod (map g l)) with ((f d - g d) * Rprod (map f l) + g d * (Rprod (map f l) - Rprod (map g l))) by ring.
  eapply Rle_trans; [apply Rabs_triang|]. rewrite !Rabs_mult. rewrite (Rabs_pos_eq (Rprod (map f l))), (Rabs_pos_eq (g d)) by lra.
  pose proof (Rabs_pos (f d - g d)). pose proof (Rabs_pos (Rprod (map f l) - Rprod (map g l))). nra.
Qed.
Lemma sum_close n f g s : (forall d, (d < n)%nat -> Rabs (f d - g d) <= s) ->
  Rabs (Rsum (tabulate n f) - Rsum (tabulate n g)) <= INR n * s.
Proof.
  intros H. unfold tabulate. assert (H' : forall d, In d (seq 0 n) -> Rabs (f d - g d) <= s) by (intros d Hd; apply in_seq in Hd; apply H; lia).
  clear H. rewrite <- (seq_length n 0) at 3. induction (seq 0 n) as [|d l IH]; [simpl; unfold Rsum; simpl; rewrite Rminus_diag_eq, Rabs_R0 by auto; lra|].
  cbn [map length]. rewrite S_INR. rewrite !Rsum_cons.
  pose proof (H' d (or_introl eq_refl)) as C. specialize (IH (fun d' Hd' => H' d' (or_intror Hd'))).
  replace (f d + Rsum (map f l) - (g d + Rsum (map g l))) with ((f d - g d) + (Rsum (map f l) - Rsum (map g l))) by ring.
  eapply Rle_trans; [apply Rabs_triang|]. lra.
Qed.
Lemma ratio_close p p' t t' s c : 0 <= p <= t -> 0 <= p' <= t' -> 1 <= t -> 1 <= t' -> Rabs (p - p') <= s -> Rabs (t - t') <= c ->
  Rabs (p / t - p' / t') <= s + c.
Proof.
  intros Hp Hp' Ht Ht' Hs Hc.
  replace (p / t - p' / t') with ((p - p') / t + p' / t' * ((t' - t) / t)) by (field; lra).
  eapply Rle_trans; [apply Rabs_triang|].
  assert (I : 0 < / t <= 1). { split; [apply Rinv_0_lt_compat; lra|]. rewrite <- Rinv_1. apply Rinv_le_contravar; lra. }
  assert (Q : 0 <= p' / t' <= 1). { split; [apply Rmult_le_pos; [lra|left; apply Rinv_0_lt_compat; lra]|]. apply (Rmult_le_reg_r t'); [lra|]. unfold Rdiv. rewrite Rmult_assoc, Rinv_l; lra. }
  unfold Rdiv at 1. rewrite Rabs_mult, (Rabs_pos_eq (/ t)) by lra.
  rewrite Rabs_mult, (Rabs_pos_eq (p' / t')) by lra. unfold Rdiv at 2. rewrite Rabs_mult, (Rabs_pos_eq (/ t)) by lra.
  rewrite Rabs_minus_sym in Hc. pose proof (Rabs_pos (p - p')). pose proof (Rabs_pos (t' - t)).
  assert (Rabs (p - p') * / t <= s) by nra.
  assert (Rabs (t' - t) * / t <= c) by nra.
  assert (0 <= Rabs (t' - t) * / t) by nra. nra.
Qed.

Lemma total_ge n f i : (i < n)%nat -> (forall j, (j < n)%nat -> 0 <= f j) -> f i <= Rsum (tabulate n f).
Proof.
  intros Hi H. unfold tabulate. assert (H' : forall d, In d (seq 0 n) -> 0 <= f d) by (intros d Hd; apply in_seq in Hd; apply H; lia).
  assert (HI : In i (seq 0 n)) by (apply in_seq; lia). clear H Hi.
  induction (seq 0 n) as [|d l IH]; [contradiction|]. cbn [map]. rewrite Rsum_cons.
  assert (P : 0 <= Rsum (map f l)). { apply Rsum_nonneg. intros x Hx. apply in_map_iff in Hx. destruct Hx as (d' & <- & Hd'). apply H'. right. auto. }
  destruct HI as [->|HI]; [lra|]. specialize (IH (fun d' Hd' => H' d' (or_intror Hd')) HI). pose proof (H' d (or_introl eq_refl)). lra.
Qed.

Theorem weights_close kt bw nc Ds Ds' n e bmin :
  self_distances Ds n -> self_distances Ds' n -> length Ds' = length Ds -> (0 < n)%nat -> 0 <= e -> 0 < bmin ->
  gradual kt bw nc (length Ds) bmin ->
  (forall dim i j, (dim < length Ds)%nat -> (i < n)%nat -> (j < n)%nat -> Rabs (mget 0 (nth dim Ds []) i j - mget 0 (nth dim Ds' []) i j) <= e) ->
  exists W W', weight_matrix_from_distance (map A2 Ds) kt RNone bw nc = Ok (mmap Fin W) /\
    weight_matrix_from_distance (map A2 Ds') kt RNone bw nc = Ok (mmap Fin W') /\ rect W n n /\ rect W' n n /\
    forall i j, (i < n)%nat -> (j < n)%nat ->
      Rabs (mget 0 W i j - mget 0 W' i j) <= (INR n + 1) * (INR (length Ds) * (9 / 4 * (e / bmin))).
Proof.
  intros [HV HZ] [HV' HZ'] HL Hn He Hb HG HC.
  assert (S0 : forall Ds, valid_distances Ds n n -> gradual kt bw nc (length Ds) bmin -> exists W, weight_matrix_from_distance (map A2 Ds) kt RNone bw nc = Ok W).
  { intros Es VE GE. apply (wm_success Es _ _ _ n n VE Hn). split.
    - intros [E1 E2]. destruct Es as [|D Es]; [destruct VE; congruence|].
      destruct (GE 0%nat) as (k & b & (_ & _ & _ & _ & H) & _); [simpl; lia|]. rewrite E1, E2 in H. discriminate.
    - intros dim Hd. destruct (GE dim Hd) as (k & b & H & _). exists k, (FixedBandwidth b). split; [exact H|exact I]. }
  destruct (S0 Ds HV HG) as [W0 HW]. destruct (S0 Ds' HV') as [W0' HW']; [rewrite HL; exact HG|].
  destruct (wm_stochastic Ds _ _ _ n n W0 HV Hn HW) as (W & -> & RW & _).
  destruct (wm_stochastic Ds' _ _ _ n n W0' HV' Hn HW') as (W' & -> & RW' & _).
  exists W, W'. split; [exact HW|]. split; [exact HW'|]. split; [exact RW|]. split; [exact RW'|]. intros i j Hi Hj.
  destruct (wm_product Ds _ _ _ n n _ HV Hn HW) as (_ & raw & Hraw & Hget).
  destruct (wm_product Ds' _ _ _ n n _ HV' Hn HW') as (_ & raw' & Hraw' & Hget').
  destruct (Hget i j Hi Hj) as [G _]. destruct (Hget' i j Hi Hj) as [G' _]. cbv zeta in G, G'. rewrite HL in G'.
  rewrite (mmap_get Fin W 0 NaN n n) in G by auto. rewrite (mmap_get Fin W' 0 NaN n n) in G' by auto.
  assert (RV : forall dim i j, (dim < length Ds)%nat -> (i < n)%nat -> (j < n)%nat -> exists k b, known_kernel k /\ k <> "boxcar" /\ bmin <= b /\
      raw dim i j = kernel_value k b (mget 0 (nth dim Ds []) i j) /\ raw' dim i j = kernel_value k b (mget 0 (nth dim Ds' []) i j) /\
      0 <= mget 0 (nth dim Ds []) i j /\ 0 <= mget 0 (nth dim Ds' []) i j).
  { intros dim i0 j0 Hd Hi0 Hj0. destruct (HG dim Hd) as (k & b & Hq & Hk & Hbb). exists k, b.
    destruct (Hraw dim i0 j0 Hd Hi0 Hj0) as (k1 & p1 & Hq1 & b1 & Hb1 & Hw1). destruct (requests_fun _ _ _ _ _ _ _ _ Hq Hq1) as [<- <-].
    destruct (Hraw' dim i0 j0) as (k2 & p2 & Hq2 & b2 & Hb2 & Hw2); [rewrite HL; auto|auto|auto|]. destruct (requests_fun _ _ _ _ _ _ _ _ Hq Hq2) as [<- <-].
    simpl in Hb1, Hb2. subst b1 b2. destruct Hq as (_ & Hkn & _).
    destruct (valid_nth _ _ _ dim HV Hd) as [HR1 HE1]. destruct (valid_nth _ _ _ dim HV' ltac:(rewrite HL; auto)) as [HR2 HE2].
    assert (P1 : 0 <= mget 0 (nth dim Ds []) i0 j0) by (apply (entry_nonneg _ n n); auto).
    assert (P2 : 0 <= mget 0 (nth dim Ds' []) i0 j0) by (apply (entry_nonneg _ n n); auto).
    apply weighs_iff in Hw1; auto. apply weighs_iff in Hw2; auto. repeat split; auto. }
  set (s := 9 / 4 * (e / bmin)) in *.
  assert (Hs : 0 <= s). { unfold s. assert (0 < / bmin) by (apply Rinv_0_lt_compat; auto). unfold Rdiv. nra. }
  set (P := fun j' => Rprod (tabulate (length Ds) (fun dim => raw dim i j'))) in *.
  set (P' := fun j' => Rprod (tabulate (length Ds) (fun dim => raw' dim i j'))) in *.
  assert (B : forall j', (j' < n)%nat -> 0 <= P j' <= 1 /\ 0 <= P' j' <= 1 /\ Rabs (P j' - P' j') <= INR (length Ds) * s).
  { intros j' Hj'. split; [|split].
    - apply Rprod_bounds. intros x Hx. apply in_tabulate in Hx. destruct Hx as (dim & Hd & <-). destruct (RV dim i j' Hd Hi Hj') as (k & b & Hk & _ & _ & -> & _ & P1 & _). apply kernel_value_range; auto.
    - apply Rprod_bounds. intros x Hx. apply in_tabulate in Hx. destruct Hx as (dim & Hd & <-). destruct (RV dim i j' Hd Hi Hj') as (k & b & Hk & _ & _ & _ & -> & _ & P1). apply kernel_value_range; auto.
    - apply prod_close; auto. intros dim Hd. destruct (RV dim i j' Hd Hi Hj') as (k & b & Hk & Hne & Hbb & -> & -> & P1 & P2).
      split; [apply kernel_value_range; auto|]. split; [apply kernel_value_range; auto|].
      eapply Rle_trans; [apply kernel_value_close; auto; lra|]. unfold s. apply Rmult_le_compat_l; [lra|].
      specialize (HC dim i j' Hd Hi Hj'). unfold Rdiv. apply Rmult_le_compat; [apply Rabs_pos|left; apply Rinv_0_lt_compat; lra|auto|apply Rinv_le_contravar; lra]. }
  assert (O : P i = 1 /\ P' i = 1).
  { split; apply Rprod_ones; intros x Hx; apply in_tabulate in Hx; destruct Hx as (dim & Hd & <-); destruct (RV dim i i Hd Hi Hi) as (k & b & Hk & _ & Hbb & E1 & E2 & _).
    - rewrite E1, (HZ dim i Hd Hi). apply kernel_value_0; auto; lra.
    - rewrite E2, (HZ' dim i ltac:(rewrite HL; auto) Hi). apply kernel_value_0; auto; lra. }
  destruct O as [O1 O2].
  pose proof (total_ge n P i Hi (fun j' H => proj1 (proj1 (B j' H)))) as T1. pose proof (total_ge n P' i Hi (fun j' H => proj1 (proj1 (proj2 (B j' H))))) as T2.
  pose proof (total_ge n P j Hj (fun j' H => proj1 (proj1 (B j' H)))) as T3. pose proof (total_ge n P' j Hj (fun j' H => proj1 (proj1 (proj2 (B j' H))))) as T4.
  destruct (Req_EM_T (Rsum (tabulate n P)) 0) as [E0|_]; [lra|]. destruct (Req_EM_T (Rsum (tabulate n P')) 0) as [E0|_]; [lra|].
  injection G as ->. injection G' as ->.
  destruct (B j Hj) as (B1 & B2 & B3).
  replace ((INR n + 1) * (INR (length Ds) * s)) with (INR (length Ds) * s + INR n * (INR (length Ds) * s)) by ring.
  apply (ratio_close (P j) (P' j) (Rsum (tabulate n P)) (Rsum (tabulate n P'))); [split; [apply B1|exact T3]|split; [apply B2|exact T4]|lra|lra|exact B3|].
  apply (sum_close n P P'). intros d Hd. apply B. auto.
Qed.

(** Coordinates. *)
Theorem coordinates_close mkw (sm : string -> option (mkw -> list R -> list R -> R)) kw pts pts' n d e :
  rect pts n d -> rect pts' n d -> (0 < n)%nat ->
  (forall i, (i < n)%nat -> sqrt (sq_dist d (nth i pts []) (nth i pts' [])) <= e) ->
  exists D D', distance_matrix (fun x => x) mkw sm pts (Some pts) "euclidean" kw = Ok (A2 D) /\
    distance_matrix (fun x => x) mkw sm pts' (Some pts') "euclidean" kw = Ok (A2 D') /\
    self_distances [D] n /\ self_distances [D'] n /\
    forall i j, (i < n)%nat -> (j < n)%nat -> Rabs (mget 0 D i j - mget 0 D' i j) <= 2 * e.
Proof.
  intros HR HR' Hn HC.
  destruct (euclid_matrix_metric mkw sm kw pts n d HR Hn) as (D & H1 & H2 & H3).
  destruct (euclid_matrix_metric mkw sm kw pts' n d HR' Hn) as (D' & H1' & H2' & H3').
  assert (SD : forall D same, metric_table n same D -> (forall i, (i < n)%nat -> same i i) -> self_distances [D] n).
  { intros E same M Hs. split.
    - split; [discriminate|]. constructor; [|constructor]. split; [apply M|]. apply (entries_mget (Rle 0) E n n (mt_rect _ _ _ M)). apply M.
    - intros dim i Hd Hi. cbn in Hd. assert (dim = 0%nat) as -> by lia. cbn [nth]. apply (mt_zero _ _ _ M i i Hi Hi). auto. }
  exists D, D'. split; [exact H1|]. split; [exact H1'|]. split; [apply (SD D _ H3); reflexivity|]. split; [apply (SD D' _ H3'); reflexivity|].
  intros i j Hi Hj. rewrite H2, H2' by auto.
  assert (L : forall k, (k < n)%nat -> length (nth k pts []) = d) by (intros k Hk; apply (rect_row pts n d); auto).
  assert (L' : forall k, (k < n)%nat -> length (nth k pts' []) = d) by (intros k Hk; apply (rect_row pts' n d); auto).
  pose proof (HC i Hi) as Ci. pose proof (HC j Hj) as Cj.
  rewrite <- !euclid_sq_dist in * by auto.
  set (p := nth i pts []) in *. set (q := nth j pts []) in *. set (p' := nth i pts' []) in *. set (q' := nth j pts' []) in *.
  assert (Lp : length p = d) by (apply L; auto). assert (Lq : length q = d) by (apply L; auto).
  assert (Lp' : length p' = d) by (apply L'; auto). assert (Lq' : length q' = d) by (apply L'; auto).
  pose proof (euclid_triangle p p' q ltac:(congruence) ltac:(congruence)). pose proof (euclid_triangle p' q' q ltac:(congruence) ltac:(congruence)).
  pose proof (euclid_triangle p' p q' ltac:(congruence) ltac:(congruence)). pose proof (euclid_triangle p q q' ltac:(congruence) ltac:(congruence)).
  rewrite (euclid_sym q' q), (euclid_sym p' p) in *. apply Rabs_le. lra.
Qed.

(** Adaptive bandwidths: three neighbours at 0, t and 2t, and at 0, 0 and 2t. *)
Theorem adaptive_jump e : 0 < e -> exists row row' b b', close e row row' /\ row_bandwidth (NearestCount 3) row b /\ row_bandwidth (NearestCount 3) row' b' /\
  weighs "linear" b (nth 1 row 0) (1 / 2) /\ weighs "linear" b' (nth 1 row' 0) 1.
Proof.
  intros He. assert (Hk : known_kernel "linear") by (unfold known_kernel; tauto).
  assert (K : forall x y, 0 <= x -> x < y -> 0 < y -> row_bandwidth (NearestCount 3) [0; x; y] y).
  { intros x y H1 H2 H3. split; [lia|]. split; [cbn; lia|]. split; [cbn; tauto|]. change (Z.to_nat 3) with 3%nat. unfold count. cbn [filter].
    assert (A : forall z, z <= y -> Rleb z y = true) by (intros; apply Rleb_true; auto). rewrite !A by lra.
    assert (B : Rltb y y = false) by (apply Rltb_false; lra). rewrite B. split; [cbn; lia|].
    destruct (Rltb 0 y), (Rltb x y); cbn; lia. }
  exists [0; e; 2 * e], [0; 0; 2 * e], (2 * e), (2 * e). split; [|split; [|split; [|split]]].
  - constructor; [rewrite Rminus_0_r, Rabs_R0; lra|]. constructor; [rewrite Rminus_0_r, Rabs_pos_eq; lra|]. constructor; [rewrite Rminus_diag_eq, Rabs_R0 by auto; lra|constructor].
  - apply K; lra.
  - apply K; lra.
  - cbn [nth]. apply weighs_iff; auto; [lra|]. unfold kernel_value. cbn. destruct (Req_EM_T (2 * e) 0); [lra|]. destruct (Rle_dec e (2 * e)); [field; lra|lra].
  - cbn [nth]. apply weighs_iff; auto; [lra|]. symmetry. apply kernel_value_0; auto. lra.
Qed.
