From Coq Require Import Lra Psatz Sorting.Sorted.
From Verif.Model Require Import Base Ext Sort Kernel.
From Verif.Spec Require Import KernelSpec.
From Verif.Proofs Require Import ListFacts KernelFacts SortFacts AdaptiveFacts KernelProps.
Open Scope string_scope.
Open Scope nat_scope.
Open Scope R_scope.

Lemma vanishing_known k : vanishing_kernel k -> known_kernel k.
Proof. intros [->|[->| ->]]; unfold known_kernel; auto 8. Qed.
Lemma smooth_known k : smooth_kernel k -> known_kernel k.
Proof. intros [->| ->]; unfold known_kernel; auto 8. Qed.

Lemma coincident_weight_one k b : known_kernel k -> 0 <= b -> weighs k b 0 1.
Proof. intros Hk Hb. apply weighs_iff; auto; try lra. symmetry; apply kernel_value_0; auto. Qed.

Lemma nearer_weighs_no_less k b d1 d2 w1 w2 :
  known_kernel k -> 0 <= b -> 0 <= d1 <= d2 -> weighs k b d1 w1 -> weighs k b d2 w2 -> w2 <= w1.
Proof.
  intros Hk Hb Hd H1 H2. apply weighs_iff in H1, H2; auto; try lra. subst.
  apply kernel_value_mono; auto; lra.
Qed.

Lemma strictly_decreasing k b d1 d2 w1 w2 :
  (vanishing_kernel k /\ d2 <= b) \/ (smooth_kernel k /\ 0 < b) ->
  0 <= d1 < d2 -> weighs k b d1 w1 -> weighs k b d2 w2 -> w2 < w1.
Proof.
  intros Hk Hd H1 H2.
  assert (Hk' : known_kernel k) by (destruct Hk as [[H _]|[H _]]; [apply vanishing_known|apply smooth_known]; auto).
  apply weighs_iff in H1, H2; auto; try lra. subst.
  destruct Hk as [[Hk Hb]|[Hk Hb]].
  - apply kernel_value_strict_compact; auto; lra.
  - apply kernel_value_strict_smooth; auto; lra.
Qed.

Lemma support_exact k b d w :
  known_kernel k -> 0 <= d -> 0 < b -> weighs k b d w ->
  (w = 0 <-> (vanishing_kernel k /\ b <= d) \/ (k = "boxcar" /\ b < d)).
Proof. intros Hk Hd Hb H. apply weighs_iff in H; auto. subst. apply kernel_value_support; auto. Qed.

Lemma zero_bandwidth k d :
  known_kernel k -> k <> "uniform" -> 0 <= d ->
  (d = 0 -> weighs k 0 d 1) /\ (0 < d -> weighs k 0 d 0).
Proof.
  intros Hk Hu Hd. split; intros H; apply weighs_iff; auto; rewrite kernel_value_zero_bandwidth by auto;
    destruct (Req_EM_T d 0); auto; lra.
Qed.

Lemma ratio_only k b d c w :
  known_kernel k -> 0 <= d -> 0 < c -> (weighs k (c * b) (c * d) w <-> weighs k b d w).
Proof.
  intros Hk Hd Hc. rewrite !weighs_iff by (auto; nra). rewrite kernel_value_scale by auto. reflexivity.
Qed.

Lemma kernel_textbook k b d :
  known_kernel k -> 0 <= d -> 0 < b -> weighs k b d (textbook k (d / b)).
Proof. intros Hk Hd Hb. apply weighs_iff; auto. symmetry; apply kernel_value_textbook; auto. Qed.

Lemma fraction_is_type8 row q b :
  adaptive_bandwidth [row] (CFloat q) = Ok [b] ->
  hyndman_fan_8 row q b /\
  (exists x, In x row /\ (forall y, In y row -> x <= y) /\ x <= b) /\
  (exists x, In x row /\ (forall y, In y row -> y <= x) /\ b <= x).
Proof.
  intros H. apply adaptive_float_single in H as [Hq [Hne Hb]]. split.
  - rewrite Hb. apply avi_hf8; auto.
  - apply adaptive_float_minmax with (q := q); auto.
Qed.

Lemma fraction_monotone row q q' b b' :
  q <= q' -> adaptive_bandwidth [row] (CFloat q) = Ok [b] ->
  adaptive_bandwidth [row] (CFloat q') = Ok [b'] -> b <= b'.
Proof.
  intros Hq H1 H2. apply adaptive_float_single in H1 as [_ [Hne ->]].
  apply adaptive_float_single in H2 as [_ [_ ->]].
  apply avi_mono; [apply sortR_sorted|rewrite sortR_nil; auto|]. apply virtual_mu_mono; auto.
Qed.

Lemma fraction_rowwise D q bs :
  adaptive_bandwidth D (CFloat q) = Ok bs <->
  0 < q /\ Forall2 (fun row b => adaptive_bandwidth [row] (CFloat q) = Ok [b]) D bs.
Proof.
  rewrite adaptive_float_ok. split; intros [Hq H]; split; auto; revert H; induction 1; constructor; auto.
  - apply adaptive_float_ok. split; auto.
  - apply adaptive_float_ok in H as [_ H]. inversion H; auto.
Qed.

(** ** concrete cases *)
Lemma known_lin : known_kernel "linear". Proof. unfold known_kernel; auto 8. Qed.
Lemma known_bis : known_kernel "bisquare". Proof. unfold known_kernel; auto 8. Qed.
Lemma known_box : known_kernel "boxcar". Proof. unfold known_kernel; auto 8. Qed.
Lemma known_tri : known_kernel "tricube". Proof. unfold known_kernel; auto 8. Qed.
Lemma known_gau : known_kernel "gaussian". Proof. unfold known_kernel; auto 8. Qed.
Lemma known_exp : known_kernel "exponential". Proof. unfold known_kernel; auto 8. Qed.
Global Hint Resolve known_lin known_bis known_box known_tri known_gau known_exp : kern.

Ltac nonneg_rows := unfold entries; repeat (apply Forall_cons || apply Forall_nil); try lra.

Lemma ex_C01 :
  known_kernel "tricube" /\ entries (Rle 0) [[0; 1]; [3; 2]] /\
  match BColumn [0; -1] with BScalar _ => True | BColumn bs => length bs = length [[0; 1]; [3; 2]] end.
Proof. split; [auto with kern|]. split; [nonneg_rows|reflexivity]. Qed.

Lemma ex_C02 : known_kernel "gaussian" /\ weighs "gaussian" 3 0 1 /\ weighs "bisquare" 0 0 1.
Proof. repeat split; auto with kern; apply coincident_weight_one; auto with kern; lra. Qed.

Ltac kval := unfold kernel_value; cbn [String.eqb Ascii.eqb Bool.eqb];
  repeat match goal with
  | |- context [Req_EM_T ?x ?y] => destruct (Req_EM_T x y); try lra
  | |- context [Rle_dec ?x ?y] => destruct (Rle_dec x y); try lra
  end; try (field; lra); try lra.

Lemma ex_C03 : weighs "bisquare" 2 1 (9/16) /\ weighs "bisquare" 2 2 0 /\ weighs "linear" 4 1 (3/4).
Proof. repeat split; apply weighs_iff; auto with kern; try lra; kval. Qed.

Lemma ex_C04 : weighs "boxcar" 2 2 1 /\ weighs "boxcar" 2 3 0 /\ weighs "tricube" 2 2 0.
Proof. repeat split; apply weighs_iff; auto with kern; try lra; kval. Qed.

Lemma ex_C05 : known_kernel "exponential" /\ "exponential" <> "uniform" /\ weighs "exponential" 0 5 0.
Proof. repeat split; auto with kern; try discriminate. apply weighs_iff; auto with kern; try lra; kval. Qed.

Lemma ex_C06 : weighs "bisquare" (3 * 2) (3 * 1) (9/16).
Proof. apply ratio_only; auto with kern; try lra. apply ex_C03. Qed.

Lemma ex_C07 : ~ known_kernel "triangular" /\ known_kernel "linear".
Proof. split; auto with kern. unfold known_kernel; intuition discriminate. Qed.

Lemma ex_C08 :
  entries (Rle 0) [[0; 1]; [3; 2]] /\ Forall (Rle 0) [0; 2] /\
  kernel_function_dask [[0; 1]; [3; 1]] (BColumn [0; 2]) "bisquare"
    = Ok [[Fin 1; Fin 0]; [Fin 0; Fin (9/16)]].
Proof.
  split; [nonneg_rows|]. split; [nonneg_rows|].
  rewrite kernel_function_dask_agrees by nonneg_rows.
  rewrite (kernel_function_known "bisquare" _ _ [0; 2]); [|auto with kern|reflexivity|nonneg_rows].
  simpl. repeat f_equal; kval.
Qed.

Lemma sortR_of l s : StronglySorted Rle s -> Permutation l s -> sortR l = s.
Proof.
  intros Hs Hp. apply sorted_perm_eq; auto; [apply sortR_sorted|].
  eapply perm_trans; [apply Permutation_sym, sortR_perm|auto].
Qed.

Ltac sort_tac :=
  unfold sortR, insert;
  repeat match goal with
  | |- context [Rleb ?x ?y] =>
    first [ rewrite (proj2 (Rleb_true x y)) by lra | rewrite (proj2 (Rleb_false x y)) by lra ]; cbn iota
  end.

Lemma ex_C09 : adaptive_bandwidth [[3; 0; 1]; [2; 2; 5]] (CInt 2) = Ok [1; 2].
Proof.
  unfold adaptive_bandwidth. cbn [Z.leb Z.compare mapM]. unfold partition_at.
  replace (Z.to_nat (2 - 1)) with 1%nat by reflexivity.
  assert (E1 : sortR [3; 0; 1] = [0; 1; 3]) by (sort_tac; reflexivity).
  assert (E2 : sortR [2; 2; 5] = [2; 2; 5]) by (sort_tac; reflexivity).
  rewrite E1, E2. reflexivity.
Qed.

Lemma ex_adaptive_012 k :
  known_kernel k ->
  adaptive_kernel [[0; 1; 2]] (CInt 2) k =
  Ok [[Fin (kernel_value k 1 0); Fin (kernel_value k 1 1); Fin (kernel_value k 1 2)]].
Proof.
  intros Hk. unfold adaptive_kernel.
  assert (E : adaptive_bandwidth [[0; 1; 2]] (CInt 2) = Ok [1]).
  { unfold adaptive_bandwidth. cbn [Z.leb Z.compare mapM]. unfold partition_at.
    replace (Z.to_nat (2 - 1)) with 1%nat by reflexivity.
    assert (E1 : sortR [0; 1; 2] = [0; 1; 2]) by (sort_tac; reflexivity).
    rewrite E1. reflexivity. }
  rewrite E. cbn [bind].
  rewrite (kernel_function_known k _ _ [1]); [reflexivity|auto|reflexivity|nonneg_rows].
Qed.

Lemma ex_C10 :
  adaptive_kernel [[0; 1; 2]] (CInt 2) "boxcar" = Ok [[Fin 1; Fin 1; Fin 0]] /\
  adaptive_kernel [[0; 1; 2]] (CInt 2) "bisquare" = Ok [[Fin 1; Fin 0; Fin 0]].
Proof.
  split; rewrite ex_adaptive_012 by auto with kern; repeat f_equal; kval.
Qed.

Lemma k_neighbours_refuted : exists D z W,
  entries (Rle 0) D /\ adaptive_kernel D (CInt z) "bisquare" = Ok W /\
  exists i, (i < length D)%nat /\ (nonzero_count (nth i W []) < Z.to_nat z)%nat.
Proof.
  exists [[0; 1; 2]], 2%Z, [[Fin 1; Fin 0; Fin 0]].
  split; [nonneg_rows|]. split; [apply ex_C10|]. exists 0%nat. split; [simpl; lia|].
  unfold nonzero_count; simpl.
  assert (E0 : Reqb 0 0 = true) by (apply Reqb_true; auto).
  assert (E1 : Reqb 1 0 = false) by (apply Reqb_false; lra).
  rewrite E0, E1. simpl. lia.
Qed.

Lemma ex_quantile_half : quantile_median_unbiased [1; 0] (1/2) = Ok (1/2).
Proof.
  apply quantile_with_ok. split; [lra|]. split; [discriminate|].
  assert (E1 : sortR [1; 0] = [0; 1]) by (sort_tac; reflexivity). rewrite E1.
  unfold at_virtual_index, virtual_median_unbiased. cbn [length Nat.sub INR].
  assert (Ev : 0 <= (1 + 1) * (1 / 2) + (1 / 3 + 1 / 2 * (1 - 1 / 3 - 1 / 3)) - 1 < 1) by lra.
  set (v := (1 + 1) * (1 / 2) + (1 / 3 + 1 / 2 * (1 - 1 / 3 - 1 / 3)) - 1) in *.
  assert (E2 : Rltb v 0 = false) by (apply Rltb_false; lra). rewrite E2.
  assert (E3 : Rleb 1 v = false) by (apply Rleb_false; lra). rewrite E3.
  assert (E4 : Rfloor v = 0%Z) by (apply Rfloor_unique; lra). rewrite E4.
  simpl. unfold v. lra.
Qed.

Lemma ex_C11 : adaptive_bandwidth [[1; 0]] (CFloat (1/2)) = Ok [1/2].
Proof.
  unfold adaptive_bandwidth. rewrite (proj2 (Rleb_false (1/2) 0)) by lra.
  cbn [mapM]. rewrite ex_quantile_half. reflexivity.
Qed.

Lemma ex_C12 :
  adaptive_bandwidth_dask [[0; 2]; [2; 0]] (CInt 2) (Some (map sortR [[0; 2]; [2; 0]])) = Ok [2; 2].
Proof.
  assert (E1 : sortR [0; 2] = [0; 2]) by (sort_tac; reflexivity).
  assert (E2 : sortR [2; 0] = [0; 2]) by (sort_tac; reflexivity).
  cbn [map]. rewrite E1, E2. reflexivity.
Qed.

Lemma dask_agreement_refuted :
  (exists D q bs, adaptive_bandwidth D (CFloat q) = Ok bs /\
     adaptive_bandwidth_dask D (CFloat q) (Some (map sortR D)) <> Ok bs /\
     is_ok (adaptive_bandwidth_dask D (CFloat q) (Some (map sortR D))) = true) /\
  (exists D z, is_ok (adaptive_bandwidth D (CInt z)) = true /\
     raises (adaptive_bandwidth_dask D (CInt z) (Some (map sortR D)))).
Proof.
  assert (E1 : sortR [1; 0] = [0; 1]) by (sort_tac; reflexivity).
  split.
  - exists [[1; 0]; [1; 0]], (1/2), [1/2; 1/2]. split; [|].
    + unfold adaptive_bandwidth. rewrite (proj2 (Rleb_false (1/2) 0)) by lra.
      cbn [mapM]. rewrite ex_quantile_half. reflexivity.
    + assert (E : adaptive_bandwidth_dask [[1; 0]; [1; 0]] (CFloat (1/2)) (Some (map sortR [[1; 0]; [1; 0]])) = Ok [0; 0]).
      { rewrite dask_float_is_ceil. cbn [map]. rewrite E1.
        assert (E2 : Rceil (INR (nrows [[1; 0]; [1; 0]]) * (1 / 2)) = 1%Z).
        { simpl. replace ((1 + 1) * (1 / 2)) with (IZR 1) by (simpl; lra). apply Rceil_IZR. }
        rewrite E2. reflexivity. }
      rewrite E. split; [|reflexivity]. intros H. inversion H. lra.
  - exists [[1; 0]], 2%Z. cbn [map]. rewrite E1. split.
    + unfold adaptive_bandwidth. cbn [Z.leb Z.compare mapM]. unfold partition_at. rewrite E1. reflexivity.
    + eexists. reflexivity.
Qed.

Lemma ex_C80 : textbook "bisquare" (1/2) = 9/16 /\
  is_ok (kernel_function [[0; 1]; [3; 2]] (BColumn [1; 2]) "gaussian") = true.
Proof.
  split; [|reflexivity]. unfold textbook. cbn [String.eqb Ascii.eqb Bool.eqb].
  destruct (Rle_dec (1/2) 1); lra.
Qed.
