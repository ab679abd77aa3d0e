From Coq Require Import Lra Psatz Sorting.Sorted.
From Verif.Model Require Import Base Ext Sort Kernel.
From Verif.Spec Require Import KernelSpec.
From Verif.Proofs Require Import ListFacts KernelFacts SortFacts.
Open Scope string_scope.
Open Scope nat_scope.
Open Scope R_scope.

Lemma adaptive_int_ok D z bs :
  adaptive_bandwidth D (CInt z) = Ok bs <->
  (0 < z)%Z /\ Forall2 (fun row b => (Z.to_nat z <= length row)%nat /\ kth_smallest row (Z.to_nat z) b) D bs.
Proof.
  unfold adaptive_bandwidth. destruct (Z.leb_spec z 0) as [H|H].
  - split; [discriminate|lia].
  - rewrite mapM_ok_iff.
    assert (E : S (Z.to_nat (z - 1)) = Z.to_nat z) by lia.
    split.
    + intros HF; split; auto. revert HF. induction 1 as [|x y l l' Hxy HF IH]; constructor; auto.
      apply partition_at_ok in Hxy as [H1 H2]. rewrite E in H2. split; auto; lia.
    + intros [_ HF]. revert HF. induction 1 as [|x y l l' [H1 H2] HF IH]; constructor; auto.
      apply partition_at_ok. rewrite E. split; auto; lia.
Qed.

Lemma adaptive_int_raises D z :
  raises (adaptive_bandwidth D (CInt z)) <->
  (z <= 0)%Z \/ exists row, In row D /\ (Z.of_nat (length row) < z)%Z.
Proof.
  unfold adaptive_bandwidth. destruct (Z.leb_spec z 0) as [H|H].
  - split; auto. intros _; eexists; reflexivity.
  - rewrite mapM_raises_iff. split.
    + intros [row [H1 H2]]. right. exists row; split; auto. apply partition_at_raises in H2. lia.
    + intros [H'|[row [H1 H2]]]; [lia|]. exists row; split; auto. apply partition_at_raises. lia.
Qed.

Lemma adaptive_float_ok D q bs :
  adaptive_bandwidth D (CFloat q) = Ok bs <->
  0 < q /\ Forall2 (fun row b => q <= 1 /\ row <> [] /\
     b = at_virtual_index (sortR row) (virtual_median_unbiased (length row) q)) D bs.
Proof.
  unfold adaptive_bandwidth. destruct (Rleb q 0) eqn:E.
  - apply Rleb_true in E. split; [discriminate|]. intros [H _]; lra.
  - apply Rleb_false in E. rewrite mapM_ok_iff. split.
    + intros HF; split; auto. revert HF. induction 1 as [|x y l l' Hxy HF IH]; constructor; auto.
      apply quantile_with_ok in Hxy as [H1 [H2 H3]]. repeat split; auto; lra.
    + intros [_ HF]. revert HF. induction 1 as [|x y l l' [H1 [H2 H3]] HF IH]; constructor; auto.
      apply quantile_with_ok. repeat split; auto; lra.
Qed.

Lemma adaptive_float_raises D q :
  raises (adaptive_bandwidth D (CFloat q)) <->
  q <= 0 \/ (1 < q /\ D <> []) \/ In [] D.
Proof.
  unfold adaptive_bandwidth. destruct (Rleb q 0) eqn:E.
  - apply Rleb_true in E. split; auto. intros _; eexists; reflexivity.
  - apply Rleb_false in E. rewrite mapM_raises_iff.
    assert (Hq : forall row, raises (quantile_median_unbiased row q) <-> 1 < q \/ row = []).
    { intros row. unfold quantile_median_unbiased, quantile_with.
      assert (E1 : Rltb q 0 = false) by (apply Rltb_false; lra). rewrite E1; simpl.
      destruct (Rltb 1 q) eqn:E2.
      - apply Rltb_true in E2. split; auto. intros _; eexists; reflexivity.
      - apply Rltb_false in E2. destruct row.
        + split; auto. intros _; eexists; reflexivity.
        + split; [intros [e H]; discriminate|]. intros [H|H]; [lra|discriminate]. }
    split.
    + intros [row [H1 H2]]. apply Hq in H2 as [H2| ->]; auto.
      right; left; split; auto. intros ->; destruct H1.
    + intros [H|[[H1 H2]|H]]; [lra| |].
      * destruct D as [|row D]; [contradiction|]. exists row; split; [left; auto|]. apply Hq; auto.
      * exists []; split; auto. apply Hq; auto.
Qed.

Lemma avi_hf8 row q :
  row <> [] -> 0 < q <= 1 ->
  hyndman_fan_8 row q (at_virtual_index (sortR row) (virtual_median_unbiased (length row) q)).
Proof.
  intros Hne Hq. set (n := length row). set (v := virtual_median_unbiased n q).
  assert (Hn : (0 < n)%nat) by (unfold n; destruct row; [contradiction|simpl; lia]).
  assert (Hls : length (sortR row) = n) by apply sortR_length.
  assert (Hsne : sortR row <> []) by (rewrite sortR_nil; auto).
  assert (Hv : v = (INR n + 1 / 3) * q + 1 / 3 - 1) by (unfold v, virtual_median_unbiased; field).
  unfold hyndman_fan_8. fold n. set (h := (INR n + 1 / 3) * q + 1 / 3) in *.
  assert (Hn1 : INR (n - 1) = INR n - 1) by (rewrite minus_INR by lia; simpl; lra).
  split; [|split].
  - intros Hh. assert (E : at_virtual_index (sortR row) v = nth 0 (sortR row) 0).
    { unfold at_virtual_index. assert (E1 : Rltb v 0 = true) by (apply Rltb_true; lra). rewrite E1; auto. }
    rewrite E. apply sorted_kth; auto.
  - intros Hh.
    destruct (avi_cases (sortR row) v Hsne) as [[Hc E]|[[Hc [Hc' E]]|[i [Hi [Hc E]]]]]; rewrite E.
    + exfalso. pose proof (le_INR 1 n ltac:(lia)) as H1. simpl in H1. lra.
    + rewrite Hls. replace n with (S (n - 1)) at 1 by lia. apply sorted_kth. unfold n in *; lia.
    + exfalso. rewrite Hls in Hi.
      assert (INR i + 1 <= INR (n - 1)) by (rewrite <- S_INR; apply le_INR; lia). lra.
  - intros j x y Hj Hh Hx Hy.
    destruct (avi_cases (sortR row) v Hsne) as [[Hc E]|[[Hc [Hc' E]]|[i [Hi [Hc E]]]]]; rewrite E.
    + exfalso. pose proof (le_INR 1 j ltac:(lia)). simpl in H. lra.
    + exfalso. rewrite Hls, Hn1 in Hc'.
      assert (INR j + 1 <= INR n) by (rewrite <- S_INR; apply le_INR; lia). lra.
    + rewrite Hls in Hi.
      assert (Eij : j = S i).
      { assert (INR j < INR (S (S i))) by (rewrite !S_INR; lra).
        assert (INR (S i) < INR (S j)) by (rewrite !S_INR; lra).
        apply INR_lt in H, H0. lia. }
      subst j.
      assert (Ex : x = nth i (sortR row) 0).
      { eapply kth_smallest_unique; [exact Hx|apply sorted_kth; unfold n in *; lia]. }
      assert (Ey : y = nth (S i) (sortR row) 0).
      { eapply kth_smallest_unique; [exact Hy|apply sorted_kth; unfold n in *; lia]. }
      subst x y. rewrite S_INR in *. replace (v - INR i) with (h - (INR i + 1)) by lra. ring.
Qed.

Lemma adaptive_float_single row q b :
  adaptive_bandwidth [row] (CFloat q) = Ok [b] ->
  0 < q <= 1 /\ row <> [] /\ b = at_virtual_index (sortR row) (virtual_median_unbiased (length row) q).
Proof.
  intros H. apply adaptive_float_ok in H as [H1 H2].
  inversion H2 as [|? ? ? ? [H3 [H4 H5]] _]; subst. auto.
Qed.

Lemma virtual_mu_mono n q q' : q <= q' -> virtual_median_unbiased n q <= virtual_median_unbiased n q'.
Proof. intros H. unfold virtual_median_unbiased. pose proof (pos_INR n). nra. Qed.

Lemma adaptive_float_minmax row q b :
  row <> [] -> 0 < q <= 1 -> b = at_virtual_index (sortR row) (virtual_median_unbiased (length row) q) ->
  (exists x, In x row /\ (forall y, In y row -> x <= y) /\ x <= b) /\
  (exists x, In x row /\ (forall y, In y row -> y <= x) /\ b <= x).
Proof.
  intros Hne Hq ->.
  assert (Hn : (0 < length row)%nat) by (destruct row; [contradiction|simpl; lia]).
  assert (Hsne : sortR row <> []) by (rewrite sortR_nil; auto).
  pose proof (avi_bounds (sortR row) (virtual_median_unbiased (length row) q) (sortR_sorted row) Hsne) as [H1 H2].
  split.
  - exists (nth 0 (sortR row) 0). repeat split; auto.
    + apply sortR_in; auto.
    + intros; apply sortR_min; auto.
  - exists (nth (length row - 1) (sortR row) 0). rewrite sortR_length in H2. repeat split; auto.
    + apply sortR_in; lia.
    + intros; apply sortR_max; auto.
Qed.

Lemma adaptive_float_one row b :
  adaptive_bandwidth [row] (CFloat 1) = Ok [b] -> In b row /\ (forall y, In y row -> y <= b).
Proof.
  intros H. apply adaptive_float_single in H as [_ [Hne ->]].
  assert (Hn : (0 < length row)%nat) by (destruct row; [contradiction|simpl; lia]).
  assert (Hsne : sortR row <> []) by (rewrite sortR_nil; auto).
  assert (E : at_virtual_index (sortR row) (virtual_median_unbiased (length row) 1)
              = nth (length row - 1) (sortR row) 0).
  { destruct (avi_cases (sortR row) (virtual_median_unbiased (length row) 1) Hsne)
      as [[Hc E]|[[Hc [Hc' E]]|[i [Hi [Hc E]]]]].
    - exfalso. unfold virtual_median_unbiased in Hc. pose proof (le_INR 1 _ Hn). simpl in H. lra.
    - rewrite E, sortR_length; auto.
    - exfalso. rewrite sortR_length in Hi. unfold virtual_median_unbiased in Hc.
      assert (INR i + 1 <= INR (length row - 1)) by (rewrite <- S_INR; apply le_INR; lia).
      rewrite minus_INR in H by lia. simpl in H. lra. }
  rewrite E. split; [apply sortR_in; lia|intros; apply sortR_max; auto].
Qed.

(** ** counting non-zero kernel weights *)
Lemma nonzero_count_map (f : R -> R) row :
  nonzero_count (map (fun d => Fin (f d)) row) = count (fun d => negb (Reqb (f d) 0)) row.
Proof.
  unfold nonzero_count, count. induction row as [|d row IH]; simpl; auto.
  destruct (Reqb (f d) 0); simpl; auto.
Qed.

Lemma count_ext p q l : (forall x, In x l -> p x = q x) -> count p l = count q l.
Proof.
  intros H. unfold count. f_equal. induction l as [|x xs IH]; simpl; auto.
  rewrite (H x) by (left; auto). rewrite IH; auto. intros; apply H; right; auto.
Qed.

Lemma kernel_row_count_vanishing k b row :
  vanishing_kernel k -> 0 < b -> Forall (Rle 0) row ->
  nonzero_count (map (fun d => Fin (kernel_value k b d)) row) = count (fun d => Rltb d b) row.
Proof.
  intros Hk Hb HF. rewrite (nonzero_count_map (kernel_value k b)). apply count_ext. intros d Hd.
  rewrite Forall_forall in HF. specialize (HF d Hd).
  assert (Hk' : known_kernel k) by (destruct Hk as [->|[->| ->]]; unfold known_kernel; auto 8).
  pose proof (kernel_value_support k b d Hk' HF Hb) as Hs.
  destruct (Reqb (kernel_value k b d) 0) eqn:E1; destruct (Rltb d b) eqn:E2; auto; simpl.
  - apply Reqb_true in E1. apply Rltb_true in E2. apply Hs in E1 as [[_ H]|[-> H]]; lra.
  - apply Reqb_false in E1. apply Rltb_false in E2. exfalso. apply E1, Hs. left; auto.
Qed.

Lemma kernel_row_count_boxcar b row :
  0 <= b -> Forall (Rle 0) row ->
  nonzero_count (map (fun d => Fin (kernel_value "boxcar" b d)) row) = count (fun d => Rleb d b) row.
Proof.
  intros Hb HF. rewrite (nonzero_count_map (kernel_value "boxcar" b)). apply count_ext. intros d Hd.
  rewrite Forall_forall in HF. specialize (HF d Hd).
  assert (Hk' : known_kernel "boxcar") by (unfold known_kernel; auto 8).
  destruct Hb as [Hb|<-].
  - pose proof (kernel_value_support "boxcar" b d Hk' HF Hb) as Hs.
    destruct (Reqb (kernel_value "boxcar" b d) 0) eqn:E1; destruct (Rleb d b) eqn:E2; auto; simpl.
    + apply Reqb_true in E1. apply Rleb_true in E2. apply Hs in E1 as [[[H|[H|H]] _]|[_ H]]; try discriminate; lra.
    + apply Reqb_false in E1. apply Rleb_false in E2. exfalso. apply E1, Hs. right; auto.
  - rewrite kernel_value_zero_bandwidth by (auto; discriminate).
    destruct (Req_EM_T d 0) as [->|Hd0].
    + assert (E1 : Reqb 1 0 = false) by (apply Reqb_false; lra). rewrite E1.
      symmetry; simpl; apply Rleb_true; lra.
    + assert (E1 : Reqb 0 0 = true) by (apply Reqb_true; auto). rewrite E1.
      symmetry; simpl; apply Rleb_false; lra.
Qed.

Lemma adaptive_kernel_rows k D z W :
  known_kernel k -> entries (Rle 0) D -> adaptive_kernel D (CInt z) k = Ok W ->
  exists bs, Forall2 (fun row b => (Z.to_nat z <= length row)%nat /\ kth_smallest row (Z.to_nat z) b) D bs /\
    (0 < z)%Z /\
    W = map2 (fun row b => map (fun d => Fin (kernel_value k b d)) row) D bs.
Proof.
  intros Hk HD H. unfold adaptive_kernel in H. apply bind_ok in H as [bs [H1 H2]].
  apply adaptive_int_ok in H1 as [Hz HF].
  assert (Hr : bandwidth_rows (nrows D) (BColumn bs) = Ok bs).
  { simpl. rewrite <- (Forall2_len _ _ _ HF). unfold nrows. rewrite Nat.eqb_refl; auto. }
  rewrite (kernel_function_known k D (BColumn bs) bs Hk Hr HD) in H2. inversion H2.
  exists bs; auto.
Qed.

Lemma Forall2_nth {A B} (P : A -> B -> Prop) l l' da db i :
  Forall2 P l l' -> (i < length l)%nat -> P (nth i l da) (nth i l' db).
Proof.
  intros HF. revert i. induction HF as [|x y l l' Hxy HF IH]; intros [|i] Hi; simpl in *; try lia; auto.
  apply IH; lia.
Qed.

Lemma adaptive_vanishing_count k D z W i :
  vanishing_kernel k -> entries (Rle 0) D -> adaptive_kernel D (CInt z) k = Ok W ->
  (i < length D)%nat ->
  forall b, kth_smallest (nth i D []) (Z.to_nat z) b -> 0 < b ->
  nonzero_count (nth i W []) = count (fun d => Rltb d b) (nth i D []) /\
  (nonzero_count (nth i W []) < Z.to_nat z)%nat.
Proof.
  intros Hk HD H Hi b Hb Hbp.
  assert (Hk' : known_kernel k) by (destruct Hk as [->|[->| ->]]; unfold known_kernel; auto 8).
  destruct (adaptive_kernel_rows k D z W Hk' HD H) as [bs [HF [Hz ->]]].
  pose proof (Forall2_nth _ D bs [] 0 i HF Hi) as [Hlen Hkth].
  assert (Eb : nth i bs 0 = b) by (eapply kth_smallest_unique; eauto).
  rewrite (map2_nth _ D bs i [] 0 []) by (auto; rewrite <- (Forall2_len _ _ _ HF); auto).
  rewrite Eb. rewrite kernel_row_count_vanishing; auto.
  - split; auto. destruct Hb as [_ [_ H3]]. exact H3.
  - unfold entries in HD. rewrite Forall_forall in HD. apply HD, nth_In; auto.
Qed.

Lemma adaptive_boxcar_count D z W i :
  entries (Rle 0) D -> adaptive_kernel D (CInt z) "boxcar" = Ok W ->
  (i < length D)%nat -> (Z.to_nat z <= nonzero_count (nth i W []))%nat.
Proof.
  intros HD H Hi.
  assert (Hk' : known_kernel "boxcar") by (unfold known_kernel; auto 8).
  destruct (adaptive_kernel_rows "boxcar" D z W Hk' HD H) as [bs [HF [Hz ->]]].
  pose proof (Forall2_nth _ D bs [] 0 i HF Hi) as [Hlen Hkth].
  rewrite (map2_nth _ D bs i [] 0 []) by (auto; rewrite <- (Forall2_len _ _ _ HF); auto).
  assert (HDi : Forall (Rle 0) (nth i D [])).
  { unfold entries in HD. rewrite Forall_forall in HD. apply HD, nth_In; auto. }
  rewrite kernel_row_count_boxcar; auto.
  - destruct Hkth as [_ [H2 _]]. exact H2.
  - destruct Hkth as [Hin _]. rewrite Forall_forall in HDi. apply HDi; auto.
Qed.

(** ** dask path *)
Lemma dask_sorted_agrees D z :
  (0 < z)%Z -> (z <= Z.of_nat (nrows D))%Z -> Forall (fun row => (Z.to_nat z <= length row)%nat) D ->
  adaptive_bandwidth_dask D (CInt z) (Some (map sortR D)) = adaptive_bandwidth D (CInt z).
Proof.
  intros H1 H2 HF. unfold adaptive_bandwidth_dask, adaptive_bandwidth; simpl.
  destruct (Z.ltb_spec (Z.of_nat (nrows D)) z); [lia|].
  destruct (Z.leb_spec z 0); [lia|].
  rewrite mapM_map. apply mapM_ext. intros row Hrow. rewrite Forall_forall in HF. specialize (HF row Hrow).
  unfold py_getitem, partition_at, getitem.
  destruct (Z.ltb_spec (z - 1) 0); [lia|]. destruct (Z.ltb_spec (z - 1) 0); [lia|].
  destruct (nth_error (sortR row) (Z.to_nat (z - 1))) eqn:E; auto.
  apply nth_error_None in E. rewrite sortR_length in E. lia.
Qed.

Lemma dask_zero_count D :
  Forall (fun row => row <> []) D ->
  exists bs, adaptive_bandwidth_dask D (CInt 0) (Some (map sortR D)) = Ok bs /\
    Forall2 (fun row b => In b row /\ forall y, In y row -> y <= b) D bs.
Proof.
  intros HF. exists (map (fun row => nth (length row - 1) (sortR row) 0) D).
  unfold adaptive_bandwidth_dask; simpl.
  destruct (Z.ltb_spec (Z.of_nat (nrows D)) 0); [lia|]. split.
  - rewrite mapM_map. apply mapM_all_ok. intros row Hrow.
    rewrite Forall_forall in HF. specialize (HF row Hrow).
    assert (0 < length row)%nat by (destruct row; [contradiction|simpl; lia]).
    unfold py_getitem. rewrite sortR_length.
    destruct (Z.ltb_spec (-1) 0); [|lia].
    destruct (Z.ltb_spec (-1 + Z.of_nat (length row)) 0); [lia|].
    replace (Z.to_nat (-1 + Z.of_nat (length row))) with (length row - 1)%nat by lia.
    apply getitem_lt. rewrite sortR_length; lia.
  - induction D as [|row D IH]; simpl; constructor.
    + inversion HF; subst. assert (0 < length row)%nat by (destruct row; [contradiction|simpl; lia]).
      split; [apply sortR_in; lia|intros; apply sortR_max; auto].
    + apply IH. inversion HF; auto. unfold nrows; lia.
Qed.

Lemma dask_float_is_ceil D q S :
  adaptive_bandwidth_dask D (CFloat q) (Some S) =
  adaptive_bandwidth_dask D (CInt (Rceil (INR (nrows D) * q))) (Some S).
Proof. unfold adaptive_bandwidth_dask; simpl. rewrite INR_IZR_INZ. reflexivity. Qed.

Lemma dask_limit_is_rows D z S :
  (Z.of_nat (nrows D) < z)%Z -> raises (adaptive_bandwidth_dask D (CInt z) (Some S)).
Proof.
  intros H. unfold adaptive_bandwidth_dask; simpl.
  destruct (Z.ltb_spec (Z.of_nat (nrows D)) z); [eexists; reflexivity|lia].
Qed.

Lemma kernel_function_dask_agrees D bw k :
  entries (Rle 0) D ->
  match bw with BScalar b => 0 <= b | BColumn bs => Forall (Rle 0) bs end ->
  kernel_function_dask D bw k = kernel_function D bw k.
Proof.
  intros HD Hb. unfold kernel_function_dask, kernel_function.
  destruct (bandwidth_rows (nrows D) bw) as [bs|e] eqn:E; simpl; auto.
  destruct (kernel_expr k) as [f|] eqn:Ef; auto. f_equal.
  apply map2_ext_in. intros row b Hrow Hbs. apply map_ext_in. intros d Hd.
  destruct (String.eqb_spec k "bisquare") as [->|]; auto.
  assert (Hd0 : 0 <= d).
  { unfold entries in HD. rewrite Forall_forall in HD. specialize (HD row Hrow).
    rewrite Forall_forall in HD; auto. }
  assert (Hb0 : 0 <= b).
  { destruct bw as [b'|bs']; simpl in E.
    - inversion E; subst. apply repeat_spec in Hbs. subst; auto.
    - destruct (Nat.eqb (length bs') (nrows D)); inversion E; subst.
      rewrite Forall_forall in Hb; auto. }
  rewrite dask_bisquare_value; auto. symmetry. apply kernel_entry_value; auto.
  unfold known_kernel; auto 8.
Qed.
