(** Contents of the embedding and scatter plots (C158, C159). *)
From Coq Require Import Lra Lia Permutation Sorting.Sorted.
From Verif.Model Require Import Base Ext Sort Ale Visualize Plots.
From Verif.Spec Require Import NeighbourSpec VisualizeSpec PlotSpec.
From Verif.Proofs Require Import ListFacts KernelFacts SortFacts CsrFacts AleFacts NeighbourProps VisualizeFacts VisualizeProps PlotProps PlotMore PlotEnd.
Open Scope string_scope.
Open Scope nat_scope.
Open Scope R_scope.

Lemma members_group labels v : group labels v (members labels v).
Proof. split; [apply members_sorted|]. intros i. apply in_members. Qed.

Lemma rabs_between a b : Rabs a <= b -> - b <= a <= b.
Proof. unfold Rabs. destruct Rcase_abs; lra. Qed.

Section P.
  Variable G : Type.
  Variable choice : G -> list nat -> nat -> G * list nat.
  Variable nearest : R -> nat.
  Variable seed : G.
  Variable cmap : ext -> list R.

  Lemma emb_contents e cluster t es : embedding_plot cmap e cluster (Column t) = Ok es ->
    distinct_values cluster (map et_cluster es) /\
    forall tr, In tr es -> exists ms, group cluster (et_cluster tr) ms /\
      et_points tr = map (fun i => nth i e []) ms /\ et_hover tr = map (fun i => (nth i t 0, i)) ms /\ length (et_colours tr) = length ms.
  Proof.
    intros H. destruct (emb_inv _ _ _ _ _ H) as (_ & _ & color & _ & ->). split.
    - rewrite map_map. cbn [et_cluster]. rewrite map_id. split; [apply unique_sorted|]. intros x. apply unique_in.
    - intros tr Hin. apply in_map_iff in Hin as (c & <- & _). exists (members cluster c). cbn.
      split; [apply members_group|]. split; [reflexivity|]. split; [reflexivity|]. unfold take. apply map_length.
  Qed.
  Lemma emb_ok e cluster t : (exists es, embedding_plot cmap e cluster (Column t) = Ok es) <->
    (0 < length e)%nat /\ length t = length e /\ length cluster = length e.
  Proof.
    split.
    - intros [es H]. destruct (emb_inv _ _ _ _ _ H) as (E1 & E2 & color & Hc & _). repeat split; auto.
      destruct e as [|r e]; [|cbn; lia]. destruct cluster; [|discriminate]. discriminate.
    - intros (H0 & H1 & H2). unfold embedding_plot. rewrite H1, H2, Nat.eqb_refl. cbn [negb].
      destruct (vector_to_color cmap cluster) as [c|e'] eqn:E; [eexists; reflexivity|].
      exfalso. destruct cluster as [|a l]; [cbn in H2; lia|]. unfold vector_to_color in E.
      destruct (vector_normed (a :: l)) eqn:EN; [discriminate|]. cbn in EN. discriminate.
  Qed.

  Lemma scat_contents geo z value fig : scatter_3d cmap geo (Column z) value = Ok fig ->
    distinct_values value (map pt_cluster (sc_traces fig)) /\
    forall tr, In tr (sc_traces fig) -> exists ms, group value (pt_cluster tr) ms /\
      pt_places tr = map (fun i => (fst (nth i geo (0, 0)), snd (nth i geo (0, 0)), nth i z 0)) ms /\ length (pt_colours tr) = length ms.
  Proof.
    intros H. destruct (scat_inv _ _ _ _ _ H) as (_ & _ & _ & color & _ & ->). split.
    - rewrite map_map. cbn [pt_cluster]. rewrite map_id. split; [apply unique_sorted|]. intros x. apply unique_in.
    - intros tr Hin. apply in_map_iff in Hin as (c & <- & _). exists (members value c). cbn.
      split; [apply members_group|]. split; [reflexivity|]. unfold take. apply map_length.
  Qed.

  (** Each feature with its own labels. *)
  Lemma features_own ls temporal size quantile : forall partials g0 f g figs,
    plot_features G choice nearest seed cmap g0 f partials temporal (Some (Individual ls)) size quantile = Ok (g, figs) ->
    length figs = length partials /\ (partials <> [] -> (f + length partials <= length ls)%nat) /\
    forall k, (k < length partials)%nat -> exists g' idx,
      sample_partial G choice nearest (Some seed) seed (map snd (nth k partials [])) size quantile (Some (nth (f + k) ls [])) = Ok (g', idx) /\
      shows (nth k partials []) temporal (Some (nth (f + k) ls [])) idx (nth k figs (LineFigure [] (0, 0) (0, 0) (0, 0))).
  Proof.
    induction partials as [|p ps IH]; intros g0 f g figs H.
    - injection H as <- <-. split; [reflexivity|]. split; [congruence|]. intros k Hk. inversion Hk.
    - cbn [plot_features] in H. inv_bind H. inv_bind H. destruct x0 as [g1 fig]. inv_bind H. destruct x0 as [g2 rest]. injection H as <- <-. cbn [fst snd] in *.
      cbn [labels_of] in H0. inv_bind H0. injection H0 as <-.
      assert (Hf : (f < length ls)%nat /\ x0 = nth f ls []).
      { unfold getitem in H. destruct (nth_error ls f) eqn:E; [|discriminate]. injection H as <-. split; [apply nth_error_Some; congruence|]. symmetry. apply nth_error_nth; auto. }
      destruct Hf as [Hf ->].
      destruct (plot3_inv _ _ _ _ _ _ _ _ _ _ _ _ _ H1) as (idx & Ei & Sh & _).
      destruct (IH _ _ _ _ H2) as (L & HB & Sh').
      split; [cbn; rewrite L; reflexivity|]. split.
      + intros _. destruct ps as [|p' ps]; [cbn; lia|]. specialize (HB ltac:(discriminate)). cbn in *. lia.
      + intros [|k] Hk.
        * exists g1, idx. rewrite Nat.add_0_r. split; [|exact Sh]. rewrite <- Ei. apply sample_seeded.
        * cbn [nth]. replace (f + S k)%nat with (S f + k)%nat by lia. apply Sh'. cbn in Hk. lia.
  Qed.

  Lemma compound_own g0 geo t partials es cs size quantile g lines efs sfs compass :
    partial_compound_plot G choice nearest seed cmap g0 geo (Column t) partials (Individual es) (Individual cs) size quantile = Ok (g, (lines, efs, sfs, compass)) ->
    partials_plot_3d G choice nearest seed cmap g0 partials (Column t) (Some (Individual cs)) size quantile = Ok (g, lines) /\
    length efs = length partials /\ length sfs = length partials /\ length compass = length partials /\
    forall k, (k < length partials)%nat ->
      embedding_plot cmap (nth k es []) (nth k cs []) (Column t) = Ok (nth k efs []) /\
      scatter_3d cmap geo (Column t) (nth k cs []) = Ok (nth k sfs (ScatterFigure [] [])) /\
      nth k compass (ScatterFigure [] [], LineFigure [] (0, 0) (0, 0) (0, 0), []) = (nth k sfs (ScatterFigure [] []), nth k lines (LineFigure [] (0, 0) (0, 0) (0, 0)), nth k efs []).
  Proof.
    unfold partial_compound_plot. intros H. inv_bind H. destruct x as [g1 ln]. inv_bind H. destruct x as [ef sf].
    inv_bind H1. inv_bind H1. injection H1 as -> ->. inv_bind H. injection H as <- <- <- <- <-. cbn [fst snd] in *.
    pose proof (mapM_length _ _ _ H2) as L2. pose proof (mapM_length _ _ _ H3) as L3. pose proof (mapM_length _ _ _ H1) as L1. rewrite seq_length in *.
    split; [exact H0|]. repeat (split; [lia|]). intros k Hk.
    assert (HN : forall {A B} (f : A -> result B) l r d d', mapM f l = Ok r -> (k < length l)%nat -> f (nth k l d) = Ok (nth k r d')).
    { clear. intros A B f l. revert k. induction l as [|a l IH]; intros k r d d' H Hk; [inversion Hk|].
      cbn in H. inv_bind H. inv_bind H. injection H as <-. destruct k as [|k]; [exact H0|]. cbn. apply IH; [exact H1|cbn in Hk; lia]. }
    assert (HG : forall {A} (l : list A) i x d, getitem l i = Ok x -> x = nth i l d).
    { intros A l i x0 d HH. unfold getitem in HH. destruct (nth_error l i) eqn:E; [|discriminate]. injection HH as <-. symmetry. apply nth_error_nth; auto. }
    pose proof (HN _ _ _ _ _ 0%nat [] H2 ltac:(rewrite seq_length; lia)) as A2. pose proof (HN _ _ _ _ _ 0%nat (ScatterFigure [] []) H3 ltac:(rewrite seq_length; lia)) as A3.
    pose proof (HN _ _ _ _ _ 0%nat (ScatterFigure [] [], LineFigure [] (0, 0) (0, 0) (0, 0), []) H1 ltac:(rewrite seq_length; lia)) as A1.
    rewrite seq_nth in A1, A2, A3 by lia. cbn [Nat.add] in *.
    inv_bind A2. inv_bind A2. apply (HG _ _ _ _ []) in H, H4. subst.
    inv_bind A3. apply (HG _ _ _ _ []) in H. subst.
    inv_bind A1. inv_bind A1. inv_bind A1. apply (HG _ _ _ _ (ScatterFigure [] [])) in H. apply (HG _ _ _ _ (LineFigure [] (0, 0) (0, 0) (0, 0))) in H4. apply (HG _ _ _ _ []) in H5. subst.
    repeat split; auto. congruence.
  Qed.

  (** Continuous values. *)
  Lemma values_contents : valid_nearest nearest -> forall geo z value fig, scatter_3d_values nearest cmap geo (Column z) value = Ok fig ->
    length geo = length z -> length value = length z ->
    length (vf_places fig) = length z /\ vf_hover fig = seq 0 (length z) /\ vf_values fig = value /\
    slice_surfaces cmap z = Ok (vf_surfaces fig) /\
    (forall i, (i < length z)%nat -> nth i (vf_places fig) (0, 0, 0) = (fst (nth i geo (0, 0)), snd (nth i geo (0, 0)), nth i z 0)) /\
    Forall2 (fun q v => exists r, Rabs (INR r - INR (length value - 1) * q) <= 1 / 2 /\ has_rank value v r) [0; 1 / 4; 1 / 2; 3 / 4; 1] (vf_ticks fig) /\
    StronglySorted Rle (vf_ticks fig) /\
    (forall x, In x value -> nth 0 (vf_ticks fig) 0 <= x <= nth 4 (vf_ticks fig) 0).
  Proof.
    intros HV geo z value fig H Hg Hv. unfold scatter_3d_values in H. inv_bind H. inv_bind H. inv_bind H. inv_bind H. injection H as <-. cbn.
    assert (Hne : (0 < length value)%nat) by (destruct value; [discriminate|cbn; lia]).
    split; [rewrite map_length, combine_length; lia|]. split; [rewrite Hv; reflexivity|]. split; [reflexivity|]. split; [assumption|].
    set (n := length value) in *. set (vi := fun q => nearest (INR (n - 1) * q)).
    assert (HS : StronglySorted Rle (sortR value)) by apply sortR_sorted.
    assert (HP : Permutation (sortR value) value) by (apply Permutation_sym, sortR_perm).
    assert (HL : length (sortR value) = n) by (apply Permutation_length; exact HP).
    assert (Hlt : forall q, 0 <= q <= 1 -> (vi q < n)%nat) by (intros q Hq; apply nearest_lt; auto).
    assert (H0n : 0 <= INR (n - 1)) by apply pos_INR.
    assert (Hmono : forall q q', 0 <= q -> q < q' -> q' <= 1 -> (vi q <= vi q')%nat).
    { intros q q' Hq Hqq Hq'. unfold vi. destruct (Nat.eq_dec (n - 1) 0) as [E|E]; [rewrite E; cbn; rewrite !Rmult_0_l; lia|].
      assert (0 < INR (n - 1)) by (apply lt_0_INR; lia).
      assert (A1 : 0 <= INR (n - 1) * q) by nra. assert (A2 : 0 <= INR (n - 1) * q') by nra.
      assert (A3 : INR (n - 1) * q < INR (n - 1) * q') by nra.
      pose proof (HV _ A1) as B1. pose proof (HV _ A2) as B2. apply rabs_between in B1, B2.
      assert (INR (nearest (INR (n - 1) * q)) < INR (nearest (INR (n - 1) * q')) + 1) by lra.
      rewrite <- S_INR in H4. apply INR_lt in H4. lia. }
    assert (Hnth : forall i j, (i <= j)%nat -> (j < n)%nat -> nth i (sortR value) 0 <= nth j (sortR value) 0).
    { intros i j Hij Hj. apply sorted_nth_le; [exact HS|exact Hij|lia]. }
    split; [|split; [|split]].
    - intros i Hi. rewrite (nth_map_in _ _ _ ((0, 0), 0)) by (rewrite combine_length; lia). rewrite combine_nth by lia. reflexivity.
    - assert (HT : forall q, 0 <= q <= 1 -> exists r, Rabs (INR r - INR (n - 1) * q) <= 1 / 2 /\ has_rank value (nth (vi q) (sortR value) 0) r).
      { intros q Hq. exists (vi q). split; [apply HV; nra|]. apply (has_rank_perm (sortR value)); [exact HP|]. apply sorted_rank; [exact HS|]. rewrite HL. apply Hlt; exact Hq. }
      repeat (apply Forall2_cons || apply Forall2_nil); apply HT; lra.
    - repeat (apply SSorted_cons || apply SSorted_nil || apply Forall_cons || apply Forall_nil); apply Hnth; try (apply Hmono; lra); apply Hlt; lra.
    - intros xx Hx. apply (Permutation_in xx (Permutation_sym HP)) in Hx. apply (In_nth _ _ 0) in Hx as (k & Hk & <-). rewrite HL in Hk.
      assert (E0 : vi 0 = 0%nat).
      { unfold vi. rewrite Rmult_0_r. pose proof (HV 0 ltac:(lra)) as B. apply rabs_between in B. assert (INR (nearest 0) < INR 1) by (cbn; lra). apply INR_lt in H. lia. }
      assert (E1 : vi 1 = (n - 1)%nat).
      { unfold vi. rewrite Rmult_1_r. pose proof (HV _ H0n) as B. apply rabs_between in B.
        assert (C1 : INR (nearest (INR (n - 1))) < INR (S (n - 1))) by (rewrite S_INR; lra). apply INR_lt in C1.
        assert (C2 : INR (n - 1) < INR (S (nearest (INR (n - 1))))) by (rewrite S_INR; lra). apply INR_lt in C2. lia. }
      fold (vi 0) (vi 1). rewrite E0, E1. split; apply Hnth; lia.
  Qed.
End P.
