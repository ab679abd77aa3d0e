(** Time surfaces, camera, clustering and witnesses (C144-C148). *)
From Coq Require Import Lra Lia Permutation Sorting.Sorted Rtrigo1 Rtrigo_facts Ratan.
From Verif.Model Require Import Base Ext Sort Neighbour WeightModel Ale Visualize Plots.
From Verif.Spec Require Import NeighbourSpec VisualizeSpec PlotSpec.
From Verif.Proofs Require Import ListFacts KernelFacts CsrFacts SortFacts AleFacts NeighbourProps VisualizeFacts VisualizeProps FitExamples PlotProps PlotMore NeighbourProps.
Open Scope string_scope.
Open Scope nat_scope.
Open Scope R_scope.

Lemma distinct_unique z ts : distinct_values z ts -> ts = unique z.
Proof. intros [S I]. apply SSlt_ext; [exact S|apply unique_sorted|]. intros x. rewrite I, unique_in. reflexivity. Qed.

Lemma SS_nth l : StronglySorted Rlt l -> forall i j, (i < j < length l)%nat -> nth i l 0 < nth j l 0.
Proof.
  induction 1 as [|a l S IH F]; intros i j Hij; [cbn in Hij; lia|].
  destruct j as [|j]; [lia|]. cbn in Hij. destruct i as [|i]; cbn.
  - rewrite Forall_forall in F. apply F. apply nth_In. lia.
  - apply IH. lia.
Qed.

Section Surfaces.
  Variable cmap : ext -> list R.
  Let none := Surface 0 [] false.

  Lemma shift_pos z ts lo hi : distinct_values z ts -> In lo z -> In hi z -> (forall x, In x z -> lo <= x <= hi) -> (2 <= length ts)%nat -> lo < hi.
  Proof.
    intros [S I] Il Ih B L. assert (K := SS_nth ts S 0 1 ltac:(lia)).
    assert (A := B _ (proj1 (I _) (nth_In ts 0 (n := 0) ltac:(lia)))). assert (A' := B _ (proj1 (I _) (nth_In ts 0 (n := 1) ltac:(lia)))). lra.
  Qed.

  Theorem surfaces_below geo z value fig ts : scatter_3d cmap geo (Column z) value = Ok fig -> distinct_values z ts ->
    length (sc_surfaces fig) = length ts /\
    forall k, (k < length ts)%nat ->
      (sf_legend (nth k (sc_surfaces fig) none) = true <-> k = 0%nat) /\
      ((2 <= length ts)%nat -> sf_height (nth k (sc_surfaces fig) none) < nth k ts 0) /\
      (length ts = 1%nat -> sf_height (nth k (sc_surfaces fig) none) = nth k ts 0).
  Proof.
    intros H D. destruct (scat_inv _ _ _ _ _ H) as (_ & _ & Hs & _). destruct (surfaces_spec _ _ _ Hs) as (Hne & lo & hi & Il & Ih & B & L & S).
    rewrite <- (distinct_unique z ts D) in *. split; [exact L|]. intros k Hk. destruct (S k Hk) as [Sh Sl]. fold none in Sh, Sl. split; [|split].
    - rewrite Sl. apply Nat.eqb_eq.
    - intros L2. rewrite Sh. assert (lo < hi) by (apply (shift_pos z ts); auto).
      assert (0 < (hi - lo) / INR (length ts)) by (apply Rdiv_lt_0_compat; [lra|apply lt_0_INR; lia]). lra.
    - intros L1. rewrite Sh. destruct D as [_ I]. destruct ts as [|t [|]]; cbn in L1; try lia.
      apply I in Il, Ih. cbn in Il, Ih. destruct Il as [<-|[]], Ih as [<-|[]]. unfold Rdiv. replace (t - t) with 0 by ring. ring.
  Qed.

  Lemma spaced_nth step ts : equally_spaced step ts -> forall k, (k < length ts)%nat -> nth k ts 0 = nth 0 ts 0 + INR k * step.
  Proof.
    intros E. induction k as [|k IH]; intros Hk; [cbn; ring|]. specialize (E k Hk). rewrite S_INR. specialize (IH ltac:(lia)). lra.
  Qed.

  Theorem surfaces_between geo z value fig ts step : scatter_3d cmap geo (Column z) value = Ok fig -> distinct_values z ts -> equally_spaced step ts ->
    forall k, (S k < length ts)%nat -> nth k ts 0 < sf_height (nth (S k) (sc_surfaces fig) none) < nth (S k) ts 0.
  Proof.
    intros H D Q k Hk. destruct (surfaces_below geo z value fig ts H D) as (_ & SB). destruct (SB (S k) Hk) as (_ & B2 & _). split; [|apply B2; lia]. clear SB B2.
    destruct (scat_inv _ _ _ _ _ H) as (_ & _ & Hs & _). destruct (surfaces_spec _ _ _ Hs) as (Hne & lo & hi & Il & Ih & B & L & S).
    assert (Hlt : lo < hi) by (apply (shift_pos z ts); auto; lia).
    rewrite <- (distinct_unique z ts D) in *. destruct (S _ Hk) as [Sh _]. fold none in Sh. rewrite Sh. clear Sh S.
    assert (SP := spaced_nth step ts Q). assert (Qk := Q k Hk). assert (Pos := SS_nth ts (proj1 D) k (Datatypes.S k) ltac:(lia)).
    apply (proj2 D) in Il, Ih. apply In_nth with (d := 0) in Il as (i & Hi & Ei). apply In_nth with (d := 0) in Ih as (j & Hj & Ej).
    rewrite SP in Ei, Ej by assumption.
    assert (Hij : INR i + 0 <= INR j + 0 /\ INR j <= INR (length ts) - 1 /\ 0 <= INR i).
    { split; [|split; [|apply pos_INR]].
      - destruct (Rle_dec (INR i) (INR j)); [lra|]. exfalso. assert (0 < (INR i - INR j) * step) by (apply Rmult_lt_0_compat; lra). lra.
      - assert (K : INR (Datatypes.S j) <= INR (length ts)) by (apply le_INR; lia). rewrite S_INR in K. lra. }
    assert (Ln : 0 < INR (length ts)) by (apply lt_0_INR; lia).
    assert (W : hi - lo <= INR (length ts) * step).
    { replace (hi - lo) with ((INR j - INR i) * step) by lra. apply Rmult_le_compat_r; lra. }
    assert (V : (hi - lo) / INR (length ts) <= step).
    { apply (Rmult_le_reg_r (INR (length ts))); [exact Ln|]. unfold Rdiv. rewrite Rmult_assoc, Rinv_l by lra. lra. }
    lra.
  Qed.
End Surfaces.

(** *** camera *)
Lemma camera_circle r p : let '(x, y, z) := camera_position r p in x ^ 2 + y ^ 2 = 1 /\ z = sin (p * PI / 180) /\ x ^ 2 + y ^ 2 + z ^ 2 <= 2.
Proof.
  cbn. assert (A := sin2_cos2 (r * PI / 180)). unfold Rsqr in A. assert (B := sin2_cos2 (p * PI / 180)). unfold Rsqr in B.
  assert (C := Rle_0_sqr (cos (p * PI / 180))). unfold Rsqr in C. split; [lra|]. split; [reflexivity|]. lra.
Qed.

Lemma elevation_camera r p : elevation (camera_position r p) = atan (sin (p * PI / 180)).
Proof.
  pose proof (camera_circle r p) as H. unfold elevation. destruct (camera_position r p) as [[x y] z]. destruct H as (H & -> & _). rewrite H, sqrt_1. f_equal. field.
Qed.

Lemma atan_mono x y : x <= y -> atan x <= atan y.
Proof. intros [H| ->]; [left; apply atan_increasing; exact H|lra]. Qed.

Theorem elevation_lower r p : elevation (camera_position r p) <= PI / 4 /\ (0 < p <= 90 -> elevation (camera_position r p) < p * PI / 180).
Proof.
  rewrite elevation_camera. set (q := p * PI / 180). assert (B := SIN_bound q). split.
  - rewrite <- atan_1. apply atan_mono. lra.
  - intros Hp. assert (P := PI_RGT_0). assert (Q0 : 0 < q) by (unfold q; apply Rdiv_lt_0_compat; [apply Rmult_lt_0_compat|]; lra).
    assert (Q1 : q <= PI / 2). { unfold q. assert (p * PI <= 90 * PI) by (apply Rmult_le_compat_r; lra). lra. }
    destruct (Rle_lt_dec (PI / 2) q) as [Hq|Hq].
    + assert (atan (sin q) <= PI / 4) by (rewrite <- atan_1; apply atan_mono; lra). lra.
    + assert (C : 0 < cos q) by (apply cos_gt_0; lra). assert (S : 0 < sin q) by (apply sin_gt_0; lra).
      assert (C1 : cos q < 1).
      { assert (A := sin2_cos2 q). unfold Rsqr in A. assert (0 < sin q * sin q) by (apply Rmult_lt_0_compat; lra).
        destruct (Rlt_dec (cos q) 1); [assumption|]. exfalso. assert (1 * 1 <= cos q * cos q) by (apply Rmult_le_compat; lra). lra. }
      assert (T : sin q < tan q).
      { unfold tan. apply (Rmult_lt_reg_r (cos q)); [exact C|]. unfold Rdiv. rewrite Rmult_assoc, Rinv_l by lra.
        assert (sin q * cos q < sin q * 1) by (apply Rmult_lt_compat_l; lra). lra. }
      apply Rlt_le_trans with (atan (tan q)); [apply atan_increasing; exact T|]. rewrite atan_tan by lra. lra.
Qed.

Lemma rotation_turns r p : camera_position (r + 360) p = camera_position r p.
Proof.
  unfold camera_position. replace ((r + 360) * PI / 180) with (r * PI / 180 + 2 * PI) by field. rewrite cos_plus, sin_plus, cos_2PI, sin_2PI. f_equal. f_equal; ring.
Qed.

(** *** clustering *)
Section Clusters.
  Variable umap : nat -> nat -> R -> matrix R -> result (matrix R).
  Variable hdbscan : nat -> nat -> R -> matrix R -> result (list R).
  Notation cl := (partial_cluster umap hdbscan).
  Notation fcl := (features_partial_cluster umap hdbscan).

  Lemma cluster_distance p d n m c a b e : cl p (Some d) n m c a b e = cl None (Some d) n m c a b e.
  Proof. destruct p; reflexivity. Qed.
  Lemma cluster_partial p d n m c a b e : partial_distance p = Ok d -> cl (Some p) None n m c a b e = cl None (Some d) n m c a b e.
  Proof. intros H. unfold partial_cluster. rewrite H. reflexivity. Qed.
  Lemma cluster_returns_distance p d n m c a b e r : cl p (Some d) n m c a b e = Ok r -> snd r = d.
  Proof. destruct p; unfold partial_cluster; cbn [bind]; intros H; inv_bind H; inv_bind H; inv_bind H; injection H as <-; reflexivity. Qed.

  Lemma fcl_inv ps ds n m c a b e es ls dd : fcl ps (Some ds) n m c a b e = Ok (es, ls, dd) ->
    dd = ds /\ length es = length ds /\ length ls = length ds /\
    forall f, (f < length ds)%nat -> cl None (Some (nth f ds [])) n m c a b e = Ok (nth f es [], nth f ls [], nth f ds []).
  Proof.
    intros H. assert (H' : fcl None (Some ds) n m c a b e = Ok (es, ls, dd)) by (destruct ps; exact H). clear H. unfold features_partial_cluster in H'. cbn [bind] in H'. inv_bind H'. injection H' as <- <- <-.
    assert (L := mapM_len _ _ _ H). rewrite !map_length. split; auto. split; auto. split; auto. intros f Hf.
    assert (E := mapM_nth _ _ _ f [] ([], [], []) H Hf). etransitivity; [exact E|].
    assert (D := cluster_returns_distance _ _ _ _ _ _ _ _ _ E). unfold matrix in *. apply (f_equal Ok).
    rewrite (nth_map_in (fun r => fst (fst r)) x f ([], [], []) []) by lia. rewrite (nth_map_in (fun r => snd (fst r)) x f ([], [], []) []) by lia.
    destruct (nth f x ([], [], [])) as [[u v] w]. cbn [fst snd] in *. apply f_equal2; [reflexivity|exact D].
  Qed.
End Clusters.

(** *** a cluster with two colours *)
Definition wLines : list line := [([0], [0]); ([0], [1]); ([0], [2])].
Definition wLabels : list R := [0; 1; 2].

Lemma nearest_nat nearest n : valid_nearest nearest -> nearest (INR n) = n.
Proof.
  intros H. specialize (H (INR n) (pos_INR n)). apply INR_eq.
  assert (A := Rabs_def2 (INR (nearest (INR n)) - INR n) 1 ltac:(lra)). destruct A as [A1 A2].
  rewrite !INR_IZR_INZ in *. assert (IZR (Z.of_nat (nearest (IZR (Z.of_nat n)))) < IZR (Z.of_nat n + 1)) by (rewrite plus_IZR; lra).
  assert (IZR (Z.of_nat n) < IZR (Z.of_nat (nearest (IZR (Z.of_nat n))) + 1)) by (rewrite plus_IZR; lra).
  apply lt_IZR in H0, H1. f_equal. lia.
Qed.

Lemma wMeans : map mean (map snd wLines) = [0; 1; 2].
Proof. unfold mean. cbn. repeat f_equal; field. Qed.

Lemma wSort : sortR [0; 1; 2] = [0; 1; 2].
Proof. cbn [sortR insert]. repeat (rdec; cbn [sortR insert]). reflexivity. Qed.

Lemma wSample G choice nearest seed g0 : valid_nearest nearest ->
  sample_partial G choice nearest (Some seed) g0 (map snd wLines) None (Some [1 / 2; 1]) (Some wLabels) = Ok (seed, [1; 2]%nat).
Proof.
  intros HV. unfold sample_partial. rewrite wMeans, wSort. cbn [map snd wLines List.length Nat.eqb existsb].
  assert (E1 : (Rltb (1 / 2) 0 || Rltb 1 (1 / 2) || (Rltb 1 0 || Rltb 1 1 || false))%bool = false).
  { rdec. reflexivity. }
  rewrite E1. cbn [orb mapM Nat.sub].
  replace (INR 2 * (1 / 2)) with (INR 1) by (cbn; lra). replace (INR 2 * 1) with (INR 2) by ring.
  rewrite !nearest_nat by exact HV. cbn [nth]. unfold first_index, members, label_mask, nonzero. cbn. rdec. reflexivity.
Qed.

Lemma colour_at cmap lo hi x : lo < hi -> colour_of cmap lo hi x = color_ints (cmap (Fin ((x - lo) / (hi - lo)))).
Proof. intros H. unfold colour_of, ediv. destruct (Req_EM_T (hi - lo) 0); [lra|reflexivity]. Qed.

Lemma wLabelled : labelled wLines (Column [0; 1; 2]) wLabels.
Proof. repeat split; cbn; auto; try lia; try (destruct H as [<-|[<-|[<-|[]]]]; discriminate). Qed.

Lemma colour_quantile G choice nearest seed cmap g0 : valid_nearest nearest -> color_ints (cmap (Fin 0)) <> color_ints (cmap (Fin (1 / 2))) ->
  exists fig es, partial_plot_3d G choice nearest seed cmap g0 wLines (Column [0; 1; 2]) (Some wLabels) None (Some [1 / 2; 1]) = Ok (seed, fig) /\
    embedding_plot cmap [[0]; [0]; [0]] wLabels (Column [0; 1; 2]) = Ok es /\
    exists t t' c, In t (lf_traces fig) /\ In t' es /\ lt_cluster t = Some c /\ et_cluster t' = c /\ et_colours t' <> [] /\ ~ In (lt_colour t) (et_colours t').
Proof.
  intros HV HC. assert (S := wSample G choice nearest seed g0 HV).
  assert (Hi : forall i, In i [1; 2]%nat -> (i < length wLines)%nat) by (intros i [<-|[<-|[]]]; cbn; lia).
  assert (Hn : [1; 2]%nat <> []) by discriminate.
  destruct (plot3_run G choice nearest seed cmap g0 wLines (Column [0; 1; 2]) wLabels None (Some [1 / 2; 1]) seed [1; 2]%nat wLabelled S Hi Hn) as (fig & F).
  exists fig. destruct (emb_ok cmap [[0]; [0]; [0]] wLabels [0; 1; 2]) as (es & E); try reflexivity; [discriminate|]. exists es. split; [exact F|]. split; [exact E|].
  destruct (plot3_inv _ _ _ _ _ _ _ _ _ _ _ _ _ F) as (idx & S' & [L Sh] & cl & cs & T & V & Hc). rewrite S in S'. injection S' as <-.
  assert (T' : take_checked wLabels [1; 2]%nat = Ok [1; 2]) by reflexivity. rewrite T in T'. injection T' as ->.
  destruct (Sh 0%nat ltac:(cbn; lia)) as (_ & _ & _ & _ & Cl & _). cbn in Cl.
  assert (V1 : cs = [color_ints (cmap (Fin 0)); color_ints (cmap (Fin 1))]).
  { destruct (vtc_ok cmap [1; 2] ltac:(discriminate)) as (lo & hi & I1 & I2 & B & V'). rewrite V in V'. injection V' as ->.
    assert (B1 := B 1 ltac:(cbn; auto)). assert (B2 := B 2 ltac:(cbn; auto)). cbn in I1, I2.
    assert (lo = 1) by (destruct I1 as [<-|[<-|[]]]; lra). assert (hi = 2) by (destruct I2 as [<-|[<-|[]]]; lra). subst lo hi.
    cbn [map]. rewrite !colour_at by lra. replace ((1 - 1) / (2 - 1)) with 0 by field. replace ((2 - 1) / (2 - 1)) with 1 by field. reflexivity. }
  assert (V2 : vector_to_color cmap wLabels = Ok [color_ints (cmap (Fin 0)); color_ints (cmap (Fin (1 / 2))); color_ints (cmap (Fin 1))]).
  { destruct (vtc_ok cmap wLabels ltac:(discriminate)) as (lo & hi & I1 & I2 & B & V'). rewrite V'. unfold wLabels in *.
    assert (B1 := B 0 ltac:(cbn; auto)). assert (B2 := B 2 ltac:(cbn; auto)). cbn in I1, I2.
    assert (lo = 0) by (destruct I1 as [<-|[<-|[<-|[]]]]; lra). assert (hi = 2) by (destruct I2 as [<-|[<-|[<-|[]]]]; lra). subst lo hi.
    cbn [map]. rewrite !colour_at by lra. replace ((0 - 0) / (2 - 0)) with 0 by field. replace ((1 - 0) / (2 - 0)) with (1 / 2) by field. replace ((2 - 0) / (2 - 0)) with 1 by field. reflexivity. }
  destruct (emb_inv _ _ _ _ _ E) as (_ & _ & color & V3 & Ees). rewrite V2 in V3. injection V3 as <-.
  assert (M : members wLabels 1 = [1]%nat) by (unfold members, label_mask, nonzero; cbn; rdec; reflexivity).
  exists (nth 0 (lf_traces fig) no_trace). eexists. exists 1. split; [apply nth_In; rewrite L; cbn; lia|]. split.
  - rewrite Ees. apply in_map_iff. exists 1. split; [reflexivity|]. apply unique_in. cbn. auto.
  - cbn [et_cluster et_colours]. rewrite M. split; [exact Cl|]. split; [reflexivity|]. split; [discriminate|]. cbn [take map nth In].
    rewrite (Hc 0%nat) by (cbn; lia). rewrite V1. cbn [nth]. intros [X|[]]. congruence.
Qed.

(** *** one cluster *)
Lemma invisible G choice nearest seed cmap g0 partial temporal labels size quantile g fig c :
  partial_plot_3d G choice nearest seed cmap g0 partial temporal (Some labels) size quantile = Ok (g, fig) ->
  (forall x, In x labels -> x = c) -> cmap NaN = [0; 0; 0; 0] -> forall t, In t (lf_traces fig) -> lt_colour t = [0; 0; 0; 0]%Z.
Proof.
  intros H Hl Hc t Ht. destruct (plot3_inv _ _ _ _ _ _ _ _ _ _ _ _ _ H) as (idx & E & _ & cl & cs & T & V & _).
  assert (Hcl : forall x, In x cl -> x = c).
  { intros x Hx. apply Hl. destruct (take_inv 0 _ _ _ T) as [L K]. apply In_nth with (d := 0) in Hx as (k & Hk & <-).
    destruct (K k ltac:(lia)) as [K1 ->]. apply nth_In. exact K1. }
  assert (V' := one_cluster cmap cl c (vtc_nonempty _ _ _ V) Hcl).
  destruct (colours_of_plot G choice nearest seed cmap g0 partial temporal labels size quantile g fig (fun _ => color_ints (cmap NaN)) cl idx H E T V' t Ht) as (c' & _ & _ & ->).
  rewrite Hc. unfold color_ints. cbn [map]. replace (0 * 255) with 0 by ring. assert (Z0 : trunc 0 = 0%Z) by (apply trunc_eq; [lia|lra]). rewrite Z0. reflexivity.
Qed.

(** *** uneven times *)
Lemma uneven cmap : exists geo z value fig ts, scatter_3d cmap geo (Column z) value = Ok fig /\ distinct_values z ts /\
  sf_height (nth 1 (sc_surfaces fig) (Surface 0 [] false)) < nth 0 ts 0.
Proof.
  destruct (scat_ok cmap [(0, 0); (1, 1); (2, 2)] [0; 1 / 100; 10] [0; 1; 1]) as (fig & F); try reflexivity; [discriminate|].
  exists [(0, 0); (1, 1); (2, 2)], [0; 1 / 100; 10], [0; 1; 1], fig, [0; 1 / 100; 10].
  assert (D : distinct_values [0; 1 / 100; 10] [0; 1 / 100; 10]).
  { split; [|reflexivity]. repeat constructor; lra. }
  split; [exact F|]. split; [exact D|].
  destruct (scat_inv _ _ _ _ _ F) as (_ & _ & Hs & _). destruct (surfaces_spec _ _ _ Hs) as (_ & lo & hi & Il & Ih & B & L & S).
  rewrite <- (distinct_unique _ _ D) in S. destruct (S 1%nat ltac:(cbn; lia)) as [-> _].
  assert (B1 := B 0 ltac:(cbn; auto)). assert (B2 := B 10 ltac:(cbn; auto)). cbn in Il, Ih.
  assert (lo = 0) by (destruct Il as [<-|[<-|[<-|[]]]]; lra). assert (hi = 10) by (destruct Ih as [<-|[<-|[<-|[]]]]; lra). subst lo hi.
  cbn. lra.
Qed.

(** *** examples *)
Lemma wShows : exists g fig, partial_plot_3d nat first_choice round_half 0%nat (fun _ => [1; 0; 0; 1]) 7%nat wLines (Column [0; 1; 2]) (Some wLabels) (Some (SizeInt 2)) None = Ok (g, fig) /\
  List.length (lf_traces fig) = 3%nat.
Proof.
  destruct (plot3_ok nat first_choice round_half 0%nat (fun _ => [1; 0; 0; 1]) first_choice_valid 7%nat wLines (Column [0; 1; 2]) wLabels (SizeInt 2) 2 wLabelled eq_refl) as (g & fig & idx & E & [L S] & ND & C).
  exists g, fig. split; [exact E|]. rewrite L.
  assert (K : incl [0; 1; 2]%nat idx).
  { intros i Hi. assert (Hi' : (i < 3)%nat) by (destruct Hi as [<-|[<-|[<-|[]]]]; lia).
    assert (Hv : In (INR i) wLabels) by (destruct Hi as [<-|[<-|[<-|[]]]]; cbn; auto).
    destruct (C (INR i) Hv) as [C1 _]. unfold chosen in C1.
    destruct (filter (fun j => Reqb (nth j wLabels 0) (INR i)) idx) as [|j r] eqn:Ef; [cbn in C1; lia|].
    assert (Hj : In j (filter (fun j => Reqb (nth j wLabels 0) (INR i)) idx)) by (rewrite Ef; left; reflexivity).
    apply filter_In in Hj as [Hj Hb]. apply Reqb_true in Hb. apply In_nth with (d := 0%nat) in Hj as Hk. destruct Hk as (k & Hk & Ek).
    destruct (S k Hk) as (Hlt & _). rewrite Ek in Hlt. cbn in Hlt.
    assert (j = i). { destruct Hi as [<-|[<-|[<-|[]]]]; destruct j as [|[|[|j]]]; cbn in Hb; try lra; try reflexivity; lia. }
    congruence. }
  assert (L1 : (3 <= length idx)%nat) by (apply (NoDup_incl_length (l := [0; 1; 2]%nat)); [repeat constructor; cbn; intuition lia|exact K]).
  assert (L2 : (length idx <= 3)%nat).
  { apply (NoDup_incl_length (l' := [0; 1; 2]%nat) ND). intros j Hj. apply In_nth with (d := 0%nat) in Hj as (k & Hk & <-). destruct (S k Hk) as (Hlt & _).
    cbn in Hlt. destruct (nth k idx 0%nat) as [|[|[|]]]; cbn; auto; lia. }
  lia.
Qed.
