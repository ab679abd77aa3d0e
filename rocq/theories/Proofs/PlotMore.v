(** Colours, time surfaces, camera and clustering (C143-C148). *)
From Coq Require Import Lra Lia Permutation Sorting.Sorted Rtrigo1 Ratan.
From Verif.Model Require Import Base Ext Sort Ale Visualize Plots.
From Verif.Spec Require Import NeighbourSpec VisualizeSpec PlotSpec.
From Verif.Proofs Require Import ListFacts KernelFacts CsrFacts AleFacts NeighbourProps VisualizeFacts VisualizeProps PlotProps.
Open Scope string_scope.
Open Scope nat_scope.
Open Scope R_scope.

Section Plots.
  Variable G : Type.
  Variable choice : G -> list nat -> nat -> G * list nat.
  Variable nearest : R -> nat.
  Variable seed : G.
  Variable cmap : ext -> list R.

  Notation vtc := (vector_to_color cmap).
  Notation plot3 := (partial_plot_3d G choice nearest seed cmap).
  Notation plots3 := (partials_plot_3d G choice nearest seed cmap).
  Notation emb := (embedding_plot cmap).
  Notation scat := (scatter_3d cmap).
  Notation compound := (partial_compound_plot G choice nearest seed cmap).

  Lemma sample_same s g ys ys' size labels : length ys = length ys' ->
    sample_partial G choice nearest s g ys size None labels = sample_partial G choice nearest s g ys' size None labels.
  Proof. intros E. unfold sample_partial. rewrite E. reflexivity. Qed.

  (** The same observations for all features. *)
  Lemma features_same N labels temporal size : forall partials, (forall p, In p partials -> length p = N) ->
    forall g0 f g figs, plot_features G choice nearest seed cmap g0 f partials temporal (option_map Merged labels) size None = Ok (g, figs) ->
    length figs = length partials /\
    forall k, (k < length partials)%nat -> exists g' idx, sample_partial G choice nearest (Some seed) seed (repeat [] N) size None labels = Ok (g', idx) /\
      shows (nth k partials []) temporal labels idx (nth k figs (LineFigure [] (0, 0) (0, 0) (0, 0))).
  Proof.
    induction partials as [|p ps IH]; intros HN g0 f g figs H.
    - injection H as <- <-. split; [reflexivity|]. intros k Hk. inversion Hk.
    - cbn [plot_features] in H. inv_bind H. inv_bind H. destruct x0 as [g1 fig]. inv_bind H. destruct x0 as [g2 rest]. injection H as <- <-. cbn [fst snd] in *.
      assert (Hx : x = labels) by (destruct labels; cbn in H0; congruence). subst x.
      destruct (plot3_inv _ _ _ _ _ _ _ _ _ _ _ _ _ H1) as (idx & Ei & Sh & _).
      destruct (IH (fun q Hq => HN q (or_intror Hq)) _ _ _ _ H2) as (L & Sh').
      split; [cbn; rewrite L; reflexivity|]. intros [|k] Hk.
      + exists g1, idx. split; [|exact Sh]. rewrite <- Ei. rewrite (sample_seeded G choice nearest seed seed g0). apply sample_same.
        rewrite repeat_length, map_length. symmetry. apply HN. left. reflexivity.
      + cbn. apply Sh'. cbn in Hk. lia.
  Qed.

  Lemma plots_same N labels temporal size partials : (forall p, In p partials -> length p = N) ->
    forall g0 g figs, plots3 g0 partials temporal (option_map Merged labels) size None = Ok (g, figs) ->
    exists idx, length figs = length partials /\
    forall k, (k < length partials)%nat -> shows (nth k partials []) temporal labels idx (nth k figs (LineFigure [] (0, 0) (0, 0) (0, 0))).
  Proof.
    intros HN g0 g figs H. destruct (features_same N labels temporal size partials HN _ _ _ _ H) as [L S].
    destruct partials as [|p ps].
    - exists []. split; [exact L|]. intros k Hk. inversion Hk.
    - destruct (S 0%nat ltac:(cbn; lia)) as (g' & idx & E & _). exists idx. split; [exact L|]. intros k Hk.
      destruct (S k Hk) as (g2 & idx2 & E2 & Sh). rewrite E in E2. injection E2 as <- <-. exact Sh.
  Qed.

  (** *** the other two plots *)
  Lemma emb_inv e cluster t es : emb e cluster (Column t) = Ok es ->
    length t = length e /\ length cluster = length e /\ exists color, vtc cluster = Ok color /\
    es = map (fun c => let ms := members cluster c in EmbeddingTrace c (take [] e ms) (map (fun i => (nth i t 0, i)) ms) (take [] color ms)) (unique cluster).
  Proof.
    unfold embedding_plot. destruct (Nat.eqb_spec (length t) (length e)) as [E|]; [|discriminate]. cbn [negb]. intros H. inv_bind H.
    destruct (Nat.eqb_spec (length cluster) (length e)) as [E2|]; [|discriminate]. cbn [negb] in H. injection H as <-. split; auto. split; auto. exists x. auto.
  Qed.

  Lemma scat_inv geo z value fig : scat geo (Column z) value = Ok fig ->
    length value = length geo /\ length value = length z /\ slice_surfaces cmap z = Ok (sc_surfaces fig) /\ exists color, vtc value = Ok color /\
    sc_traces fig = map (fun c => let ms := members value c in
                         PointTrace c (map (fun i => (fst (nth i geo (0, 0)), snd (nth i geo (0, 0)), nth i z 0)) ms)
                                    (seq 0 (length value)) (take [] color ms)) (unique value).
  Proof.
    unfold scatter_3d. intros H. inv_bind H. inv_bind H. inv_bind H.
    destruct (Nat.eqb_spec (length value) (length geo)) as [E|]; [|discriminate].
    destruct (Nat.eqb_spec (length value) (length z)) as [E2|]; [|discriminate]. cbn [negb orb] in H. inv_bind H. injection H as <-.
    split; auto. split; auto. split; auto. exists x1. auto.
  Qed.

  Lemma emb_ok e cluster t : cluster <> [] -> length t = length e -> length cluster = length e -> exists es, emb e cluster (Column t) = Ok es.
  Proof.
    intros Hne E1 E2. unfold embedding_plot. rewrite E1, Nat.eqb_refl. cbn [negb]. destruct (vtc_ok cmap cluster Hne) as (lo & hi & _ & _ & _ & ->). cbn [bind].
    rewrite E2, Nat.eqb_refl. eexists. reflexivity.
  Qed.

  Lemma unique_ne z : z <> [] -> unique z <> [].
  Proof. intros H E. destruct z as [|a z]; [congruence|]. assert (I : In a (unique (a :: z))) by (apply unique_in; left; reflexivity). rewrite E in I. destruct I. Qed.

  Lemma surfaces_ok z : z <> [] -> exists lo hi colors, In lo z /\ In hi z /\ (forall x, In x z -> lo <= x <= hi) /\
    slice_surfaces cmap z = Ok (tabulate (length (unique z)) (fun k => Surface (nth k (unique z) 0 - (hi - lo) / INR (length (unique z)) * (8 / 100)) (nth k colors []) (k =? 0)%nat)).
  Proof.
    intros Hne. destruct (vmin_spec z Hne) as (lo & E1 & I1 & B1). destruct (vmax_spec z Hne) as (hi & E2 & I2 & B2).
    destruct (vtc_ok cmap (unique z) (unique_ne z Hne)) as (a & b & _ & _ & _ & Ec).
    exists lo, hi, (map (colour_of cmap a b) (unique z)). repeat split; auto.
    unfold slice_surfaces. rewrite E1, E2. cbn [bind]. rewrite Ec. reflexivity.
  Qed.

  Lemma scat_ok geo z value : value <> [] -> length value = length geo -> length value = length z -> exists fig, scat geo (Column z) value = Ok fig.
  Proof.
    intros Hne E1 E2. unfold scatter_3d.
    assert (Ng : map fst geo <> []) by (destruct geo; [destruct value; [congruence|discriminate]|discriminate]).
    assert (Nz : z <> []) by (destruct z; [destruct value; [congruence|discriminate]|discriminate]).
    destruct (vmin_spec _ Ng) as (a & -> & _). destruct (vmin_spec _ Nz) as (b & -> & _). cbn [bind].
    destruct (vtc_ok cmap value Hne) as (lo & hi & _ & _ & _ & ->). cbn [bind].
    rewrite E1, Nat.eqb_refl. rewrite <- E1, E2, Nat.eqb_refl. cbn [negb orb].
    destruct (surfaces_ok z Nz) as (lo' & hi' & colors & _ & _ & _ & ->). cbn [bind]. eexists. reflexivity.
  Qed.

  (** *** colours of the clusters *)
  Lemma trace_colours {A} (col : A -> list Z) (d : A) (value : list A) ms x : (forall i, In i ms -> (i < length value)%nat) ->
    In x (take [] (map col value) ms) -> exists i, In i ms /\ x = col (nth i value d).
  Proof.
    intros Hb H. unfold take in H. apply in_map_iff in H as (i & <- & Hi). exists i. split; auto. apply nth_map_in. auto.
  Qed.

  Lemma emb_colours col e cluster t es : vtc cluster = Ok (map col cluster) -> emb e cluster (Column t) = Ok es ->
    forall tr, In tr es -> forall x, In x (et_colours tr) -> x = col (et_cluster tr).
  Proof.
    intros Hc H tr Htr x Hx. destruct (emb_inv _ _ _ _ H) as (_ & _ & color & E & ->). rewrite Hc in E. injection E as <-.
    apply in_map_iff in Htr as (c & <- & Hin). cbn in *.
    destruct (trace_colours col 0 cluster (members cluster c) x) as (i & Hi & ->); [intros i Hi; apply in_members in Hi; apply Hi|exact Hx|].
    apply in_members in Hi as [_ ->]. reflexivity.
  Qed.
  Lemma scat_colours col geo z value fig : vtc value = Ok (map col value) -> scat geo (Column z) value = Ok fig ->
    forall tr, In tr (sc_traces fig) -> forall x, In x (pt_colours tr) -> x = col (pt_cluster tr).
  Proof.
    intros Hc H tr Htr x Hx. destruct (scat_inv _ _ _ _ H) as (_ & _ & _ & color & E & Et). rewrite Et in Htr. rewrite Hc in E. injection E as <-.
    apply in_map_iff in Htr as (c & <- & Hin). cbn in *.
    destruct (trace_colours col 0 value (members value c) x) as (i & Hi & ->); [intros i Hi; apply in_members in Hi; apply Hi|exact Hx|].
    apply in_members in Hi as [_ ->]. reflexivity.
  Qed.

  Lemma colours_of_plot g0 partial temporal labels size quantile g fig col cl idx :
    plot3 g0 partial temporal (Some labels) size quantile = Ok (g, fig) ->
    sample_partial G choice nearest (Some seed) g0 (map snd partial) size quantile (Some labels) = Ok (g, idx) ->
    take_checked labels idx = Ok cl -> vtc cl = Ok (map col cl) ->
    forall tr, In tr (lf_traces fig) -> exists c, lt_cluster tr = Some c /\ In c cl /\ lt_colour tr = col c.
  Proof.
    intros H E Et Ec tr Htr. destruct (plot3_inv _ _ _ _ _ _ _ _ _ _ _ _ _ H) as (idx' & E' & [L S] & cl' & cs & Et' & Ec' & Hc).
    rewrite E in E'. injection E' as <-. rewrite Et in Et'. injection Et' as <-. rewrite Ec in Ec'. injection Ec' as <-.
    apply In_nth with (d := no_trace) in Htr as (k & Hk & <-). rewrite L in Hk. destruct (S k Hk) as (_ & _ & _ & _ & Cl & _).
    destruct (take_inv 0 _ _ _ Et) as [Lc Tc]. destruct (Tc k Hk) as [Tb Tv].
    exists (nth (nth k idx 0%nat) labels 0). split; [exact Cl|]. rewrite <- Tv. split; [apply nth_In; lia|]. rewrite (Hc k Hk). apply nth_map_in. lia.
  Qed.

  Theorem same_colours : valid_choice choice -> forall g0 partial temporal labels a s g fig,
    labelled partial temporal labels -> size_spec a (length partial) s ->
    plot3 g0 partial temporal (Some labels) (Some a) None = Ok (g, fig) ->
    exists col, (forall tr, In tr (lf_traces fig) -> exists c, lt_cluster tr = Some c /\ lt_colour tr = col c) /\
      (forall e t es, emb e labels (Column t) = Ok es -> forall tr, In tr es -> forall x, In x (et_colours tr) -> x = col (et_cluster tr)) /\
      (forall geo z sc, scat geo (Column z) labels = Ok sc -> forall tr, In tr (sc_traces sc) -> forall x, In x (pt_colours tr) -> x = col (pt_cluster tr)).
  Proof.
    intros HC g0 partial temporal labels a s g fig (HN & HL & HT & Hl) HS H.
    destruct (sample_with_labels G choice nearest HC (Some seed) g0 (map snd partial) a s labels) as (g' & idx & E & ND & Rg & Ch & _); try (rewrite map_length; auto; fail).
    rewrite map_length in Rg.
    assert (Et : take_checked labels idx = Ok (map (fun i => nth i labels 0) idx)) by (apply take_ok; intros i Hi; rewrite HL; auto).
    assert (Hne : labels <> []) by (destruct labels; [cbn in HL; lia|discriminate]).
    destruct (vtc_same cmap labels (map (fun i => nth i labels 0) idx) Hne) as (col & E1 & E2).
    { intros x. split.
      - intros Hx. specialize (Ch x Hx). destruct Ch as [Ch _]. unfold chosen in Ch.
        destruct (filter (fun i => Reqb (nth i labels 0) x) idx) as [|i r] eqn:Ef; [cbn in Ch; lia|].
        assert (Hi : In i (filter (fun i => Reqb (nth i labels 0) x) idx)) by (rewrite Ef; left; reflexivity).
        apply filter_In in Hi as [Hi Hb]. apply Reqb_true in Hb. apply in_map_iff. exists i. auto.
      - intros Hx. apply in_map_iff in Hx as (i & <- & Hi). apply nth_In. rewrite HL. auto. }
    exists col. split; [|split].
    - intros tr Htr. assert (Eg : g' = g). { destruct (plot3_inv _ _ _ _ _ _ _ _ _ _ _ _ _ H) as (idx' & E' & _). rewrite E in E'. congruence. } subst g'.
      destruct (colours_of_plot _ _ _ _ _ _ _ _ col _ _ H E Et E2 tr Htr) as (c & A1 & _ & A2). exists c. auto.
    - intros e t es. apply emb_colours. exact E1.
    - intros geo z sc. apply scat_colours. exact E1.
  Qed.

  (** One cluster only. *)
  Lemma one_cluster v c : v <> [] -> (forall x, In x v -> x = c) -> vtc v = Ok (map (fun _ => color_ints (cmap NaN)) v).
  Proof.
    intros Hne H. destruct (vtc_ok cmap v Hne) as (lo & hi & I1 & I2 & _ & ->). f_equal. apply map_ext_in. intros x Hx. unfold colour_of.
    rewrite (H lo I1), (H hi I2), (H x Hx). unfold ediv. replace (c - c) with 0 by ring. destruct (Req_EM_T 0 0); [|lra].
    destruct (Rlt_dec 0 0); [lra|reflexivity].
  Qed.

  (** *** shapes of the time vector *)
  Lemma compound_flat g geo t partials embedding cluster size quantile :
    (exists e, embedding = Merged e) \/ partials <> [] -> raises (compound g geo (Flat t) partials embedding cluster size quantile).
  Proof.
    intros HH. apply raises_not_ok. intros r H. unfold partial_compound_plot in H. inv_bind H. inv_bind H. clear H.
    destruct embedding as [e|es], cluster as [c|cs]; try discriminate.
    destruct HH as [(e & He)|HH]; [discriminate|].
    inv_bind H1. clear H1. destruct partials as [|p ps]; [congruence|]. cbn in H. destruct (getitem es 0); [|discriminate]. cbn in H. destruct (getitem cs 0); discriminate.
  Qed.

  Lemma features_ok : valid_choice choice -> forall temporal labels a s N, size_spec a N s -> forall partials,
    (forall p, In p partials -> length p = N /\ labelled p temporal labels) ->
    forall g0 f, exists g figs, plot_features G choice nearest seed cmap g0 f partials temporal (Some (Merged labels)) (Some a) None = Ok (g, figs) /\ length figs = length partials.
  Proof.
    intros HC temporal labels a s N HS. induction partials as [|p ps IH]; intros HP g0 f.
    - exists g0, []. auto.
    - destruct (HP p (or_introl eq_refl)) as [HN HL].
      destruct (plot3_ok G choice nearest seed cmap HC g0 p temporal labels a s HL) as (g1 & fig & idx & E1 & _); [rewrite HN; exact HS|].
      destruct (IH (fun q Hq => HP q (or_intror Hq)) g1 (S f)) as (g2 & figs & E2 & L).
      exists g2, (fig :: figs). split; [|cbn; rewrite L; reflexivity]. cbn [plot_features labels_of bind]. rewrite E1. cbn [bind fst snd]. rewrite E2. reflexivity.
  Qed.

  Definition no_scatter := ScatterFigure [] [].
  Definition no_figure := LineFigure [] (0, 0) (0, 0) (0, 0).

  Theorem compound_columns : valid_choice choice -> forall g0 geo t partials e labels a s N,
    size_spec a N s -> (0 < N)%nat -> (forall p, In p partials -> length p = N /\ labelled p (Column t) labels) ->
    length t = N -> length geo = N -> length e = N -> length labels = N ->
    exists g lines ef sf compass, compound g0 geo (Column t) partials (Merged e) (Merged labels) (Some a) None =
        Ok (g, (lines, repeat ef (length partials), repeat sf (length partials), compass)) /\
      plots3 g0 partials (Column t) (Some (Merged labels)) (Some a) None = Ok (g, lines) /\
      emb e labels (Column t) = Ok ef /\ scat geo (Column t) labels = Ok sf /\
      compass = map (fun l => (sf, l, ef)) lines.
  Proof.
    intros HC g0 geo t partials e labels a s N HS H0 HP Lt Lg Le Ll.
    destruct (features_ok HC (Column t) labels a s N HS partials HP g0 0%nat) as (g & lines & E & L).
    assert (Hne : labels <> []) by (destruct labels; [cbn in Ll; lia|discriminate]).
    destruct (emb_ok e labels t Hne) as (ef & Ee); try congruence.
    destruct (scat_ok geo t labels Hne) as (sf & Es); try congruence.
    exists g, lines, ef, sf, (map (fun l => (sf, l, ef)) lines).
    split; [|auto]. unfold partial_compound_plot. unfold partials_plot_3d. rewrite E. cbn [bind]. rewrite Ee. cbn [bind]. rewrite Es. cbn [bind fst snd].
    rewrite (mapM_all_ok _ (fun f => (sf, nth f lines no_figure, ef))).
    - cbn [bind]. do 4 f_equal. rewrite <- L. apply (nth_ext _ _ (sf, no_figure, ef) (sf, no_figure, ef)).
      + rewrite !map_length, seq_length. reflexivity.
      + intros k Hk. rewrite map_length, seq_length in Hk. rewrite (nth_map_in _ (seq 0 (length lines)) k 0%nat) by (rewrite seq_length; exact Hk).
        rewrite (nth_map_in _ lines k no_figure) by exact Hk. rewrite seq_nth by exact Hk. reflexivity.
    - intros f Hf. apply in_seq in Hf. cbn in Hf.
      rewrite (getitem_lt sf (repeat sf (length partials)) f) by (rewrite repeat_length; lia). rewrite nth_repeat. cbn [bind].
      rewrite (getitem_lt no_figure lines f) by lia. cbn [bind].
      rewrite (getitem_lt ef (repeat ef (length partials)) f) by (rewrite repeat_length; lia). rewrite nth_repeat. reflexivity.
  Qed.

  (** *** time surfaces *)
  Lemma surfaces_spec z ss : slice_surfaces cmap z = Ok ss -> z <> [] /\ exists lo hi, In lo z /\ In hi z /\ (forall x, In x z -> lo <= x <= hi) /\
    length ss = length (unique z) /\
    forall k, (k < length (unique z))%nat -> sf_height (nth k ss (Surface 0 [] false)) = nth k (unique z) 0 - (hi - lo) / INR (length (unique z)) * (8 / 100) /\
       sf_legend (nth k ss (Surface 0 [] false)) = (k =? 0)%nat.
  Proof.
    intros H. assert (Hne : z <> []) by (intros ->; discriminate). split; [exact Hne|].
    destruct (surfaces_ok z Hne) as (lo & hi & colors & I1 & I2 & B & E). rewrite E in H. injection H as <-.
    exists lo, hi. repeat split; auto; try apply B; auto.
    - apply tabulate_length.
    - rewrite (tabulate_nth (length (unique z)) (fun k => Surface (nth k (unique z) 0 - (hi - lo) / INR (length (unique z)) * (8 / 100)) (nth k colors []) (k =? 0)%nat)) by assumption. reflexivity.
    - rewrite (tabulate_nth (length (unique z)) (fun k => Surface (nth k (unique z) 0 - (hi - lo) / INR (length (unique z)) * (8 / 100)) (nth k colors []) (k =? 0)%nat)) by assumption. reflexivity.
  Qed.
End Plots.
