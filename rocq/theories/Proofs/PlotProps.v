(** What the plots show (C143-C148). *)
From Coq Require Import Lra Lia Permutation Sorting.Sorted Rtrigo1 Ratan.
From Verif.Model Require Import Base Ext Visualize Plots.
From Verif.Spec Require Import NeighbourSpec VisualizeSpec PlotSpec.
From Verif.Proofs Require Import ListFacts CsrFacts AleFacts NeighbourProps VisualizeFacts VisualizeProps.
Open Scope string_scope.
Open Scope nat_scope.
Open Scope R_scope.

Ltac inv_bind H := apply bind_ok in H; destruct H as (? & ? & H).

Lemma take_inv {A} (d : A) (l : list A) idx r : take_checked l idx = Ok r ->
  length r = length idx /\ (forall k, (k < length idx)%nat -> (nth k idx 0 < length l)%nat /\ nth k r d = nth (nth k idx 0%nat) l d).
Proof.
  unfold take_checked. intros H. assert (L := mapM_len _ _ _ H). split; [exact L|].
  intros k Hk. assert (E := mapM_nth _ _ _ k 0%nat d H Hk). unfold getitem in E.
  destruct (nth_error l (nth k idx 0%nat)) as [a|] eqn:En; [|discriminate]. injection E as <-.
  split; [apply nth_error_Some; congruence|]. symmetry. apply nth_error_nth. exact En.
Qed.

Lemma take_ok {A} (d : A) (l : list A) idx : (forall i, In i idx -> (i < length l)%nat) -> take_checked l idx = Ok (map (fun i => nth i l d) idx).
Proof. intros H. apply mapM_all_ok. intros i Hi. apply getitem_lt. auto. Qed.

Section Plots.
  Variable G : Type.
  Variable choice : G -> list nat -> nat -> G * list nat.
  Variable nearest : R -> nat.
  Variable seed : G.
  Variable cmap : ext -> list R.

  Notation vtc := (vector_to_color cmap).
  Notation plot3 := (partial_plot_3d G choice nearest seed cmap).
  Notation plots3 := (partials_plot_3d G choice nearest seed cmap).

  Definition colour_of (lo hi x : R) : list Z := color_ints (cmap (ediv (Fin (x - lo)) (Fin (hi - lo)))).

  Lemma vtc_ok v : v <> [] -> exists lo hi, In lo v /\ In hi v /\ (forall x, In x v -> lo <= x <= hi) /\ vtc v = Ok (map (colour_of lo hi) v).
  Proof.
    intros Hne. destruct (vmin_spec v Hne) as (lo & E1 & I1 & B1). destruct (vmax_spec v Hne) as (hi & E2 & I2 & B2).
    exists lo, hi. repeat split; auto. unfold vector_to_color, vector_normed. rewrite E1, E2. cbn [bind]. rewrite map_map. reflexivity.
  Qed.

  Lemma vtc_nonempty v c : vtc v = Ok c -> v <> [].
  Proof. intros H ->. discriminate. Qed.

  (** Vectors with the same values get the same colours. *)
  Lemma vtc_same v v' : v <> [] -> (forall x, In x v <-> In x v') -> exists col, vtc v = Ok (map col v) /\ vtc v' = Ok (map col v').
  Proof.
    intros Hne H. assert (Hne' : v' <> []). { destruct v as [|a v]; [congruence|]. intros ->. apply (proj1 (H a)). left. reflexivity. }
    destruct (vtc_ok v Hne) as (lo & hi & I1 & I2 & B & E). destruct (vtc_ok v' Hne') as (lo' & hi' & I1' & I2' & B' & E').
    exists (colour_of lo hi). split; [exact E|]. rewrite E'.
    assert (K1 := B lo' (proj2 (H lo') I1')). assert (K2 := B' lo (proj1 (H lo) I1)).
    assert (K3 := B hi' (proj2 (H hi') I2')). assert (K4 := B' hi (proj1 (H hi) I2)).
    replace lo' with lo by lra. replace hi' with hi by lra. reflexivity.
  Qed.

  Lemma extremes_inv vs lo hi : extremes vs = Ok (lo, hi) -> vs <> [] /\ (forall v, In v vs -> v <> []) /\ forall v x, In v vs -> In x v -> lo <= x <= hi.
  Proof.
    unfold extremes. intros H. inv_bind H. inv_bind H. inv_bind H. inv_bind H. injection H as <- <-.
    assert (Hv : forall v, In v vs -> v <> []).
    { intros v Hv ->. apply In_nth with (d := []) in Hv as (k & Hk & E). assert (E1 := mapM_nth _ _ _ k [] 0 H0 Hk). rewrite E in E1. discriminate. }
    assert (L0 := mapM_len _ _ _ H0). assert (L2 := mapM_len _ _ _ H2).
    assert (Hne : vs <> []). { intros ->. destruct x; [|discriminate]. discriminate. }
    split; [exact Hne|]. split; [exact Hv|]. intros v t Hin Ht. assert (Hv' := Hv v Hin).
    apply In_nth with (d := []) in Hin as (k & Hk & E).
    assert (M1 := mapM_nth _ _ _ k [] 0 H0 Hk). assert (M2 := mapM_nth _ _ _ k [] 0 H2 Hk). rewrite E in M1, M2.
    destruct (vmin_spec v Hv') as (a & Ea & _ & Ba). destruct (vmax_spec v Hv') as (b & Eb & _ & Bb).
    rewrite Ea in M2. rewrite Eb in M1. injection M1 as M1. injection M2 as M2.
    assert (Nx : x <> []) by (intros ->; cbn in L0; lia). assert (Nx1 : x1 <> []) by (intros ->; cbn in L2; lia).
    destruct (vmax_spec x Nx) as (c & Ec & _ & Bc). destruct (vmin_spec x1 Nx1) as (d & Ed & _ & Bd).
    rewrite Ec in H1. rewrite Ed in H3. injection H1 as <-. injection H3 as <-.
    assert (K1 : In (nth k x 0) x) by (apply nth_In; lia). assert (K2 : In (nth k x1 0) x1) by (apply nth_In; lia).
    specialize (Ba t Ht). specialize (Bb t Ht). specialize (Bc _ K1). specialize (Bd _ K2). lra.
  Qed.

  Lemma extremes_ok vs : vs <> [] -> (forall v, In v vs -> v <> []) -> exists lo hi, extremes vs = Ok (lo, hi).
  Proof.
    intros Hne Hv. unfold extremes.
    assert (K1 : exists l, mapM vmax vs = Ok l /\ length l = length vs).
    { clear Hne. induction vs as [|v vs IH]; [exists []; auto|]. destruct (IH (fun u Hu => Hv u (or_intror Hu))) as (l & E & L).
      destruct (vmax_spec v (Hv v (or_introl eq_refl))) as (a & Ea & _). exists (a :: l). cbn. rewrite Ea. cbn. rewrite E. cbn. auto. }
    assert (K2 : exists l, mapM vmin vs = Ok l /\ length l = length vs).
    { clear Hne K1. induction vs as [|v vs IH]; [exists []; auto|]. destruct (IH (fun u Hu => Hv u (or_intror Hu))) as (l & E & L).
      destruct (vmin_spec v (Hv v (or_introl eq_refl))) as (a & Ea & _). exists (a :: l). cbn. rewrite Ea. cbn. rewrite E. cbn. auto. }
    destruct K1 as (l & E & L). destruct K2 as (l' & E' & L').
    assert (N : l <> []) by (intros ->; destruct vs; [congruence|discriminate]).
    assert (N' : l' <> []) by (intros ->; destruct vs; [congruence|discriminate]).
    destruct (vmax_spec l N) as (hi & Eh & _). destruct (vmin_spec l' N') as (lo & El & _).
    exists lo, hi. rewrite E. cbn. rewrite Eh. cbn. rewrite E'. cbn. rewrite El. reflexivity.
  Qed.

  (** *** partial_plot_3d *)
  Lemma plot3_inv g0 partial temporal labels size quantile g fig :
    plot3 g0 partial temporal labels size quantile = Ok (g, fig) ->
    exists idx, sample_partial G choice nearest (Some seed) g0 (map snd partial) size quantile labels = Ok (g, idx) /\
      shows partial temporal labels idx fig /\
      match labels with
      | Some l => exists cl cs, take_checked l idx = Ok cl /\ vtc cl = Ok cs /\ forall k, (k < length idx)%nat -> lt_colour (nth k (lf_traces fig) no_trace) = nth k cs []
      | None => exists t, temporal = Flat t
      end.
  Proof.
    unfold partial_plot_3d. intros H. inv_bind H. rename x into r. inv_bind H. rename x into lines. inv_bind H. rename x into ts.
    inv_bind H. destruct x as [[cs names] show]. inv_bind H. destruct x as [ylo yhi]. inv_bind H. destruct x as [xlo xhi].
    inv_bind H. rename x into trange. rewrite range_margin_values in H. cbn [bind] in H. rewrite range_margin_values in H. cbn [bind] in H. injection H as <- <-.
    cbn [fst snd] in *. destruct r as [g' idx]. cbn [fst snd] in *.
    exists idx. split; [exact H0|].
    destruct (take_inv ([], []) _ _ _ H1) as [L1 T1]. destruct (take_inv 0 _ _ _ H2) as [L2 T2].
    destruct (extremes_inv _ _ _ H4) as (Ny & Ny' & By). destruct (extremes_inv _ _ _ H5) as (_ & Nx' & Bx).
    assert (Hidx : idx <> []). { intros ->. destruct lines; [|discriminate]. apply Ny. reflexivity. }
    assert (Nts : ts <> []) by (intros ->; destruct idx; [congruence|discriminate]).
    destruct (range_margin_spec ts None None (5 / 100) Nts) as (tlo & thi & _ & _ & _ & Et & Bt). rewrite Et in H6. injection H6 as <-.
    assert (Tr : forall k, (k < length idx)%nat -> nth k (tabulate (length idx) (fun k0 =>
         LineTrace (nth k0 lines ([], [])) (nth k0 ts 0) (nth k0 idx 0%nat) (nth k0 names None) (nth k0 show false) (nth k0 cs []))) no_trace =
         LineTrace (nth k lines ([], [])) (nth k ts 0) (nth k idx 0%nat) (nth k names None) (nth k show false) (nth k cs [])).
    { intros k Hk. apply (tabulate_nth (length idx) (fun k0 => LineTrace (nth k0 lines ([], [])) (nth k0 ts 0) (nth k0 idx 0%nat) (nth k0 names None) (nth k0 show false) (nth k0 cs []))). exact Hk. }
    assert (Hst : match labels with
      | Some l => exists cl, take_checked l idx = Ok cl /\ vtc cl = Ok cs /\ names = map Some cl /\ show = show_vector cl
      | None => (exists t, temporal = Flat t) /\ names = map (fun _ => None) ts /\ show = map (fun _ => false) ts end).
    { destruct labels as [l|].
      - inv_bind H3. inv_bind H3. injection H3 as <- <- <-. exists x. auto.
      - destruct temporal; [|discriminate]. inv_bind H3. injection H3 as <- <- <-. split; [eexists; reflexivity|auto]. }
    split.
    - unfold shows. cbn [lf_traces lf_time_range lf_x_range lf_y_range]. split; [apply tabulate_length|]. intros k Hk. rewrite Tr by exact Hk. cbn.
      split; [apply T1; exact Hk|]. split; [apply T1; exact Hk|]. split; [apply T2; exact Hk|]. split; [reflexivity|]. split; [|split; [|split]].
      + destruct labels as [l|].
        * destruct Hst as (cl & Ec & _ & -> & _). destruct (take_inv 0 _ _ _ Ec) as [Lc Tc]. rewrite (nth_map_in Some cl k 0 None) by lia.
          cbn. f_equal. apply Tc. exact Hk.
        * destruct Hst as (_ & -> & _). rewrite (nth_map_in (fun _ => None) ts k 0 None) by lia. reflexivity.
      + destruct labels as [l|].
        * destruct Hst as (cl & Ec & _ & Hn & ->). destruct (take_inv 0 _ _ _ Ec) as [Lc Tc]. destruct (legend_once cl) as [_ LO].
          specialize (LO k ltac:(lia)). rewrite LO. split.
          -- intros HH j Hj. rewrite <- (proj2 (Tc j ltac:(lia))), <- (proj2 (Tc k Hk)). apply HH. exact Hj.
          -- intros HH j Hj. rewrite (proj2 (Tc j ltac:(lia))), (proj2 (Tc k Hk)). apply HH. exact Hj.
        * destruct Hst as (_ & _ & ->). rewrite (nth_map_in (fun _ => false) ts k 0 false) by lia. reflexivity.
      + assert (Kt : In (nth k ts 0) ts) by (apply nth_In; rewrite L2; exact Hk). specialize (Bt ltac:(lra) _ Kt). cbn. exact Bt.
      + assert (Il : In (nth k lines ([], [])) lines) by (apply nth_In; unfold line in *; rewrite L1; exact Hk). split.
        * intros x Hx. specialize (Bx _ x (in_map fst _ _ Il) Hx). assert (0 <= 5 / 100 * (xhi - xlo)) by (apply Rmult_le_pos; lra). unfold within; cbn [fst snd]; lra.
        * intros y Hy. specialize (By _ y (in_map snd _ _ Il) Hy). assert (0 <= 5 / 100 * (yhi - ylo)) by (apply Rmult_le_pos; lra). unfold within; cbn [fst snd]; lra.
    - destruct labels as [l|].
      + destruct Hst as (cl & Ec & Ev & _ & _). exists cl, cs. split; [exact Ec|]. split; [exact Ev|]. intros k Hk. cbn [lf_traces]. rewrite Tr by exact Hk. reflexivity.
      + apply Hst.
  Qed.

  Lemma plot3_generator g1 g2 partial temporal labels size quantile :
    plot3 g1 partial temporal labels size quantile = plot3 g2 partial temporal labels size quantile.
  Proof. unfold partial_plot_3d. rewrite (sample_seeded G choice nearest seed g1 g2). reflexivity. Qed.

  Lemma plots3_generator g1 g2 partials temporal labels size quantile : partials <> [] ->
    plots3 g1 partials temporal labels size quantile = plots3 g2 partials temporal labels size quantile.
  Proof.
    unfold partials_plot_3d. destruct partials as [|p ps]; [congruence|]. intros _. cbn.
    destruct (labels_of labels 0) as [l|e]; [|reflexivity]. cbn. rewrite (plot3_generator g1 g2). reflexivity.
  Qed.

  Lemma plot3_column g0 partial t size quantile : raises (plot3 g0 partial (Column t) None size quantile).
  Proof.
    apply raises_not_ok. intros [g fig] H. destruct (plot3_inv _ _ _ _ _ _ _ _ H) as (idx & _ & _ & t' & E). discriminate.
  Qed.

  Lemma plot3_shape g0 partial t l size quantile :
    plot3 g0 partial (Flat t) (Some l) size quantile = plot3 g0 partial (Column t) (Some l) size quantile.
  Proof. reflexivity. Qed.

  (** Success with labels. *)
  Lemma plot3_run g0 partial temporal labels size quantile g idx :
    labelled partial temporal labels -> sample_partial G choice nearest (Some seed) g0 (map snd partial) size quantile (Some labels) = Ok (g, idx) ->
    (forall i, In i idx -> (i < length partial)%nat) -> idx <> [] ->
    exists fig, plot3 g0 partial temporal (Some labels) size quantile = Ok (g, fig).
  Proof.
    intros (HN & HL & HT & Hl) E Rg Hidx.
    unfold partial_plot_3d. rewrite E. cbn [bind snd fst].
    rewrite (take_ok (A := line) ([], []) partial idx) by exact Rg. cbn [bind].
    rewrite (take_ok 0 (time_values temporal) idx) by (intros i Hi; rewrite HT; auto). cbn [bind].
    rewrite (take_ok 0 labels idx) by (intros i Hi; rewrite HL; auto). cbn [bind].
    assert (Ncl : map (fun i => nth i labels 0) idx <> []) by (destruct idx; [congruence|discriminate]).
    destruct (vtc_ok _ Ncl) as (lo & hi & _ & _ & _ & Ec). rewrite Ec. cbn [bind].
    assert (Nl : forall i, In i idx -> wf_lineb (nth i partial ([], []))) by (intros i Hi; apply Hl, nth_In; auto).
    destruct (extremes_ok (map snd (map (fun i => nth i partial ([], [])) idx))) as (ylo & yhi & Ey).
    { destruct idx; [congruence|discriminate]. }
    { intros v Hv. rewrite map_map in Hv. apply in_map_iff in Hv as (i & <- & Hi). apply (Nl i Hi). }
    rewrite Ey. cbn [bind].
    destruct (extremes_ok (map fst (map (fun i => nth i partial ([], [])) idx))) as (xlo & xhi & Ex).
    { destruct idx; [congruence|discriminate]. }
    { intros v Hv. rewrite map_map in Hv. apply in_map_iff in Hv as (i & <- & Hi). apply (Nl i Hi). }
    rewrite Ex. cbn [bind].
    assert (Nts : map (fun i => nth i (time_values temporal) 0) idx <> []) by (destruct idx; [congruence|discriminate]).
    destruct (range_margin_spec _ None None (5 / 100) Nts) as (tlo & thi & _ & _ & _ & Et & _). rewrite Et. cbn [bind].
    rewrite !range_margin_values. cbn [bind]. eexists. reflexivity.
  Qed.

  Lemma plot3_ok : valid_choice choice -> forall g0 partial temporal labels a s,
    labelled partial temporal labels -> size_spec a (length partial) s ->
    exists g fig idx, plot3 g0 partial temporal (Some labels) (Some a) None = Ok (g, fig) /\ shows partial temporal (Some labels) idx fig /\
      NoDup idx /\ forall v, In v labels -> (1 <= chosen labels idx v <= label_count labels v)%nat.
  Proof.
    intros HC g0 partial temporal labels a s HP HS. destruct HP as (HN & HL & HT & Hl).
    destruct (sample_with_labels G choice nearest HC (Some seed) g0 (map snd partial) a s labels) as (g & idx & E & ND & Rg & Ch & _); try (rewrite map_length; auto; fail).
    rewrite map_length in Rg.
    assert (Hidx : idx <> []).
    { intros ->. destruct labels as [|v labels]; [cbn in HL; lia|]. specialize (Ch v (or_introl eq_refl)). unfold chosen in Ch. cbn in Ch. lia. }
    destruct (plot3_run g0 partial temporal labels (Some a) None g idx) as (fig & F); auto; [repeat split; auto; apply Hl; auto|].
    destruct (plot3_inv _ _ _ _ _ _ _ _ F) as (idx' & E' & Sh & _). rewrite E in E'. injection E' as <-.
    exists g, fig, idx. auto.
  Qed.
End Plots.
