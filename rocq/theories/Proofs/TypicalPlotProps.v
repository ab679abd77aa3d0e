(** Proofs for C180: the lines of the typical observations. *)
From Coq Require Import Lra Lia Permutation Sorting.Sorted.
From Verif.Model Require Import Base Ext Ale Visualize Plots TypicalPlot.
From Verif.Spec Require Import NeighbourSpec VisualizeSpec PlotSpec TypicalPlotSpec.
From Verif.Proofs Require Import ListFacts CsrFacts AleFacts NeighbourProps VisualizeFacts VisualizeProps PlotProps.
Open Scope string_scope.
Open Scope nat_scope.
Open Scope R_scope.

Lemma Rpower_strict r s p : 0 < r < s -> 0 < p -> Rpower r p < Rpower s p.
Proof. intros Hr Hp. unfold Rpower. apply exp_increasing. apply Rmult_lt_compat_l; auto. apply ln_increasing; lra. Qed.

Lemma style_ratio_strict sg p N c c' : 0 < p -> (1 <= c)%nat -> (c < c')%nat -> (c' <= N)%nat -> style_ratio sg p N c < style_ratio sg p N c'.
Proof.
  intros Hp H1 H2 H3. unfold style_ratio. apply Rpower_strict; auto.
  assert (A1 : 1 <= INR c) by (change 1 with (INR 1); apply le_INR; lia). assert (A2 : INR c < INR c') by (apply lt_INR; lia). assert (A3 : INR c' <= INR N) by (apply le_INR; lia).
  assert (A4 : 0 < / INR N) by (apply Rinv_0_lt_compat; lra). assert (Hr : INR c / INR N < INR c' / INR N) by (unfold Rdiv; apply Rmult_lt_compat_r; lra).
  destruct sg.
  - pose proof (exp_pos (- ((INR c / INR N - 1 / 2) * 10))) as P1. pose proof (exp_pos (- ((INR c' / INR N - 1 / 2) * 10))) as P2.
    assert (P3 : exp (- ((INR c' / INR N - 1 / 2) * 10)) < exp (- ((INR c / INR N - 1 / 2) * 10))) by (apply exp_increasing; lra).
    set (e := exp (- ((INR c / INR N - 1 / 2) * 10))) in *. set (e' := exp (- ((INR c' / INR N - 1 / 2) * 10))) in *.
    unfold Rdiv. rewrite !Rmult_1_l. split; [apply Rinv_0_lt_compat; lra|]. apply Rinv_lt_contravar; [apply Rmult_lt_0_compat|]; lra.
  - split; auto. apply Rmult_lt_0_compat; lra.
Qed.

Lemma label_count_bounds labels v : In v labels -> (1 <= label_count labels v <= length labels)%nat.
Proof. intros H. split; [apply label_count_pos; auto|]. unfold label_count. clear. induction labels as [|a l IH]; simpl; auto. destruct (Reqb a v); simpl; lia. Qed.

Lemma style_strict sg p lo hi labels st i j : 0 < p -> lo < hi -> style_vector sg p lo hi labels = Ok st ->
  (i < length labels)%nat -> (j < length labels)%nat -> (cluster_size labels i < cluster_size labels j)%nat -> nth i st 0 < nth j st 0.
Proof.
  intros Hp Hlh E Hi Hj Hc. unfold style_vector, cluster_size in *. set (values := unique labels) in *.
  assert (Hv : forall v, In v values <-> In v labels) by apply unique_in.
  set (counts := map (fun v => length (members labels v)) values) in *.
  assert (Hin : forall v, In v labels -> In (label_count labels v) counts) by (intros v H; unfold counts; apply in_map_iff; exists v; split; [apply members_length|apply Hv; auto]).
  assert (Hcm : map (style_ratio sg p (length labels)) counts = map (fun v => style_ratio sg p (length labels) (label_count labels v)) values) by (unfold counts; rewrite map_map; apply map_ext; intros; rewrite members_length; auto).
  assert (Ii : In (nth i labels 0) labels) by (apply nth_In; auto). assert (Ij : In (nth j labels 0) labels) by (apply nth_In; auto).
  destruct counts as [|c cs] eqn:Ec; [discriminate|].
  destruct (Nat.eqb_spec (fold_left Nat.max cs c) (fold_left Nat.min cs c)) as [E'|E'].
  { exfalso. pose proof (fold_natmax cs c _ (Hin _ Ij)). pose proof (fold_natmin cs c _ (Hin _ Ii)). lia. }
  rewrite Hcm in E. injection E as <-. rewrite !(nth_map_in _ _ _ 0) by auto.
  rewrite !(lookup_combine _ _ (fun v => style_ratio sg p (length labels) (label_count labels v))) by (apply Hv; auto).
  destruct (label_count_bounds labels _ Ii). destruct (label_count_bounds labels _ Ij).
  pose proof (style_ratio_strict sg p (length labels) _ _ Hp H Hc H2). nra.
Qed.

Section Typical.
  Variable cmap : ext -> list R.

  Lemma one_feature sg p alpha width lines labels embedding idx :
    labels <> [] -> 0 <= p -> fst alpha <= snd alpha -> fst width <= snd width ->
    length lines = length labels -> length embedding = length labels ->
    choose_cluster_typical embedding labels = Ok idx ->
    exists drawn, typical_lines cmap sg p alpha width lines labels idx = Ok drawn /\
      exists values, distinct_values labels values /\ Forall2 (line_of_cluster lines embedding labels) values drawn /\
      (forall s, In s drawn -> fst alpha <= sl_opacity s <= snd alpha /\ fst width <= sl_width s <= snd width) /\
      stronger_when_larger labels sl_opacity drawn /\ stronger_when_larger labels sl_width drawn /\
      (0 < p -> fst alpha < snd alpha -> strictly_stronger_when_larger labels sl_opacity drawn) /\
      (0 < p -> fst width < snd width -> strictly_stronger_when_larger labels sl_width drawn) /\
      ((exists a b, In a labels /\ In b labels /\ a <> b) -> exists lo hi, In lo labels /\ In hi labels /\ lo < hi /\ (forall x, In x labels -> lo <= x <= hi) /\
         forall s, In s drawn -> sl_colour s = cmap (Fin ((sl_cluster s - lo) / (hi - lo)))) /\
      ((forall a b, In a labels -> In b labels -> a = b) -> length drawn = 1%nat /\
         forall s, In s drawn -> sl_colour s = cmap NaN /\ sl_opacity s = snd alpha /\ sl_width s = snd width).
  Proof.
    intros Hne Hp Ha Hw HL HE Hidx. destruct (typical_medoid embedding labels HE) as (values & idx' & E & HD & HM).
    rewrite Hidx in E. injection E as <-.
    assert (Hb : forall i, In i idx -> (i < length labels)%nat).
    { intros i Hi. clear - HM Hi. induction HM as [|v k vs ks H _ IH]; [destruct Hi|]. destruct Hi as [<-|Hi]; [apply H|auto]. }
    assert (Hcs : map (fun i => nth i labels 0) idx = values).
    { clear - HM. induction HM as [|v k vs ks H _ IH]; simpl; auto. f_equal; auto. apply H. }
    assert (Hlen : length idx = length values) by (rewrite <- Hcs; symmetry; apply map_length).
    destruct (style_spec sg p (fst alpha) (snd alpha) labels Hne Hp Ha) as (als & Ea & La & Ba & Ma & Ta).
    destruct (style_spec sg p (fst width) (snd width) labels Hne Hp Hw) as (wis & Ew & Lw & Bw & Mw & Tw).
    assert (Hvne : values <> []).
    { intros ->. destruct labels as [|l0 ls]; [congruence|]. apply (proj2 (proj2 HD l0)). left; auto. }
    destruct (vmin_spec values Hvne) as (lo & E1 & I1 & B1). destruct (vmax_spec values Hvne) as (hi & E2 & I2 & B2).
    set (col := fun x => ediv (Fin (x - lo)) (Fin (hi - lo))).
    assert (Edrawn : typical_lines cmap sg p alpha width lines labels idx = Ok (map (fun i => StyledLine (nth i lines ([], [])) (nth i labels 0) (cmap (col (nth i labels 0))) (nth i als 0) (nth i wis 0)) idx)).
    { unfold typical_lines. rewrite Ea, Ew. cbn [bind].
      rewrite (take_ok (A:=line) ([], []) lines idx) by (rewrite HL; auto). cbn [bind]. rewrite (take_ok 0 labels idx) by auto. cbn [bind].
      rewrite (take_ok 0 als idx) by (rewrite La; auto). cbn [bind]. rewrite (take_ok 0 wis idx) by (rewrite Lw; auto). cbn [bind].
      rewrite Hcs. unfold vector_normed. rewrite E1, E2. cbn [bind]. f_equal.
      apply (list_eq_nth (StyledLine ([], []) 0 [] 0 0)); [rewrite tabulate_length, !map_length; auto|].
      rewrite tabulate_length, map_length. intros k Hk. rewrite tabulate_nth by auto.
      rewrite (nth_map_in _ idx k 0%nat) by auto. rewrite (nth_map_in _ values k 0) by (rewrite <- Hlen; auto). fold col.
      rewrite <- Hcs. do 4 (rewrite (nth_map_in _ idx k 0%nat) by auto). reflexivity. }
    eexists. split; [exact Edrawn|]. set (mk := fun i => StyledLine _ _ _ _ _). exists values. split; [exact HD|].
    assert (Hs : forall s, In s (map mk idx) -> exists i, In i idx /\ (i < length labels)%nat /\ s = mk i) by (intros s H; apply in_map_iff in H as (i & <- & Hi); exists i; auto).
    assert (Hsz : forall i, sl_cluster (mk i) = nth i labels 0) by reflexivity.
    split; [|split; [|split; [|split; [|split; [|split; [|split]]]]]].
    - subst mk. clear - HM. induction HM as [|v k vs ks H _ IH]; simpl; constructor; auto. destruct H as (A & B & C). split; [exact B|]. exists k. split; [repeat split; auto|]; try apply C; auto.
    - intros s H. destruct (Hs s H) as (i & _ & Hi & ->). cbn. auto.
    - intros s t H H'. destruct (Hs s H) as (i & _ & Hi & ->). destruct (Hs t H') as (j & _ & Hj & ->). cbn. intros Hc. apply Ma; auto.
    - intros s t H H'. destruct (Hs s H) as (i & _ & Hi & ->). destruct (Hs t H') as (j & _ & Hj & ->). cbn. intros Hc. apply Mw; auto.
    - intros Hp' Hl s t H H'. destruct (Hs s H) as (i & _ & Hi & ->). destruct (Hs t H') as (j & _ & Hj & ->). cbn. intros Hc. eapply style_strict; eauto.
    - intros Hp' Hl s t H H'. destruct (Hs s H) as (i & _ & Hi & ->). destruct (Hs t H') as (j & _ & Hj & ->). cbn. intros Hc. eapply style_strict; eauto.
    - intros (a & b & HIa & HIb & Hab). exists lo, hi. split; [apply (proj2 HD); auto|]. split; [apply (proj2 HD); auto|].
      assert (Hlh : lo < hi). { pose proof (B1 a (proj2 (proj2 HD a) HIa)). pose proof (B1 b (proj2 (proj2 HD b) HIb)). pose proof (B2 a (proj2 (proj2 HD a) HIa)). pose proof (B2 b (proj2 (proj2 HD b) HIb)). lra. }
      split; [exact Hlh|]. split; [intros x Hx; apply (proj2 HD) in Hx; split; [apply B1|apply B2]; auto|].
      intros s H. destruct (Hs s H) as (i & _ & Hi & ->). cbn. f_equal. unfold col. simpl. destruct (Req_EM_T (hi - lo) 0); [lra|reflexivity].
    - intros Hall. split.
      + rewrite map_length, Hlen. destruct HD as [HS HI]. destruct values as [|v [|w vs]]; [congruence|reflexivity|].
        exfalso. inversion HS as [|? ? _ HF]; subst. inversion HF; subst. assert (v = w) by (apply Hall; apply HI; simpl; auto). lra.
      + intros s H. destruct (Hs s H) as (i & _ & Hi & ->). cbn.
        assert (Hlh : lo = hi) by (apply Hall; apply (proj2 HD); auto).
        assert (Hx : nth i labels 0 = lo) by (apply Hall; [apply nth_In; auto|apply (proj2 HD); auto]).
        split; [|split].
        * f_equal. unfold col. rewrite Hx, Hlh. rewrite !Rminus_eq_0. simpl. destruct (Req_EM_T 0 0); [|congruence]. destruct (Rlt_dec 0 0); [lra|reflexivity].
        * apply Ta; auto. intros a b HIa HIb. unfold cluster_size. f_equal. apply Hall; apply nth_In; auto.
        * apply Tw; auto. intros a b HIa HIb. unfold cluster_size. f_equal. apply Hall; apply nth_In; auto.
  Qed.
  Lemma for_feature_given {A} (a : per_feature A) f x : given a f x -> for_feature a f = Ok x.
  Proof. destruct a as [y|l]; simpl; [intros ->; reflexivity|]. unfold getitem. intros ->. reflexivity. Qed.

  Definition alpha_of (r : option (R * R)) := match r with Some r => r | None => (1 / 10, 1) end.
  Definition width_of (r : option (R * R)) := match r with Some r => r | None => (1 / 2, 3) end.

  Lemma whole_figure partials labels typical alpha width sg p ls es :
    partials <> [] -> 0 <= p -> proper alpha -> proper width -> typical_of partials labels typical ls es ->
    exists fig, partial_plot_2d cmap partials labels typical alpha width sg p = Ok fig /\ length fig = length partials /\
      forall f, (f < length partials)%nat -> exists t, choose_cluster_typical (es f) (ls f) = Ok t /\
        typical_lines cmap sg p (alpha_of alpha) (width_of width) (nth f partials []) (ls f) t = Ok (nth f fig []).
  Proof.
    intros Hne Hp Ha Hw HT.
    assert (Ha' : fst (alpha_of alpha) <= snd (alpha_of alpha)) by (destruct alpha as [[? ?]|]; simpl in *; lra).
    assert (Hw' : fst (width_of width) <= snd (width_of width)) by (destruct width as [[? ?]|]; simpl in *; lra).
    assert (Hall : forall f, (f < length partials)%nat -> exists t d, choose_cluster_typical (es f) (ls f) = Ok t /\
      typical_lines cmap sg p (alpha_of alpha) (width_of width) (nth f partials []) (ls f) t = Ok d /\
      (l <- for_feature labels f ;; t <- for_feature typical f ;; p0 <- getitem partials f ;; typical_lines cmap sg p (alpha_of alpha) (width_of width) p0 l t) = Ok d).
    { intros f Hf. destruct (HT f Hf) as (A & B & C & D & t & E & F).
      destruct (one_feature sg p (alpha_of alpha) (width_of width) (nth f partials []) (ls f) (es f) t A Hp Ha' Hw' B C F) as (d & Ed & _).
      exists t, d. split; [exact F|]. split; [exact Ed|]. rewrite (for_feature_given _ _ _ D). cbn [bind]. rewrite (for_feature_given _ _ _ E). cbn [bind].
      rewrite (getitem_lt [] partials f) by auto. cbn [bind]. exact Ed. }
    assert (HM : exists fig, mapM (fun f => l <- for_feature labels f ;; t <- for_feature typical f ;; p0 <- getitem partials f ;; typical_lines cmap sg p (alpha_of alpha) (width_of width) p0 l t) (seq 0 (length partials)) = Ok fig).
    { assert (HI : forall f, In f (seq 0 (length partials)) -> exists d, (l <- for_feature labels f ;; t <- for_feature typical f ;; p0 <- getitem partials f ;; typical_lines cmap sg p (alpha_of alpha) (width_of width) p0 l t) = Ok d).
      { intros f Hf. apply in_seq in Hf. destruct (Hall f) as (t & d & _ & _ & E); [lia|]. eauto. }
      revert HI. generalize (seq 0 (length partials)). induction l as [|f l IH]; intros HI; [exists []; reflexivity|].
      destruct (HI f (or_introl eq_refl)) as (d & Ed). destruct IH as (fig & Ef); [intros; apply HI; right; auto|]. exists (d :: fig). cbn [mapM]. rewrite Ed. cbn [bind]. rewrite Ef. reflexivity. }
    destruct HM as (fig & HM). exists fig. split.
    - unfold partial_plot_2d. fold (alpha_of alpha). fold (width_of width). destruct partials; [congruence|]. exact HM.
    - assert (L := mapM_len _ _ _ HM). rewrite seq_length in L. split; [exact L|]. intros f Hf.
      assert (E := mapM_nth _ _ _ f 0%nat [] HM ltac:(rewrite seq_length; auto)). rewrite seq_nth in E by auto. cbn [Nat.add] in E.
      destruct (Hall f Hf) as (t & d & A & B & C). exists t. split; [exact A|]. rewrite B. rewrite <- C. exact E.
  Qed.

  Lemma shown_lines partials labels typical alpha width sg p ls es :
    partials <> [] -> 0 <= p -> proper alpha -> proper width -> typical_of partials labels typical ls es ->
    exists fig, partial_plot_2d cmap partials labels typical alpha width sg p = Ok fig /\ length fig = length partials /\
      forall f, (f < length partials)%nat ->
        (exists values, distinct_values (ls f) values /\ Forall2 (line_of_cluster (nth f partials []) (es f) (ls f)) values (nth f fig [])) /\
        (forall s, In s (nth f fig []) ->
           lowest (1 / 10, 1) alpha <= sl_opacity s <= highest (1 / 10, 1) alpha /\ lowest (1 / 2, 3) width <= sl_width s <= highest (1 / 2, 3) width) /\
        stronger_when_larger (ls f) sl_opacity (nth f fig []) /\ stronger_when_larger (ls f) sl_width (nth f fig []) /\
        (0 < p -> lowest (1 / 10, 1) alpha < highest (1 / 10, 1) alpha -> strictly_stronger_when_larger (ls f) sl_opacity (nth f fig [])) /\
        (0 < p -> lowest (1 / 2, 3) width < highest (1 / 2, 3) width -> strictly_stronger_when_larger (ls f) sl_width (nth f fig [])).
  Proof.
    intros Hne Hp Ha Hw HT. destruct (whole_figure _ _ _ alpha width sg p _ _ Hne Hp Ha Hw HT) as (fig & E & L & HF). exists fig. split; [exact E|]. split; [exact L|].
    intros f Hf. destruct (HF f Hf) as (t & Et & El). destruct (HT f Hf) as (A & B & C & _).
    assert (Ha' : fst (alpha_of alpha) <= snd (alpha_of alpha)) by (destruct alpha as [[? ?]|]; simpl in *; lra).
    assert (Hw' : fst (width_of width) <= snd (width_of width)) by (destruct width as [[? ?]|]; simpl in *; lra).
    assert (A1 : lowest (1 / 10, 1) alpha = fst (alpha_of alpha) /\ highest (1 / 10, 1) alpha = snd (alpha_of alpha)) by (destruct alpha as [[? ?]|]; auto).
    assert (A2 : lowest (1 / 2, 3) width = fst (width_of width) /\ highest (1 / 2, 3) width = snd (width_of width)) by (destruct width as [[? ?]|]; auto).
    destruct A1 as [-> ->]. destruct A2 as [-> ->].
    destruct (one_feature sg p (alpha_of alpha) (width_of width) (nth f partials []) (ls f) (es f) t A Hp Ha' Hw' B C Et) as (d & Ed & values & V1 & V2 & V3 & V4 & V5 & V6 & V7 & _).
    rewrite El in Ed. injection Ed as <-. split; [exists values; auto|]. auto.
  Qed.

  Lemma colours partials labels typical alpha width sg p ls es fig :
    partials <> [] -> 0 <= p -> proper alpha -> proper width -> typical_of partials labels typical ls es ->
    partial_plot_2d cmap partials labels typical alpha width sg p = Ok fig ->
    forall f, (f < length partials)%nat ->
      ((exists a b, In a (ls f) /\ In b (ls f) /\ a <> b) -> exists lo hi, In lo (ls f) /\ In hi (ls f) /\ lo < hi /\ (forall x, In x (ls f) -> lo <= x <= hi) /\
         forall s, In s (nth f fig []) -> sl_colour s = cmap (Fin ((sl_cluster s - lo) / (hi - lo)))) /\
      ((forall a b, In a (ls f) -> In b (ls f) -> a = b) -> length (nth f fig []) = 1%nat /\
         forall s, In s (nth f fig []) -> sl_colour s = cmap NaN /\ sl_opacity s = highest (1 / 10, 1) alpha /\ sl_width s = highest (1 / 2, 3) width).
  Proof.
    intros Hne Hp Ha Hw HT E f Hf. destruct (whole_figure _ _ _ alpha width sg p _ _ Hne Hp Ha Hw HT) as (fig' & E' & L & HF).
    rewrite E in E'. injection E' as <-. destruct (HF f Hf) as (t & Et & El). destruct (HT f Hf) as (A & B & C & _).
    assert (Ha' : fst (alpha_of alpha) <= snd (alpha_of alpha)) by (destruct alpha as [[? ?]|]; simpl in *; lra).
    assert (Hw' : fst (width_of width) <= snd (width_of width)) by (destruct width as [[? ?]|]; simpl in *; lra).
    assert (A1 : highest (1 / 10, 1) alpha = snd (alpha_of alpha)) by (destruct alpha as [[? ?]|]; auto).
    assert (A2 : highest (1 / 2, 3) width = snd (width_of width)) by (destruct width as [[? ?]|]; auto).
    rewrite A1, A2.
    destruct (one_feature sg p (alpha_of alpha) (width_of width) (nth f partials []) (ls f) (es f) t A Hp Ha' Hw' B C Et) as (d & Ed & values & V1 & V2 & V3 & V4 & V5 & V6 & V7 & V8 & V9).
    rewrite El in Ed. injection Ed as <-. split; auto.
  Qed.

  (** One set of labels for all features: a cluster has one colour. *)
  Lemma one_colour partials l typical alpha width sg p es fig :
    partials <> [] -> 0 <= p -> proper alpha -> proper width -> typical_of partials (Merged l) typical (fun _ => l) es ->
    partial_plot_2d cmap partials (Merged l) typical alpha width sg p = Ok fig ->
    forall f f' s s', (f < length partials)%nat -> (f' < length partials)%nat -> In s (nth f fig []) -> In s' (nth f' fig []) ->
      sl_cluster s = sl_cluster s' -> sl_colour s = sl_colour s' /\ sl_opacity s = sl_opacity s' /\ sl_width s = sl_width s'.
  Proof.
    intros Hne Hp Ha Hw HT E f f' s s' Hf Hf' Hs Hs' Hc.
    destruct (whole_figure _ _ _ alpha width sg p _ _ Hne Hp Ha Hw HT) as (fig' & E' & L & HF). rewrite E in E'. injection E' as <-.
    destruct (HF f Hf) as (t & Et & El). destruct (HF f' Hf') as (t' & Et' & El').
    assert (Gen : forall g tg sg' , (g < length partials)%nat -> choose_cluster_typical (es g) l = Ok tg ->
      typical_lines cmap sg p (alpha_of alpha) (width_of width) (nth g partials []) l tg = Ok (nth g fig []) -> In sg' (nth g fig []) ->
      exists i, (i < length l)%nat /\ sl_cluster sg' = nth i l 0 /\ (forall als, style_vector sg p (fst (alpha_of alpha)) (snd (alpha_of alpha)) l = Ok als -> sl_opacity sg' = nth i als 0) /\
        (forall wis, style_vector sg p (fst (width_of width)) (snd (width_of width)) l = Ok wis -> sl_width sg' = nth i wis 0)).
    { intros g tg sg' Hg Eg Elg HIn. unfold typical_lines in Elg. inv_bind Elg. inv_bind Elg. inv_bind Elg. inv_bind Elg. inv_bind Elg. inv_bind Elg. inv_bind Elg.
      injection Elg as Elg. rewrite <- Elg in HIn. apply in_tabulate in HIn as (k & Hk & <-). cbn.
      destruct (take_inv (A:=line) ([], []) _ _ _ H1) as [L1 _]. rewrite L1 in Hk.
      destruct (take_inv 0 _ _ _ H2) as [_ T2]. destruct (take_inv 0 _ _ _ H3) as [_ T3]. destruct (take_inv 0 _ _ _ H4) as [_ T4].
      exists (nth k tg 0%nat). split; [apply (T2 k Hk)|]. split; [apply (T2 k Hk)|]. split; intros ? Eq.
      - rewrite H in Eq. injection Eq as <-. apply (T3 k Hk).
      - rewrite H0 in Eq. injection Eq as <-. apply (T4 k Hk). }
    assert (Hne' : l <> []) by apply (HT f Hf).
    assert (Ha' : fst (alpha_of alpha) <= snd (alpha_of alpha)) by (destruct alpha as [[? ?]|]; simpl in *; lra).
    assert (Hw' : fst (width_of width) <= snd (width_of width)) by (destruct width as [[? ?]|]; simpl in *; lra).
    destruct (style_spec sg p _ _ l Hne' Hp Ha') as (als & Ea & La & Ba & Ma & Ta).
    destruct (style_spec sg p _ _ l Hne' Hp Hw') as (wis & Ew & Lw & Bw & Mw & Tw).
    destruct (Gen f t s Hf Et El Hs) as (i & Hi & Ci & Oi & Wi). destruct (Gen f' t' s' Hf' Et' El' Hs') as (j & Hj & Cj & Oj & Wj).
    rewrite (Oi _ Ea), (Oj _ Ea), (Wi _ Ew), (Wj _ Ew).
    assert (Hsz : cluster_size l i = cluster_size l j) by (unfold cluster_size; rewrite <- Ci, <- Cj, Hc; auto).
    split; [|split; apply Rle_antisym; (apply Ma || apply Mw); auto; lia].
    destruct (colours _ _ _ alpha width sg p _ _ fig Hne Hp Ha Hw HT E f Hf) as [P1 P2]. destruct (colours _ _ _ alpha width sg p _ _ fig Hne Hp Ha Hw HT E f' Hf') as [P1' P2'].
    destruct (Classical_Prop.classic (exists a b, In a l /\ In b l /\ a <> b)) as [D|D].
    - destruct (P1 D) as (lo & hi & I1 & I2 & I3 & I4 & I5). destruct (P1' D) as (lo' & hi' & J1 & J2 & J3 & J4 & J5).
      rewrite (I5 s Hs), (J5 s' Hs'), Hc. pose proof (I4 lo' J1). pose proof (I4 hi' J2). pose proof (J4 lo I1). pose proof (J4 hi I2).
      assert (lo = lo') by lra. assert (hi = hi') by lra. subst. reflexivity.
    - assert (D' : forall a b, In a l -> In b l -> a = b).
      { intros a b HIa HIb. destruct (Req_dec a b); auto. exfalso. apply D. exists a, b. auto. }
      destruct (P2 D') as [_ Q]. destruct (P2' D') as [_ Q']. destruct (Q s Hs) as [-> _]. destruct (Q' s' Hs') as [-> _]. reflexivity.
  Qed.

  (** Every label present is drawn, that of noise too. *)
  Lemma every_label_drawn partials labels typical alpha width sg p ls es fig :
    partials <> [] -> 0 <= p -> proper alpha -> proper width -> typical_of partials labels typical ls es ->
    partial_plot_2d cmap partials labels typical alpha width sg p = Ok fig ->
    forall f v, (f < length partials)%nat -> In v (ls f) -> exists s, In s (nth f fig []) /\ sl_cluster s = v.
  Proof.
    intros Hne Hp Ha Hw HT E f v Hf Hv. destruct (shown_lines _ _ _ alpha width sg p _ _ Hne Hp Ha Hw HT) as (fig' & E' & L & HF).
    rewrite E in E'. injection E' as <-. destruct (HF f Hf) as ((values & HD & H2) & _). apply (proj2 HD) in Hv. clear - Hv H2.
    induction H2 as [|a s vs ss H _ IH]; [destruct Hv|]. destruct Hv as [->|Hv]; [exists s; split; [left; auto|apply H]|]. destruct (IH Hv) as (s' & I & C). exists s'. split; [right; auto|auto].
  Qed.
End Typical.
