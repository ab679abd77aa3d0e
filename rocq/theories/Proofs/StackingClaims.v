(** Consequences of [sfit_stacked] and the failure behaviour of stacking. *)
From Coq Require Import Lra Sorting.Sorted.
From Verif.Model Require Import Base Ext Csr Neighbour Distance WeightModel NumbaImpl Stacking.
From Verif.Spec Require Import KernelSpec NeighbourSpec StackingSpec.
From Verif.Proofs Require Import ListFacts KernelFacts CsrFacts ShrinkFacts NeighbourFacts SampleFacts WeightModelFacts
  NeighbourProps WeightModelProps StackingCsr StackingFacts StackingMeta StackingProps.
Open Scope nat_scope.
Open Scope R_scope.

Lemma Forall2_fun {A B} (P : A -> B -> Prop) l l1 l2 : (forall a b b', P a b -> P a b' -> b = b') ->
  Forall2 P l l1 -> Forall2 P l l2 -> l1 = l2.
Proof. intros H H1. revert l2. induction H1; intros l2 H2; inversion H2; subst; f_equal; eauto. Qed.

Lemma used_all c w n L i : all_bases_used c w -> used_bases c w n L i = meta_bases n L i.
Proof.
  unfold used_bases. intros [H|[m ->]]; [rewrite H; reflexivity|]. destruct (sc_estimator_rate c); reflexivity.
Qed.

Section Claims.
  Context {est meta : Type}.
  Variable fit_est : nat -> matrix R -> list R -> list R -> result est.
  Variable predict_est : est -> matrix R -> result (list R).
  Variable fit_meta : R -> nat -> matrix R -> list R -> list R -> result meta.
  Variable predict_meta : meta -> matrix R -> result (list R).
  Variable solve : matrix R -> list R -> result (list R).

  Notation stacked := (stacked fit_est predict_est fit_meta predict_meta solve).

  Lemma meta_fitted_fun numba alpha nc XT yT wT x m p m' p' :
    meta_fitted fit_meta predict_meta solve numba alpha nc XT yT wT x m p ->
    meta_fitted fit_meta predict_meta solve numba alpha nc XT yT wT x m' p' -> m = m' /\ p = p'.
  Proof.
    unfold meta_fitted. destruct numba.
    - intros (co & b & H1 & -> & ->) (co' & b' & H1' & -> & ->). rewrite H1 in H1'. injection H1' as <- <-. auto.
    - intros (mm & H1 & -> & H2) (mm' & H1' & -> & H2'). rewrite H1 in H1'. injection H1' as <-. rewrite H2 in H2'. split; congruence.
  Qed.

  (** The base learners do not depend on how the weights are stored. *)
  Lemma stacked_bases_fun garbage garbage' c c' w w' X y n W L W' es ps0 qs ps ses es' ps0' qs' ps' ses' :
    stacked garbage c w X y n W L W' es ps0 qs ps ses ->
    stacked garbage' c' w' X y n W L W' es' ps0' qs' ps' ses' ->
    es = es' /\ ps0 = ps0' /\ forall j, (j < n)%nat -> nth j qs [] = nth j qs' [].
  Proof.
    intros [(A1 & A2 & A3 & A4) A5 _] [(B1 & B2 & B3 & B4) B5 _].
    assert (E : es = es').
    { assert (H : forall j, nth_error es j = nth_error es' j).
      { intros j. destruct (nth_error es j) as [e|] eqn:Ee, (nth_error es' j) as [e'|] eqn:Ee'; auto.
        - destruct (A5 j e Ee) as [H1 _], (B5 j e' Ee') as [H2 _]. unfold base_learner in *. cbv zeta in *. congruence.
        - apply nth_error_None in Ee'. assert (j < length es)%nat by (apply nth_error_Some; congruence). lia.
        - apply nth_error_None in Ee. assert (j < length es')%nat by (apply nth_error_Some; congruence). lia. }
      clear -H. revert es' H. induction es as [|a es IH]; intros [|b es'] H; auto; [specialize (H 0%nat); discriminate|specialize (H 0%nat); discriminate|].
      f_equal; [specialize (H 0%nat); cbn in H; congruence|]. apply IH. intros j. exact (H (S j)). }
    subst es'. split; [reflexivity|]. split.
    - apply (list_eq_nth 0); [lia|]. intros j Hj. destruct (nth_error es j) as [e|] eqn:Ee; [|apply nth_error_None in Ee; lia].
      destruct (A5 j e Ee) as (_ & H1 & _), (B5 j e Ee) as (_ & H2 & _). congruence.
    - intros j Hj. destruct (nth_error es j) as [e|] eqn:Ee; [|apply nth_error_None in Ee; lia].
      destruct (A5 j e Ee) as (_ & _ & H1), (B5 j e Ee) as (_ & _ & H2). congruence.
  Qed.

  (** C49: a change of y at [i] does not reach the stacked prediction of [i]. *)
  Lemma stacked_no_leak garbage c w X y y' n W L W' es ps0 qs ps ses es' ps0' qs' ps' ses' i :
    stacked garbage c w X y n W L W' es ps0 qs ps ses ->
    stacked garbage c w X y' n W L W' es' ps0' qs' ps' ses' ->
    (forall k, k <> i -> nth k y 0 = nth k y' 0) -> all_bases_used c w -> (i < n)%nat ->
    nth i ps 0 = nth i ps' 0.
  Proof.
    intros [(A1 & A2 & A3 & A4) A5 A6] [(B1 & B2 & B3 & B4) B5 B6] Hy Hall Hi.
    destruct (A6 i Hi) as (m & bases & H1 & H2 & H3). destruct (B6 i Hi) as (m' & bases' & H1' & H2' & H3'). cbv zeta in *.
    rewrite used_all in * by auto. set (C := meta_bases n L i) in *. set (T := meta_points n W' i) in *.
    assert (HC : forall j, In j C -> (j < n)%nat /\ mget false L i j = true) by (intros j Hj; apply meta_bases_in; auto).
    assert (Hq : forall j, In j C -> nth j qs [] = nth j qs' []).
    { intros j Hj. destruct (HC j Hj) as [Hlt HL].
      destruct (nth_error es j) as [e|] eqn:Ee; [|apply nth_error_None in Ee; lia].
      destruct (nth_error es' j) as [e'|] eqn:Ee'; [|apply nth_error_None in Ee'; lia].
      destruct (A5 j e Ee) as (P1 & _ & P3), (B5 j e' Ee') as (Q1 & _ & Q3). unfold base_learner in *. cbv zeta in *.
      assert (Et : map (fun k => nth k y 0) (base_training n W L j) = map (fun k => nth k y' 0) (base_training n W L j)).
      { apply map_ext_in. intros k Hk. apply Hy. intros ->. unfold base_training in Hk. apply filter_In in Hk. destruct Hk as [_ Hk].
        rewrite HL in Hk. cbn in Hk. rewrite andb_false_r in Hk. discriminate. }
      rewrite Et in P1. assert (e = e') by congruence. subst e'. congruence. }
    assert (Et : map (fun k => nth k y 0) T = map (fun k => nth k y' 0) T).
    { apply map_ext_in. intros k Hk. apply Hy. apply meta_points_in in Hk. tauto. }
    assert (EX : map (fun k => map (fun j => lookup (evaluated n W' L j) (nth j qs []) k) C) T =
                 map (fun k => map (fun j => lookup (evaluated n W' L j) (nth j qs' []) k) C) T).
    { apply map_ext. intros k. apply map_ext_in. intros j Hj. rewrite Hq by auto. reflexivity. }
    rewrite Et, EX in H3.
    assert (Ei : map (fun j => if sc_use_numba c && negb (existsb (Nat.eqb i) (evaluated n W' L j)) then last (nth j qs []) garbage
                        else lookup (evaluated n W' L j) (nth j qs []) i) C =
                 map (fun j => if sc_use_numba c && negb (existsb (Nat.eqb i) (evaluated n W' L j)) then last (nth j qs' []) garbage
                        else lookup (evaluated n W' L j) (nth j qs' []) i) C).
    { apply map_ext_in. intros j Hj. rewrite Hq by auto. reflexivity. }
    rewrite Ei in H3. exact (proj2 (meta_fitted_fun _ _ _ _ _ _ _ _ _ _ _ H3 H3')).
  Qed.

  (** C50: with rowwise predictions the design is made of base predictions. *)
  Lemma rowwise_lookup f X e q idx k : rowwise predict_est f -> In k idx ->
    predict_est e (map (fun k => nth k X []) idx) = Ok q -> lookup idx q k = f e (nth k X []).
  Proof.
    intros Hf Hk H. apply Hf in H. rewrite H, map_map. rewrite (lookup_map idx (fun k => f e (nth k X []))) by auto. reflexivity.
  Qed.

  Lemma Forall2_map_eq {A B C} (P : A -> B -> Prop) (f : A -> C) (g : B -> C) l l' : Forall2 P l l' ->
    (forall a b, In a l -> P a b -> f a = g b) -> map f l = map g l'.
  Proof.
    induction 1; intros Hf; [reflexivity|]. cbn [map]. f_equal; [apply Hf; [left; auto|auto]|]. apply IHForall2. intros; apply Hf; [right|]; auto.
  Qed.

  Lemma stacked_entries f garbage c w X y n W L W' es ps0 qs ps ses i :
    rowwise predict_est f -> stacked garbage c w X y n W L W' es ps0 qs ps ses -> all_bases_used c w -> (i < n)%nat ->
    mget false L i i = true -> 0 < mget 0 W' i i ->
    exists m bases,
      let T := meta_points n W' i in
      nth_error ses i = Some (StackingEstimator est meta m bases) /\
      Forall2 (fun j e => nth_error es j = Some e) (meta_bases n L i) bases /\
      meta_fitted fit_meta predict_meta solve (sc_use_numba c) (sc_alpha c) (length bases)
        (map (fun k => map (fun e => f e (nth k X [])) bases) T) (map (fun k => nth k y 0) T) (map (mget 0 W' i) T)
        (map (fun e => f e (nth i X [])) bases) m (nth i ps 0).
  Proof.
    intros Hf [(A1 & A2 & A3 & A4) A5 A6] Hall Hi Hd Hp.
    destruct (A6 i Hi) as (m & bases & H1 & H2 & H3). cbv zeta in *. rewrite used_all in * by auto.
    exists m, bases. split; [exact H1|]. split; [exact H2|].
    rewrite <- (Forall2_len _ _ _ H2).
    assert (E1 : map (fun k => map (fun j => lookup (evaluated n W' L j) (nth j qs []) k) (meta_bases n L i)) (meta_points n W' i) =
                 map (fun k => map (fun e => f e (nth k X [])) bases) (meta_points n W' i)).
    { apply map_ext_in. intros k Hk. apply (Forall2_map_eq _ _ _ _ _ H2). intros j e Hj He.
      destruct (A5 j e He) as (_ & _ & H). apply (rowwise_lookup f X e); auto. apply (meta_points_evaluated n W' L i j k); auto. }
    assert (E2 : map (fun j => if sc_use_numba c && negb (existsb (Nat.eqb i) (evaluated n W' L j)) then last (nth j qs []) garbage
                        else lookup (evaluated n W' L j) (nth j qs []) i) (meta_bases n L i) =
                 map (fun e => f e (nth i X [])) bases).
    { apply (Forall2_map_eq _ _ _ _ _ H2). intros j e Hj He. destruct (A5 j e He) as (_ & _ & H).
      assert (Hin : In i (evaluated n W' L j)) by (apply meta_bases_in in Hj; apply (evaluated_in n W' L i j i); tauto).
      rewrite (proj2 (existsb_in _ _) Hin). cbn. rewrite andb_false_r. apply (rowwise_lookup f X e); auto. }
    rewrite E1, E2 in H3. exact H3.
  Qed.

  (** An input for which no prediction was computed is 0. *)
  Lemma evaluated_none n W' L j i : (i < n)%nat ->
    (forall i', (i' < n)%nat -> mget false L i' j = true -> ~ 0 < mget 0 W' i' i) -> ~ In i (evaluated n W' L j).
  Proof.
    intros Hi H Hin. apply filter_In in Hin. destruct Hin as [_ Hin]. apply existsb_exists in Hin. destruct Hin as (i' & Hi' & Hb).
    apply in_seq in Hi'. apply andb_prop in Hb. destruct Hb as [H1 H2]. apply Rltb_true in H2. apply (H i'); auto; lia.
  Qed.

  (** C54 *)
  Lemma stacked_replay f garbage c w X y n W L W' es ps0 qs ps ses i :
    (forall e X, predict_est e X = Ok (map (f e) X)) ->
    stacked garbage c w X y n W L W' es ps0 qs ps ses -> all_bases_used c w -> (i < n)%nat ->
    mget false L i i = true -> 0 < mget 0 W' i i ->
    exists se, nth_error ses i = Some se /\
      predict_stacking est predict_est meta predict_meta se [nth i X []] = Ok [Fin (nth i ps 0)].
  Proof.
    intros Hf Hst Hall Hi Hd Hp.
    assert (Hf' : rowwise predict_est f) by (intros e X' p H; rewrite Hf in H; congruence).
    destruct (stacked_entries f _ _ _ _ _ _ _ _ _ _ _ _ _ _ i Hf' Hst Hall Hi Hd Hp) as (m & bases & H1 & H2 & H3). cbv zeta in H3.
    exists (StackingEstimator est meta m bases). split; [exact H1|]. unfold predict_stacking. cbn [se_meta se_bases].
    assert (E : mapM (fun e => predict_est e [nth i X []]) bases = Ok (map (fun e => [f e (nth i X [])]) bases)).
    { apply mapM_all_ok. intros e _. rewrite Hf. reflexivity. }
    rewrite E. cbn [bind].
    assert (Hb : bases <> []).
    { intros ->. inversion H2 as [Hn|]. assert (Hin : In i (meta_bases n L i)) by (apply meta_bases_in; auto). rewrite <- Hn in Hin. destruct Hin. }
    destruct bases as [|b0 bs] eqn:Eb; [congruence|]. rewrite <- Eb in *.
    assert (Hnc : ncols (map (fun e => [f e (nth i X [])]) bases) = 1%nat) by (rewrite Eb; reflexivity).
    rewrite Hnc.
    assert (Ef : forallb (fun c => (length c =? 1)%nat) (map (fun e => [f e (nth i X [])]) bases) = true).
    { apply forallb_forall. intros x Hx. apply in_map_iff in Hx. destruct Hx as (e & <- & _). reflexivity. }
    rewrite Ef. rewrite map_length. destruct (Nat.eqb_spec (length bases) 0) as [H0|_]; [rewrite Eb in H0; discriminate|]. cbn [orb negb].
    assert (Et : transpose 0 1 (map (fun e => [f e (nth i X [])]) bases) = [map (fun e => f e (nth i X [])) bases]).
    { unfold transpose, tabulate. cbn [seq map]. rewrite map_map. reflexivity. }
    rewrite Et. unfold meta_fitted in H3. destruct (sc_use_numba c).
    - destruct H3 as (coef & b & _ & -> & Hpp). cbn [predict_model map eadd]. rewrite Hpp. reflexivity.
    - destruct H3 as (mm & _ & -> & Hpp). cbn [predict_model]. rewrite Hpp. reflexivity.
  Qed.

  Context {G : Type}.
  Variable seed0 : G.
  Variable choice : G -> list nat -> nat -> G * list nat.
  Variable cpu : nat.
  Variable wm : filesystem -> list coords -> list coords -> filesystem * result swts.
  Notation sfit := (sfit est fit_est predict_est meta fit_meta predict_meta solve G seed0 choice cpu wm).

  Lemma real_weights_fun fs coords given w w' : real_weights wm fs coords given w -> real_weights wm fs coords given w' -> w = w'.
  Proof.
    intros [->|(-> & v & -> & H)] [H'|(H' & v' & Hv & H'')]; try discriminate; try congruence.
  Qed.

  Theorem no_leak r r' c g g' fs s0 s0' X y y' coords given w W i :
    let n := length X in
    let o := sfit r c g fs s0 X y coords given in
    let o' := sfit r' c g' fs s0' X y' coords given in
    valid_choice choice -> one_per_row predict_est ->
    valid_runtime r n (patches cpu c) -> valid_runtime r' n (patches cpu c) -> r_garbage r = r_garbage r' ->
    valid_rates c -> real_weights wm fs coords given w -> holds_real w W n -> all_bases_used c w ->
    (sc_use_numba c = true -> forall a b, (a < n)%nat -> (b < n)%nat -> 0 <= mget 0 W a b) ->
    so_result est meta G o = Ok tt -> so_result est meta G o' = Ok tt ->
    (i < n)%nat -> (forall k, k <> i -> nth k y 0 = nth k y' 0) ->
    exists ps ps', ss_stacking_predict est meta (so_state est meta G o) = Some ps /\
      ss_stacking_predict est meta (so_state est meta G o') = Some ps' /\
      length ps = n /\ length ps' = n /\ nth i ps 0 = nth i ps' 0.
  Proof.
    intros n o o' Hc Hone Hr Hr' Hg Hrt Hreal Hw Hall Hpos H1 H2 Hi Hy.
    destruct (sfit_stacked fit_est predict_est fit_meta predict_meta solve seed0 choice cpu wm Hc Hone r c g fs s0 X y coords given w W Hr Hrt Hreal Hw Hpos H1)
      as (L & W' & es & ps0 & qs & ps & ses & A1 & A2 & A3 & _ & _ & A4 & _).
    destruct (sfit_stacked fit_est predict_est fit_meta predict_meta solve seed0 choice cpu wm Hc Hone r' c g' fs s0' X y' coords given w W Hr' Hrt Hreal Hw Hpos H2)
      as (L1 & W1 & es1 & ps01 & qs1 & ps1 & ses1 & B1 & B2 & B3 & _ & _ & B4 & _).
    rewrite (leave_outs_unique seed0 choice c W L1 L B1 A1) in *. rewrite (shrunk_unique _ W W1 W' B2 A2) in *.
    exists ps, ps1. split; [exact A4|]. split; [exact B4|].
    split; [apply (st_num _ _ _ _ _ _ _ _ _ _ _ _ _ _ _ _ _ _ _ A3)|]. split; [apply (st_num _ _ _ _ _ _ _ _ _ _ _ _ _ _ _ _ _ _ _ B3)|].
    rewrite <- Hg in B3. fold n in A3, B3.
    exact (stacked_no_leak _ _ _ _ _ _ _ _ _ _ _ _ _ _ _ _ _ _ _ _ i A3 B3 Hy Hall Hi).
  Qed.

  Theorem entries_correct f r c g fs s0 X y coords given w W :
    let n := length X in
    let o := sfit r c g fs s0 X y coords given in
    let s := so_state est meta G o in
    valid_choice choice -> rowwise predict_est f ->
    valid_runtime r n (patches cpu c) -> valid_rates c -> real_weights wm fs coords given w -> holds_real w W n -> all_bases_used c w ->
    (sc_use_numba c = true -> forall a b, (a < n)%nat -> (b < n)%nat -> 0 <= mget 0 W a b) ->
    so_result est meta G o = Ok tt ->
    exists L W' es ps ses,
      leave_outs seed0 choice c W L /\ shrunk_weights (sc_meta_shrink c) W W' /\
      ss_base_list est meta s = Some es /\ ss_stacking_predict est meta s = Some ps /\
      ss_local_list est meta s = Some (LStacking est meta ses) /\
      length es = n /\ length ps = n /\ length ses = n /\
      (forall j e, nth_error es j = Some e -> base_learner fit_est X y n W L j e) /\
      forall i, (i < n)%nat -> 0 < mget 0 W' i i ->
      exists m bases,
        let T := meta_points n W' i in
        nth_error ses i = Some (StackingEstimator est meta m bases) /\
        Forall2 (fun j e => nth_error es j = Some e) (meta_bases n L i) bases /\
        meta_fitted fit_meta predict_meta solve (sc_use_numba c) (sc_alpha c) (length bases)
          (map (fun k => map (fun e => f e (nth k X [])) bases) T) (map (fun k => nth k y 0) T) (map (mget 0 W' i) T)
          (map (fun e => f e (nth i X [])) bases) m (nth i ps 0).
  Proof.
    intros n o s Hc Hf Hr Hrt Hreal Hw Hall Hpos H.
    assert (Hone : one_per_row predict_est) by (intros e X' p Hp; apply Hf in Hp; rewrite Hp, map_length; auto).
    destruct (sfit_stacked fit_est predict_est fit_meta predict_meta solve seed0 choice cpu wm Hc Hone r c g fs s0 X y coords given w W Hr Hrt Hreal Hw Hpos H)
      as (L & W' & es & ps0 & qs & ps & ses & A1 & A2 & A3 & A4 & _ & A5 & A6).
    fold o in A3, A4, A5, A6. fold s in A4, A5, A6. fold n in A3.
    destruct (st_num _ _ _ _ _ _ _ _ _ _ _ _ _ _ _ _ _ _ _ A3) as (N1 & N2 & N3 & N4).
    exists L, W', es, ps, ses. repeat (split; [assumption|]). split.
    - intros j e He. apply (st_base _ _ _ _ _ _ _ _ _ _ _ _ _ _ _ _ _ _ _ A3 j e He).
    - intros i Hi Hp. apply (stacked_entries f _ _ _ _ _ _ _ _ _ _ _ _ _ _ i Hf A3 Hall Hi); auto.
      destruct Hw as [HW _]. assert (Hn : (0 < n)%nat) by lia.
      apply (leave_outs_shape seed0 choice c W L n Hc Hrt HW Hn A1). auto.
  Qed.
End Claims.
