(** Locality of stacking. *)
From Coq Require Import Lra.
From Verif.Model Require Import Base Ext Csr Neighbour Distance WeightModel NumbaImpl Stacking StackingPredict.
From Verif.Spec Require Import KernelSpec NeighbourSpec StackingSpec.
From Verif.Proofs Require Import ListFacts KernelFacts CsrFacts ShrinkFacts NeighbourFacts SampleFacts WeightModelFacts
  NeighbourProps WeightModelProps StackingCsr StackingFacts StackingMeta StackingProps StackingClaims StackingPredictProps.
Open Scope nat_scope.
Open Scope R_scope.

Lemma lookup_out idx : forall q k, ~ In k idx -> lookup idx q k = 0.
Proof.
  unfold lookup. induction idx as [|a idx IH]; intros [|b q] k H; cbn [combine find]; auto.
  cbn [fst]. destruct (Nat.eqb_spec a k) as [->|Hk]; [exfalso; apply H; left; auto|]. apply IH. intros Hi. apply H. right. auto.
Qed.

Section Local.
  Context {est meta : Type}.
  Variable fit_est : nat -> matrix R -> list R -> list R -> result est.
  Variable predict_est : est -> matrix R -> result (list R).
  Variable fit_meta : R -> nat -> matrix R -> list R -> list R -> result meta.
  Variable predict_meta : meta -> matrix R -> result (list R).
  Variable solve : matrix R -> list R -> result (list R).
  Variable f : est -> list R -> R.
  Hypothesis Hf : rowwise predict_est f.
  Notation stacked := (stacked fit_est predict_est fit_meta predict_meta solve).

  Lemma stacked_local garbage garbage' c w X X' y y' n W L W' es ps0 qs ps ses es' ps0' qs' ps' ses' i :
    stacked garbage c w X y n W L W' es ps0 qs ps ses ->
    stacked garbage' c w X' y' n W L W' es' ps0' qs' ps' ses' ->
    all_bases_used c w -> (i < n)%nat -> (sc_use_numba c = true -> 0 < mget 0 W' i i) ->
    (forall k, 0 < mget 0 W' i k -> mget 0 W i k <> 0) ->
    (forall j, mget false L i j = true -> j = i \/ 0 < mget 0 W i j) ->
    (forall k, two_steps n W i k -> nth k X [] = nth k X' []) ->
    (forall k, two_steps n W i k -> k <> i -> nth k y 0 = nth k y' 0) ->
    nth i ps 0 = nth i ps' 0.
  Proof.
    intros [(A1 & A2 & A3 & A4) A5 A6] [(B1 & B2 & B3 & B4) B5 B6] Hall Hi Hd HW' HL HX Hy.
    destruct (A6 i Hi) as (m & bases & H1 & H2 & H3). destruct (B6 i Hi) as (m' & bases' & H1' & H2' & H3'). cbv zeta in *.
    rewrite used_all in * by auto. set (C := meta_bases n L i) in *. set (T := meta_points n W' i) in *.
    assert (HC : forall j, In j C -> (j < n)%nat /\ mget false L i j = true) by (intros j Hj; apply meta_bases_in; auto).
    assert (HT : forall k, In k T -> two_steps n W i k /\ k <> i).
    { intros k Hk. apply meta_points_in in Hk. destruct Hk as (K1 & K2 & K3). split; auto. right. exists i. auto. }
    assert (He : forall j, In j C -> exists e, nth_error es j = Some e /\ nth_error es' j = Some e).
    { intros j Hj. destruct (HC j Hj) as [Hlt HLj].
      destruct (nth_error es j) as [e|] eqn:Ee; [|apply nth_error_None in Ee; lia].
      destruct (nth_error es' j) as [e'|] eqn:Ee'; [|apply nth_error_None in Ee'; lia].
      destruct (A5 j e Ee) as (P1 & _), (B5 j e' Ee') as (Q1 & _). unfold base_learner in *. cbv zeta in *.
      assert (HB : forall k, In k (base_training n W L j) -> two_steps n W i k /\ k <> i).
      { intros k Hk. unfold base_training in Hk. apply filter_In in Hk. destruct Hk as [_ Hk]. apply andb_prop in Hk. destruct Hk as [K1 K2]. split.
        - right. exists j. split; auto. split; [apply HL; auto|]. intros E. rewrite E in K1. rewrite (proj2 (Reqb_true 0 0) eq_refl) in K1. discriminate.
        - intros ->. rewrite HLj in K2. discriminate. }
      assert (Ey : map (fun k => nth k y 0) (base_training n W L j) = map (fun k => nth k y' 0) (base_training n W L j)).
      { apply map_ext_in. intros k Hk. apply HB in Hk. apply Hy; tauto. }
      assert (EX : map (fun k => nth k X []) (base_training n W L j) = map (fun k => nth k X' []) (base_training n W L j)).
      { apply map_ext_in. intros k Hk. apply HB in Hk. apply HX; tauto. }
      rewrite Ey, EX in P1. assert (e = e') by congruence. subst e'. exists e. auto. }
    assert (Hl : forall j k, In j C -> (In k T \/ k = i) ->
      lookup (evaluated n W' L j) (nth j qs []) k = lookup (evaluated n W' L j) (nth j qs' []) k).
    { intros j k Hj Hk. destruct (He j Hj) as (e & E1 & E2). destruct (A5 j e E1) as (_ & _ & P), (B5 j e E2) as (_ & _ & Q).
      destruct (in_dec Nat.eq_dec k (evaluated n W' L j)) as [Hin|Hin]; [|rewrite !lookup_out by auto; reflexivity].
      rewrite (rowwise_lookup predict_est f X e _ _ k Hf Hin P), (rowwise_lookup predict_est f X' e _ _ k Hf Hin Q).
      rewrite HX; [reflexivity|]. destruct Hk as [Hk| ->]; [apply HT; auto|left; auto]. }
    assert (Et : map (fun k => nth k y 0) T = map (fun k => nth k y' 0) T).
    { apply map_ext_in. intros k Hk. apply HT in Hk. apply Hy; tauto. }
    assert (EX : map (fun k => map (fun j => lookup (evaluated n W' L j) (nth j qs []) k) C) T =
                 map (fun k => map (fun j => lookup (evaluated n W' L j) (nth j qs' []) k) C) T).
    { apply map_ext_in. intros k Hk. apply map_ext_in. intros j Hj. apply Hl; auto. }
    rewrite Et, EX in H3.
    assert (Ei : map (fun j => if sc_use_numba c && negb (existsb (Nat.eqb i) (evaluated n W' L j)) then last (nth j qs []) garbage
                        else lookup (evaluated n W' L j) (nth j qs []) i) C =
                 map (fun j => if sc_use_numba c && negb (existsb (Nat.eqb i) (evaluated n W' L j)) then last (nth j qs' []) garbage'
                        else lookup (evaluated n W' L j) (nth j qs' []) i) C).
    { apply map_ext_in. intros j Hj. destruct (sc_use_numba c) eqn:En; cbn [andb]; [|apply Hl; auto].
      assert (Hin : In i (evaluated n W' L j)) by (apply (evaluated_in n W' L i j i); auto; apply HC; auto).
      rewrite (proj2 (existsb_in _ _) Hin). cbn [negb]. apply Hl; auto. }
    rewrite Ei in H3. exact (proj2 (meta_fitted_fun _ _ _ _ _ _ _ _ _ _ _ _ _ _ H3 H3')).
  Qed.

  Context {G : Type}.
  Variable seed0 : G.
  Variable choice : G -> list nat -> nat -> G * list nat.
  Variable cpu : nat.
  Variable wm : filesystem -> list coords -> list coords -> filesystem * result swts.
  Notation sfit := (sfit est fit_est predict_est meta fit_meta predict_meta solve G seed0 choice cpu wm).

  Theorem stacking_local r r' c g g' fs s0 s0' X X' y y' coords given w W W' i :
    let n := length X in
    let o := sfit r c g fs s0 X y coords given in
    let o' := sfit r' c g' fs s0' X' y' coords given in
    valid_choice choice -> length X' = n ->
    valid_runtime r n (patches cpu c) -> valid_runtime r' n (patches cpu c) ->
    valid_rates c -> real_weights wm fs coords given w -> holds_real w W n -> all_bases_used c w ->
    shrunk_weights (sc_meta_shrink c) W W' ->
    (sc_use_numba c = true -> 0 < mget 0 W' i i /\ forall a b, (a < n)%nat -> (b < n)%nat -> 0 <= mget 0 W a b) ->
    so_result est meta G o = Ok tt -> so_result est meta G o' = Ok tt ->
    (i < n)%nat ->
    (forall k, two_steps n W i k -> nth k X [] = nth k X' []) ->
    (forall k, two_steps n W i k -> k <> i -> nth k y 0 = nth k y' 0) ->
    exists ps ps', ss_stacking_predict est meta (so_state est meta G o) = Some ps /\
      ss_stacking_predict est meta (so_state est meta G o') = Some ps' /\
      length ps = n /\ length ps' = n /\ nth i ps 0 = nth i ps' 0.
  Proof.
    intros n o o' Hc EX Hr Hr' Hrt Hreal Hw Hall Hsh Hnum H1 H2 Hi HX Hy.
    assert (Hone : one_per_row predict_est) by (intros e Z p Hp; apply Hf in Hp; rewrite Hp, map_length; auto).
    assert (Hpos : sc_use_numba c = true -> forall a b, (a < n)%nat -> (b < n)%nat -> 0 <= mget 0 W a b) by (intros E; apply (Hnum E)).
    destruct (sfit_stacked fit_est predict_est fit_meta predict_meta solve seed0 choice cpu wm Hc Hone r c g fs s0 X y coords given w W Hr Hrt Hreal Hw Hpos H1)
      as (L & W1 & es & ps0 & qs & ps & ses & A1 & A2 & A3 & _ & _ & A4 & _).
    unfold n in EX, Hr', Hw, Hpos. rewrite <- EX in Hr', Hw, Hpos.
    destruct (sfit_stacked fit_est predict_est fit_meta predict_meta solve seed0 choice cpu wm Hc Hone r' c g' fs s0' X' y' coords given w W Hr' Hrt Hreal Hw Hpos H2)
      as (L1 & W2 & es1 & ps01 & qs1 & ps1 & ses1 & B1 & B2 & B3 & _ & _ & B4 & _).
    rewrite EX in *. fold n in A3, B3, Hw.
    rewrite (leave_outs_unique seed0 choice c W L1 L B1 A1) in *. rewrite (shrunk_unique _ W W2 W' B2 Hsh) in *. rewrite (shrunk_unique _ W W1 W' A2 Hsh) in *.
    exists ps, ps1. split; [exact A4|]. split; [exact B4|].
    split; [apply (st_num _ _ _ _ _ _ _ _ _ _ _ _ _ _ _ _ _ _ _ A3)|]. split; [apply (st_num _ _ _ _ _ _ _ _ _ _ _ _ _ _ _ _ _ _ _ B3)|].
    destruct Hw as [HW _]. assert (Hn : (0 < n)%nat) by lia.
    refine (stacked_local _ _ _ _ _ _ _ _ _ _ _ _ _ _ _ _ _ _ _ _ _ _ i A3 B3 Hall Hi _ _ _ HX Hy).
    - intros E. apply (Hnum E).
    - intros k Hk. destruct (shrunk_get (sc_meta_shrink c) W W' n i k) as [E|E]; auto; [apply Hrt|rewrite E in Hk; lra|lra].
    - intros j Hj. destruct (leave_outs_meaning seed0 choice c W L n Hc Hrt HW Hn A1) as (q & Ws & _ & HWs & _ & Hs).
      specialize (Hs i Hi). cbv zeta in Hs. destruct Hs as [_ _ Ho _]. destruct (Ho j Hj) as [->|Hp]; auto. right.
      change (nth j (nth i Ws []) 0) with (mget 0 Ws i j) in Hp.
      destruct (shrunk_get (sc_leave_out_shrink c) W Ws n i j) as [E|E]; auto; [apply Hrt|rewrite <- E; auto|lra].
  Qed.
End Local.

Section PredictLocal.
  Context {est meta : Type}.
  Variable fit_est : nat -> matrix R -> list R -> list R -> result est.
  Variable predict_est : est -> matrix R -> result (list R).
  Variable fit_meta : R -> nat -> matrix R -> list R -> list R -> result meta.
  Variable predict_meta : meta -> matrix R -> result (list R).
  Variable cpu : nat.
  Variable wm : filesystem -> list coords -> list coords -> filesystem * result swts.
  Variable f : est -> list R -> R.
  Hypothesis Hf : rowwise predict_est f.
  Notation spredict := (spredict est fit_est predict_est meta fit_meta predict_meta cpu wm).

  Theorem new_local r r' c fs fs' s0 s0' X X' y y' v v' Xp Xp' vp vp' W U fs1 fs1' fs2 fs2' s s' out out' i :
    let n := length X in
    length X' = n -> length Xp' = length Xp ->
    wm fs v v = (fs1, Ok (SDense W)) -> wm fs1 v vp = (fs2, Ok (SDense U)) ->
    wm fs' v' v' = (fs1', Ok (SDense W)) -> wm fs1' v' vp' = (fs2', Ok (SDense U)) ->
    rect W n n -> rect U n (length Xp) ->
    schedule n (r_second r) -> length (r_buffer r) = n -> (forall k', patches cpu c = Some k' -> schedule k' (r_base r)) ->
    schedule n (r_second r') -> length (r_buffer r') = n -> (forall k', patches cpu c = Some k' -> schedule k' (r_base r')) ->
    spredict r c fs s0 X y v Xp vp = (s, fs2, Ok out) -> spredict r' c fs' s0' X' y' v' Xp' vp' = (s', fs2', Ok out') ->
    (i < length Xp)%nat -> nth i Xp [] = nth i Xp' [] ->
    (forall k, new_two_steps n W U i k -> nth k X [] = nth k X' [] /\ nth k y 0 = nth k y' 0) ->
    nth i out [] = nth i out' [].
  Proof.
    intros n EX0 EXp A1 A2 A1' A2' RW RU S1 S2 S3 S1' S2' S3' H H' Hi EX Hnear.
    destruct (new_predictions fit_est predict_est fit_meta predict_meta cpu wm f Hf r c fs s0 X y v Xp vp W U fs1 fs2 s out) as (es & _ & L1 & _ & B1 & P1); auto; [lia|].
    unfold n in EX0, RW, RU, S1', S2'. rewrite <- EX0 in RW, RU, S1', S2'. rewrite <- EXp in RU.
    destruct (new_predictions fit_est predict_est fit_meta predict_meta cpu wm f Hf r' c fs' s0' X' y' v' Xp' vp' W U fs1' fs2' s' out') as (es' & _ & L1' & _ & B1' & P1'); auto; [lia|].
    rewrite EX0, EXp in *. fold n in L1, B1, P1, L1', B1', P1'.
    destruct (P1 i Hi) as (bs & p & F1 & E1 & m & M1 & M2). destruct (P1' i Hi) as (bs' & p' & F1' & E1' & m' & M1' & M2').
    set (T := support n U i) in *.
    assert (HT : forall t, In t T -> (t < n)%nat /\ 0 < mget 0 U t i) by (intros t Ht; apply filter_In in Ht; rewrite in_seq, Rltb_true in Ht; destruct Ht; split; [lia|auto]).
    assert (Hes : forall j, In j T -> nth_error es j = nth_error es' j).
    { intros j Hj. destruct (HT j Hj) as [Hlt Hu].
      destruct (nth_error es j) as [e|] eqn:Ee; [|apply nth_error_None in Ee; lia].
      destruct (nth_error es' j) as [e'|] eqn:Ee'; [|apply nth_error_None in Ee'; lia].
      apply B1 in Ee. apply B1' in Ee'. unfold plain_base in *. cbv zeta in *.
      set (F := filter _ (seq 0 n)) in *.
      assert (HF : forall k, In k F -> new_two_steps n W U i k).
      { intros k Hk. apply filter_In in Hk. destruct Hk as [_ Hk]. apply andb_prop in Hk. destruct Hk as [K _].
        right. exists j. split; auto. split; auto. intros E. rewrite E in K. rewrite (proj2 (Reqb_true 0 0) eq_refl) in K. discriminate. }
      rewrite (map_ext_in (fun k => nth k X []) (fun k => nth k X' []) F) in Ee by (intros k Hk; apply Hnear, HF; auto).
      rewrite (map_ext_in (fun k => nth k y 0) (fun k => nth k y' 0) F) in Ee by (intros k Hk; apply Hnear, HF; auto). congruence. }
    assert (bs = bs').
    { clear -F1 F1' Hes. revert bs' F1'. induction F1 as [|j e T' bs Hj F1 IH]; intros bs' F1'; inversion F1'; subst; auto.
      f_equal; [|apply IH; auto; intros; apply Hes; right; auto]. specialize (Hes j (or_introl eq_refl)). congruence. }
    subst bs'.
    rewrite (map_ext_in (fun k => map (fun e => f e (nth k X [])) bs) (fun k => map (fun e => f e (nth k X' [])) bs) T) in M1
      by (intros k Hk; destruct (Hnear k) as [-> _]; auto; left; apply HT; auto).
    rewrite (map_ext_in (fun k => nth k y 0) (fun k => nth k y' 0) T) in M1 by (intros k Hk; apply Hnear; left; apply HT; auto).
    rewrite M1 in M1'. injection M1' as <-. rewrite <- EX in M2'. rewrite M2 in M2'. injection M2' as <-. congruence.
  Qed.
End PredictLocal.
