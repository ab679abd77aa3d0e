(** When a stacking fit succeeds with learners that fit whenever there is data. *)
From Coq Require Import Lra Sorting.Sorted.
From Verif.Model Require Import Base Ext Csr Neighbour Distance WeightModel NumbaImpl Stacking.
From Verif.Spec Require Import KernelSpec NeighbourSpec WeightModelSpec StackingSpec StackingTotalSpec.
From Verif.Proofs Require Import ListFacts KernelFacts CsrFacts ShrinkFacts NeighbourFacts SampleFacts WeightModelFacts
  NeighbourProps WeightModelProps StackingCsr StackingFacts StackingMeta StackingProps StackingClaims StackingTotal AleFacts.
Open Scope nat_scope.
Open Scope R_scope.

Lemma list_choice {A} (P : nat -> A -> Prop) n : (forall i, (i < n)%nat -> exists x, P i x) ->
  exists l, length l = n /\ forall i x, nth_error l i = Some x -> P i x.
Proof.
  induction n as [|n IH]; intros H; [exists []; split; [reflexivity|]; intros [|i] x E; discriminate|].
  destruct IH as (l & HL & Hl); [intros; apply H; lia|]. destruct (H n) as [x Hx]; [lia|]. exists (l ++ [x])%list.
  split; [rewrite app_length; cbn; lia|]. intros i z E. destruct (Nat.lt_ge_cases i n) as [Hi|Hi].
  - rewrite nth_error_app1 in E by lia. apply Hl; auto.
  - rewrite nth_error_app2 in E by lia. destruct (i - length l)%nat as [|m] eqn:Em; [|destruct m; discriminate].
    injection E as <-. replace i with n by lia. auto.
Qed.

Lemma map_not_nil {A B} (f : A -> B) l : l <> [] -> map f l <> [].
Proof. destruct l; intros; try discriminate; auto. Qed.


Section Kinds.
  Context {est meta : Type}.
  Variable fit_est : nat -> matrix R -> list R -> list R -> result est.
  Variable predict_est : est -> matrix R -> result (list R).
  Variable fit_meta : R -> nat -> matrix R -> list R -> list R -> result meta.
  Variable predict_meta : meta -> matrix R -> result (list R).
  Variable solve : matrix R -> list R -> result (list R).
  Context {G : Type}.
  Variable seed0 : G.
  Variable choice : G -> list nat -> nat -> G * list nat.
  Variable cpu : nat.
  Variable wm : filesystem -> list coords -> list coords -> filesystem * result swts.
  Notation sfit := (sfit est fit_est predict_est meta fit_meta predict_meta solve G seed0 choice cpu wm).

  Lemma stacked_kind garbage c w w' X y n W L W' es ps0 qs ps ses : sc_estimator_rate c = None ->
    stacked fit_est predict_est fit_meta predict_meta solve garbage c w X y n W L W' es ps0 qs ps ses ->
    stacked fit_est predict_est fit_meta predict_meta solve garbage c w' X y n W L W' es ps0 qs ps ses.
  Proof.
    intros Hr [H1 H2 H3]. constructor; auto. intros i Hi. destruct (H3 i Hi) as (m & bases & H). exists m, bases.
    unfold used_bases in *. rewrite Hr in *. exact H.
  Qed.

  Theorem sparse_iff_dense r c g fs s0 X y coords cw W W' :
    let n := length X in
    valid_choice choice -> one_per_row predict_est ->
    valid_runtime r n (patches cpu c) -> valid_rates c -> rect W n n -> csr_form 0 (fun x => Reqb x 0) W n cw ->
    sc_use_numba c = false -> sc_estimator_rate c = None -> shrunk_weights (sc_meta_shrink c) W W' ->
    so_result est meta G (sfit r c g fs s0 X y coords (Some (SSparse cw))) = Ok tt <->
    so_result est meta G (sfit r c g fs s0 X y coords (Some (SDense W))) = Ok tt /\ exists i, (i < n)%nat /\ 0 < mget 0 W' i (n - 1).
  Proof.
    intros n Hc Ho HR Hrates HW F Hnb Hr HW'.
    pose proof (sfit_iff fit_est predict_est fit_meta predict_meta solve seed0 choice cpu wm Ho Hc r c g fs s0 X y coords (Some (SSparse cw)) (SSparse cw) W HR Hrates (or_introl eq_refl)) as HS.
    pose proof (sfit_iff fit_est predict_est fit_meta predict_meta solve seed0 choice cpu wm Ho Hc r c g fs s0 X y coords (Some (SDense W)) (SDense W) W HR Hrates (or_introl eq_refl)) as HD.
    rewrite HS, HD; clear HS HD; try (rewrite Hnb; discriminate).
    2:{ split; [exact HW|left; reflexivity]. }
    2:{ split; [exact HW|right; exists cw; auto]. }
    fold n. unfold storable. rewrite Hnb, Hr. split.
    - intros (C1 & C2 & C3 & L & W0 & es & ps0 & qs & ps & ses & H1 & H2 & H3 & H4). rewrite (shrunk_unique _ _ _ _ HW' H2). split; auto.
      repeat split; auto. exists L, W0, es, ps0, qs, ps, ses. split; [auto|]. split; [auto|]. split; [split; [reflexivity|discriminate]|]. eapply stacked_kind; eauto.
    - intros ((C1 & C2 & C3 & L & W0 & es & ps0 & qs & ps & ses & H1 & H2 & _ & H4) & HX). rewrite (shrunk_unique _ _ _ _ HW' H2) in HX.
      repeat split; auto. exists L, W0, es, ps0, qs, ps, ses. split; [auto|]. split; [auto|]. split; [auto|]. eapply stacked_kind; eauto.
  Qed.

  (** Nobody has the last observation as a neighbour. *)
  Theorem sparse_needs_last r c g fs s0 X y coords given cw W W' :
    let n := length X in
    valid_choice choice -> 
    valid_runtime r n (patches cpu c) -> valid_rates c -> real_weights wm fs coords given (SSparse cw) -> rect W n n -> csr_form 0 (fun x => Reqb x 0) W n cw ->
    sc_use_numba c = false -> shrunk_weights (sc_meta_shrink c) W W' -> (forall i, (i < n)%nat -> mget 0 W' i (n - 1) <= 0) ->
    raises (so_result est meta G (sfit r c g fs s0 X y coords given)).
  Proof.
    intros n Hc HR Hrates Hreal HW F Hnb HW' Hno. apply raises_not_ok. intros [] Hok.
    destruct (sfit_conditions fit_est predict_est fit_meta predict_meta solve seed0 choice cpu wm Hc r c g fs s0 X y coords given (SSparse cw) W W' HR Hrates Hreal) as (_ & _ & _ & HS); auto.
    { split; [exact HW|right; exists cw; auto]. }
    unfold storable in HS. rewrite Hnb in HS. destruct HS as (i & Hi & Hp). specialize (Hno i Hi). exact (Rlt_not_le _ _ Hp Hno).
  Qed.

  Theorem no_rate_error r c g fs s0 X y coords given w : valid_data X y -> real_weights wm fs coords given w -> sc_leave_out_rate c = None ->
    so_result est meta G (sfit r c g fs s0 X y coords given) = Raise AttributeError.
  Proof.
    intros HD Hreal Hr. apply (proj2 (FitProps.check_iff X y)) in HD. unfold Stacking.sfit, leave_out_sample. rewrite HD, Hr.
    destruct Hreal as [->|(-> & v & -> & Hv)]; [destruct coords; reflexivity|]. destruct (wm fs v v) as [fs' w0]. cbn [snd] in Hv. subst w0. reflexivity.
  Qed.
End Kinds.

Section Usual.
  Context {est meta : Type}.
  Variable fit_est : nat -> matrix R -> list R -> list R -> result est.
  Variable predict_est : est -> matrix R -> result (list R).
  Variable fit_meta : R -> nat -> matrix R -> list R -> list R -> result meta.
  Variable predict_meta : meta -> matrix R -> result (list R).
  Variable solve : matrix R -> list R -> result (list R).
  Context {G : Type}.
  Variable seed0 : G.
  Variable choice : G -> list nat -> nat -> G * list nat.
  Variable cpu : nat.
  Variable wm : filesystem -> list coords -> list coords -> filesystem * result swts.
  Notation sfit := (sfit est fit_est predict_est meta fit_meta predict_meta solve G seed0 choice cpu wm).

  Hypothesis Hchoice : valid_choice choice.
  Hypothesis Hest : needs_data fit_est predict_est.
  Hypothesis Hmeta : needs_design fit_meta predict_meta.

  Lemma needs_one : one_per_row predict_est.
  Proof. destruct Hest as (_ & _ & _ & H). exact H. Qed.

  Lemma stacked_usual garbage c w X y n W L W' : sc_use_numba c = false ->
    (forall i, (i < n)%nat -> mget false L i i = true) ->
    (exists es ps0 qs ps ses, stacked fit_est predict_est fit_meta predict_meta solve garbage c w X y n W L W' es ps0 qs ps ses) <->
    (forall i, (i < n)%nat -> base_training n W L i <> [] /\ meta_points n W' i <> [] /\ used_bases c w n L i <> []).
  Proof.
    intros Hnb Hd. destruct Hest as (E1 & E2 & E3 & E4). destruct Hmeta as (M1 & M2 & M3 & M4). split.
    - intros (es & ps0 & qs & ps & ses & [(L1 & L2 & L3 & L4) Hb Hm]) i Hi. split; [|split].
      + intros E. destruct (nth_error es i) as [e|] eqn:Ee; [|apply nth_error_None in Ee; lia].
        destruct (Hb i e Ee) as (B & _). unfold base_learner in B. rewrite E in B. apply E1 in B. exact B.
      + intros E. destruct (Hm i Hi) as (m & bases & _ & _ & H). rewrite Hnb in H. cbn [meta_fitted] in H. destruct H as (mm & H & _). rewrite E in H. apply M1 in H. exact H.
      + intros E. destruct (Hm i Hi) as (m & bases & _ & _ & H). rewrite Hnb in H. cbn [meta_fitted] in H. destruct H as (mm & H & _). rewrite E in H. apply M2 in H. exact H.
    - intros H.
      assert (Hev : forall j, (j < n)%nat -> evaluated n W' L j <> []).
      { intros j Hj E. destruct (H j Hj) as (_ & H2 & _). destruct (meta_points n W' j) as [|k T] eqn:ET; [congruence|].
        assert (In k (meta_points n W' j)) as Hk by (rewrite ET; left; auto).
        assert (In k (evaluated n W' L j)) as Hin by (apply (meta_points_evaluated n W' L j j k); auto; apply meta_bases_in; auto).
        rewrite E in Hin. destruct Hin. }
      destruct (list_choice (fun j e => base_learner fit_est X y n W L j e) n) as (es & Les & Hes).
      { intros j Hj. destruct (H j Hj) as (H1 & _). unfold base_learner. apply E2; rewrite ?map_length; auto. apply map_not_nil. auto. }
      destruct (list_choice (fun j p => forall e, nth_error es j = Some e -> predict_est e [nth j X []] = Ok [p]) n) as (ps0 & Lps0 & Hps0).
      { intros j Hj. destruct (nth_error es j) as [e|] eqn:Ee; [|apply nth_error_None in Ee; lia].
        destruct (proj2 (E3 e [nth j X []])) as [p Hp]; [discriminate|]. pose proof (E4 _ _ _ Hp) as Hl. cbn in Hl.
        destruct p as [|a [|b p]]; try discriminate. exists a. intros e' He'. congruence. }
      destruct (list_choice (fun j q => forall e, nth_error es j = Some e -> predict_est e (map (fun k => nth k X []) (evaluated n W' L j)) = Ok q) n) as (qs & Lqs & Hqs).
      { intros j Hj. destruct (nth_error es j) as [e|] eqn:Ee; [|apply nth_error_None in Ee; lia].
        destruct (proj2 (E3 e (map (fun k => nth k X []) (evaluated n W' L j)))) as [p Hp]; [apply map_not_nil; auto|]. exists p. intros e' He'. congruence. }
      assert (HC : forall i j, (i < n)%nat -> In j (used_bases c w n L i) -> (j < n)%nat).
      { intros i j Hi Hj. unfold used_bases in Hj. destruct (sc_estimator_rate c) as [q0|]; [destruct w; [|apply meta_bases_in in Hj; tauto]|apply meta_bases_in in Hj; tauto].
        destruct (Z.to_nat (Rceil q0)) as [|z]; [destruct Hj|]. cbn [firstn] in Hj. destruct Hj as [<-|Hj]; [lia|]. destruct z; destruct Hj. }
      destruct (list_choice (fun i (v : R * stacking_estimator est meta) => exists m bases,
         let C := used_bases c w n L i in
         let T := meta_points n W' i in
         let entry j k := lookup (evaluated n W' L j) (nth j qs []) k in
         snd v = StackingEstimator est meta (MFitted meta m) bases /\
         Forall2 (fun j e => nth_error es j = Some e) C bases /\
         fit_meta (sc_alpha c) (length C) (map (fun k => map (fun j => entry j k) C) T) (map (fun k => nth k y 0) T) (map (mget 0 W' i) T) = Ok m /\
         predict_meta m [map (fun j => entry j i) C] = Ok [fst v]) n) as (vs & Lvs & Hvs).
      { intros i Hi. destruct (H i Hi) as (_ & H2 & H3). cbv zeta. set (C := used_bases c w n L i) in *. set (T := meta_points n W' i) in *.
        destruct (M3 (sc_alpha c) (length C) (map (fun k => map (fun j => lookup (evaluated n W' L j) (nth j qs []) k) C) T) (map (fun k => nth k y 0) T) (map (mget 0 W' i) T)) as [m Hm];
          rewrite ?map_length; auto.
        { apply map_not_nil. auto. }
        { destruct C; [congruence|cbn; lia]. }
        { intros row Hrow. apply in_map_iff in Hrow. destruct Hrow as (k & <- & _). apply map_length. }
        destruct (M4 m (map (fun j => lookup (evaluated n W' L j) (nth j qs []) i) C)) as [p Hp].
        assert (HB : exists bases, Forall2 (fun j e => nth_error es j = Some e) C bases).
        { assert (HC' : forall j, In j C -> (j < n)%nat) by (intros j Hj; apply (HC i); auto). clear -HC' Les. clearbody C. induction C as [|j C IH]; [exists []; constructor|].
          destruct IH as [bs Hbs]; [intros; apply HC'; right; auto|]. destruct (nth_error es j) as [e|] eqn:Ee.
          - exists (e :: bs). constructor; auto.
          - apply nth_error_None in Ee. specialize (HC' j (or_introl eq_refl)). lia. }
        destruct HB as [bases HB]. exists (p, StackingEstimator est meta (MFitted meta m) bases), m, bases. auto. }
      exists es, ps0, qs, (map fst vs), (map snd vs). constructor.
      + rewrite !map_length. auto.
      + intros j e Hj. assert (Hjn : (j < n)%nat) by (rewrite <- Les; apply nth_error_Some; congruence). split; [apply Hes; auto|]. split.
        * apply (Hps0 j (nth j ps0 0)); auto. apply nth_error_nth'. lia.
        * apply (Hqs j (nth j qs [])); auto. apply nth_error_nth'. lia.
      + intros i Hi. destruct (nth_error vs i) as [v|] eqn:Ev; [|apply nth_error_None in Ev; lia].
        destruct (Hvs i v Ev) as (m & bases & V1 & V2 & V3 & V4). exists (MFitted meta m), bases. cbv zeta. rewrite Hnb. cbn [andb meta_fitted].
        split; [rewrite nth_error_map, Ev; cbn; rewrite V1; reflexivity|]. split; [exact V2|]. exists m. split; [exact V3|]. split; [reflexivity|].
        rewrite V4. f_equal. f_equal. rewrite (nth_map_in _ _ _ v) by lia. rewrite (nth_error_nth _ _ v Ev). reflexivity.
  Qed.

  Lemma used_nonempty c w n L i : (i < n)%nat -> mget false L i i = true ->
    used_bases c w n L i <> [] <-> (forall m q, w = SDense m -> sc_estimator_rate c = Some q -> 0 < q).
  Proof.
    intros Hi Hd. unfold used_bases. assert (Hmb : meta_bases n L i <> []).
    { intros E. assert (In i (meta_bases n L i)) as Hin by (apply meta_bases_in; auto). rewrite E in Hin. destruct Hin. }
    destruct (sc_estimator_rate c) as [q|]; [|split; auto; discriminate]. destruct w as [m|m]; [|split; [discriminate|auto]].
    pose proof (SortFacts.Rceil_spec q) as [S1 S2]. split.
    - intros H m0 q0 _ E. injection E as <-. destruct (Z.to_nat (Rceil q)) as [|z] eqn:Ez; [cbn in H; congruence|].
      assert (1 <= Rceil q)%Z as Hz by lia. apply IZR_le in Hz. lra.
    - intros H. specialize (H m q eq_refl eq_refl). destruct (Z.to_nat (Rceil q)) as [|z] eqn:Ez; [|discriminate].
      assert (Rceil q <= 0)%Z as Hz by lia. apply IZR_le in Hz. lra.
  Qed.

  Theorem usual_iff r c g fs s0 X y coords given w W :
    let n := length X in
    valid_runtime r n (patches cpu c) -> valid_rates c ->
    real_weights wm fs coords given w -> holds_real w W n -> sc_use_numba c = false ->
    so_result est meta G (sfit r c g fs s0 X y coords given) = Ok tt <->
    valid_data X y /\ keeps_all c n /\ has_batches cpu c /\
    (forall m q, w = SDense m -> sc_estimator_rate c = Some q -> 0 < q) /\
    exists L W', leave_outs seed0 choice c W L /\ shrunk_weights (sc_meta_shrink c) W W' /\ storable c w n W' /\
      forall i, (i < n)%nat -> base_training n W L i <> [] /\ meta_points n W' i <> [].
  Proof.
    intros n HR Hrates Hreal Hw Hnb.
    rewrite (sfit_iff fit_est predict_est fit_meta predict_meta solve seed0 choice cpu wm needs_one Hchoice r c g fs s0 X y coords given w W HR Hrates Hreal Hw) by (rewrite Hnb; discriminate).
    assert (Hdiag : (0 < n)%nat -> forall L, leave_outs seed0 choice c W L -> forall i, (i < n)%nat -> mget false L i i = true).
    { intros Hn L HL. destruct Hw as [HW _]. apply (leave_outs_shape seed0 choice c W L n Hchoice Hrates HW Hn HL). }
    assert (Hpos : valid_data X y -> (0 < n)%nat).
    { intros (p & HR' & H1 & _). destruct HR' as [H2 _]. unfold n. lia. }
    fold n. split.
    - intros (C1 & C2 & C3 & L & W' & es & ps0 & qs & ps & ses & H1 & H2 & H3 & H4).
      pose proof (proj1 (stacked_usual (r_garbage r) c w X y n W L W' Hnb (Hdiag (Hpos C1) L H1)) (ex_intro _ es (ex_intro _ ps0 (ex_intro _ qs (ex_intro _ ps (ex_intro _ ses H4)))))) as H5.
      repeat split; auto.
      + assert (H0 : (0 < n)%nat) by auto. destruct (H5 0%nat H0) as (_ & _ & H6). exact (proj1 (used_nonempty c w n L 0%nat H0 (Hdiag H0 L H1 0%nat H0)) H6).
      + exists L, W'. repeat split; auto; apply H5; auto.
    - intros (C1 & C2 & C3 & C4 & L & W' & H1 & H2 & H3 & H4). repeat split; auto.
      destruct (proj2 (stacked_usual (r_garbage r) c w X y n W L W' Hnb (Hdiag (Hpos C1) L H1))) as (es & ps0 & qs & ps & ses & H5).
      { intros i Hi. destruct (H4 i Hi). repeat split; auto. apply used_nonempty; auto. }
      exists L, W', es, ps0, qs, ps, ses. auto.
  Qed.

  (** Leaving out everything. *)
  Lemma filter_count_all (p q : nat -> bool) l : (forall x, In x l -> p x = true -> q x = true) ->
    length (filter p l) = length (filter q l) -> forall x, In x l -> q x = true -> p x = true.
  Proof.
    induction l as [|a l IH]; intros Hpq HL x Hx Hq; [destruct Hx|].
    assert (Hle : (length (filter p l) <= length (filter q l))%nat).
    { assert (Hp' : forall x, In x l -> p x = true -> q x = true) by (intros; apply Hpq; [right|]; auto).
      clear -Hp'. induction l as [|a l IH]; [cbn; lia|]. cbn [filter]. pose proof (Hp' a (or_introl eq_refl)) as Ha.
      assert (length (filter p l) <= length (filter q l))%nat by (apply IH; intros; apply Hp'; [right|]; auto).
      destruct (p a); [rewrite (Ha eq_refl); cbn; lia|]. destruct (q a); cbn; lia. }
    cbn [filter] in HL. pose proof (Hpq a (or_introl eq_refl)) as Ha.
    destruct (p a) eqn:Ep.
    - rewrite (Ha eq_refl) in HL. cbn in HL. destruct Hx as [<-|Hx]; auto. apply IH; auto; intros; apply Hpq; [right|]; auto.
    - destruct (q a) eqn:Eq; [cbn in HL; lia|]. destruct Hx as [<-|Hx]; [congruence|]. apply IH; auto; intros; apply Hpq; [right|]; auto.
  Qed.

  Lemma rate_one_all c W L n q i k : valid_rates c -> rect W n n -> (0 < n)%nat -> leave_outs seed0 choice c W L ->
    sc_leave_out_rate c = Some q -> 1 <= q -> sc_leave_out_shrink c = None -> (i < n)%nat -> (k < n)%nat -> 0 < mget 0 W i k -> mget false L i k = true.
  Proof.
    intros Hrates HW Hn HLo Hq H1 Hs Hi Hk Hp.
    destruct (leave_outs_meaning seed0 choice c W L n Hchoice Hrates HW Hn HLo) as (q' & Ws & E & HWs & HL & Hsp).
    rewrite Hq in E. injection E as <-. rewrite Hs in HWs. cbn in HWs. subst Ws. specialize (Hsp i Hi). cbv zeta in Hsp.
    set (m := num_neighbours i (nth i W [])) in *.
    assert (Hm : Nat.min m (Nat.max 1 (Z.to_nat (Rceil (INR m * q)))) = m).
    { apply Nat.min_l. assert (INR m <= INR m * q) by (pose proof (Rmult_le_compat_l (INR m) 1 q (pos_INR m) H1); lra). pose proof (SortFacts.Rceil_spec (INR m * q)) as [S1 _].
      assert (INR m <= IZR (Rceil (INR m * q))) as Hr by lra. set (z := Rceil (INR m * q)) in *. clearbody z m. rewrite INR_IZR_INZ in Hr. apply le_IZR in Hr. clear -Hr. apply Nat.le_trans with (Z.to_nat z); [lia|apply Nat.le_max_r]. }
    rewrite Hm in Hsp. destruct Hsp as [P1 P2 P3 P4].
    destruct (Nat.eq_dec k i) as [->|Hki]; [exact P2|].
    assert (Er : length (nth i L []) = n) by (apply (rect_row L n n i HL Hi)). rewrite Er in P4. unfold m, num_neighbours in P4.
    rewrite (rect_row W n n i HW Hi) in P4.
    pose proof (filter_count_all (fun j => nth j (nth i L []) false && negb (j =? i)%nat) (fun j => Rltb 0 (nth j (nth i W []) 0) && negb (j =? i)%nat) (seq 0 n)) as HF.
    assert (Hb : nth k (nth i L []) false && negb (k =? i)%nat = true).
    { apply HF; auto; [|apply in_seq; lia|].
      - intros x _ Hx. apply andb_prop in Hx. destruct Hx as [Hx1 Hx2]. rewrite Hx2, andb_true_r. apply Rltb_true. apply negb_true_iff, Nat.eqb_neq in Hx2.
        destruct (P3 x Hx1); [congruence|auto].
      - rewrite (proj2 (Rltb_true _ _)) by exact Hp. apply negb_true_iff, Nat.eqb_neq. auto. }
    apply andb_prop in Hb. apply Hb.
  Qed.

  Theorem rate_one_fails r c g fs s0 X y coords given w W q :
    let n := length X in
    valid_runtime r n (patches cpu c) -> valid_rates c ->
    real_weights wm fs coords given w -> holds_real w W n -> sc_use_numba c = false ->
    (forall i k, (i < n)%nat -> (k < n)%nat -> 0 <= mget 0 W i k) ->
    (forall i k, (i < n)%nat -> (k < n)%nat -> 0 < mget 0 W i k -> 0 < mget 0 W k i) ->
    sc_leave_out_rate c = Some q -> 1 <= q -> sc_leave_out_shrink c = None ->
    raises (so_result est meta G (sfit r c g fs s0 X y coords given)).
  Proof.
    intros n HR Hrates Hreal Hw Hnb Hnn Hsym Hq H1 Hs. apply raises_not_ok. intros [] Hok.
    apply (usual_iff r c g fs s0 X y coords given w W HR Hrates Hreal Hw Hnb) in Hok.
    destruct Hok as ((p & HRX & Hy & _) & _ & _ & _ & L & W' & HLo & _ & _ & HE). fold n in HE.
    assert (Hn : (0 < n)%nat) by (destruct HRX; unfold n; lia). destruct (HE 0%nat Hn) as [HE' _]. apply HE'.
    apply filter_none_in. intros k Hk. apply in_seq in Hk. destruct Hw as [HW _].
    destruct (Req_EM_T (mget 0 W 0 k) 0) as [E|E]; [rewrite (proj2 (Reqb_true _ _)) by auto; reflexivity|].
    assert (HP : 0 < mget 0 W k 0) by (apply Hsym; auto; [lia|]; specialize (Hnn 0%nat k Hn ltac:(lia)); lra).
    assert (HB : mget false L k 0 = true) by (apply (rate_one_all c W L n q k 0); auto; lia).
    rewrite HB. apply andb_false_r.
  Qed.
End Usual.
