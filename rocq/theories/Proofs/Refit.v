(** Proofs for C165: several stacking fits on one weight matrix. *)
From Coq Require Import Lra Lia.
From Verif.Proofs Require AleGrid.
From Verif.Model Require Import Base Ext Csr Neighbour Distance WeightModel NumbaImpl Stacking.
From Verif.Spec Require Import KernelSpec NeighbourSpec WeightModelSpec StackingSpec StackingTotalSpec RefitSpec.
From Verif.Proofs Require Import ListFacts KernelFacts SortFacts CsrFacts ShrinkFacts NeighbourFacts SampleFacts WeightModelFacts
  NeighbourProps WeightModelProps StackingCsr StackingFacts StackingMeta StackingProps StackingClaims StackingClaims2 StackingTotal.
Open Scope nat_scope.
Open Scope R_scope.

Notation nz := (fun x => negb (Reqb x 0)).
Lemma nz_zero : negb (Reqb 0 0) = false.
Proof. unfold Reqb. destruct (Req_EM_T 0 0); auto; congruence. Qed.

Lemma zeroed_Forall2 (row row' : list R) : length row' = length row -> (forall j, nth j row' 0 = nth j row 0 \/ nth j row' 0 = 0) ->
  Forall2 (fun x x' => x' = x \/ x' = 0) row row'.
Proof.
  revert row'. induction row as [|x row IH]; intros [|x' row'] HL H; simpl in HL; try lia; constructor.
  - exact (H 0%nat).
  - apply IH; [lia|]. intros j. exact (H (S j)).
Qed.
Lemma zeroed_facts (row row' : list R) : Forall2 (fun x x' => x' = x \/ x' = 0) row row' ->
  (forall z, In z (filter nz row') -> In z (filter nz row)) /\ (num_nonzero row' <= num_nonzero row)%nat /\ (distinct_weights row -> distinct_weights row').
Proof.
  unfold num_nonzero, distinct_weights. induction 1 as [|x x' row row' Hx _ (I1 & I2 & I3)]; [simpl; auto|].
  simpl. destruct Hx as [-> | ->].
  - destruct (negb (Reqb x 0)); simpl; [|auto]. split; [|split].
    + intros z [->|Hz]; auto.
    + lia.
    + intros HN. inversion HN; subst. constructor; auto.
  - rewrite nz_zero. destruct (negb (Reqb x 0)); simpl; [|auto]. split; [auto|split; [lia|]].
    intros HN. inversion HN; subst. auto.
Qed.

Lemma two_nonzero row i j : i <> j -> nth i row 0 <> 0 -> nth j row 0 <> 0 -> (2 <= num_nonzero row)%nat.
Proof.
  assert (P : forall row j, nth j row 0 <> 0 -> (1 <= num_nonzero row)%nat).
  { induction row0 as [|x l IH]; intros [|j0] Hj; simpl in Hj; try congruence; unfold num_nonzero in *; simpl.
    - unfold Reqb. destruct (Req_EM_T x 0); [congruence|]. simpl. lia.
    - specialize (IH j0 Hj). destruct (negb (Reqb x 0)); simpl; lia. }
  revert i j. induction row as [|x l IH]; intros [|i] [|j] Hij Hi Hj; simpl in Hi, Hj; try congruence.
  - specialize (P l j Hj). unfold num_nonzero in *. simpl. unfold Reqb. destruct (Req_EM_T x 0); [congruence|]. simpl. unfold Reqb in P. lia.
  - specialize (P l i Hi). unfold num_nonzero in *. simpl. unfold Reqb. destruct (Req_EM_T x 0); [congruence|]. simpl. unfold Reqb in P. lia.
  - specialize (IH i j). unfold num_nonzero in *. simpl. destruct (negb (Reqb x 0)); simpl; [specialize (IH ltac:(lia) Hi Hj)|specialize (IH ltac:(lia) Hi Hj)]; lia.
Qed.

Lemma thinned_0 row : thinned 0 row row.
Proof. split; auto. intros _. lia. Qed.
Lemma ceil_pos q m : 0 < q -> (2 <= m)%nat -> (1 <= Z.to_nat (Rceil (q * INR (m - 1))))%nat.
Proof.
  intros Hq Hm. assert (H : 0 < q * INR (m - 1)) by (apply Rmult_lt_0_compat; auto; apply lt_0_INR; lia).
  assert (HZ : (0 < Rceil (q * INR (m - 1)))%Z).
  { apply Rceil_ge. exact H. }
  lia.
Qed.
Lemma thinned_S k q row r1 r2 : 0 < q -> thinned k row r1 -> shrink_spec q r1 r2 -> thinned (S k) row r2.
Proof.
  intros Hq [A1 A2 A3 A4] [B1 B2 B3 B4 B5 B6 B7]. split.
  - congruence.
  - intros j. destruct (B2 j) as [->|H]; auto.
  - intros j Hj Hm. destruct (B4 j) as [E _].
    + rewrite A3; auto.
    + intros l Hl. rewrite (A3 j Hj Hm). destruct (A2 l) as [E|E]; [|congruence]. rewrite E in *. auto.
    + rewrite E. auto.
  - intros HN. specialize (A4 HN).
    destruct (zeroed_facts row r1 (zeroed_Forall2 _ _ A1 A2)) as (_ & _ & H1). specialize (H1 HN).
    destruct (zeroed_facts r1 r2 (zeroed_Forall2 _ _ B1 B2)) as (_ & H2 & _).
    destruct (le_lt_dec 2 (num_nonzero r1)) as [H|H]; [|lia].
    assert (H0 : (0 < num_nonzero r1)%nat) by lia. specialize (B6 H0 H1). pose proof (ceil_pos q (num_nonzero r1) Hq H). lia.
Qed.

(** The largest weights only: cutting again changes nothing. *)
Lemma cut_one_again (W W' W'' : matrix R) : shrunk_weights (Some 1) W W' -> shrunk_weights (Some 1) W' W'' -> W'' = W'.
Proof.
  intros [_ H] [_ H']. revert W'' H'. induction H as [|row row' W W' Hc _ IH]; intros W'' H'; inversion H' as [|? row'' ? W2 Hc' HF]; subst; [reflexivity|].
  f_equal; [|apply IH; auto]. clear - Hc Hc'.
  assert (top : forall l b, hyndman_fan_7 l 1 b -> In b l /\ forall x, In x l -> x <= b).
  { intros l b (Hne & Hq & _). assert (Hk : kth_smallest l (length l) b) by (apply Hq; lra). destruct Hk as (Hin & Hcnt & _). split; auto.
    intros x Hx. apply Rleb_true. assert (HA : forall l', (length l' <= count (fun x => Rleb x b) l')%nat -> forall x, In x l' -> Rleb x b = true).
    { unfold count. induction l' as [|a l' IHl]; simpl; intros HL z Hz; [tauto|]. pose proof (AleGrid.filter_length_le (fun x => Rleb x b) l').
      destruct (Rleb a b) eqn:E; simpl in HL; [|lia]. destruct Hz as [<-|Hz]; auto. apply IHl; auto. lia. }
    apply (HA l); auto. }
  destruct Hc' as [[_ E]|(b' & Hb' & E)]; [exact E|].
  destruct Hc as [[E0 E1]|(b & Hb & E1)].
  { subst row'. destruct Hb' as [Hne _]. congruence. }
  destruct (top _ _ Hb) as [T1 T2]. destruct (top _ _ Hb') as [T1' T2']. apply filter_In in T1' as [T1' T1n].
  rewrite E. rewrite <- map_id. apply map_ext_in. intros x Hx. destruct (Rltb x b') eqn:Ex; auto. apply Rltb_true in Ex.
  assert (Hcase : forall z, In z row' -> z = 0 \/ z = b).
  { intros z Hz. rewrite E1 in Hz. apply in_map_iff in Hz as (u & Hu & Hin). destruct (Rltb u b) eqn:Eu; [auto|]. subst z.
    apply Rltb_false in Eu. destruct (Req_EM_T u 0) as [->|Hn]; [auto|right].
    assert (u <= b); [|lra]. apply T2. apply filter_In. split; auto. unfold Reqb. destruct (Req_EM_T u 0); [congruence|reflexivity]. }
  assert (Eb : b' = b).
  { destruct (Hcase b' T1') as [->|]; auto. rewrite nz_zero in T1n. discriminate. }
  destruct (Hcase x Hx) as [->| ->]; auto. lra.
Qed.

Section Fits.
  Context {est meta : Type}.
  Variable fit_est : nat -> matrix R -> list R -> list R -> result est.
  Variable predict_est : est -> matrix R -> result (list R).
  Variable fit_meta : R -> nat -> matrix R -> list R -> list R -> result meta.
  Variable predict_meta : meta -> matrix R -> result (list R).
  Variable solve : matrix R -> list R -> result (list R).
  Context {G : Type}.
  Variable seed0 : G.
  Variable choice : G -> list nat -> nat -> G * list nat.
  Variable cpu : nat.
  Variable wm : filesystem -> list coords -> list coords -> filesystem * result swts.
  Hypothesis Hchoice : valid_choice choice.
  Notation ok := (fit_on est fit_est predict_est meta fit_meta predict_meta solve G seed0 choice cpu wm).
  Notation oks := (fits_on est fit_est predict_est meta fit_meta predict_meta solve G seed0 choice cpu wm).

  Lemma fit_on_shrinks n w w' W : ok n w w' -> holds_real w W n -> exists q W', 0 < q <= 1 /\ holds_real w' W' n /\ W' = map (shrink_row q) W.
  Proof.
    intros (r & c & g & fs & s0 & X & y & coords & q & HX & HR & Hrt & Hq & Hq0 & Hok & Hw') Hw. subst n.
    destruct (shrink_overwrites fit_est predict_est fit_meta predict_meta solve seed0 choice cpu wm r c g fs s0 X y coords w W Hchoice HR Hrt Hw Hok) as (W' & w2 & H1 & H2 & H3).
    assert (w2 = w') by congruence. subst w2. rewrite Hq in H1. destruct H1 as [Hq1 H1]. exists q, W'. split; [lra|]. split; [exact H2|]. apply cut_rows; auto.
  Qed.

  Lemma fits_on_thin n k w w' W : oks n k w w' -> holds_real w W n ->
    exists W', holds_real w' W' n /\ forall i, (i < n)%nat -> thinned k (nth i W []) (nth i W' []).
  Proof.
    intros H Hw. induction H as [w|k w w1 w2 H IH H1].
    - exists W. split; auto. intros i Hi. apply thinned_0.
    - destruct (IH Hw) as (W1 & Hw1 & HT). destruct (fit_on_shrinks n w1 w2 W1 H1 Hw1) as (q & W2 & Hq & Hw2 & ->).
      exists (map (shrink_row q) W1). split; auto. intros i Hi. assert (HL : length W1 = n) by (destruct Hw1 as [[HL _] _]; exact HL).
      rewrite (nth_map_in _ _ _ (@nil R)) by lia. apply (thinned_S k q _ (nth i W1 [])); [lra|auto|]. apply shrink_row_spec. lra.
  Qed.

  Hypothesis Hone : one_per_row predict_est.
  Hypothesis Hempty : forall alpha k y w m, fit_meta alpha k [] y w <> Ok m.

  Lemma fit_on_needs_others n w w' W i : ok n w w' -> holds_real w W n -> (forall i k, (i < n)%nat -> (k < n)%nat -> 0 <= mget 0 W i k) -> (i < n)%nat ->
    exists q W', 0 < q <= 1 /\ W' = map (shrink_row q) W /\ holds_real w' W' n /\ meta_points n W' i <> [].
  Proof.
    intros Hfit Hw Hpos Hi. pose proof Hfit as (r & c & g & fs & s0 & X & y & coords & q & HX & HR & Hrt & Hq & Hq0 & Hok & Hw'). subst n.
    destruct (shrink_overwrites fit_est predict_est fit_meta predict_meta solve seed0 choice cpu wm r c g fs s0 X y coords w W Hchoice HR Hrt Hw Hok) as (W1 & w2 & H1 & H2 & H3).
    assert (w2 = w') by congruence. subst w2.
    destruct (proj1 (sfit_iff fit_est predict_est fit_meta predict_meta solve seed0 choice cpu wm Hone Hchoice r c g fs s0 X y coords (Some w) w W HR Hrt (or_introl eq_refl) Hw (fun _ => Hpos)) Hok)
      as (_ & _ & _ & L & W2 & es & ps0 & qs & ps & ses & _ & H4 & _ & H5).
    rewrite Hq in *. destruct H1 as [Hq1 H1]. destruct H4 as [_ H4]. apply cut_rows in H1; auto. apply cut_rows in H4; auto. subst W2.
    exists q, W1. split; [lra|]. split; [exact H1|]. split; [exact H2|]. intros HE. destruct (st_meta _ _ _ _ _ _ _ _ _ _ _ _ _ _ _ _ _ _ _ H5 i Hi) as (m & bases & HM). cbv zeta in HM. destruct HM as (_ & _ & HM).
    rewrite H1 in HE. rewrite HE in HM. unfold meta_fitted in HM. cbn [map] in HM. destruct (sc_use_numba c).
    - destruct HM as (coef & b & HM & _). unfold ridge_cholesky in HM. cbn in HM.
      destruct (solve _ _) as [cf|e]; [|discriminate]. cbn in HM. congruence.
    - destruct HM as (mm & HM & _). exact (Hempty _ _ _ _ _ HM).
  Qed.

  Lemma fits_on_bounded n k w w' W i : oks n (S k) w w' -> holds_real w W n -> self_heaviest W n -> (i < n)%nat ->
    distinct_weights (nth i W []) -> (S k + 2 <= num_nonzero (nth i W []))%nat.
  Proof.
    intros H Hw Hself Hi HN. inversion H as [|? ? w1 ? Hk Hl]; subst.
    destruct (fits_on_thin n k w w1 W Hk Hw) as (W1 & Hw1 & HT1).
    assert (Hent : forall a b, (a < n)%nat -> (b < n)%nat -> 0 <= mget 0 W1 a b).
    { intros a b Ha Hb. unfold mget. destruct (HT1 a Ha) as [_ A2 _ _]. destruct (A2 b) as [E|E]; rewrite E; [apply (Hself a b Ha Hb)|lra]. }
    destruct (fit_on_needs_others n w1 w' W1 i Hl Hw1 Hent Hi) as (q & W2 & Hq & E2 & Hw2 & Hne).
    assert (HL : length W1 = n) by (destruct Hw1 as [[HL _] _]; exact HL).
    assert (HT2 : thinned (S k) (nth i W []) (nth i W2 [])).
    { rewrite E2. rewrite (nth_map_in _ _ _ (@nil R)) by lia. apply (thinned_S k q _ (nth i W1 [])); [lra|auto|]. apply shrink_row_spec. lra. }
    destruct HT2 as [A1 A2 A3 A4]. specialize (A4 HN).
    assert (Hown : nth i (nth i W2 []) 0 = nth i (nth i W []) 0).
    { apply A3; [destruct (Hself i i Hi Hi) as [_ Hs]; unfold mget in Hs; lra|]. intros l Hl0.
      destruct (le_lt_dec n l) as [Hln|Hln].
      - exfalso. apply Hl0. apply nth_overflow. destruct Hw as [HR _]. rewrite (rect_row W n n); auto.
      - apply (Hself i l Hi Hln). }
    assert (Htwo : (2 <= num_nonzero (nth i W2 []))%nat).
    { unfold meta_points in Hne. destruct (filter _ (seq 0 n)) as [|j T] eqn:ET; [congruence|].
      assert (Hj : In j (filter (fun k0 => Rltb 0 (mget 0 W2 i k0) && negb (k0 =? i)%nat) (seq 0 n))) by (rewrite ET; left; auto).
      apply filter_In in Hj as [Hj1 Hj2]. apply in_seq in Hj1. apply andb_prop in Hj2 as [Hj2 Hj3]. apply Rltb_true in Hj2.
      destruct (Nat.eqb_spec j i) as [|Hji]; [discriminate|].
      apply (two_nonzero _ i j); auto; [|unfold mget in Hj2; lra]. rewrite Hown. destruct (Hself i i Hi Hi) as [_ Hs]. unfold mget in Hs. lra. }
    lia.
  Qed.
End Fits.
