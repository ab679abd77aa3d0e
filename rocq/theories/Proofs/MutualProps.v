(** Proofs for C195: mutual neighbours. *)
From Coq Require Import Lra Lia Psatz.
From Verif.Model Require Import Base Ext Kernel Distance WeightMatrix.
From Verif.Spec Require Import KernelSpec WeightSpec NoiseSpec DistanceSpec.
From Verif.Spec Require Import MutualSpec.
From Verif.Proofs Require Import ListFacts SumFacts DistanceFacts CacheLazyProps MoranFacts KernelFacts WeightFacts WeightProps OneDimProps Copies NeighbourProps.
Open Scope string_scope.
Open Scope nat_scope.
Open Scope R_scope.

Lemma req_unique kt bw nc dim k p k' p' : requests kt bw nc dim k p -> requests kt bw nc dim k' p' -> k = k' /\ p = p'.
Proof. intros (A & _ & _ & _ & B) (A' & _ & _ & _ & B'). split; congruence. Qed.

Lemma Rprod_range l : (forall x, In x l -> 0 <= x) -> 0 <= Rprod l.
Proof. induction l as [|x l IH]; intros H; [cbn; lra|]. change (0 <= x * Rprod l). apply Rmult_le_pos; [apply H; left; auto|apply IH; intros; apply H; right; auto]. Qed.

Section Mutual.
  Variables (Ds : list (matrix R)) (kt : dim_arg string) (bw : dim_arg R) (nc : dim_arg count_arg) (n : nat) (W : matrix ext).
  Hypothesis HS : symmetric_distances Ds n.
  Hypothesis HF : fixed_bandwidths kt bw nc (length Ds).
  Hypothesis Hn : (0 < n)%nat.
  Hypothesis HW : weight_matrix_from_distance (map A2 Ds) kt RNone bw nc = Ok W.

  Lemma mutual_form : exists p : nat -> nat -> R,
    (forall i j, (i < n)%nat -> (j < n)%nat -> p i j = p j i /\ 0 <= p i j) /\
    ((forall dim i, (dim < length Ds)%nat -> (i < n)%nat -> mget 0 (nth dim Ds []) i i = 0) ->
     (forall dim k b, (dim < length Ds)%nat -> requests kt bw nc dim k (FixedBandwidth b) -> 0 <= b) -> forall i, (i < n)%nat -> p i i = 1) /\
    rect W n n /\ forall i j, (i < n)%nat -> (j < n)%nat -> mget NaN W i j = Fin (if Req_EM_T (Rsum (tabulate n (p i))) 0 then 0 else p i j / Rsum (tabulate n (p i))).
  Proof.
    destruct HS as [HV HSy]. destruct (wm_product _ _ _ _ n n W HV Hn HW) as (HR & raw & H1 & H2).
    assert (E : forall dim i j, (dim < length Ds)%nat -> (i < n)%nat -> (j < n)%nat ->
      exists k b, requests kt bw nc dim k (FixedBandwidth b) /\ raw dim i j = kernel_value k b (mget 0 (nth dim Ds []) i j)).
    { intros dim i j Hd Hi Hj. destruct (H1 dim i j Hd Hi Hj) as (k' & p & Q & x & X & Y). destruct (HF dim Hd) as (k & b & Q').
      destruct (req_unique _ _ _ _ _ _ _ _ Q Q') as [-> ->]. exists k, b. split; [exact Q'|]. cbn in X. subst x. apply weighs_iff in Y; [exact Y|apply Q'|]. apply (dist_nonneg Ds n n HV); auto. }
    assert (ES : forall dim i j, (dim < length Ds)%nat -> (i < n)%nat -> (j < n)%nat -> raw dim i j = raw dim j i /\ 0 <= raw dim i j).
    { intros dim i j Hd Hi Hj. destruct (E dim i j Hd Hi Hj) as (k & b & Q & ->). destruct (E dim j i Hd Hj Hi) as (k' & b' & Q' & ->).
      destruct (req_unique _ _ _ _ _ _ _ _ Q Q') as [<- B]. injection B as <-. split; [f_equal; auto|]. apply kernel_value_range; [apply Q|]. apply (dist_nonneg Ds n n HV); auto. }
    exists (fun i j => Rprod (tabulate (length Ds) (fun dim => raw dim i j))). split; [|split; [|split]].
    - intros i j Hi Hj. split; [f_equal; apply tabulate_ext; intros dim Hd; apply ES; auto|]. apply Rprod_range. intros x Hx. apply in_map_iff in Hx as (dim & <- & Hd). apply in_seq in Hd. apply ES; auto; lia.
    - intros HZ HB i Hi. rewrite (tabulate_ext _ _ (fun _ => exp 0)). 2:{ intros dim Hd. destruct (E dim i i Hd Hi Hi) as (k & b & Q & ->). rewrite HZ, exp_0 by auto. apply kernel_value_0; [apply Q|]. apply (HB dim k b Hd Q). }
      rewrite (Rprod_exp (length Ds) (fun _ => 0)). unfold tabulate. replace (Rsum _) with 0; [apply exp_0|]. symmetry. generalize (seq 0 (length Ds)). intros l. induction l as [|x l IH]; [apply Rsum_nil|]. cbn [map]. rewrite Rsum_cons, IH. ring.
    - exact HR.
    - intros i j Hi Hj. apply (proj1 (H2 i j Hi Hj)).
  Qed.

  Lemma balance : exists (w : nat -> nat -> R) (t : nat -> R), weights_are W n w /\
    (forall i, (i < n)%nat -> 0 <= t i /\ (t i = 0 <-> forall j, (j < n)%nat -> w i j = 0)) /\
    forall i j, (i < n)%nat -> (j < n)%nat -> t i * w i j = t j * w j i.
  Proof.
    destruct mutual_form as (p & H1 & _ & HR & H2). set (t := fun i => Rsum (tabulate n (p i))) in *.
    exists (fun i j => if Req_EM_T (t i) 0 then 0 else p i j / t i), t. split; [split; [exact HR|exact H2]|].
    assert (T0 : forall i, (i < n)%nat -> 0 <= t i) by (intros i Hi; apply Rsum_nonneg; intros x Hx; apply in_map_iff in Hx as (j & <- & Hj); apply in_seq in Hj; apply H1; auto; lia).
    assert (TP : forall i j, (i < n)%nat -> (j < n)%nat -> p i j <= t i).
    { intros i j Hi Hj. apply (Rsum_ge_elem (tabulate n (p i))); [intros x Hx; apply in_map_iff in Hx as (j' & <- & Hj'); apply in_seq in Hj'; apply H1; auto; lia|]. apply in_map_iff. exists j. split; auto. apply in_seq. lia. }
    assert (TW : forall i j, (i < n)%nat -> (j < n)%nat -> t i * (if Req_EM_T (t i) 0 then 0 else p i j / t i) = p i j).
    { intros i j Hi Hj. destruct (Req_EM_T (t i) 0) as [Z|Z]; [|field; auto]. pose proof (TP i j Hi Hj). pose proof (proj2 (H1 i j Hi Hj)). lra. }
    split.
    - intros i Hi. split; [auto|]. split; [intros Z j Hj; destruct (Req_EM_T (t i) 0); [auto|contradiction]|]. intros A.
      destruct (Req_EM_T (t i) 0) as [Z|Z]; [exact Z|]. exfalso. apply Z. unfold t. transitivity (Rsum (tabulate n (fun _ => 0))).
      + f_equal. apply tabulate_ext. intros j Hj. specialize (A j Hj). cbn beta in A. assert (p i j = p i j / t i * t i) as -> by (field; auto). rewrite A. ring.
      + unfold tabulate. generalize (seq 0 n). intros l. induction l as [|x l IH]; [apply Rsum_nil|]. cbn [map]. rewrite Rsum_cons, IH. ring.
    - intros i j Hi Hj. rewrite !TW by auto. apply H1; auto.
  Qed.

  Lemma mutual i j : (i < n)%nat -> (j < n)%nat -> mget NaN W i j <> Fin 0 -> mget NaN W j i <> Fin 0.
  Proof.
    intros Hi Hj. destruct balance as (w & t & [_ E] & T & B). rewrite !E by auto. intros N Z. injection Z as Z. apply N. f_equal.
    specialize (B i j Hi Hj). rewrite Z, Rmult_0_r in B. apply Rmult_integral in B as [B|B]; [|exact B]. destruct (T i Hi) as [_ T']. apply T'; auto.
  Qed.

  Lemma cycle i j k w : (i < n)%nat -> (j < n)%nat -> (k < n)%nat -> weights_are W n w -> w i j * w j k * w k i = w i k * w k j * w j i.
  Proof.
    intros Hi Hj Hk [_ Ew]. destruct balance as (w' & t & [_ E] & T & B).
    assert (EQ : forall a b, (a < n)%nat -> (b < n)%nat -> w a b = w' a b) by (intros a b Ha Hb; specialize (Ew a b Ha Hb); rewrite E in Ew by auto; congruence).
    rewrite !EQ by auto.
    assert (K : forall a, (a < n)%nat -> t a = 0 -> forall b, (b < n)%nat -> w' a b = 0) by (intros a Ha Z b Hb; destruct (T a Ha) as [_ T']; apply T'; auto).
    destruct (Req_EM_T (t i) 0) as [Zi|Zi]; [rewrite (K i Hi Zi j Hj), (K i Hi Zi k Hk); ring|].
    destruct (Req_EM_T (t j) 0) as [Zj|Zj]; [rewrite (K j Hj Zj k Hk), (K j Hj Zj i Hi); ring|].
    destruct (Req_EM_T (t k) 0) as [Zk|Zk]; [rewrite (K k Hk Zk i Hi), (K k Hk Zk j Hj); ring|].
    apply (Rmult_eq_reg_l (t i * t j * t k)); [|repeat apply Rmult_integral_contrapositive_currified; auto].
    transitivity ((t i * w' i j) * (t j * w' j k) * (t k * w' k i)); [ring|]. rewrite (B i j), (B j k), (B k i) by auto. ring.
  Qed.
End Mutual.

Lemma sum_swap (m n : nat) (f : nat -> nat -> R) : Rsum (tabulate m (fun i => Rsum (tabulate n (f i)))) = Rsum (tabulate n (fun j => Rsum (tabulate m (fun i => f i j)))).
Proof.
  unfold tabulate. generalize (seq 0 m). intros l. induction l as [|x l IH].
  - cbn [map]. rewrite Rsum_nil. generalize (seq 0 n). intros q. induction q as [|y q IHq]; [reflexivity|]. cbn [map]. rewrite Rsum_cons, <- IHq. change (0 = Rsum [] + 0). rewrite Rsum_nil. ring.
  - cbn [map]. rewrite Rsum_cons, IH. generalize (seq 0 n). intros q. clear IH. induction q as [|y q IHq]; [cbn [map]; rewrite !Rsum_nil; ring|]. cbn [map]. rewrite !Rsum_cons, <- IHq. ring.
Qed.

Lemma tab_scal n c f : Rsum (tabulate n (fun j => c * f j)) = c * Rsum (tabulate n f).
Proof. unfold tabulate. apply Rsum_map_scal. Qed.

Lemma mean_kept Ds kt bw nc n W : self_distances Ds n -> symmetric_distances Ds n ->
  (forall dim, (dim < length Ds)%nat -> exists k b, requests kt bw nc dim k (FixedBandwidth b) /\ 0 <= b) -> (0 < n)%nat ->
  weight_matrix_from_distance (map A2 Ds) kt RNone bw nc = Ok W ->
  exists w t, weights_are W n w /\ (forall i, (i < n)%nat -> 1 <= t i) /\
    forall y : nat -> R, Rsum (tabulate n (fun i => t i * Rsum (tabulate n (fun j => w i j * y j)))) = Rsum (tabulate n (fun i => t i * y i)).
Proof.
  intros [_ HZ] HS HB Hn HW. assert (HF : fixed_bandwidths kt bw nc (length Ds)) by (intros dim Hd; destruct (HB dim Hd) as (k & b & Q & _); exists k, b; exact Q).
  destruct (mutual_form Ds kt bw nc n W HS HF Hn HW) as (p & H1 & HD & HR & H2).
  specialize (HD HZ). assert (HD' : forall i, (i < n)%nat -> p i i = 1).
  { apply HD. intros dim k b Hd Q. destruct (HB dim Hd) as (k' & b' & Q' & Hb). destruct (req_unique _ _ _ _ _ _ _ _ Q Q') as [_ B]. injection B as ->. exact Hb. }
  set (t := fun i => Rsum (tabulate n (p i))) in *.
  assert (T1 : forall i, (i < n)%nat -> 1 <= t i).
  { intros i Hi. rewrite <- (HD' i Hi). apply (Rsum_ge_elem (tabulate n (p i))); [intros x Hx; apply in_map_iff in Hx as (j' & <- & Hj'); apply in_seq in Hj'; apply H1; auto; lia|]. apply in_map_iff. exists i. split; auto. apply in_seq. lia. }
  exists (fun i j => p i j / t i), t. split; [split; [exact HR|]|split; [exact T1|]].
  - intros i j Hi Hj. rewrite H2 by auto. f_equal. fold (t i). specialize (T1 i Hi). destruct (Req_EM_T (t i) 0); [lra|reflexivity].
  - intros y. transitivity (Rsum (tabulate n (fun i => Rsum (tabulate n (fun j => p i j * y j))))).
    + f_equal. apply tabulate_ext. intros i Hi. specialize (T1 i Hi). rewrite <- tab_scal. f_equal. apply tabulate_ext. intros j Hj. field. lra.
    + rewrite sum_swap. f_equal. apply tabulate_ext. intros j Hj. rewrite Rmult_comm. unfold t. rewrite <- tab_scal. f_equal. apply tabulate_ext. intros i Hi. rewrite (proj1 (H1 i j Hi Hj)). ring.
Qed.

(** ** counterexamples *)
Definition line : matrix R := [[0; 1; 2; 5]; [1; 0; 1; 4]; [2; 1; 0; 3]; [5; 4; 3; 0]].

Lemma line_valid : valid_distances [line] 4 4.
Proof. split; [discriminate|]. constructor; [|constructor]. split; [split; [reflexivity|repeat constructor]|repeat constructor; lra]. Qed.
Lemma line_symmetric : symmetric_distances [line] 4.
Proof. split; [exact line_valid|]. intros dim i j Hd Hi Hj. cbn in Hd. assert (dim = 0%nat) as -> by lia. destruct i as [|[|[|[|i]]]]; try lia; destruct j as [|[|[|[|j]]]]; try lia; reflexivity. Qed.
Lemma line_self : self_distances [line] 4.
Proof. split; [exact line_valid|]. intros dim i Hd Hi. cbn in Hd. assert (dim = 0%nat) as -> by lia. destruct i as [|[|[|[|i]]]]; try lia; reflexivity. Qed.


Lemma count_not_mutual k : vanishing_kernel k \/ k = "boxcar" ->
  exists Ds W, self_distances Ds 4 /\ symmetric_distances Ds 4 /\ weight_matrix_from_distance (map A2 Ds) (DScal k) RNone DNone (DScal (CInt 3)) = Ok W /\
    mget NaN W 3 2 <> Fin 0 /\ mget NaN W 2 3 = Fin 0.
Proof.
  intros HK. assert (Hk : known_kernel k) by (unfold vanishing_kernel in HK; unfold known_kernel; tauto).
  assert (HS : exists W, weight_matrix_from_distance (map A2 [line]) (DScal k) RNone DNone (DScal (CInt 3)) = Ok W).
  { apply (wm_success _ _ _ _ 4 4 line_valid ltac:(lia)). split; [intros [_ ?]; discriminate|]. intros dim Hd. exists k, (NearestCount 3). split; [|lia]. repeat split; cbn; auto. }
  destruct HS as (W & HW). exists [line], W. split; [exact line_self|]. split; [exact line_symmetric|]. split; [exact HW|].
  destruct (wm_product _ _ _ _ 4 4 W line_valid ltac:(lia) HW) as (_ & raw & H1 & H2).
  assert (E : forall i j b, (i < 4)%nat -> (j < 4)%nat -> kth_smallest (nth i line []) 3 b -> raw 0%nat i j = kernel_value k b (mget 0 line i j)).
  { intros i j b Hi Hj HB. destruct (H1 0%nat i j ltac:(cbn; lia) Hi Hj) as (k' & p & (K & _ & _ & _ & P) & R). cbn in K, P. injection K as <-. injection P as <-.
    cbn [nth] in R. assert (RW : raw_weight k (NearestCount 3) line i j (kernel_value k b (mget 0 line i j))).
    { exists b. split; [split; [lia|]; split; [|exact HB]; destruct i as [|[|[|[|i]]]]; try lia; cbn; lia|]. apply weighs_iff; auto. apply (dist_nonneg [line] 4 4 line_valid 0 i j); auto; cbn; lia. }
    apply (raw_unique _ _ _ _ _ _ _ R RW). }
  split.
  - apply (proj2 (H2 3%nat 2%nat ltac:(lia) ltac:(lia))). intros dim Hd. cbn in Hd. assert (dim = 0%nat) as -> by lia.
    rewrite (E 3%nat 2%nat 4) by (try lia; unfold kth_smallest, count, line; cbn [nth filter In]; rdec; cbn [length]; (split; [auto 10|]); simpl; lia).
    change (mget 0 line 3 2) with 3. intros Z. apply (kernel_value_support k 4 3 Hk) in Z; lra.
  - destruct (classic_fin0 (mget NaN W 2 3)) as [|N]; [assumption|]. exfalso. apply (proj1 (proj2 (H2 2%nat 3%nat ltac:(lia) ltac:(lia))) N 0%nat ltac:(cbn; lia)).
    rewrite (E 2%nat 3%nat 2) by (try lia; unfold kth_smallest, count, line; cbn [nth filter In]; rdec; cbn [length]; (split; [auto 10|]); simpl; lia).
    change (mget 0 line 2 3) with 3. apply (kernel_value_support k 2 3 Hk); [lra|lra|]. destruct HK; [left|right]; split; auto; lra.
Qed.

Lemma not_symmetric : exists Ds W, self_distances Ds 4 /\ symmetric_distances Ds 4 /\ weight_matrix_from_distance (map A2 Ds) (DScal "boxcar") RNone (DScal 1) DNone = Ok W /\
    mget NaN W 0 1 = Fin (1 / 2) /\ mget NaN W 1 0 = Fin (1 / 3).
Proof.
  assert (K : known_kernel "boxcar") by (unfold known_kernel; tauto).
  destruct (merge_success [line] [1] 4 4 "boxcar" line_valid ltac:(lia) eq_refl K) as (W & HW). exists [line], W. split; [exact line_self|]. split; [exact line_symmetric|].
  split; [exact HW|]. destruct (merge_form [line] [1] 4 4 "boxcar" line_valid ltac:(lia) eq_refl K W HW) as (_ & F).
  assert (V : forall d, kernel_value "boxcar" 1 d = if Rle_dec d 1 then 1 else 0).
  { intros d. unfold kernel_value. cbn [String.eqb Ascii.eqb Bool.eqb]. destruct (Req_EM_T 1 0); [lra|]. destruct (Rle_dec d 1); lra. }
  rewrite (proj1 (F 0%nat 1%nat ltac:(lia) ltac:(lia))), (proj1 (F 1%nat 0%nat ltac:(lia) ltac:(lia))).
  unfold product, tabulate. cbn [length seq map nth]. unfold mget, line. cbn [nth]. rewrite !V. repeat match goal with |- context[Rle_dec ?a ?b] => destruct (Rle_dec a b); try (exfalso; lra) end. unfold Rprod. cbn [fold_right]. rewrite !Rsum_cons, Rsum_nil.
  destruct (Req_EM_T _ 0); [exfalso; lra|]. destruct (Req_EM_T _ 0); [exfalso; lra|]. split; f_equal; field.
Qed.

Lemma euclidean_symmetric mkw sm kw pts n d : rect pts n d -> (0 < n)%nat ->
  exists D, distance_matrix (fun x => x) mkw sm pts (Some pts) "euclidean" kw = Ok (A2 D) /\ self_distances [D] n /\ symmetric_distances [D] n.
Proof.
  intros HR Hn. destruct (euclid_matrix_metric mkw sm kw pts n d HR Hn) as (D & H1 & H2 & M). exists D. split; [exact H1|].
  assert (V : valid_distances [D] n n).
  { split; [discriminate|]. constructor; [|constructor]. split; [apply M|]. apply (entries_mget (Rle 0) D n n (mt_rect _ _ _ M)). apply M. }
  split; (split; [exact V|]).
  - intros dim i Hd Hi. cbn in Hd. assert (dim = 0%nat) as -> by lia. cbn [nth]. apply (mt_zero _ _ _ M i i Hi Hi). reflexivity.
  - intros dim i j Hd Hi Hj. cbn in Hd. assert (dim = 0%nat) as -> by lia. cbn [nth]. apply (mt_sym _ _ _ M i j Hi Hj).
Qed.
