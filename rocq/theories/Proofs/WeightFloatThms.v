(** Properties of the rounded weight matrix: range, support, order, sums. *)
From Coq Require Import Lra Psatz ZArith.
From Flocq.Core Require Import Core.
From Verif.Model Require Import Base Ext Sort Kernel Distance WeightMatrix KernelFloat WeightFloat Float32.
From Verif.Spec Require Import KernelSpec WeightSpec FloatSpec WeightFloatSpec.
From Verif.Proofs Require Import ListFacts KernelFacts SortFacts AdaptiveFacts KernelProps KernelExamples SumFacts CsrFacts WeightFacts WeightProps FloatFacts Float64Facts FloatNorm Float32Facts WeightFloatFacts WeightFloatProps.
Open Scope string_scope.
Open Scope nat_scope.
Open Scope R_scope.

Lemma row_bandwidth_fl_unique quantile p row b b' : row_bandwidth_fl quantile p row b -> row_bandwidth_fl quantile p row b' -> b = b'.
Proof.
  destruct p as [b0|z|q]; simpl.
  - congruence.
  - intros [_ [_ H]] [_ [_ H']]. eapply kth_smallest_unique; eauto.
  - intros [_ [_ H]] [_ [_ H']]. congruence.
Qed.
Lemma requests_unique kt bw nc dim k k' p p' : requests kt bw nc dim k p -> requests kt bw nc dim k' p' -> k = k' /\ p = p'.
Proof. intros (H1 & _ & _ & _ & H2) (H1' & _ & _ & _ & H2'). split; congruence. Qed.

Lemma nth_get V r c i j : rect V r c -> (i < r)%nat -> (j < c)%nat -> mget NaN (mmap Fin V) i j = Fin (nth j (nth i V []) 0).
Proof.
  intros HV Hi Hj. unfold mget, mmap. rewrite (nth_map_in _ V i [] []) by (destruct HV as [-> _]; exact Hi).
  apply nth_map_in. rewrite (rect_row _ _ _ _ HV Hi). exact Hj.
Qed.

  Lemma fin_map_inj (a b : list R) : map Fin a = map Fin b -> a = b.
  Proof. revert b. induction a as [|x a IH]; intros [|y b] E; simpl in E; try discriminate; auto. injection E as -> E. f_equal; auto. Qed.

  Lemma float_sum_le_len fl (HR : rounding fl) l x : float_sum fl l x -> (forall m, (m <= length l)%nat -> representable fl (INR m)) ->
    Forall (fun w => w <= 1) l -> x <= INR (length l).
  Proof.
    intros H. induction H as [|y|l l1 l2 a b x HP H1 IH1 H2 IH2 E]; intros HI HF.
    - simpl. lra.
    - inversion HF; subst. simpl. lra.
    - pose proof (Permutation_length HP) as EL. rewrite app_length in EL.
      assert (HF' : Forall (fun w => w <= 1) (l1 ++ l2)) by (apply (Permutation_Forall HP HF)). apply Forall_app in HF' as [F1 F2].
      specialize (IH1 ltac:(intros; apply HI; lia) F1). specialize (IH2 ltac:(intros; apply HI; lia) F2).
      assert (L : a + b <= INR (length l)) by (rewrite EL, plus_INR; lra).
      pose proof (proj1 HR _ _ L) as M. pose proof (HI (length l) ltac:(lia)) as Hn. unfold representable in Hn. rewrite E, Hn in M. exact M.
  Qed.

Section WT.
  Variable fl fexp fcube : R -> ext.
  Hypothesis HR : rounding fl.
  Hypothesis HE : faithful_exp fl fexp.
  Hypothesis HC : faithful_cube fl fcube.
  Variable rowsum : list ext -> ext.
  Variable quantile : R -> list R -> R.
  Variable Ds : list (matrix R).
  Variable kt : dim_arg string.
  Variable bw : dim_arg R.
  Variable nc : dim_arg count_arg.
  Variable r c : nat.
  Variable W : matrix ext.
  Hypothesis HV : valid_distances Ds r c.
  Hypothesis Hr : (0 < r)%nat.
  Hypothesis HS : sums_rows fl rowsum c.
  Hypothesis HW : weight_matrix_from_distance_fl fl fexp fcube rowsum quantile Ds kt bw nc = Ok W.

  Lemma dist_nonneg dim i j : (dim < length Ds)%nat -> (i < r)%nat -> (j < c)%nat -> 0 <= mget 0 (nth dim Ds []) i j.
  Proof.
    intros Hd Hi Hj. pose proof (proj1 (Forall_nth_lt _ ([] : matrix R) _) (proj2 HV) dim Hd) as [HR1 HE1].
    unfold mget. apply (proj1 (Forall_nth_lt (Rle 0) 0 (nth i (nth dim Ds []) []))).
    - apply (proj1 (Forall_nth_lt (Forall (Rle 0)) [] (nth dim Ds []))); [exact HE1|]. destruct HR1 as [-> _]. exact Hi.
    - rewrite (rect_row _ _ _ _ HR1 Hi). exact Hj.
  Qed.

  Lemma raw_at_nth raw i j dim : (dim < length Ds)%nat -> In (raw dim i j) (raw_at Ds raw i j).
  Proof.
    intros H. unfold raw_at. rewrite <- (tabulate_nth (length Ds) (fun d => raw d i j) dim 0) by exact H.
    apply nth_In. rewrite tabulate_length. exact H.
  Qed.
  Lemma raw_at_In raw i j w : In w (raw_at Ds raw i j) -> exists dim, (dim < length Ds)%nat /\ w = raw dim i j.
  Proof.
    intros H. destruct (In_nth _ _ 0 H) as (dim & Hd & E). unfold raw_at in Hd, E. rewrite tabulate_length in Hd.
    rewrite tabulate_nth in E by exact Hd. eauto.
  Qed.

  (** What is known of one row. *)
  Lemma row_facts : exists ks ps bs raw p s V,
      (forall dim, (dim < length Ds)%nat -> requests kt bw nc dim (ks dim) (ps dim)) /\
      (forall dim i, (dim < length Ds)%nat -> (i < r)%nat -> row_bandwidth_fl quantile (ps dim) (nth i (nth dim Ds []) []) (bs dim i)) /\
      (forall dim i j, (dim < length Ds)%nat -> (i < r)%nat -> (j < c)%nat ->
         weighs_fl fl fexp fcube (ks dim) (bs dim i) (mget 0 (nth dim Ds []) i j) (raw dim i j) /\
         0 <= raw dim i j <= 1 /\ representable fl (raw dim i j)) /\
      (forall i j, (i < r)%nat -> (j < c)%nat -> 0 <= p i j <= 1 /\ representable fl (p i j) /\
         (forall dim, (dim < length Ds)%nat -> p i j <= raw dim i j) /\
         ((forall dim, (dim < length Ds)%nat -> raw dim i j = 1) -> p i j = 1) /\
         (length Ds = 1%nat -> p i j = raw 0%nat i j)) /\
      (forall i j j', (i < r)%nat -> (j < c)%nat -> (j' < c)%nat ->
         (forall dim, (dim < length Ds)%nat -> raw dim i j <= raw dim i j') -> p i j <= p i j') /\
      (forall i, (i < r)%nat -> float_sum fl (tabulate c (p i)) (s i)) /\
      W = mmap Fin V /\ rect V r c /\
      (forall i, (i < r)%nat -> normalise_row_fl fl (map Fin (tabulate c (p i))) (Fin (s i)) = map Fin (nth i V [])).
  Proof.
    destruct (wfl_inv fl fexp fcube HR HE HC rowsum quantile Ds kt bw nc r c HV Hr HS W HW) as (ks & ps & bs & raw & p & s & V & H1 & H2 & H3 & H4 & H5 & H6 & H7 & H8).
    assert (HU : forall i j, (i < r)%nat -> (j < c)%nat -> Forall (fun w => 0 <= w <= 1 /\ representable fl w) (raw_at Ds raw i j)).
    { intros i j Hi Hj. apply Forall_forall. intros w Hw. destruct (raw_at_In _ _ _ _ Hw) as (dim & Hd & ->). apply H3; auto. }
    exists ks, ps, bs, raw, p, s, V. split; [exact H1|]. split; [exact H2|]. split; [intros; apply H3; auto|]. split; [|split; [|auto]].
    - intros i j Hi Hj. destruct (H4 i j Hi Hj) as [[U1 U2] F]. split; [exact U1|]. split; [exact U2|].
      pose proof (HU i j Hi Hj) as HA. pose proof (fun dim => raw_at_nth raw i j dim) as HI. pose proof (fun w => raw_at_In raw i j w) as HJ.
      assert (HL : length (raw_at Ds raw i j) = length Ds) by apply tabulate_length.
      destruct (raw_at Ds raw i j) as [|w ws] eqn:Er; [contradiction|]. inversion HA as [|? ? Hw Hws]; subst.
      destruct (fold_unit fl HR ws Hws w Hw) as (x & Ex & _ & Xw & Xa & X1). rewrite F in Ex. injection Ex as <-.
      split; [|split].
      + intros dim Hd. destruct (HI dim Hd) as [<-|Hx]; [exact Xw|apply Xa; exact Hx].
      + intros HO. apply X1; [|intros v Hv]; match goal with |- ?y = 1 => destruct (HJ y) as (dim & Hd & ->); [simpl; auto|apply HO; exact Hd] end.
      + intros HL1. rewrite HL1 in HL. destruct ws; [|discriminate]. simpl in F. injection F as <-.
        destruct (HJ w) as (dim & Hd & E); [left; auto|]. rewrite HL1 in Hd. assert (dim = 0%nat) as -> by lia. exact E.
    - intros i j j' Hi Hj Hj' HL. destruct (H4 i j Hi Hj) as [_ F]. destruct (H4 i j' Hi Hj') as [_ F'].
      assert (HF2 : Forall2 (fun w v => (0 <= w <= 1 /\ representable fl w) /\ (0 <= v <= 1 /\ representable fl v) /\ w <= v) (raw_at Ds raw i j) (raw_at Ds raw i j')).
      { unfold raw_at, tabulate. assert (G : forall dim, In dim (seq 0 (length Ds)) -> (dim < length Ds)%nat) by (intros dim Hd; apply in_seq in Hd; lia).
        induction (seq 0 (length Ds)) as [|x l IH]; simpl; constructor.
        - assert (Hx : (x < length Ds)%nat) by (apply G; left; auto). split; [apply H3; auto|]. split; [apply H3; auto|apply HL; exact Hx].
        - apply IH. intros dim Hd. apply G. right; auto. }
      destruct HF2 as [|w v ws vs [Uw [Uv L]] HF2]; [contradiction|].
      apply (fold_mono fl HR ws vs HF2 w v _ _ Uw Uv L F F').
  Qed.

  Lemma p_row (p : nat -> nat -> R) (i : nat) : (forall j, (j < c)%nat -> 0 <= p i j <= 1 /\ representable fl (p i j)) ->
    Forall (fun w => 0 <= w /\ representable fl w) (tabulate c (p i)).
  Proof.
    intros H. apply (proj2 (Forall_nth_lt _ 0 _)). rewrite tabulate_length. intros j Hj. rewrite tabulate_nth by exact Hj.
    destruct (H j Hj). split; [lra|auto].
  Qed.

  Theorem fl_entries : exists V, W = mmap Fin V /\ rect V r c /\ entries (fun v => 0 <= v <= 1) V.
  Proof.
    destruct row_facts as (ks & ps & bs & raw & p & s & V & _ & _ & _ & H4 & _ & H5 & -> & HVr & H8).
    exists V. split; [reflexivity|]. split; [exact HVr|]. apply (proj2 (Forall_nth_lt _ [] _)). intros i Hi.
    destruct HVr as [HL _]. rewrite HL in Hi.
    destruct (normalise_unit fl HR (tabulate c (p i)) (s i)) as (vs & Ev & _ & HU & _); [apply p_row; intros; split; apply H4; auto|apply H5; auto|].
    rewrite H8 in Ev by exact Hi. assert (E : vs = nth i V []).
    { assert (HI : forall a b : list R, map Fin a = map Fin b -> a = b). { induction a as [|x a IH]; intros [|y b] E; simpl in E; try discriminate; auto. injection E as -> E. f_equal; auto. }
      symmetry. apply HI. exact Ev. }
    rewrite <- E. exact HU.
  Qed.

  Theorem fl_outside dim k q b i j : (dim < length Ds)%nat -> (i < r)%nat -> (j < c)%nat ->
    requests kt bw nc dim k q -> row_bandwidth_fl quantile q (nth i (nth dim Ds []) []) b -> 0 < b ->
    outside k b (mget 0 (nth dim Ds []) i j) -> mget NaN W i j = Fin 0.
  Proof.
    intros Hd Hi Hj HQ HB Hb HO.
    destruct row_facts as (ks & ps & bs & raw & p & s & V & H1 & H2 & H3 & H4 & _ & H5 & -> & HVr & H8).
    destruct (requests_unique _ _ _ _ _ _ _ _ HQ (H1 dim Hd)) as [-> ->].
    pose proof (row_bandwidth_fl_unique _ _ _ _ _ HB (H2 dim i Hd Hi)) as ->.
    destruct (H3 dim i j Hd Hi Hj) as (HWt & _).
    pose proof (outside_fl fl fexp fcube HR HC _ _ _ _ (dist_nonneg dim i j Hd Hi Hj) Hb HO HWt) as E0.
    destruct (H4 i j Hi Hj) as (U1 & _ & HP & _). specialize (HP dim Hd). assert (Ep : p i j = 0) by lra.
    destruct (normalise_unit fl HR (tabulate c (p i)) (s i)) as (vs & Ev & _ & _ & HZ & _); [apply p_row; intros; split; apply H4; auto|apply H5; auto|].
    rewrite H8 in Ev by exact Hi. apply fin_map_inj in Ev. subst vs.
    rewrite (nth_get V r c i j HVr Hi Hj). f_equal. apply HZ; [rewrite tabulate_length; exact Hj|]. rewrite tabulate_nth by exact Hj. exact Ep.
  Qed.

  Hypothesis Hbw : forall dim b, arg_at bw dim = Some b -> 0 <= b.
  Hypothesis Hqu : forall q row, Forall (Rle 0) row -> 0 <= quantile q row.

  Lemma bandwidth_nonneg dim k p i b : (dim < length Ds)%nat -> (i < r)%nat -> requests kt bw nc dim k p ->
    row_bandwidth_fl quantile p (nth i (nth dim Ds []) []) b -> 0 <= b.
  Proof.
    intros Hd Hi HQ HB. pose proof (proj1 (Forall_nth_lt _ ([] : matrix R) _) (proj2 HV) dim Hd) as [HR1 HE1].
    assert (HN : Forall (Rle 0) (nth i (nth dim Ds []) [])).
    { apply (proj1 (Forall_nth_lt (Forall (Rle 0)) [] (nth dim Ds []))); [exact HE1|]. destruct HR1 as [-> _]. exact Hi. }
    destruct HQ as (_ & _ & _ & _ & HQ). destruct p as [b0|z|q]; simpl in HB.
    - subst b0. unfold rule_of in HQ. destruct (arg_at bw dim) as [b'|] eqn:E; [|destruct (arg_at nc dim) as [[| |]|]; discriminate].
      destruct (arg_at nc dim); [discriminate|]. injection HQ as <-. eapply Hbw; eauto.
    - destruct HB as (_ & _ & HI & _). rewrite Forall_forall in HN. auto.
    - destruct HB as (_ & _ & ->). auto.
  Qed.

  Theorem fl_nearer i j j' v v' :
    increasing_on (fun t => t <= 0) fexp -> increasing_on (fun t => 0 <= t <= 1) fcube ->
    (i < r)%nat -> (j < c)%nat -> (j' < c)%nat ->
    (forall D, In D Ds -> mget 0 D i j <= mget 0 D i j') ->
    mget NaN W i j = Fin v -> mget NaN W i j' = Fin v' -> v' <= v.
  Proof.
    intros I1 I2 Hi Hj Hj' HD.
    destruct row_facts as (ks & ps & bs & raw & p & s & V & H1 & H2 & H3 & H4 & HM & H5 & -> & HVr & H8).
    destruct (normalise_unit fl HR (tabulate c (p i)) (s i)) as (vs & Ev & _ & _ & _ & _ & HO); [apply p_row; intros; split; apply H4; auto|apply H5; auto|].
    rewrite H8 in Ev by exact Hi. apply fin_map_inj in Ev. subst vs.
    rewrite (nth_get V r c i j HVr Hi Hj), (nth_get V r c i j' HVr Hi Hj').
    intros E E'. injection E as <-. injection E' as <-. apply HO; rewrite ?tabulate_length; auto.
    rewrite !tabulate_nth by auto. apply HM; auto. intros dim Hd.
    destruct (H3 dim i j Hd Hi Hj) as (Wj & _). destruct (H3 dim i j' Hd Hi Hj') as (Wj' & _).
    apply (nearer_fl fl fexp fcube HR HE HC (ks dim) (bs dim i) (mget 0 (nth dim Ds []) i j) (mget 0 (nth dim Ds []) i j') _ _ I1 I2); auto.
    - apply (H1 dim Hd).
    - eapply bandwidth_nonneg; eauto.
    - split; [apply dist_nonneg; auto|]. apply HD. apply nth_In. exact Hd.
  Qed.

  (** A coinciding pair has product 1. *)
  Lemma coincident_one ks ps bs raw p i j :
    (forall dim, (dim < length Ds)%nat -> requests kt bw nc dim (ks dim) (ps dim)) ->
    (forall dim i, (dim < length Ds)%nat -> (i < r)%nat -> row_bandwidth_fl quantile (ps dim) (nth i (nth dim Ds []) []) (bs dim i)) ->
    (forall dim, (dim < length Ds)%nat -> weighs_fl fl fexp fcube (ks dim) (bs dim i) (mget 0 (nth dim Ds []) i j) (raw dim i j)) ->
    ((forall dim, (dim < length Ds)%nat -> raw dim i j = 1) -> p = 1) ->
    (i < r)%nat -> (j < c)%nat -> (forall D, In D Ds -> mget 0 D i j = 0) -> p = 1.
  Proof.
    intros H1 H2 H3 H4 Hi Hj HD. apply H4. intros dim Hd. specialize (H3 dim Hd).
    rewrite (HD (nth dim Ds [])) in H3 by (apply nth_In; exact Hd).
    assert (Hk : known_kernel (ks dim)) by apply (H1 dim Hd).
    pose proof (coincident_fl fl fexp fcube HR HE HC (ks dim) (bs dim i) Hk) as HW1.
    assert (0 <= bs dim i) by (eapply bandwidth_nonneg; eauto). specialize (HW1 H).
    unfold weighs_fl in H3, HW1. rewrite H3 in HW1. congruence.
  Qed.

  Theorem fl_row_sum u eta i j : accurate fl u eta -> (i < r)%nat -> (j < c)%nat ->
    (forall D, In D Ds -> mget 0 D i j = 0) ->
    exists vs, nth i W [] = map Fin vs /\ length vs = c /\
      (1 - u) / (1 + u) ^ (c - 1) - INR c * eta <= Rsum vs <= (1 + u) / (1 - u) ^ (c - 1) + INR c * eta.
  Proof.
    intros HA Hi Hj HD.
    destruct row_facts as (ks & ps & bs & raw & p & s & V & H1 & H2 & H3 & H4 & HM & H5 & -> & HVr & H8).
    destruct (normalise_sum fl HR u eta (tabulate c (p i)) (s i) HA) as (vs & Ev & HB); [apply p_row; intros; split; apply H4; auto|apply H5; auto| |].
    - exists (p i j). split; [rewrite <- (tabulate_nth c (p i) j 0) by exact Hj; apply nth_In; rewrite tabulate_length; exact Hj|].
      assert (E1 : p i j = 1).
      { apply (coincident_one ks ps bs raw (p i j) i j H1 H2); auto; [intros; apply H3; auto|apply H4; auto]. }
      rewrite E1. lra.
    - rewrite H8 in Ev by exact Hi. apply fin_map_inj in Ev. subst vs.
      exists (nth i V []). rewrite tabulate_length in HB. split; [|split; [apply (rect_row _ _ _ _ HVr Hi)|exact HB]].
      unfold mmap. apply nth_map_in. destruct HVr as [-> _]. exact Hi.
  Qed.

End WT.
