(** Proofs for C194: several dimensions as one. *)
From Coq Require Import Lra Lia Psatz.
From Verif.Model Require Import Base Ext Kernel Distance WeightMatrix.
From Verif.Spec Require Import KernelSpec WeightSpec OneDimSpec.
From Verif.Proofs Require Import ListFacts SumFacts DistanceFacts CacheLazyProps MoranFacts KernelFacts WeightFacts WeightProps.
Open Scope string_scope.
Open Scope nat_scope.
Open Scope R_scope.

Section Merge.
  Variables (Ds : list (matrix R)) (bs : list R) (r c : nat) (k : string).
  Hypothesis HV : valid_distances Ds r c.
  Hypothesis Hr : (0 < r)%nat.
  Hypothesis HL : length bs = length Ds.
  Hypothesis Hb : forall dim, (dim < length Ds)%nat -> 0 < nth dim bs 0.
  Hypothesis Hk : known_kernel k.

  Lemma bs_at dim : (dim < length Ds)%nat -> nth dim (map Some bs) None = Some (nth dim bs 0).
  Proof using HL. clear Hr. intros H. rewrite (nth_indep _ None (Some 0)) by (rewrite map_length; lia). apply map_nth. Qed.

  Lemma dist_nonneg dim i j : (dim < length Ds)%nat -> (i < r)%nat -> (j < c)%nat -> 0 <= mget 0 (nth dim Ds []) i j.
  Proof using HV.
    clear Hr HL.
    intros Hd Hi Hj. destruct HV as [_ H]. rewrite Forall_forall in H. destruct (H (nth dim Ds [])) as [[R1 R2] HE]; [apply nth_In; auto|].
    unfold mget. unfold entries in HE. rewrite Forall_forall in HE, R2. assert (HI : In (nth i (nth dim Ds []) []) (nth dim Ds [])) by (apply nth_In; lia).
    specialize (HE _ HI). rewrite Forall_forall in HE. apply HE, nth_In. rewrite (R2 _ HI); auto.
  Qed.
  Lemma ratio_nonneg dim i j : (dim < length Ds)%nat -> (i < r)%nat -> (j < c)%nat -> 0 <= ratio Ds bs dim i j.
  Proof using HV Hb. clear Hr HL. intros Hd Hi Hj. unfold ratio. apply Rmult_le_pos; [apply dist_nonneg; auto|]. left. apply Rinv_0_lt_compat; auto. Qed.

  Lemma merge_success : exists W, weight_matrix_from_distance (map A2 Ds) (DScal k) RNone (DList (map Some bs)) DNone = Ok W.
  Proof using HV Hr HL Hk.
    apply (wm_success _ _ _ _ r c HV Hr). split; [intros [? _]; discriminate|]. intros dim Hd. exists k, (FixedBandwidth (nth dim bs 0)). split; [|exact I].
    repeat split; cbn; auto; [rewrite map_length; lia|]. rewrite bs_at by auto. reflexivity.
  Qed.

  Definition product i j := Rprod (tabulate (length Ds) (fun dim => kernel_value k (nth dim bs 0) (mget 0 (nth dim Ds []) i j))).

  Lemma merge_form W : weight_matrix_from_distance (map A2 Ds) (DScal k) RNone (DList (map Some bs)) DNone = Ok W ->
    rect W r c /\ forall i j, (i < r)%nat -> (j < c)%nat ->
      mget NaN W i j = Fin (if Req_EM_T (Rsum (tabulate c (product i))) 0 then 0 else product i j / Rsum (tabulate c (product i))) /\
      (mget NaN W i j <> Fin 0 <-> forall dim, (dim < length Ds)%nat -> kernel_value k (nth dim bs 0) (mget 0 (nth dim Ds []) i j) <> 0).
  Proof using HV Hr HL Hk.
    intros H. destruct (wm_product _ _ _ _ r c W HV Hr H) as (HR & raw & H1 & H2). split; [exact HR|].
    assert (E : forall dim i j, (dim < length Ds)%nat -> (i < r)%nat -> (j < c)%nat -> raw dim i j = kernel_value k (nth dim bs 0) (mget 0 (nth dim Ds []) i j)).
    { intros dim i j Hd Hi Hj. destruct (H1 dim i j Hd Hi Hj) as (k' & p & (K & _ & _ & _ & P) & x & X & Y). cbn in K, P. injection K as <-. rewrite bs_at in P by auto. injection P as <-.
      cbn in X. subst x. apply weighs_iff in Y; auto. apply dist_nonneg; auto. }
    intros i j Hi Hj. destruct (H2 i j Hi Hj) as [G1 G2]. cbv zeta in G1.
    assert (EP : forall l, (l < c)%nat -> Rprod (tabulate (length Ds) (fun dim => raw dim i l)) = product i l).
    { intros l Hl. unfold product. f_equal. apply tabulate_ext. intros dim Hd. apply E; auto. }
    assert (ES : tabulate c (fun l => Rprod (tabulate (length Ds) (fun dim => raw dim i l))) = tabulate c (product i)) by (apply tabulate_ext; intros; apply EP; auto).
    rewrite ES, EP in G1 by auto. split; [exact G1|]. rewrite G2. split; intros A dim Hd; specialize (A dim Hd); rewrite E in * by auto; auto.
  Qed.
End Merge.

Lemma merge_equal Ds bs r c k D : valid_distances Ds r c -> (0 < r)%nat -> length bs = length Ds ->
  (forall dim, (dim < length Ds)%nat -> 0 < nth dim bs 0) -> known_kernel k -> valid_distances [D] r c ->
  (forall i j, (i < r)%nat -> (j < c)%nat -> product Ds bs k i j = kernel_value k 1 (mget 0 D i j)) ->
  weight_matrix_from_distance (map A2 Ds) (DScal k) RNone (DList (map Some bs)) DNone =
  weight_matrix_from_distance [A2 D] (DScal k) RNone (DScal 1) DNone.
Proof.
  intros HV Hr HL Hb Hk HD HE.
  transitivity (weight_matrix_from_distance (map A2 [D]) (DScal k) RNone (DList (map Some [1])) DNone); [|reflexivity].
  assert (Hb1 : forall dim, (dim < length [D])%nat -> 0 < nth dim [1] 0) by (intros dim Hd; cbn in Hd; assert (dim = 0%nat) as -> by lia; cbn; lra).
  destruct (merge_success Ds bs r c k HV Hr HL Hk) as (W & H). destruct (merge_success [D] [1] r c k HD Hr eq_refl Hk) as (W' & H').
  rewrite H, H'. f_equal. destruct (merge_form Ds bs r c k HV Hr HL Hk W H) as (R1 & F1). destruct (merge_form [D] [1] r c k HD Hr eq_refl Hk W' H') as (R2 & F2).
  rewrite (mtab_of NaN W r c R1), (mtab_of NaN W' r c R2). apply mtab_ext. intros i j Hi Hj.
  rewrite (proj1 (F1 i j Hi Hj)), (proj1 (F2 i j Hi Hj)).
  assert (EQ : forall l, (l < c)%nat -> product Ds bs k i l = product [D] [1] k i l).
  { intros l Hl. rewrite HE by auto. change (kernel_value k 1 (mget 0 D i l) = kernel_value k 1 (mget 0 D i l) * 1). ring. }
  replace (tabulate c (product [D] [1] k i)) with (tabulate c (product Ds bs k i)) by (apply tabulate_ext; auto). rewrite EQ by auto. reflexivity.
Qed.

Lemma Rprod_exp n f : Rprod (tabulate n (fun i => exp (f i))) = exp (Rsum (tabulate n f)).
Proof.
  unfold tabulate. generalize (seq 0 n). intros l. induction l as [|x l IH]; [cbn; rewrite exp_0; reflexivity|].
  cbn [map]. rewrite Rsum_cons, exp_plus, <- IH. reflexivity.
Qed.

Lemma tab_valid r c f : (forall i j, (i < r)%nat -> (j < c)%nat -> 0 <= f i j) -> valid_distances [mtab r c f] r c.
Proof.
  intros H. split; [discriminate|]. constructor; [|constructor]. split; [apply mtab_rect|].
  apply Forall_forall. intros row Hrow. apply in_map_iff in Hrow as (i & <- & Hi). apply in_seq in Hi. apply Forall_forall. intros x Hx. apply in_map_iff in Hx as (j & <- & Hj). apply in_seq in Hj. apply H; lia.
Qed.

Lemma squares_nonneg Ds bs i j : 0 <= Rsum (tabulate (length Ds) (fun dim => ratio Ds bs dim i j ^ 2)).
Proof. apply Rsum_nonneg. intros x Hx. apply in_map_iff in Hx as (dim & <- & _). apply pow2_ge_0. Qed.
Lemma ratios_nonneg Ds bs r c i j : valid_distances Ds r c -> (forall dim, (dim < length Ds)%nat -> 0 < nth dim bs 0) -> (i < r)%nat -> (j < c)%nat ->
  0 <= Rsum (tabulate (length Ds) (fun dim => ratio Ds bs dim i j)).
Proof. intros HV Hb Hi Hj. apply Rsum_nonneg. intros x Hx. apply in_map_iff in Hx as (dim & <- & Hd). apply in_seq in Hd. apply (ratio_nonneg Ds bs r c HV Hb); auto; lia. Qed.

Lemma gaussian_merge Ds bs r c : valid_distances Ds r c -> (0 < r)%nat -> length bs = length Ds -> (forall dim, (dim < length Ds)%nat -> 0 < nth dim bs 0) ->
  weight_matrix_from_distance (map A2 Ds) (DScal "gaussian") RNone (DList (map Some bs)) DNone =
  weight_matrix_from_distance [A2 (root_of_squares Ds bs r c)] (DScal "gaussian") RNone (DScal 1) DNone.
Proof.
  intros HV Hr HL Hb. apply (merge_equal Ds bs r c); auto; [unfold known_kernel; tauto|apply tab_valid; intros; apply sqrt_pos|].
  intros i j Hi Hj. unfold root_of_squares. rewrite mtab_get by auto. unfold product.
  transitivity (Rprod (tabulate (length Ds) (fun dim => exp (-1 / 2 * ratio Ds bs dim i j ^ 2)))).
  - f_equal. apply tabulate_ext. intros dim Hd. specialize (Hb dim Hd). unfold kernel_value. cbn [String.eqb Ascii.eqb Bool.eqb]. destruct (Req_EM_T (nth dim bs 0) 0); [lra|]. cbv zeta. fold (ratio Ds bs dim i j). f_equal. field.
  - rewrite Rprod_exp. unfold kernel_value. cbn [String.eqb Ascii.eqb Bool.eqb]. destruct (Req_EM_T 1 0); [lra|]. cbv zeta. f_equal.
    set (s := Rsum (tabulate (length Ds) (fun dim => ratio Ds bs dim i j ^ 2))).
    replace ((sqrt s / 1) ^ 2) with (sqrt s * sqrt s) by field. rewrite sqrt_sqrt by apply squares_nonneg. unfold tabulate. rewrite Rsum_map_scal. fold (tabulate (length Ds) (fun dim => ratio Ds bs dim i j ^ 2)). fold s. field.
Qed.

Lemma exponential_merge Ds bs r c : valid_distances Ds r c -> (0 < r)%nat -> length bs = length Ds -> (forall dim, (dim < length Ds)%nat -> 0 < nth dim bs 0) ->
  weight_matrix_from_distance (map A2 Ds) (DScal "exponential") RNone (DList (map Some bs)) DNone =
  weight_matrix_from_distance [A2 (sum_of_ratios Ds bs r c)] (DScal "exponential") RNone (DScal 1) DNone.
Proof.
  intros HV Hr HL Hb. apply (merge_equal Ds bs r c); auto; [unfold known_kernel; tauto|apply tab_valid; intros; apply (ratios_nonneg Ds bs r c); auto|].
  intros i j Hi Hj. unfold sum_of_ratios. rewrite mtab_get by auto. unfold product.
  transitivity (Rprod (tabulate (length Ds) (fun dim => exp (-1 / 2 * ratio Ds bs dim i j)))).
  - f_equal. apply tabulate_ext. intros dim Hd. pose proof (ratio_nonneg Ds bs r c HV Hb dim i j Hd Hi Hj). specialize (Hb dim Hd). unfold kernel_value. cbn [String.eqb Ascii.eqb Bool.eqb]. destruct (Req_EM_T (nth dim bs 0) 0); [lra|]. cbv zeta. fold (ratio Ds bs dim i j). rewrite Rabs_right by lra. f_equal. field.
  - rewrite Rprod_exp. unfold kernel_value. cbn [String.eqb Ascii.eqb Bool.eqb]. destruct (Req_EM_T 1 0); [lra|]. cbv zeta. f_equal.
    pose proof (ratios_nonneg Ds bs r c i j HV Hb Hi Hj) as HN. set (s := Rsum (tabulate (length Ds) (fun dim => ratio Ds bs dim i j))) in *.
    replace (s / 1) with s by field. rewrite Rabs_right by lra. unfold tabulate. rewrite Rsum_map_scal. fold (tabulate (length Ds) (fun dim => ratio Ds bs dim i j)). fold s. field.
Qed.

(** ** kernels that vanish *)
Lemma ratio_le Ds bs dim i j : (dim < length Ds)%nat -> 0 <= ratio Ds bs dim i j ->
  ratio Ds bs dim i j <= sqrt (Rsum (tabulate (length Ds) (fun dim => ratio Ds bs dim i j ^ 2))).
Proof.
  intros Hd H0. rewrite <- (sqrt_pow2 (ratio Ds bs dim i j) H0) at 1. apply sqrt_le_1_alt.
  apply (Rsum_ge_elem (tabulate (length Ds) (fun dim => ratio Ds bs dim i j ^ 2))).
  - intros x Hx. apply in_map_iff in Hx as (d & <- & _). apply pow2_ge_0.
  - apply in_map_iff. exists dim. split; auto. apply in_seq. lia.
Qed.

Lemma within Ds bs r c k W W' : valid_distances Ds r c -> (0 < r)%nat -> length bs = length Ds -> (forall dim, (dim < length Ds)%nat -> 0 < nth dim bs 0) -> known_kernel k ->
  weight_matrix_from_distance (map A2 Ds) (DScal k) RNone (DList (map Some bs)) DNone = Ok W ->
  weight_matrix_from_distance [A2 (root_of_squares Ds bs r c)] (DScal k) RNone (DScal 1) DNone = Ok W' ->
  forall i j, (i < r)%nat -> (j < c)%nat -> mget NaN W' i j <> Fin 0 -> mget NaN W i j <> Fin 0.
Proof.
  intros HV Hr HL Hb Hk H H' i j Hi Hj. set (D := root_of_squares Ds bs r c) in *.
  assert (HD : valid_distances [D] r c) by (apply tab_valid; intros; apply sqrt_pos).
  change (weight_matrix_from_distance (map A2 [D]) (DScal k) RNone (DList (map Some [1])) DNone = Ok W') in H'.
  destruct (merge_form Ds bs r c k HV Hr HL Hk W H) as (_ & F1). destruct (merge_form [D] [1] r c k HD Hr eq_refl Hk W' H') as (_ & F2).
  rewrite (proj2 (F1 i j Hi Hj)), (proj2 (F2 i j Hi Hj)). intros A dim Hd E. specialize (A 0%nat ltac:(cbn; lia)). cbn [nth] in A. apply A.
  pose proof (Hb dim Hd) as HB. pose proof (dist_nonneg Ds r c HV dim i j Hd Hi Hj) as HN.
  pose proof (ratio_le Ds bs dim i j Hd (ratio_nonneg Ds bs r c HV Hb dim i j Hd Hi Hj)) as HQ.
  assert (ED : mget 0 D i j = sqrt (Rsum (tabulate (length Ds) (fun dim => ratio Ds bs dim i j ^ 2)))) by (unfold D, root_of_squares; apply mtab_get; auto).
  rewrite <- ED in HQ. assert (Hp : 0 <= mget 0 D i j) by (rewrite ED; apply sqrt_pos).
  apply (kernel_value_support k _ _ Hk HN HB) in E. apply (kernel_value_support k 1 _ Hk Hp ltac:(lra)).
  unfold ratio in HQ. set (d := mget 0 (nth dim Ds []) i j) in *. set (b := nth dim bs 0) in *. assert (EB : d = d / b * b) by (field; lra).
  destruct E as [[V E]|[V E]]; [left|right]; (split; [exact V|]).
  - assert (1 <= d / b); [|lra]. apply (Rmult_le_reg_r b); lra.
  - assert (1 < d / b); [|lra]. apply (Rmult_lt_reg_r b); lra.
Qed.

Lemma classic_fin0 (e : ext) : e = Fin 0 \/ e <> Fin 0.
Proof. destruct e as [x| | |]; [destruct (Req_EM_T x 0) as [->|N]; [left; reflexivity|right; congruence]|right; discriminate..]. Qed.

Definition corner : matrix R := [[0; 4 / 5]].

Lemma corner_valid : valid_distances [corner; corner] 1 2.
Proof. split; [discriminate|]. repeat (constructor; [split; [split; [reflexivity|repeat constructor]|repeat constructor; lra]|]). constructor. Qed.

Lemma corner_refuted k : vanishing_kernel k \/ k = "boxcar" ->
  exists Ds W W', valid_distances Ds 1 2 /\ length Ds = 2%nat /\
    weight_matrix_from_distance (map A2 Ds) (DScal k) RNone (DList (map Some [1; 1])) DNone = Ok W /\
    weight_matrix_from_distance [A2 (root_of_squares Ds [1; 1] 1 2)] (DScal k) RNone (DScal 1) DNone = Ok W' /\
    mget NaN W 0 1 <> Fin 0 /\ mget NaN W' 0 1 = Fin 0.
Proof.
  intros HK. assert (Hk : known_kernel k) by (unfold vanishing_kernel in HK; unfold known_kernel; tauto).
  assert (Hb : forall dim, (dim < length [corner; corner])%nat -> 0 < nth dim [1; 1] 0) by (intros [|[|]] Hd; cbn in *; [lra|lra|lia]).
  set (D := root_of_squares [corner; corner] [1; 1] 1 2). assert (HD : valid_distances [D] 1 2) by (apply tab_valid; intros; apply sqrt_pos).
  destruct (merge_success [corner; corner] [1; 1] 1 2 k corner_valid ltac:(lia) eq_refl Hk) as (W & H). destruct (merge_success [D] [1] 1 2 k HD ltac:(lia) eq_refl Hk) as (W' & H').
  exists [corner; corner], W, W'. split; [exact corner_valid|]. split; [reflexivity|]. split; [exact H|]. split; [exact H'|].
  destruct (merge_form [corner; corner] [1; 1] 1 2 k corner_valid ltac:(lia) eq_refl Hk W H) as (_ & F1). destruct (merge_form [D] [1] 1 2 k HD ltac:(lia) eq_refl Hk W' H') as (_ & F2). split.
  - apply (proj2 (F1 0%nat 1%nat ltac:(lia) ltac:(lia))). intros dim Hd E. cbn in Hd.
    assert (E' : kernel_value k 1 (4 / 5) = 0) by (destruct dim as [|[|]]; [exact E|exact E|lia]).
    apply (kernel_value_support k 1 (4 / 5) Hk) in E'; lra.
  - destruct (F2 0%nat 1%nat ltac:(lia) ltac:(lia)) as [EV EN]. destruct (classic_fin0 (mget NaN W' 0 1)) as [|N]; [assumption|]. exfalso. apply (proj1 EN N 0%nat ltac:(cbn; lia)). cbn [nth].
    assert (HDv : 1 < mget 0 D 0 1).
    { unfold D, root_of_squares. rewrite mtab_get by lia. rewrite <- sqrt_1 at 1. apply sqrt_lt_1_alt. unfold tabulate, ratio, mget, corner. cbn [length seq map nth]. rewrite !Rsum_cons, Rsum_nil. lra. }
    apply (kernel_value_support k 1 _ Hk); [lra|lra|]. destruct HK as [V|V]; [left|right]; split; auto; lra.
Qed.

(** ** coordinates *)
Lemma len_concat {A} (l : list (list A)) : length (List.concat l) = list_sum (map (fun x => length x) l).
Proof. induction l as [|x l IH]; [reflexivity|]. cbn [List.concat map list_sum fold_right]. rewrite app_length, IH. reflexivity. Qed.
Lemma map2_concat (f : R -> R -> R) (A B : nat -> list R) l : (forall d, In d l -> length (A d) = length (B d)) ->
  Rsum (map2 f (List.concat (map A l)) (List.concat (map B l))) = Rsum (map (fun d => Rsum (map2 f (A d) (B d))) l).
Proof.
  induction l as [|d l IH]; intros H; [reflexivity|]. cbn [map List.concat]. rewrite Rsum_cons, <- IH by (intros; apply H; right; auto).
  specialize (H d (or_introl eq_refl)). generalize (List.concat (map A l)) (List.concat (map B l)). intros X Y. revert H. generalize (A d) (B d). intros a. induction a as [|x a IHa]; intros [|y b] H; try discriminate; cbn [map2 app].
  - rewrite Rsum_nil. ring.
  - rewrite !Rsum_cons, IHa by (cbn in H; lia). ring.
Qed.

Lemma map2_scaled b p q : b <> 0 -> Rsum (map2 (fun x y => (x - y) * (x - y)) (map (fun x => x / b) p) (map (fun x => x / b) q)) = Rsum (map2 (fun x y => (x - y) * (x - y)) p q) / b ^ 2.
Proof.
  intros Hb. revert q. induction p as [|x p IH]; intros [|y q]; cbn [map map2]; try (rewrite Rsum_nil; unfold Rdiv; ring). rewrite !Rsum_cons, IH. field. auto.
Qed.

Lemma sumsq_nonneg p q : 0 <= Rsum (map2 (fun x y => (x - y) * (x - y)) p q).
Proof. revert q. induction p as [|x p IH]; intros [|y q]; cbn [map2]; try (rewrite Rsum_nil; lra). rewrite Rsum_cons. specialize (IH q). pose proof (Rle_0_sqr (x - y)) as G. unfold Rsqr in G. lra. Qed.

Section Points.
  Variables (mkw : Type) (no_kw : mkw) (sm : string -> option (mkw -> list R -> list R -> R)).
  Notation dms := (distance_matrices (fun x => x) mkw no_kw sm).

  Definition table (P Q : coords) (n m : nat) : matrix R := mtab n m (fun i j => euclid (nth i P []) (nth j Q [])).

  Lemma one_matrix P Q n m w kw : rect P n w -> rect Q m w -> (0 < n)%nat -> (0 < m)%nat ->
    distance_matrix (fun x => x) mkw sm P (Some Q) "euclidean" kw = Ok (A2 (table P Q n m)).
  Proof.
    intros [P1 P2] [Q1 Q2] Hn Hm. unfold distance_matrix.
    assert (EP : ncols P = w) by (destruct P as [|p P]; [cbn in P1; lia|]; inversion P2; auto).
    assert (EQ : ncols Q = w) by (destruct Q as [|q Q]; [cbn in Q1; lia|]; inversion Q2; auto).
    rewrite EP, EQ, Nat.eqb_refl. cbn [bind String.eqb Ascii.eqb Bool.eqb metric_fn]. f_equal. f_equal.
    assert (I : forall m : coords, mmap (fun x => x) m = m) by (intros X; unfold mmap; rewrite (map_ext _ (fun x => x)) by (intros; apply map_id); apply map_id).
    unfold astype32. rewrite !I. unfold cdist, table, mtab. rewrite (list_tab [] P) at 1. rewrite map_map, P1. apply map_ext. intros i. rewrite (list_tab [] Q) at 1. rewrite map_map, Q1. reflexivity.
  Qed.

  Lemma all_matrices Ps Qs n m ws : point_sets Ps n ws -> point_sets Qs m ws -> (0 < n)%nat -> (0 < m)%nat ->
    dms Ps (Some Qs) (Scalar "euclidean") None = Ok (map A2 (tabulate (length Ps) (fun dim => table (nth dim Ps []) (nth dim Qs []) n m))).
  Proof.
    intros [L1 H1] [L2 H2] Hn Hm. unfold distance_matrices. assert (EL : length Qs = length Ps) by lia. rewrite EL, Nat.eqb_refl. cbn [bind]. unfold tabulate. rewrite map_map.
    apply mapM_ok. intros dim Hd. apply in_seq in Hd. assert (Hd' : (dim < length Ps)%nat) by lia.
    rewrite (getitem_lt [] Ps) by auto. cbn [bind]. rewrite (getitem_lt (Some ([] : coords))) by (rewrite map_length; lia). cbn [bind]. rewrite map_nth.
    cbn [metric_list]. rewrite (getitem_lt "euclidean") by (rewrite repeat_length; auto). cbn [bind]. rewrite (getitem_lt no_kw) by (rewrite repeat_length; auto). cbn [bind].
    rewrite nth_repeat.
    apply (one_matrix _ _ n m (nth dim ws 0%nat)); auto. apply H2. lia.
  Qed.

  Lemma joined_sets Ps bs n ws : point_sets Ps n ws -> exists w, point_sets [joined Ps bs n] n [w].
  Proof.
    intros [L H]. exists (list_sum ws). split; [reflexivity|]. intros dim Hd. cbn in Hd. assert (dim = 0%nat) as -> by lia. cbn [nth].
    split; [apply tabulate_length|]. apply Forall_forall. intros row Hrow. apply in_map_iff in Hrow as (i & <- & Hi). apply in_seq in Hi.
    cbv beta. rewrite len_concat. f_equal. unfold tabulate. rewrite map_map, L. transitivity (map (fun dim => nth dim ws 0%nat) (seq 0 (length ws))); [|symmetry; apply list_tab].
    apply map_ext_in. intros dim Hd'. apply in_seq in Hd'. rewrite map_length. destruct (H dim ltac:(lia)) as [R1 R2]. rewrite Forall_forall in R2. apply R2, nth_In. lia.
  Qed.

  Lemma joined_distance Ps Qs bs n m ws : point_sets Ps n ws -> point_sets Qs m ws -> length bs = length Ps -> (forall dim, (dim < length Ps)%nat -> 0 < nth dim bs 0) ->
    table (joined Ps bs n) (joined Qs bs m) n m = root_of_squares (tabulate (length Ps) (fun dim => table (nth dim Ps []) (nth dim Qs []) n m)) bs n m.
  Proof.
    intros [L1 H1] [L2 H2] HL Hb. unfold table at 1, root_of_squares. apply mtab_ext. intros i j Hi Hj. unfold joined. rewrite !tabulate_nth by auto.
    assert (EL : length Qs = length Ps) by lia. rewrite EL, tabulate_length. unfold euclid. f_equal. unfold tabulate at 1 2. rewrite map2_concat.
    - unfold tabulate at 1. f_equal. apply map_ext_in. intros dim Hd. apply in_seq in Hd. assert (Hd' : (dim < length Ps)%nat) by lia. specialize (Hb dim Hd').
      rewrite map2_scaled by lra. unfold ratio. rewrite tabulate_nth by auto. unfold table. rewrite mtab_get by auto. unfold euclid.
      set (s := Rsum _). replace ((sqrt s / nth dim bs 0) ^ 2) with (sqrt s * sqrt s / nth dim bs 0 ^ 2) by (field; lra). rewrite sqrt_sqrt by apply sumsq_nonneg. reflexivity.
    - intros dim Hd. apply in_seq in Hd. rewrite !map_length. destruct (H1 dim ltac:(lia)) as [A1 A2]. destruct (H2 dim ltac:(lia)) as [B1 B2]. rewrite Forall_forall in A2, B2.
      rewrite A2, B2 by (apply nth_In; lia). reflexivity.
  Qed.

  Lemma points_merge dm sr dargs truthy fs Ps Qs bs n m ws : point_sets Ps n ws -> point_sets Qs m ws -> (0 < n)%nat -> (0 < m)%nat -> Ps <> [] ->
    length bs = length Ps -> (forall dim, (dim < length Ps)%nat -> 0 < nth dim bs 0) ->
    weight_matrix_from_points (fun x => x) mkw no_kw sm dm sr dargs truthy fs Ps (Some Qs) (Scalar "euclidean") (DScal "gaussian") RNone (DList (map Some bs)) DNone None =
    weight_matrix_from_points (fun x => x) mkw no_kw sm dm sr dargs truthy fs [joined Ps bs n] (Some [joined Qs bs m]) (Scalar "euclidean") (DScal "gaussian") RNone (DScal 1) DNone None.
  Proof.
    intros HP HQ Hn Hm Hne HL Hb. unfold weight_matrix_from_points. f_equal. rewrite (all_matrices Ps Qs n m ws) by auto. cbn [bind].
    destruct (joined_sets Ps bs n ws HP) as (w & HJ). assert (HJ' : point_sets [joined Qs bs m] m [w]).
    { destruct (joined_sets Qs bs m ws HQ) as (w' & G). split; [reflexivity|]. intros dim Hd. cbn in Hd. assert (dim = 0%nat) as -> by lia. cbn [nth].
      destruct HJ as [_ HJ]. destruct G as [_ G]. specialize (HJ 0%nat ltac:(cbn; lia)). specialize (G 0%nat ltac:(cbn; lia)). cbn [nth] in HJ, G.
      enough (w' = w) as <- by exact G.
      assert (LE : length (nth 0 (joined Ps bs n) []) = length (nth 0 (joined Qs bs m) [])).
      { unfold joined. rewrite !tabulate_nth by auto. rewrite !len_concat. f_equal. destruct HP as [LP HP]. destruct HQ as [LQ HQ]. unfold tabulate. rewrite !map_map. replace (length Qs) with (length Ps) by lia.
        apply map_ext_in. intros dim Hd'. apply in_seq in Hd'. rewrite !map_length. destruct (HP dim ltac:(lia)) as [A1 A2]. destruct (HQ dim ltac:(lia)) as [B1 B2]. rewrite Forall_forall in A2, B2. rewrite A2, B2 by (apply nth_In; lia). reflexivity. }
      destruct HJ as [A1 A2]. destruct G as [B1 B2]. rewrite Forall_forall in A2, B2. rewrite A2, B2 in LE by (apply nth_In; lia). auto. }
    rewrite (all_matrices [joined Ps bs n] [joined Qs bs m] n m [w] HJ HJ' Hn Hm). cbn [bind length tabulate seq map nth].
    rewrite (joined_distance Ps Qs bs n m ws HP HQ HL Hb). set (Ds := tabulate (length Ps) _).
    assert (EL : length Ds = length Ps) by apply tabulate_length.
    apply gaussian_merge; rewrite ?EL; auto. split; [intros E; rewrite E in EL; destruct Ps; [auto|discriminate]|].
    apply Forall_forall. intros D HD. apply in_map_iff in HD as (dim & <- & _). assert (V : valid_distances [table (nth dim Ps []) (nth dim Qs []) n m] n m) by (apply tab_valid; intros; apply sqrt_pos).
    destruct V as [_ V]. inversion V; auto.
  Qed.
End Points.
