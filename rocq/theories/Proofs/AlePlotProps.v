(** Proofs for C170. *)
From Coq Require Import Lra Lia Psatz Sorting.Sorted.
From Coquelicot Require Import Coquelicot.
From Verif.Model Require Import Base Ext Distance Simulation WeightModel Inspect Ale AlePlot.
From Verif.Spec Require Import KernelSpec InspectSpec AleSpec AleShapeSpec AlePlotSpec.
From Verif.Proofs Require Import ListFacts SumFacts CsrFacts NeighbourFacts WeightModelFacts FitExamples VisualizeProps AleFacts AleProps AleProps2 AleShape.
Open Scope nat_scope.
Open Scope R_scope.

Lemma range_spec x : fst (hist_range x) < snd (hist_range x) /\ forall v, In v x -> fst (hist_range x) <= v <= snd (hist_range x).
Proof.
  destruct x as [|a x]; cbn [hist_range fst snd]; [split; [lra|intros v []]|].
  pose proof (fold_min_spec x a) as [Hi Hl]. pose proof (fold_max_spec x a) as [Hj Hu].
  destruct (Req_EM_T _ _) as [E|E]; cbn [fst snd].
  - split; [lra|]. intros v Hv. specialize (Hl v Hv). specialize (Hu v Hv). lra.
  - split; [|intros v Hv; split; auto]. specialize (Hl _ Hj). lra.
Qed.

Lemma range_of_values x v w : In v x -> In w x -> v <> w -> is_minimum x (fst (hist_range x)) /\ is_maximum x (snd (hist_range x)).
Proof.
  destruct x as [|a x]; [intros []|]. cbn [hist_range]. pose proof (fold_min_spec x a) as [Hi Hl]. pose proof (fold_max_spec x a) as [Hj Hu].
  intros Hv Hw Hn. destruct (Req_EM_T _ _) as [E|E]; cbn [fst snd].
  - exfalso. pose proof (Hl v Hv). pose proof (Hl w Hw). pose proof (Hu v Hv). pose proof (Hu w Hw). lra.
  - split; split; auto.
Qed.

Lemma index_inside n lo hi v k : (0 < n)%nat -> lo < hi -> lo <= v <= hi -> (k < n)%nat ->
  Z.eqb (hist_index n lo hi v) (Z.of_nat k) = inside (k =? n - 1)%nat (hist_edge n lo hi k) (hist_edge n lo hi (S k)) v.
Proof.
  intros Hn Hlt Hv Hk. unfold hist_index, hist_edge. set (t := (v - lo) / (hi - lo) * INR n).
  assert (HN : 0 < INR n) by (apply lt_0_INR; lia). assert (Hd : 0 < hi - lo) by lra.
  assert (Hw : 0 < (hi - lo) / INR n) by (apply Rdiv_lt_0_compat; lra).
  assert (Ev : v = lo + t * ((hi - lo) / INR n)) by (unfold t; field; lra).
  assert (Ht0 : 0 <= t) by (unfold t; apply Rmult_le_pos; [apply Rmult_le_pos; [lra|left; apply Rinv_0_lt_compat; lra]|lra]).
  assert (Htn : t <= INR n). { unfold t. rewrite <- (Rmult_1_l (INR n)) at 2. apply Rmult_le_compat_r; [lra|]. apply Rmult_le_reg_r with (hi - lo); [lra|]. unfold Rdiv. rewrite Rmult_assoc, Rinv_l by lra. lra. }
  set (w := (hi - lo) / INR n) in *. clearbody w t. clear Hv. subst v.
  assert (Hle : forall c, lo + c * w <= lo + t * w <-> c <= t) by (intros c; split; intros; nra).
  assert (Hlt' : forall c, lo + t * w < lo + c * w <-> t < c) by (intros c; split; intros; nra).
  assert (Hle' : forall c, lo + t * w <= lo + c * w <-> t <= c) by (intros c; split; intros; nra).
  destruct (proj1 (trunc_spec t) Ht0) as [Ha Hb]. set (i := trunc t) in *. clearbody i.
  assert (Hi0 : (0 <= i)%Z) by (apply Z.lt_succ_r, lt_IZR; rewrite succ_IZR; simpl; lra).
  assert (Hin : (i <= Z.of_nat n)%Z) by (apply Z.lt_succ_r, lt_IZR; rewrite succ_IZR; rewrite <- INR_IZR_INZ; lra).
  rewrite (INR_IZR_INZ n) in Htn. rewrite (INR_IZR_INZ k).
  assert (Hs : IZR (Z.of_nat (S k)) = IZR (Z.of_nat k) + 1) by (rewrite Nat2Z.inj_succ, succ_IZR; reflexivity).
  unfold inside. rewrite (INR_IZR_INZ (S k)), Hs.
  destruct (Z.eqb_spec i (Z.of_nat n)) as [En|En].
  - assert (t = IZR (Z.of_nat n)) by (rewrite En in Ha; lra).
    destruct (Nat.eqb_spec k (n - 1)) as [Ek|Ek].
    + assert (Ez : (i - 1 =? Z.of_nat k)%Z = true) by (apply Z.eqb_eq; lia). rewrite Ez.
      assert (Hkn : IZR (Z.of_nat k) + 1 = IZR (Z.of_nat n)) by (rewrite <- Hs; do 2 f_equal; lia).
      destruct (Rle_dec _ _) as [|Hx]; [|exfalso; apply Hx; apply Hle; lra].
      destruct (Rle_dec _ _) as [|Hx]; [reflexivity|exfalso; apply Hx; apply Hle'; lra].
    + assert (Ez : (i - 1 =? Z.of_nat k)%Z = false) by (apply Z.eqb_neq; lia). rewrite Ez.
      assert (Hkn : IZR (Z.of_nat k) + 1 <= IZR (Z.of_nat n)) by (rewrite <- Hs; apply IZR_le; lia).
      destruct (Rlt_dec _ _) as [Hx|]; [exfalso; apply Hlt' in Hx; lra|]. now rewrite Bool.andb_false_r.
  - assert (Hin' : (i < Z.of_nat n)%Z) by lia.
    destruct (Z.eqb_spec i (Z.of_nat k)) as [Ek|Ek].
    + subst i. destruct (Rle_dec _ _) as [|Hx]; [|exfalso; apply Hx; apply Hle; lra].
      destruct (k =? n - 1)%nat.
      * destruct (Rle_dec _ _) as [|Hx]; [reflexivity|exfalso; apply Hx; apply Hle'; lra].
      * destruct (Rlt_dec _ _) as [|Hx]; [reflexivity|exfalso; apply Hx; apply Hlt'; lra].
    + symmetry. apply Bool.andb_false_iff. destruct (Z.lt_ge_cases i (Z.of_nat k)) as [L|L].
      * left. assert (IZR i + 1 <= IZR (Z.of_nat k)) by (rewrite <- succ_IZR; apply IZR_le; lia).
        destruct (Rle_dec _ _) as [Hx|]; [exfalso; apply Hle in Hx; lra|reflexivity].
      * right. assert (IZR (Z.of_nat k) + 1 <= IZR i) by (rewrite <- succ_IZR; apply IZR_le; lia).
        destruct (Nat.eqb_spec k (n - 1)) as [En'|_]; [exfalso; lia|].
        destruct (Rlt_dec _ _) as [Hx|]; [exfalso; apply Hlt' in Hx; lra|reflexivity].
Qed.

Lemma index_range n lo hi v : (0 < n)%nat -> lo < hi -> lo <= v <= hi -> exists k, (k < n)%nat /\ hist_index n lo hi v = Z.of_nat k.
Proof.
  intros Hn Hlt Hv. unfold hist_index. set (t := (v - lo) / (hi - lo) * INR n).
  assert (HN : 0 < INR n) by (apply lt_0_INR; lia).
  assert (Ht0 : 0 <= t) by (unfold t; apply Rmult_le_pos; [apply Rmult_le_pos; [lra|left; apply Rinv_0_lt_compat; lra]|lra]).
  assert (Htn : t <= INR n). { unfold t. rewrite <- (Rmult_1_l (INR n)) at 2. apply Rmult_le_compat_r; [lra|]. apply Rmult_le_reg_r with (hi - lo); [lra|]. unfold Rdiv. rewrite Rmult_assoc, Rinv_l by lra. lra. }
  clearbody t. destruct (proj1 (trunc_spec t) Ht0) as [Ha Hb]. set (i := trunc t) in *. clearbody i.
  assert (Hi0 : (0 <= i)%Z) by (apply Z.lt_succ_r, lt_IZR; rewrite succ_IZR; simpl; lra).
  assert (Hin : (i <= Z.of_nat n)%Z) by (apply Z.lt_succ_r, lt_IZR; rewrite succ_IZR; rewrite <- INR_IZR_INZ; lra).
  destruct (Z.eqb_spec i (Z.of_nat n)); [exists (n - 1)%nat|exists (Z.to_nat i)]; lia.
Qed.

Lemma list_sum_cons a l : list_sum (a :: l) = (a + list_sum l)%nat.
Proof. reflexivity. Qed.
Lemma count_split {A} (h : A -> Z) n (l : list A) : (forall v, In v l -> exists k, (k < n)%nat /\ h v = Z.of_nat k) ->
  list_sum (map (fun k => length (filter (fun v => Z.eqb (h v) (Z.of_nat k)) l)) (seq 0 n)) = length l.
Proof.
  induction l as [|v l IH]; intros H.
  - cbn. induction (seq 0 n) as [|k s IHs]; auto.
  - transitivity (list_sum (map (fun k => ((if Z.eqb (h v) (Z.of_nat k) then 1 else 0) + length (filter (fun v => Z.eqb (h v) (Z.of_nat k)) l))%nat) (seq 0 n))).
    { f_equal. apply map_ext. intros k. cbn. destruct (Z.eqb _ _); reflexivity. }
    assert (E : forall s, list_sum (map (fun k => ((if Z.eqb (h v) (Z.of_nat k) then 1 else 0) + length (filter (fun v => Z.eqb (h v) (Z.of_nat k)) l))%nat) s) =
      (list_sum (map (fun k => if Z.eqb (h v) (Z.of_nat k) then 1 else 0) s) + list_sum (map (fun k => length (filter (fun v => Z.eqb (h v) (Z.of_nat k)) l)) s))%nat).
    { induction s as [|k s IHs]; auto. cbn [map]. rewrite !list_sum_cons, IHs. lia. }
    rewrite E, IH by (intros; apply H; right; auto). cbn [length]. destruct (H v (or_introl eq_refl)) as (k & Hk & ->).
    assert (K : forall n o, list_sum (map (fun j => if Z.eqb (Z.of_nat k) (Z.of_nat j) then 1 else 0)%nat (seq o n)) = (if (o <=? k) && (k <? o + n) then 1 else 0)%nat).
    { clear. induction n as [|n IHn]; intros o; cbn [seq map].
      - change (list_sum []) with 0%nat. destruct (Nat.leb_spec o k), (Nat.ltb_spec k (o + 0)); cbn; lia.
      - rewrite list_sum_cons, IHn.
        destruct (Z.eqb_spec (Z.of_nat k) (Z.of_nat o)), (Nat.leb_spec (S o) k), (Nat.ltb_spec k (S o + n)), (Nat.leb_spec o k), (Nat.ltb_spec k (o + S n)); cbn; lia. }
    rewrite K. destruct (Nat.leb_spec 0 k), (Nat.ltb_spec k (0 + n)); cbn; lia.
Qed.

Lemma filter_length_ext {A} (f g : A -> bool) l : (forall v, In v l -> f v = g v) -> length (filter f l) = length (filter g l).
Proof. intros H. f_equal. apply filter_ext_in. exact H. Qed.

Section Hist.
  Variable n : nat.
  Hypothesis Hn : (0 < n)%nat.
  Lemma histogram_bars x : let lo := fst (hist_range x) in let hi := snd (hist_range x) in
    length (histogram n x) = n /\
    forall k, (k < n)%nat -> nth k (histogram n x) (0, 0, 0%nat) =
      (lo + INR k * ((hi - lo) / INR n), lo + INR (S k) * ((hi - lo) / INR n),
       number_inside (k =? n - 1)%nat (lo + INR k * ((hi - lo) / INR n)) (lo + INR (S k) * ((hi - lo) / INR n)) x).
  Proof.
    cbv zeta. pose proof (range_spec x) as [Hlt Hv]. unfold histogram. destruct (hist_range x) as [lo hi]. cbn [fst snd] in *.
    split; [rewrite map_length, seq_length; auto|]. intros k Hk.
    rewrite (nth_map_in _ (seq 0 n) k 0%nat) by (rewrite seq_length; auto). rewrite seq_nth by auto. cbn [Nat.add]. unfold number_inside. f_equal. apply filter_length_ext.
    intros v Hin. apply (index_inside n lo hi v k Hn Hlt (Hv v Hin) Hk).
  Qed.
  Lemma histogram_total x : list_sum (map snd (histogram n x)) = length x.
  Proof.
    unfold histogram. pose proof (range_spec x) as [Hlt Hv]. destruct (hist_range x) as [lo hi]. cbn [fst snd] in *.
    rewrite map_map. cbn [snd]. apply count_split. intros v Hin. apply index_range; auto.
  Qed.
  Lemma histogram_area x : area (histogram n x) = INR (length x) * ((snd (hist_range x) - fst (hist_range x)) / INR n).
  Proof.
    rewrite <- (histogram_total x). unfold area, histogram. destruct (hist_range x) as [lo hi]. cbn [fst snd]. rewrite !map_map. cbn [fst snd].
    set (w := (hi - lo) / INR n). generalize (seq 0 n) as s.
    induction s as [|k s IHs]; [cbn [map]; change (list_sum []) with 0%nat; change (Rsum []) with 0; cbn [INR]; ring|]. cbn [map]. rewrite list_sum_cons, Rsum_cons, IHs, plus_INR.
    unfold hist_edge. fold w. rewrite S_INR. cbv beta. ring.
  Qed.
End Hist.

(** ** The lines of the simulation *)
Lemma true_line beta a x : true_value beta a x = beta * a * x.
Proof. unfold true_value. field. Qed.
Lemma true_mean beta a x : is_RInt (fun x2 => interaction_function beta x x2 * / 4) (a - 2) (a + 2) (true_value beta a x).
Proof.
  rewrite true_line. unfold interaction_function.
  replace (beta * a * x) with (beta * x * (a + 2) ^ 2 / 8 - beta * x * (a - 2) ^ 2 / 8) by field.
  apply (is_RInt_derive (fun t => beta * x * t ^ 2 / 8) (fun t => beta * x * t * / 4)).
  - intros t _. auto_derive; auto. field.
  - intros t _. apply (ex_derive_continuous (fun t => beta * x * t * / 4)). auto_derive; auto.
Qed.

Lemma shift_spec ale b a' : shifted ale b = Ok a' ->
  length a' = length ale /\ nth 0 a' 0 = b /\ forall k l, (k < length ale)%nat -> (l < length ale)%nat -> nth k a' 0 - nth l a' 0 = nth k ale 0 - nth l ale 0.
Proof.
  unfold shifted. destruct ale as [|a0 ale]; [discriminate|]. cbn [getitem nth_error bind]. intros E. 
  assert (E' : a' = map (fun v => v - (a0 - b)) (a0 :: ale)) by congruence. subst a'. clear E.
  split; [apply map_length|]. split; [cbn; ring|]. intros k l Hk Hl. 
  rewrite !(nth_indep (map _ _) 0 (0 - (a0 - b))) by (rewrite map_length; auto). rewrite !(map_nth (fun v => v - (a0 - b))). ring.
Qed.

Lemma curve_near_line store X N beta predictor w normalize m q a x2 D :
  (forall v, store v = v) -> rect X N 2 -> (0 < N)%nat -> (0 <= m)%Z ->
  rowwise predictor (fun z => interaction_function beta (nth 0 z 0) (nth 1 z 0)) ->
  (forall i, (i < N)%nat -> 0 <= nth i w 0) -> (forall i, (i < N)%nat -> Rabs (mget 0 X i 1 - x2) <= D) ->
  weighted_ale store X 0 predictor (Some w) normalize m = Ok (q, a) ->
  forall k, (k < length q)%nat ->
  Rabs ((nth k a 0 - nth 0 a 0) - (true_value beta x2 (nth k q 0) - true_value beta x2 (nth 0 q 0))) <= Rabs beta * D * (nth k q 0 - nth 0 q 0).
Proof.
  intros Hs HX HN Hm HG Hw HD H. pose proof (proj1 (wale_inv store X N 2 0 predictor w normalize m q a HX HN Hm H)) as HA.
  assert (HG' : rowwise predictor (fun z => nth 0 z 0 * (fun z => beta * nth 1 z 0) z + (fun _ => 0) z)).
  { intros rows. rewrite HG. f_equal. apply map_ext. intros z. unfold interaction_function. ring. }
  pose proof (interaction store Hs X N 2 0 (fun z => beta * nth 1 z 0) (fun _ => 0) predictor w normalize m q a HX HG') as HI.
  assert (I1 : independent_of 0 (fun z => beta * nth 1 z 0)) by (intros z z' _ Hz; rewrite (Hz 1%nat); auto).
  assert (I2 : independent_of 0 (fun _ => 0)) by (intros z z' _ _; reflexivity).
  specialize (HI I1 I2 HA). destruct HA as ((Hq & _) & _).
  induction k as [|k IH]; intros Hk.
  - rewrite !Rminus_eq_0, Rabs_R0. lra.
  - specialize (IH ltac:(lia)). destruct (HI (S k) ltac:(lia)) as (sl & Hsl & E). replace (S k - 1)%nat with k in E by lia.
    pose proof (SSlt_nth q k (S k) Hq ltac:(lia)) as Hlt.
    assert (Hslope : Rabs (sl - beta * x2) <= Rabs beta * D).
    { set (bin := members q (S k) (feature_values X 0)) in *.
      assert (Hbin : forall i, In i bin -> (i < N)%nat) by (intros i Hi; apply members_in in Hi as [Hi _]; rewrite fv_length in Hi; destruct HX; lia).
      assert (Hne : Rsum (map (fun i => nth i w 0) bin) <> 0) by (destruct Hsl; auto).
      assert (Hbd : forall i, In i bin -> Rabs (beta * nth 1 (nth i X []) 0 - beta * x2) <= Rabs beta * D).
      { intros i Hi. rewrite <- Rmult_minus_distr_l, Rabs_mult. apply Rmult_le_compat_l; [apply Rabs_pos|]. apply (HD i (Hbin i Hi)). }
      assert (Hup : sl <= beta * x2 + Rabs beta * D).
      { apply (average_le (fun i => nth i w 0) (fun i => beta * nth 1 (nth i X []) 0) (fun _ => beta * x2 + Rabs beta * D) bin); auto.
        - intros i Hi. specialize (Hbd i Hi). unfold Rabs in Hbd at 1. destruct (Rcase_abs _) in Hbd; lra.
        - apply average_constant. exact Hne. }
      assert (Hlo : beta * x2 - Rabs beta * D <= sl).
      { apply (average_le (fun i => nth i w 0) (fun _ => beta * x2 - Rabs beta * D) (fun i => beta * nth 1 (nth i X []) 0) bin); auto.
        - intros i Hi. specialize (Hbd i Hi). unfold Rabs in Hbd at 1. destruct (Rcase_abs _) in Hbd; lra.
        - apply average_constant. exact Hne. }
      apply Rabs_le. lra. }
    rewrite !true_line in *.
    replace (nth (S k) a 0 - nth 0 a 0 - (beta * x2 * nth (S k) q 0 - beta * x2 * nth 0 q 0)) with
      ((nth k a 0 - nth 0 a 0 - (beta * x2 * nth k q 0 - beta * x2 * nth 0 q 0)) + (sl - beta * x2) * (nth (S k) q 0 - nth k q 0)) by lra.
    eapply Rle_trans; [apply Rabs_triang|]. rewrite Rabs_mult, (Rabs_pos_eq (nth (S k) q 0 - nth k q 0)) by lra.
    pose proof (Rmult_le_compat_r (nth (S k) q 0 - nth k q 0) _ _ ltac:(lra) Hslope). lra.
Qed.
