(** Proofs for C177: neighbours in several dimensions. *)
From Coq Require Import Lra Lia Psatz Permutation.
From Verif.Model Require Import Base Ext Csr Kernel Distance WeightMatrix WeightModel.
From Verif.Spec Require Import KernelSpec WeightSpec NeighbourSpec WeightModelSpec GrowingSpec ManyDimsSpec.
From Verif.Proofs Require Import ListFacts SumFacts SortFacts AdaptiveFacts KernelFacts KernelProps KernelExamples WeightFacts WeightProps NeighbourProps FitProps PredictProps FitExamples GrowingProps.
Open Scope string_scope.
Open Scope nat_scope.
Open Scope R_scope.

(** ** Counting *)
Definition cnt (f : nat -> bool) (l : list nat) : nat := length (filter f l).

Lemma cnt_and f g l : (cnt f l + cnt g l <= cnt (fun j => f j && g j) l + length l)%nat.
Proof. unfold cnt. induction l as [|a l IH]; simpl; [lia|]. destruct (f a), (g a); simpl; lia. Qed.

Lemma cnt_all fs l : (total (map (fun f => cnt f l) fs) <= cnt (fun j => forallb (fun f => f j) fs) l + (length fs - 1) * length l)%nat.
Proof.
  induction fs as [|f fs IH].
  - simpl. lia.
  - cbn [map total fold_right]. destruct fs as [|f' fs].
    + simpl. assert (E : cnt (fun j => f j && true) l = cnt f l) by (unfold cnt; f_equal; apply filter_ext; intros; apply Bool.andb_true_r). lia.
    + fold (total (map (fun f0 => cnt f0 l) (f' :: fs))). pose proof (cnt_and f (fun j => forallb (fun f0 => f0 j) (f' :: fs)) l) as HA.
      assert (E : cnt (fun j => forallb (fun f0 => f0 j) (f :: f' :: fs)) l = cnt (fun j => f j && forallb (fun f0 => f0 j) (f' :: fs)) l) by reflexivity.
      rewrite E. cbn [length] in *. nia.
Qed.

Lemma cnt_count (row : list R) p : cnt (fun j => p (nth j row 0)) (seq 0 (length row)) = count p row.
Proof.
  unfold cnt, count. induction row as [|x row IH] using rev_ind; [reflexivity|].
  rewrite app_length. cbn [length]. rewrite Nat.add_1_r, seq_S. cbn [Nat.add]. rewrite !filter_app, !app_length.
  f_equal.
  - rewrite <- IH. f_equal. apply filter_ext_in. intros j Hj. apply in_seq in Hj. rewrite app_nth1 by lia. reflexivity.
  - simpl. rewrite app_nth2, Nat.sub_diag by lia. simpl. destruct (p x); reflexivity.
Qed.

Lemma boxcar_nonzero b d : 0 <= d -> 0 <= b -> (kernel_value "boxcar" b d <> 0 <-> d <= b).
Proof.
  intros Hd Hb. unfold kernel_value; eqbs. destruct (Req_EM_T b 0) as [->|].
  - destruct (Req_EM_T d 0); split; lra.
  - destruct (Rle_dec d b); split; lra.
Qed.

Lemma enough_neighbours Ds bw nc r c W z i :
  valid_distances Ds r c -> (0 < r)%nat -> (i < r)%nat ->
  (forall dim, (dim < length Ds)%nat -> requests (DScal "boxcar") bw nc dim "boxcar" (NearestCount (z dim))) ->
  weight_matrix_from_distance (map A2 Ds) (DScal "boxcar") RNone bw nc = Ok W ->
  (total (map (fun dim => Z.to_nat (z dim)) (seq 0 (length Ds))) <= support_size W c i + (length Ds - 1) * c)%nat.
Proof.
  intros HV Hr Hi HQ H. destruct (wm_sound _ _ _ _ _ _ _ HV Hr H) as [raw HF].
  set (fs := map (fun dim j => negb (Reqb (raw dim i j) 0)) (seq 0 (length Ds))).
  assert (HL : length fs = length Ds) by (unfold fs; rewrite map_length, seq_length; auto).
  pose proof (cnt_all fs (seq 0 c)) as HC. rewrite HL, seq_length in HC.
  assert (E1 : cnt (fun j => forallb (fun f => f j) fs) (seq 0 c) = support_size W c i).
  { unfold cnt, support_size. f_equal. apply filter_ext_in. intros j Hj. apply in_seq in Hj. assert (Hjc : (j < c)%nat) by lia.
    rewrite (W_eq _ _ _ _ _ _ _ _ HF), (mmap_get Fin _ 0 (Fin 0) r c) by (auto; apply mtab_rect). rewrite mtab_get by auto.
    apply Bool.eq_iff_eq_true. rewrite forallb_forall, Bool.negb_true_iff. split.
    - intros Hall. destruct (eis_zero _) eqn:E; auto. apply eis_zero_Fin in E. injection E as E.
      apply (safe_div_zero Ds r c raw i j Hi Hjc) in E. apply PR_zero in E as (dim & Hd & E).
      assert (Hin : In (fun j => negb (Reqb (raw dim i j) 0)) fs) by (unfold fs; apply in_map_iff; exists dim; split; auto; apply in_seq; lia).
      specialize (Hall _ Hin). cbv beta in Hall. apply Bool.negb_true_iff in Hall. apply Reqb_true in E. congruence.
    - intros E f Hf. unfold fs in Hf. apply in_map_iff in Hf as (dim & <- & Hd). apply in_seq in Hd. apply Bool.negb_true_iff.
      destruct (Reqb (raw dim i j) 0) eqn:E0; auto. apply Reqb_true in E0.
      assert (Hz : PR Ds raw i j = 0) by (apply PR_zero; exists dim; split; auto; lia).
      apply (safe_div_zero Ds r c raw i j Hi Hjc) in Hz. rewrite Hz in E. assert (eis_zero (Fin 0) = true) by (apply eis_zero_Fin; auto). congruence. }
  rewrite E1 in HC. eapply Nat.le_trans; [|exact HC]. unfold fs. rewrite map_map.
  assert (HD : forall dim, In dim (seq 0 (length Ds)) -> (Z.to_nat (z dim) <= cnt (fun j => negb (Reqb (raw dim i j) 0)) (seq 0 c))%nat).
  { intros dim Hdim. apply in_seq in Hdim. assert (Hd : (dim < length Ds)%nat) by lia.
    destruct (valid_nth _ _ _ _ HV Hd) as [HR HE]. set (row := nth i (nth dim Ds []) []).
    assert (Lr : length row = c) by (apply (rect_row _ r c); auto).
    destruct (Nat.eq_dec c 0) as [Ec|Ec].
    { (* no columns *) destruct (proj1 (wm_success Ds _ bw nc r c HV Hr) (ex_intro _ W H)) as [_ HS]. destruct (HS dim Hd) as (k & p & Hk & Hp).
      destruct (requests_fun _ _ _ _ _ _ _ _ (HQ dim Hd) Hk); subst. simpl in Hp. lia. }
    assert (H0c : (0 < c)%nat) by lia.
    destruct (wf_raw _ _ _ _ _ _ _ _ HF dim i 0 Hd Hi H0c) as [k [p [b [Hk [Hb _]]]]].
    destruct (requests_fun _ _ _ _ _ _ _ _ (HQ dim Hd) Hk); subst k p. fold row in Hb.
    assert (Hb0 : 0 <= b).
    { apply (row_bandwidth_nonneg (NearestCount (z dim)) row b); auto; [|intros; discriminate].
      unfold entries in HE. rewrite Forall_forall in HE. apply HE, nth_In. destruct HR as [HR1 _]; rewrite HR1; auto. }
    pose proof Hb as (_ & _ & _ & Hcount & _). eapply Nat.le_trans; [exact Hcount|]. rewrite <- cnt_count, Lr. unfold cnt.
    apply Nat.eq_le_incl. f_equal. apply filter_ext_in. intros j Hj. apply in_seq in Hj. assert (Hjc : (j < c)%nat) by lia.
    destruct (wf_raw _ _ _ _ _ _ _ _ HF dim i j Hd Hi Hjc) as [k [p [b' [Hk' [Hb' E]]]]].
    destruct (requests_fun _ _ _ _ _ _ _ _ (HQ dim Hd) Hk'); subst k p. fold row in Hb'. rewrite (row_bandwidth_unique _ _ _ _ Hb' Hb) in E.
    pose proof (entry_nonneg _ r c i j HR HE Hi Hjc) as H0. change (mget 0 (nth dim Ds []) i j) with (nth j row 0) in *.
    apply Bool.eq_iff_eq_true. rewrite Rleb_true, Bool.negb_true_iff. rewrite E. rewrite <- (boxcar_nonzero b (nth j row 0)) by auto.
    destruct (Reqb _ 0) eqn:ER; [apply Reqb_true in ER|]; split; intros; try congruence.
    intros EZ. apply Reqb_true in EZ. congruence. }
  clear - HD. induction (seq 0 (length Ds)) as [|d l IH]; simpl; [lia|].
  assert (A := HD d (or_introl eq_refl)). assert (B := IH (fun x Hx => HD x (or_intror Hx))). unfold total in B. cbv beta in A. apply Nat.add_le_mono; [exact A|exact B].
Qed.

(** ** An isolated location *)
Lemma map_nodup_in {A B} (f : A -> B) l : (forall x y, In x l -> In y l -> f x = f y -> x = y) -> NoDup l -> NoDup (map f l).
Proof.
  intros Hf HN. induction HN as [|x l Hx HN IH]; simpl; constructor.
  - intros Hin. apply in_map_iff in Hin as (y & Ey & Hy). apply Hx. rewrite <- (Hf y x); auto; [right; auto|left; auto].
  - apply IH. intros a b Ha Hb. apply Hf; right; auto.
Qed.

Definition pos1 (i : nat) : R := INR i.
Definition pos2 (n i : nat) : R := if (i =? 0)%nat then 0 else INR (n - i).

Lemma line_get a n i j : (i < n)%nat -> (j < n)%nat -> mget 0 (line_distances a n) i j = Rabs (a i - a j).
Proof. intros Hi Hj. unfold mget, line_distances. rewrite !tabulate_nth by auto. reflexivity. Qed.

Lemma line_rect a n : rect (line_distances a n) n n /\ entries (Rle 0) (line_distances a n).
Proof.
  split.
  - split; [apply tabulate_length|]. apply Forall_forall. intros row Hrow. apply in_tabulate in Hrow as (i & _ & <-). apply tabulate_length.
  - unfold entries. apply Forall_forall. intros row Hrow. apply in_tabulate in Hrow as (i & _ & <-).
    apply Forall_forall. intros x Hx. apply in_tabulate in Hx as (j & _ & <-). apply Rabs_pos.
Qed.

Lemma lines_valid a b n : valid_distances [line_distances a n; line_distances b n] n n.
Proof. split; [discriminate|]. repeat constructor; apply line_rect. Qed.

Lemma row1 n : (0 < n)%nat -> nth 0 (line_distances pos1 n) [] = map INR (seq 0 n).
Proof.
  intros Hn. unfold line_distances. rewrite tabulate_nth by auto. unfold tabulate. apply map_ext. intros j. unfold pos1.
  change (INR 0) with 0. rewrite Rabs_left1; [ring|]. pose proof (pos_INR j). lra.
Qed.

Lemma row2 n : (0 < n)%nat -> Permutation (nth 0 (line_distances (pos2 n) n) []) (map INR (seq 0 n)).
Proof.
  intros Hn. unfold line_distances. rewrite tabulate_nth by auto. unfold tabulate.
  assert (E : map (fun j => Rabs (pos2 n 0 - pos2 n j)) (seq 0 n) = map INR (map (fun j => if (j =? 0)%nat then 0%nat else (n - j)%nat) (seq 0 n))).
  { rewrite map_map. apply map_ext. intros j. unfold pos2. cbn [Nat.eqb]. destruct (Nat.eqb_spec j 0).
    - simpl. rewrite Rabs_right; lra.
    - rewrite Rabs_left1; [ring|]. pose proof (pos_INR (n - j)). lra. }
  rewrite E. apply Permutation_map. apply NoDup_Permutation_bis.
  - destruct n as [|n]; [lia|]. cbn [seq map]. constructor.
    + intros Hin. apply in_map_iff in Hin as (j & Ej & Hj). apply in_seq in Hj. change ((0 =? 0)%nat) with true in Ej. cbv iota beta in Ej. destruct (Nat.eqb_spec j 0); lia.
    + apply map_nodup_in; [|apply seq_NoDup]. intros x y Hx Hy. apply in_seq in Hx, Hy.
      destruct (Nat.eqb_spec x 0), (Nat.eqb_spec y 0); lia.
  - rewrite map_length. lia.
  - intros j Hj. apply in_map_iff in Hj as (q & <- & Hq). apply in_seq in Hq. apply in_seq. destruct (Nat.eqb_spec q 0); lia.
Qed.

Lemma count_ramp n m : (m < n)%nat -> count (fun x => Rleb x (INR m)) (map INR (seq 0 n)) = S m /\ count (fun x => Rltb x (INR m)) (map INR (seq 0 n)) = m.
Proof.
  intros Hm. replace n with (m + (1 + (n - S m)))%nat by lia. rewrite !seq_app, !map_app. cbn [seq map Nat.add].
  assert (A : count (fun x => Rleb x (INR m)) (map INR (seq 0 m)) = m).
  { rewrite count_all; [rewrite map_length, seq_length; auto|]. intros x Hx. apply in_map_iff in Hx as (j & <- & Hj). apply in_seq in Hj. apply Rleb_true, le_INR; lia. }
  assert (B : count (fun x => Rltb x (INR m)) (map INR (seq 0 m)) = m).
  { rewrite count_all; [rewrite map_length, seq_length; auto|]. intros x Hx. apply in_map_iff in Hx as (j & <- & Hj). apply in_seq in Hj. apply Rltb_true, lt_INR; lia. }
  rewrite !count_app, A, B. cbn [app].
  assert (C : forall x l, count x (INR m :: l) = ((if x (INR m) then 1 else 0) + count x l)%nat) by (intros x l; unfold count; simpl; destruct (x (INR m)); reflexivity).
  rewrite !C.
  assert (D1 : Rleb (INR m) (INR m) = true) by (apply Rleb_true; lra). assert (D2 : Rltb (INR m) (INR m) = false) by (apply Rltb_false; lra). rewrite D1, D2.
  set (l := map INR (seq (m + 1) (n - S m))) in *.
  assert (F1 : count (fun x => Rleb x (INR m)) l = 0%nat).
  { apply count_none. intros x Hx. apply in_map_iff in Hx as (j & <- & Hj). apply in_seq in Hj.
    destruct (Rleb (INR j) (INR m)) eqn:E; auto. apply Rleb_true, INR_le in E. lia. }
  assert (F2 : count (fun x => Rltb x (INR m)) l = 0%nat).
  { apply count_none. intros x Hx. apply in_map_iff in Hx as (j & <- & Hj). apply in_seq in Hj. apply Rltb_false, le_INR; lia. }
  rewrite F1, F2. unfold count; simpl; lia.
Qed.

Lemma kth_ramp row n m : Permutation row (map INR (seq 0 n)) -> (m < n)%nat -> kth_smallest row (S m) (INR m).
Proof.
  intros HP Hm. destruct (count_ramp n m Hm) as [A B]. split; [|rewrite !(count_perm _ _ _ HP); lia].
  apply (Permutation_in _ (Permutation_sym HP)). apply in_map. apply in_seq. lia.
Qed.

(** The reach of the ramp. *)
Lemma ramp_bandwidth row n count p b : (2 <= n)%nat -> Permutation row (map INR (seq 0 n)) -> at_most_half count n ->
  rule_of None (Some count) = Some p -> row_bandwidth p row b -> 0 <= b /\ 2 * b < INR n.
Proof.
  intros Hn HP Hc Hp Hb. assert (Lr : length row = n) by (rewrite (Permutation_length HP), map_length, seq_length; auto).
  assert (H2 : 2 <= INR n) by (change 2 with (INR 2); apply le_INR; auto).
  destruct count as [z|q|]; simpl in Hp; try discriminate; injection Hp as <-; cbn [row_bandwidth at_most_half] in Hb, Hc.
  - destruct Hb as (_ & Hz & Hk). assert (Hm : (Z.to_nat z - 1 < n)%nat) by lia.
    pose proof (kth_ramp row n (Z.to_nat z - 1) HP Hm) as Hk'. replace (S (Z.to_nat z - 1)) with (Z.to_nat z) in Hk' by lia.
    rewrite (kth_smallest_unique _ _ _ _ Hk Hk'). split; [apply pos_INR|].
    change 2 with (INR 2). rewrite <- mult_INR. apply lt_INR. lia.
  - destruct Hb as (_ & _ & Hq). unfold hyndman_fan_8 in Hq. rewrite Lr in Hq. cbv zeta in Hq. destruct Hq as (Q1 & Q2 & Q3).
    set (h := (INR n + 1 / 3) * q + 1 / 3) in *.
    assert (Hh : 2 * h <= INR n + 1) by (unfold h; nra).
    assert (Hh0 : 0 < h) by (unfold h; nra).
    destruct (Rlt_dec h 1) as [H1|H1].
    + assert (Hm : (0 < n)%nat) by lia. rewrite (kth_smallest_unique _ _ _ _ (Q1 H1) (kth_ramp row n 0 HP Hm)). simpl. lra.
    + assert (Hz1 : 1 <= h) by lra. pose proof (archimed h) as [U1 U2].
      assert (Hup : (1 < up h)%Z) by (apply lt_IZR; simpl; lra).
      set (j := Z.to_nat (up h - 1)). assert (Ej : INR j = IZR (up h) - 1).
      { unfold j. rewrite INR_IZR_INZ, Z2Nat.id by lia. rewrite minus_IZR. reflexivity. }
      assert (Hj1 : (1 <= j)%nat) by (unfold j; lia).
      assert (Hjn : (j < n)%nat) by (apply INR_lt; lra).
      assert (Hj0 : (j - 1 < n)%nat) by lia. pose proof (kth_ramp row n (j - 1) HP Hj0) as K1. replace (S (j - 1)) with j in K1 by lia.
      pose proof (kth_ramp row n j HP Hjn) as K2.
      assert (Hjj : (1 <= j < n)%nat) by lia. assert (Hhj : INR j <= h < INR j + 1) by lra.
      rewrite (Q3 j _ _ Hjj Hhj K1 K2). rewrite minus_INR by auto. change (INR 1) with 1. split; lra.
Qed.

Lemma compact_known k : compact_kernel k -> known_kernel k.
Proof. unfold compact_kernel, vanishing_kernel, known_kernel. tauto. Qed.

Lemma compact_reach k b d : compact_kernel k -> 0 <= d -> 0 <= b -> kernel_value k b d <> 0 -> d <= b.
Proof.
  intros Hk Hd Hb Hn. destruct (Rle_dec d b) as [|Hgt]; auto. exfalso. apply Hn.
  destruct (Req_EM_T b 0) as [->|Hb0].
  - unfold kernel_value. destruct (String.eqb k "uniform") eqn:E.
    + apply String.eqb_eq in E. subst. destruct Hk as [Hk|[Hk|[Hk|Hk]]]; discriminate.
    + destruct (Req_EM_T 0 0); [|lra]. destruct (Req_EM_T d 0); lra.
  - apply kernel_value_support; auto; [apply compact_known; auto|lra|]. destruct Hk as [->|Hk]; [right; split; auto; lra|left; split; auto; lra].
Qed.

Lemma isolated k count n : (2 <= n)%nat -> compact_kernel k -> at_most_half count n ->
  exists W, weight_matrix_from_distance (map A2 [line_distances pos1 n; line_distances (pos2 n) n]) (DScal k) RNone DNone (DScal count) = Ok W /\ rect W n n /\
    forall j, (0 < j < n)%nat -> mget (Fin 0) W 0 j = Fin 0.
Proof.
  intros Hn Hk Hc. set (Ds := [line_distances pos1 n; line_distances (pos2 n) n]). assert (HV : valid_distances Ds n n) by apply lines_valid.
  assert (Hr : (0 < n)%nat) by lia.
  assert (HQ : forall dim, exists p, rule_of None (Some count) = Some p /\ requests (DScal k) DNone (DScal count) dim k p).
  { intros dim. destruct count as [z|q|]; [| |contradiction]; eexists; (split; [reflexivity|]); repeat split; simpl; auto; apply compact_known; auto. }
  assert (HS : exists W, weight_matrix_from_distance (map A2 Ds) (DScal k) RNone DNone (DScal count) = Ok W).
  { apply (wm_success Ds _ _ _ n n HV Hr). split; [intros [_ ?]; discriminate|]. intros dim _. destruct (HQ dim) as (p & Hp & Hreq).
    exists k, p. split; auto. destruct count as [z|q|]; cbn [rule_of at_most_half] in Hp, Hc; try discriminate; injection Hp as <-; [lia|]. split; [lra|lia]. }
  destruct HS as [W H]. exists W. split; auto. split; [apply (wm_product _ _ _ _ _ _ _ HV Hr H)|].
  destruct (wm_sound _ _ _ _ _ _ _ HV Hr H) as [raw HF]. intros j Hj. assert (Hjn : (j < n)%nat) by lia.
  rewrite (W_eq _ _ _ _ _ _ _ _ HF), (mmap_get Fin _ 0 (Fin 0) n n) by (auto; apply mtab_rect). rewrite mtab_get by auto. f_equal.
  apply (safe_div_zero Ds n n raw 0 j Hr Hjn). apply PR_zero.
  assert (HD : forall dim, (dim < 2)%nat -> raw dim 0%nat j <> 0 -> mget 0 (nth dim Ds []) 0 j < INR n / 2).
  { intros dim Hdim Hnz. assert (Hd : (dim < length Ds)%nat) by (simpl; lia).
    destruct (wf_raw _ _ _ _ _ _ _ _ HF dim 0%nat j Hd Hr Hjn) as [k' [p [b [Hk' [Hb E]]]]].
    destruct (HQ dim) as (p' & Hp & Hreq). destruct (requests_fun _ _ _ _ _ _ _ _ Hreq Hk'); subst k' p'.
    destruct (valid_nth _ _ _ _ HV Hd) as [HR HE]. pose proof (entry_nonneg _ n n 0 j HR HE Hr Hjn) as H0.
    assert (HP : Permutation (nth 0 (nth dim Ds []) []) (map INR (seq 0 n))).
    { assert (Hdd : dim = 0%nat \/ dim = 1%nat) by lia; destruct Hdd as [-> | ->]; simpl; [rewrite row1 by auto; apply Permutation_refl|apply row2; auto]. }
    destruct (ramp_bandwidth _ n count p b Hn HP Hc Hp Hb) as [Hb0 Hb2]. rewrite E in Hnz. pose proof (compact_reach k b _ Hk H0 Hb0 Hnz). lra. }
  destruct (Req_EM_T (raw 0%nat 0%nat j) 0) as [E0|E0]; [exists 0%nat; split; [simpl; lia|auto]|].
  destruct (Req_EM_T (raw 1%nat 0%nat j) 0) as [E1|E1]; [exists 1%nat; split; [simpl; lia|auto]|].
  exfalso. pose proof (HD 0%nat ltac:(lia) E0) as A. pose proof (HD 1%nat ltac:(lia) E1) as B.
  cbn [nth Ds] in A, B. unfold Ds in A, B. cbn [nth] in A, B. rewrite line_get in A, B by auto.
  unfold pos1, pos2 in A, B. cbn [Nat.eqb] in B. destruct (Nat.eqb_spec j 0); [lia|].
  change (INR 0) with 0 in A. rewrite minus_INR in B by lia. pose proof (pos_INR j).
  assert (INR j < INR n) by (apply lt_INR; lia).
  rewrite Rabs_left1 in A, B by lra. lra.
Qed.

Section Isolated.
  Variable est : Type.
  Variable fit_est : nat -> matrix R -> list R -> list ext -> result est.
  Variable predict_est : est -> matrix R -> result (list R).
  Variable G : Type.
  Variable choice : G -> list nat -> nat -> G * list nat.
  Variable cpu : nat.

  Lemma isolated_raises wm c order g fs s0 X y coords given w W N :
    needs_data fit_est predict_est -> valid_choice choice -> (0 < cpu)%nat -> length X = N -> (0 < N)%nat ->
    in_force wm fs coords given w -> holds w W N -> schedule (num_tasks cpu c (num_locations c N)) order ->
    sample_local_rate c = None -> leave_local_out c = true -> (forall j, (0 < j < N)%nat -> mget (Fin 0) W 0 j = Fin 0) ->
    o_result est G (fit est fit_est predict_est G choice cpu wm c order g fs s0 X y coords given) <> Ok tt.
  Proof.
    intros HL Hch Hcpu HX HN Hf Hh HS Hs HLO HZ Hok.
    assert (Hal : aligned c w) by (right; left; auto).
    apply (fit_succeeds est fit_est predict_est G choice cpu wm c order g fs s0 X y coords given w W N Hch Hcpu HX Hf Hh HS Hal) in Hok.
    destruct Hok as (_ & _ & _ & _ & A5). specialize (A5 0%nat). unfold drawn in A5. rewrite Hs in A5.
    assert (Hin : In 0%nat (seq 0 N)) by (apply in_seq; lia). specialize (A5 Hin). apply needs_data_model in A5; auto. apply A5.
    rewrite HLO. unfold training_set. apply filter_nil. intros j Hj. apply in_seq in Hj. apply Bool.negb_false_iff. apply eis_zero_Fin.
    unfold used_weight. cbn [andb]. destruct (Nat.eqb_spec 0 j); auto. apply HZ. lia.
  Qed.
End Isolated.

Lemma two_in_support W c i : (2 <= support_size W c i)%nat -> exists j, (j < c)%nat /\ j <> i /\ mget (Fin 0) W i j <> Fin 0.
Proof.
  unfold support_size. set (f := fun j => negb (eis_zero (mget (Fin 0) W i j))). intros H.
  assert (HN : NoDup (filter f (seq 0 c))) by (apply NoDup_filter, seq_NoDup).
  assert (HI : forall j, In j (filter f (seq 0 c)) -> (j < c)%nat /\ mget (Fin 0) W i j <> Fin 0).
  { intros j Hj. apply filter_In in Hj as [Hj Hz]. apply in_seq in Hj. split; [lia|]. intros E. unfold f in Hz. rewrite E in Hz.
    assert (eis_zero (Fin 0) = true) by (apply eis_zero_Fin; auto). rewrite H0 in Hz. discriminate. }
  destruct (filter f (seq 0 c)) as [|a [|b l]]; simpl in H; try lia. inversion HN as [|x y Hab _]; subst.
  destruct (Nat.eq_dec a i) as [->|Ha].
  - exists b. destruct (HI b (or_intror (or_introl eq_refl))). repeat split; auto. intros ->. apply Hab. left; auto.
  - exists a. destruct (HI a (or_introl eq_refl)). auto.
Qed.

Lemma pos1_inj i j : pos1 i = pos1 j -> i = j.
Proof. apply INR_eq. Qed.
Lemma pos2_inj n i j : (i < n)%nat -> (j < n)%nat -> pos2 n i = pos2 n j -> i = j.
Proof.
  unfold pos2. intros Hi Hj. destruct (Nat.eqb_spec i 0), (Nat.eqb_spec j 0); intros E; [lia| | |].
  - symmetry in E. apply (INR_eq (n - j) 0) in E. lia.
  - apply (INR_eq (n - i) 0) in E. lia.
  - apply INR_eq in E. lia.
Qed.
