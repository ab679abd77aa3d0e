(** Proofs for C176: what happens when the neighbourhoods grow. *)
From Coq Require Import Lra Lia Psatz.
From Verif.Model Require Import Base Ext Csr Kernel Distance WeightMatrix WeightModel.
From Verif.Spec Require Import KernelSpec WeightSpec NeighbourSpec WeightModelSpec GrowingSpec.
From Verif.Proofs Require Import ListFacts SumFacts SortFacts AdaptiveFacts KernelFacts KernelProps KernelExamples WeightFacts WeightProps NeighbourProps FitProps FitExamples.
Open Scope string_scope.
Open Scope nat_scope.
Open Scope R_scope.

Lemma kernel_value_wider k b b' d : known_kernel k -> 0 <= d -> 0 <= b -> b <= b' -> kernel_value k b d <= kernel_value k b' d.
Proof.
  intros Hk Hd Hb Hbb.
  destruct (Req_EM_T d 0) as [->|Hd0].
  { rewrite !kernel_value_0 by (auto; lra). lra. }
  destruct (Req_EM_T b 0) as [->|Hb0].
  { pose proof (kernel_value_range k b' d Hk Hd) as H.
    unfold kernel_value at 1. destruct (String.eqb k "uniform") eqn:E.
    - unfold kernel_value. rewrite E. lra.
    - destruct (Req_EM_T 0 0); [|lra]. destruct (Req_EM_T d 0); [contradiction|lra]. }
  assert (Hc : 0 < b' / b) by (apply Rdiv_lt_0_compat; lra).
  assert (E : kernel_value k b d = kernel_value k b' (b' / b * d)).
  { rewrite <- (kernel_value_scale k b d (b' / b)) by auto. f_equal. field; auto. }
  rewrite E. apply kernel_value_mono; auto; [lra|].
  assert (1 <= b' / b).
  { apply (Rmult_le_reg_r b); [lra|]. unfold Rdiv. rewrite Rmult_assoc, Rinv_l by auto. lra. }
  nra.
Qed.

Lemma weighs_wider k b b' d w w' : known_kernel k -> 0 <= d -> 0 <= b -> b <= b' -> weighs k b d w -> weighs k b' d w' -> w <= w'.
Proof.
  intros Hk Hd Hb Hbb H H'. apply weighs_iff in H; auto. apply weighs_iff in H'; auto. subst. apply kernel_value_wider; auto.
Qed.

Lemma kth_smallest_mono l k k' v w : kth_smallest l k v -> kth_smallest l k' w -> (k <= k')%nat -> v <= w.
Proof.
  intros [_ [A1 A2]] [_ [B1 B2]] H. destruct (Rle_dec v w) as [|H1]; auto. exfalso.
  assert (count (fun x => Rleb x w) l <= count (fun x => Rltb x v) l)%nat.
  { apply count_impl. intros x _ Hx. apply Rleb_true in Hx. apply Rltb_true. lra. }
  lia.
Qed.

Lemma row_bandwidth_wider p p' row b b' : wider_rule p p' -> row_bandwidth p row b -> row_bandwidth p' row b' -> b <= b'.
Proof.
  destruct p as [x|z|q], p' as [x'|z'|q']; simpl; try tauto.
  - intros; subst; lra.
  - intros H (A1 & A2 & A3) (B1 & B2 & B3). eapply kth_smallest_mono; eauto. lia.
  - intros H (A1 & A2 & A3) (B1 & B2 & B3).
    rewrite (hf8_unique row q b _ A2 A3 (avi_hf8 row q A2 A1) A1), (hf8_unique row q' b' _ B2 B3 (avi_hf8 row q' B2 B1) B1).
    apply avi_mono; [apply sortR_sorted|rewrite sortR_nil; auto|]. apply virtual_mu_mono; auto.
Qed.

Lemma Rprod_mono n f g : (forall d, (d < n)%nat -> 0 <= f d <= g d) -> 0 <= Rprod (tabulate n f) <= Rprod (tabulate n g).
Proof.
  intros H. unfold tabulate. assert (H' : forall d, In d (seq 0 n) -> 0 <= f d <= g d) by (intros d Hd; apply in_seq in Hd; apply H; lia).
  clear H. induction (seq 0 n) as [|d l IH]; simpl; [lra|].
  assert (A : 0 <= f d <= g d) by (apply H'; left; auto).
  assert (B : 0 <= Rprod (map f l) <= Rprod (map g l)) by (apply IH; intros; apply H'; right; auto).
  split; [apply Rmult_le_pos; lra|]. apply Rmult_le_compat; lra.
Qed.

Section Grow.
  Context (Ds : list (matrix R)) (kt : dim_arg string) (bw bw' : dim_arg R) (nc nc' : dim_arg count_arg)
          (r c : nat) (W W' : matrix ext).
  Context (HV : valid_distances Ds r c) (Hr : (0 < r)%nat) (HG : wider kt bw bw' nc nc' (length Ds)).
  Context (H : weight_matrix_from_distance (map A2 Ds) kt RNone bw nc = Ok W)
          (H' : weight_matrix_from_distance (map A2 Ds) kt RNone bw' nc' = Ok W').

  Lemma raw_wider raw raw' dim i j : wm_facts Ds kt bw nc r c W raw -> wm_facts Ds kt bw' nc' r c W' raw' ->
    (dim < length Ds)%nat -> (i < r)%nat -> (j < c)%nat ->
    0 <= raw dim i j <= raw' dim i j /\ (mget 0 (nth dim Ds []) i j = 0 -> raw dim i j = 1 /\ raw' dim i j = 1).
  Proof.
    intros HF HF' Hd Hi Hj.
    destruct (wf_raw _ _ _ _ _ _ _ _ HF dim i j Hd Hi Hj) as [k [p [b [Hk [Hb E]]]]].
    destruct (wf_raw _ _ _ _ _ _ _ _ HF' dim i j Hd Hi Hj) as [k' [p' [b' [Hk' [Hb' E']]]]].
    pose proof (HG dim k k' p p' Hd Hk Hk') as Hw.
    destruct (valid_nth _ _ _ _ HV Hd) as [HR HE]. pose proof (entry_nonneg _ r c i j HR HE Hi Hj) as H0.
    assert (k' = k) by (destruct Hk as [A _], Hk' as [B _]; congruence). subst k'.
    assert (Hkk : known_kernel k) by apply Hk.
    assert (Hb0 : 0 <= b).
    { apply (row_bandwidth_nonneg p (nth i (nth dim Ds []) []) b); auto.
      - unfold entries in HE. rewrite Forall_forall in HE. apply HE, nth_In. destruct HR as [HR1 _]; rewrite HR1; auto.
      - intros x ->. destruct p'; simpl in Hw; tauto. }
    pose proof (row_bandwidth_wider _ _ _ _ _ Hw Hb Hb') as Hbb.
    split.
    - split; [rewrite E; apply kernel_value_range; auto|]. rewrite E, E'. apply kernel_value_wider; auto.
    - intros Z. rewrite E, E', Z. split; apply kernel_value_0; auto; lra.
  Qed.

  Lemma neighbours_grow i j : (i < r)%nat -> (j < c)%nat ->
    mget (Fin 0) W i j <> Fin 0 -> mget (Fin 0) W' i j <> Fin 0.
  Proof.
    intros Hi Hj. destruct (wm_sound _ _ _ _ _ _ _ HV Hr H) as [raw HF]. destruct (wm_sound _ _ _ _ _ _ _ HV Hr H') as [raw' HF'].
    rewrite (W_eq _ _ _ _ _ _ _ _ HF), (W_eq _ _ _ _ _ _ _ _ HF').
    rewrite !(mmap_get Fin _ 0 (Fin 0) r c) by (auto; apply mtab_rect). rewrite !mtab_get by auto.
    intros Hn Hz. apply Hn. f_equal. injection Hz as Hz.
    apply (safe_div_zero Ds r c raw' i j Hi Hj) in Hz.
    apply (safe_div_zero Ds r c raw i j Hi Hj).
    unfold PR in *. pose proof (Rprod_mono (length Ds) (fun dim => raw dim i j) (fun dim => raw' dim i j)) as HM.
    cbv beta in HM. assert (HM' := HM ltac:(intros d Hd; apply (raw_wider raw raw' d i j HF HF' Hd Hi Hj))). lra.
  Qed.

  Lemma own_share_shrinks i j : (i < r)%nat -> (j < c)%nat -> (forall dim, (dim < length Ds)%nat -> mget 0 (nth dim Ds []) i j = 0) ->
    exists w w', mget (Fin 0) W i j = Fin w /\ mget (Fin 0) W' i j = Fin w' /\ 0 < w' <= w.
  Proof.
    intros Hi Hj HZ. destruct (wm_sound _ _ _ _ _ _ _ HV Hr H) as [raw HF]. destruct (wm_sound _ _ _ _ _ _ _ HV Hr H') as [raw' HF'].
    rewrite (W_eq _ _ _ _ _ _ _ _ HF), (W_eq _ _ _ _ _ _ _ _ HF').
    rewrite !(mmap_get Fin _ 0 (Fin 0) r c) by (auto; apply mtab_rect). rewrite !mtab_get by auto.
    eexists _, _. split; [reflexivity|]. split; [reflexivity|].
    assert (E1 : PR Ds raw i j = 1).
    { apply Rprod_ones. apply (tabulate_in_bounds _ _ (fun x => x = 1)). intros dim Hd. apply (raw_wider raw raw' dim i j HF HF'); auto. }
    assert (E2 : PR Ds raw' i j = 1).
    { apply Rprod_ones. apply (tabulate_in_bounds _ _ (fun x => x = 1)). intros dim Hd. apply (raw_wider raw raw' dim i j HF HF'); auto. }
    assert (HS : SR Ds c raw i <= SR Ds c raw' i).
    { unfold SR, tabulate. apply Rsum_map_le. intros j' Hj'. apply in_seq in Hj'. unfold PR. apply Rprod_mono.
      intros d Hd. apply (raw_wider raw raw' d i j' HF HF'); auto; lia. }
    pose proof (PR_le_SR Ds kt bw nc r c W raw HV HF i j Hi Hj) as HS1.
    rewrite E1, E2. rewrite E1 in HS1. unfold safe_div.
    destruct (Req_EM_T (SR Ds c raw i) 0); [lra|]. destruct (Req_EM_T (SR Ds c raw' i) 0); [lra|].
    split; [apply Rdiv_lt_0_compat; lra|]. unfold Rdiv. rewrite !Rmult_1_l. apply Rinv_le_contravar; lra.
  Qed.
End Grow.

Lemma eis_zero_Fin x : eis_zero x = true <-> x = Fin 0.
Proof.
  destruct x as [x| | |]; simpl; split; intros H; try discriminate.
  - apply Reqb_true in H. congruence.
  - inversion H. apply Reqb_true. reflexivity.
Qed.

Lemma training_grows Ds kt bw bw' nc nc' N W W' lo i j :
  valid_distances Ds N N -> (0 < N)%nat -> wider kt bw bw' nc nc' (length Ds) ->
  weight_matrix_from_distance (map A2 Ds) kt RNone bw nc = Ok W ->
  weight_matrix_from_distance (map A2 Ds) kt RNone bw' nc' = Ok W' -> (i < N)%nat ->
  In j (training_set lo W N i) -> In j (training_set lo W' N i).
Proof.
  intros HV HN HG H H' Hi. unfold training_set. rewrite !filter_In, in_seq. intros [Hj Hz]. split; auto.
  apply Bool.negb_true_iff in Hz. apply Bool.negb_true_iff. unfold used_weight in *.
  destruct (lo && (i =? j)%nat); [exact Hz|].
  destruct (eis_zero (mget (Fin 0) W' i j)) eqn:E; auto. exfalso. apply eis_zero_Fin in E.
  apply (neighbours_grow Ds kt bw bw' nc nc' N N W W' HV HN HG H H' i j Hi ltac:(lia)); auto.
  intros Ez. rewrite Ez in Hz. assert (eis_zero (Fin 0) = true) by (apply eis_zero_Fin; auto). congruence.
Qed.

Section Keep.
  Variable est : Type.
  Variable fit_est : nat -> matrix R -> list R -> list ext -> result est.
  Variable predict_est : est -> matrix R -> result (list R).
  Variable G : Type.
  Variable choice : G -> list nat -> nat -> G * list nat.
  Variable cpu : nat.

  Lemma needs_data_model X y lo W N i : needs_data fit_est predict_est ->
    (exists e p, local_model fit_est X y lo W N i e /\ predict_est e [nth i X []] = Ok [p]) <-> training_set lo W N i <> [].
  Proof.
    intros [H1 H2]. unfold local_model. cbv zeta. split.
    - intros (e & p & He & _) E. rewrite E in He. destruct (H1 i) as [ex Hx]. simpl in He. congruence.
    - intros Hn. destruct (H2 i (map (fun j => nth j X []) (training_set lo W N i)) (map (fun j => nth j y 0) (training_set lo W N i))
        (map (used_weight lo W i) (training_set lo W N i)) (nth i X [])) as (e & p & He & Hp).
      + destruct (training_set lo W N i); [congruence|discriminate].
      + rewrite !map_length; auto.
      + rewrite !map_length; auto.
      + exists e, p. auto.
  Qed.

  Lemma wider_keeps_working Ds kt bw bw' nc nc' wm wm' c order order' g g' fs fs' s0 s0' X y coords coords' given given' w w' W W' N :
    needs_data fit_est predict_est -> valid_choice choice -> (0 < cpu)%nat -> length X = N ->
    valid_distances Ds N N -> wider kt bw bw' nc nc' (length Ds) ->
    weight_matrix_from_distance (map A2 Ds) kt RNone bw nc = Ok W ->
    weight_matrix_from_distance (map A2 Ds) kt RNone bw' nc' = Ok W' ->
    in_force wm fs coords given w -> holds w W N -> in_force wm' fs' coords' given' w' -> holds w' W' N ->
    schedule (num_tasks cpu c (num_locations c N)) order -> schedule (num_tasks cpu c (num_locations c N)) order' ->
    sample_local_rate c = None ->
    o_result est G (fit est fit_est predict_est G choice cpu wm c order g fs s0 X y coords given) = Ok tt ->
    o_result est G (fit est fit_est predict_est G choice cpu wm' c order' g' fs' s0' X y coords' given') = Ok tt.
  Proof.
    intros HL Hch Hcpu HX HV HG HW HW' Hf Hh Hf' Hh' HS HS' Hs Hok.
    assert (Hal : aligned c w) by (right; left; auto). assert (Hal' : aligned c w') by (right; left; auto).
    apply (fit_succeeds est fit_est predict_est G choice cpu wm c order g fs s0 X y coords given w W N Hch Hcpu HX Hf Hh HS Hal) in Hok.
    apply (fit_succeeds est fit_est predict_est G choice cpu wm' c order' g' fs' s0' X y coords' given' w' W' N Hch Hcpu HX Hf' Hh' HS' Hal').
    destruct Hok as (A1 & A2 & A3 & A4 & A5). repeat (split; [assumption|]). intros i Hin.
    assert (Ed : drawn choice g c N = drawn choice g' c N) by (unfold drawn; rewrite Hs; auto).
    rewrite <- Ed in Hin. specialize (A5 i Hin). apply needs_data_model; auto. apply needs_data_model in A5; auto.
    assert (Hi : (i < N)%nat) by (unfold drawn in Hin; rewrite Hs in Hin; apply in_seq in Hin; lia).
    destruct (training_set (leave_local_out c) W N i) as [|j T] eqn:E; [congruence|].
    assert (Hj : In j (training_set (leave_local_out c) W' N i)).
    { apply (training_grows Ds kt bw bw' nc nc' N W W'); auto; [lia|]. rewrite E. left; auto. }
    intros E'. rewrite E' in Hj. contradiction.
  Qed.
End Keep.

(** ** Very wide neighbourhoods *)
Lemma kernel_value_flat k b d t : known_kernel k -> 0 <= d -> 0 < b -> d <= t * b -> 1 - 3 * t <= kernel_value k b d.
Proof.
  intros Hk Hd Hb Hdb. pose proof (kernel_value_range k b d Hk Hd) as HR.
  pose proof (div_nonneg d b Hb Hd) as Hu.
  assert (Hut : d / b <= t).
  { apply (Rmult_le_reg_r b); auto. unfold Rdiv. rewrite Rmult_assoc, Rinv_l by lra. lra. }
  destruct (Rle_dec 1 (3 * t)) as [|Ht]; [lra|]. clear HR.
  unfold kernel_value. destruct (Req_EM_T b 0); [lra|]. set (u := d / b) in *.
  assert (Hdb' : d <= b) by nra. destruct (Rle_dec d b); [|lra].
  kcases Hk; eqbs; try lra.
  - pose proof (exp_ineq1_le (- u ^ 2 / 2)). nra.
  - pose proof (exp_ineq1_le (- Rabs u / 2)). rewrite Rabs_right in * by lra. lra.
  - assert (0 <= u ^ 2 <= u) by nra. assert ((1 - u ^ 2) ^ 2 = 1 - 2 * u ^ 2 + (u ^ 2) * (u ^ 2)) by ring. nra.
  - assert (Hu1 : 0 <= u <= 1) by lra. assert (0 <= u ^ 3 <= u).
    { split; [apply pow_le; lra|]. simpl. rewrite Rmult_1_r. assert (0 <= u * u <= 1) by nra. nra. }
    set (v := u ^ 3) in *. assert ((1 - v) ^ 3 = 1 - 3 * v + v * v * (3 - v)) by ring.
    assert (0 <= v * v * (3 - v)) by (apply Rmult_le_pos; nra). lra.
Qed.

Lemma Rprod_flat n f s : (forall d, (d < n)%nat -> 0 <= f d <= 1 /\ 1 - s <= f d) -> 0 <= s -> 1 - INR n * s <= Rprod (tabulate n f) <= 1.
Proof.
  intros Hf Hs. unfold tabulate. assert (H' : forall d, In d (seq 0 n) -> 0 <= f d <= 1 /\ 1 - s <= f d) by (intros d Hd; apply in_seq in Hd; apply Hf; lia).
  clear Hf. rewrite <- (seq_length n 0) at 1. induction (seq 0 n) as [|d l IH]; [simpl; lra|].
  assert (A : 0 <= f d <= 1 /\ 1 - s <= f d) by (apply H'; left; auto).
  assert (B : 1 - INR (length l) * s <= Rprod (map f l) <= 1) by (apply IH; intros; apply H'; right; auto).
  assert (C : 0 <= Rprod (map f l)).
  { apply Rprod_bounds. intros x Hx. apply in_map_iff in Hx as [d' [<- Hd']]. apply H'. right; auto. }
  cbn [map length]. rewrite S_INR. change (Rprod (f d :: map f l)) with (f d * Rprod (map f l)). split; [|nra].
  pose proof (pos_INR (length l)). nra.
Qed.

Lemma flat_weights Ds kt bw nc r c W t :
  valid_distances Ds r c -> (0 < r)%nat -> 0 <= t -> 3 * INR (length Ds) * t < 1 ->
  (forall dim i j, (dim < length Ds)%nat -> (i < r)%nat -> (j < c)%nat ->
     exists k b, requests kt bw nc dim k (FixedBandwidth b) /\ 0 < b /\ mget 0 (nth dim Ds []) i j <= t * b) ->
  weight_matrix_from_distance (map A2 Ds) kt RNone bw nc = Ok W ->
  let delta := 3 * INR (length Ds) * t in
  forall i j, (i < r)%nat -> (j < c)%nat ->
    exists w, mget (Fin 0) W i j = Fin w /\ (1 - delta) / INR c <= w <= / (INR c * (1 - delta)).
Proof.
  intros HV Hr Ht Hd1 HB H delta i j Hi Hj. destruct (wm_sound _ _ _ _ _ _ _ HV Hr H) as [raw HF].
  rewrite (W_eq _ _ _ _ _ _ _ _ HF). rewrite (mmap_get Fin _ 0 (Fin 0) r c) by (auto; apply mtab_rect). rewrite mtab_get by auto.
  eexists. split; [reflexivity|].
  assert (HP : forall j', (j' < c)%nat -> 1 - delta <= PR Ds raw i j' <= 1).
  { intros j' Hj'. unfold PR, delta. replace (3 * INR (length Ds) * t) with (INR (length Ds) * (3 * t)) by ring. apply Rprod_flat; [|lra].
    intros d Hd. destruct (wf_raw _ _ _ _ _ _ _ _ HF d i j' Hd Hi Hj') as [k [p [b [Hk [Hb E]]]]].
    destruct (HB d i j' Hd Hi Hj') as (k' & b' & Hk' & Hb' & Hdb). destruct (requests_fun _ _ _ _ _ _ _ _ Hk Hk'); subst k' p.
    simpl in Hb. subst b'. destruct (valid_nth _ _ _ _ HV Hd) as [HR HE]. pose proof (entry_nonneg _ r c i j' HR HE Hi Hj') as H0.
    rewrite E. split; [apply kernel_value_range; auto; apply Hk|]. apply kernel_value_flat; auto. apply Hk. }
  assert (Hc : 1 <= INR c) by (change 1 with (INR 1); apply le_INR; lia).
  assert (HSR : INR c * (1 - delta) <= SR Ds c raw i <= INR c).
  { unfold SR, tabulate.
    assert (E1 : forall x, Rsum (map (fun _ : nat => x) (seq 0 c)) = INR c * x).
    { intros x. rewrite <- (seq_length c 0) at 2. induction (seq 0 c) as [|a l IH]; [simpl; lra|]. cbn [map length]. rewrite Rsum_cons, S_INR, IH. ring. }
    split; [rewrite <- E1|replace (INR c) with (INR c * 1) by ring; rewrite <- E1]; apply Rsum_map_le; intros j' Hj'; apply in_seq in Hj'; apply HP; lia. }
  assert (Hdd : 0 < 1 - delta) by (unfold delta; lra).
  assert (0 < INR c * (1 - delta)) by (apply Rmult_lt_0_compat; lra).
  specialize (HP j Hj). unfold safe_div. destruct (Req_EM_T (SR Ds c raw i) 0); [lra|].
  split.
  - unfold Rdiv. apply Rmult_le_compat; try lra; [left; apply Rinv_0_lt_compat; lra|]. apply Rinv_le_contravar; lra.
  - apply Rle_trans with (1 * / SR Ds c raw i).
    + apply Rmult_le_compat_r; [left; apply Rinv_0_lt_compat; lra|lra].
    + rewrite Rmult_1_l. apply Rinv_le_contravar; lra.
Qed.

(** Everything in reach of a kernel that does not fall: all weights are equal. *)
Lemma equal_weights Ds kt bw nc r c W :
  valid_distances Ds r c -> (0 < r)%nat ->
  (forall dim i j, (dim < length Ds)%nat -> (i < r)%nat -> (j < c)%nat ->
     exists k p, requests kt bw nc dim k p /\
       (k = "uniform" \/ k = "boxcar" /\ exists b, p = FixedBandwidth b /\ 0 < b /\ mget 0 (nth dim Ds []) i j <= b)) ->
  weight_matrix_from_distance (map A2 Ds) kt RNone bw nc = Ok W ->
  forall i j, (i < r)%nat -> (j < c)%nat -> mget (Fin 0) W i j = Fin (/ INR c).
Proof.
  intros HV Hr HB H i j Hi Hj. destruct (wm_sound _ _ _ _ _ _ _ HV Hr H) as [raw HF].
  rewrite (W_eq _ _ _ _ _ _ _ _ HF). rewrite (mmap_get Fin _ 0 (Fin 0) r c) by (auto; apply mtab_rect). rewrite mtab_get by auto.
  assert (HP : forall j', (j' < c)%nat -> PR Ds raw i j' = 1).
  { intros j' Hj'. unfold PR. apply Rprod_ones. apply (tabulate_in_bounds _ _ (fun x => x = 1)). intros d Hd.
    destruct (wf_raw _ _ _ _ _ _ _ _ HF d i j' Hd Hi Hj') as [k [p [b [Hk [Hb E]]]]].
    destruct (HB d i j' Hd Hi Hj') as (k' & p' & Hk' & Hc). destruct (requests_fun _ _ _ _ _ _ _ _ Hk Hk'); subst k' p'.
    rewrite E. destruct Hc as [->|[-> (b' & -> & Hb' & Hle)]]; [reflexivity|]. simpl in Hb. subst b'.
    unfold kernel_value. eqbs. destruct (Req_EM_T b 0); [lra|]. destruct (Rle_dec _ b); [reflexivity|contradiction]. }
  assert (Hc : 1 <= INR c) by (change 1 with (INR 1); apply le_INR; lia).
  assert (HSR : SR Ds c raw i = INR c).
  { unfold SR. rewrite (tabulate_ext c (PR Ds raw i) (fun _ => 1)) by auto. unfold tabulate. rewrite <- (seq_length c 0) at 2. clear.
    induction (seq 0 c) as [|a l IH]; [reflexivity|]. cbn [map length]. rewrite Rsum_cons, S_INR, IH. ring. }
  rewrite HSR, (HP j Hj). unfold safe_div. destruct (Req_EM_T (INR c) 0); [lra|]. f_equal. field; auto.
Qed.

Lemma equal_training Ds kt bw nc N W lo i :
  valid_distances Ds N N -> (0 < N)%nat ->
  (forall dim i j, (dim < length Ds)%nat -> (i < N)%nat -> (j < N)%nat ->
     exists k p, requests kt bw nc dim k p /\
       (k = "uniform" \/ k = "boxcar" /\ exists b, p = FixedBandwidth b /\ 0 < b /\ mget 0 (nth dim Ds []) i j <= b)) ->
  weight_matrix_from_distance (map A2 Ds) kt RNone bw nc = Ok W -> (i < N)%nat ->
  training_set lo W N i = filter (fun j => negb (lo && (i =? j)%nat)) (seq 0 N).
Proof.
  intros HV HN HB H Hi. unfold training_set. apply filter_ext_in. intros j Hj. apply in_seq in Hj. f_equal. unfold used_weight.
  destruct (lo && (i =? j)%nat); [apply eis_zero_Fin; auto|].
  rewrite (equal_weights Ds kt bw nc N N W HV HN HB H i j Hi ltac:(lia)).
  destruct (eis_zero (Fin (/ INR N))) eqn:E; auto. apply eis_zero_Fin in E. exfalso. injection E as E.
  assert (0 < INR N) by (apply lt_0_INR; auto). apply Rinv_0_lt_compat in H0. lra.
Qed.

(** ** Examples *)
Definition line3 : list (matrix R) := [ [[0; 1; 2]; [1; 0; 1]; [2; 1; 0]] ].
Lemma line3_valid : valid_distances line3 3 3.
Proof.
  split; [discriminate|]. unfold line3, entries. repeat (apply Forall_cons || apply Forall_nil || split); simpl; auto; lra.
Qed.

Lemma mean_needs_data : needs_data wmean_fit wmean_predict.
Proof.
  split; [intros i; exists ValueError; reflexivity|]. intros i X y w x HX Hy Hw. unfold wmean_fit.
  destruct (Nat.eqb_spec (length y) 0) as [E|E]; [destruct X; [congruence|simpl in *; lia]|].
  assert (E1 : (length y =? length w)%nat = true) by (apply Nat.eqb_eq; congruence).
  assert (E2 : (length X =? length w)%nat = true) by (apply Nat.eqb_eq; congruence).
  rewrite E1, E2. cbn [orb negb]. eexists _, _. split; reflexivity.
Qed.

Lemma line3_counts z : (1 <= z <= 3)%Z -> exists W, weight_matrix_from_distance (map A2 line3) (DScal "bisquare") RNone DNone (DScal (CInt z)) = Ok W.
Proof.
  intros Hz. apply (wm_success line3 _ _ _ 3 3 line3_valid); [lia|]. split; [intros [_ ?]; discriminate|].
  intros dim _. exists "bisquare", (NearestCount z). split; [|simpl; lia]. repeat split; simpl; auto. unfold known_kernel; tauto.
Qed.

Lemma line3_fixed k b : known_kernel k -> exists W, weight_matrix_from_distance (map A2 line3) (DScal k) RNone (DScal b) DNone = Ok W.
Proof.
  intros Hk. apply (wm_success line3 _ _ _ 3 3 line3_valid); [lia|]. split; [intros [? _]; discriminate|].
  intros dim _. exists k, (FixedBandwidth b). split; [|exact I]. repeat split; simpl; auto.
Qed.

Lemma line3_at dim i j : (dim < length line3)%nat -> (i < 3)%nat -> (j < 3)%nat -> 0 <= mget 0 (nth dim line3 []) i j <= 2.
Proof.
  intros Hd Hi Hj. destruct dim; [|simpl in Hd; lia]. apply lt3 in Hi as [-> | [-> | ->]]; apply lt3 in Hj as [-> | [-> | ->]]; unfold mget; simpl; lra.
Qed.
