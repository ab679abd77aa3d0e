From Coq Require Import Lra Psatz Sorting.Sorted Permutation.
From Verif.Model Require Import Base Ext Sort Csr Neighbour Distance WeightModel Ale Visualize.
From Verif.Spec Require Import NeighbourSpec VisualizeSpec.
From Verif.Proofs Require Import ListFacts SumFacts SortFacts KernelFacts NeighbourFacts CsrFacts FitExamples NeighbourProps AleFacts MoranFacts VisualizeFacts.
Open Scope nat_scope.
Open Scope R_scope.

(** ** members *)
Lemma in_members labels v i : In i (members labels v) <-> (i < length labels)%nat /\ nth i labels 0 = v.
Proof.
  unfold members, label_mask. rewrite in_nonzero, nth_error_map. destruct (nth_error labels i) as [a|] eqn:E; simpl.
  - assert (Hi : (i < length labels)%nat) by (apply nth_error_Some; congruence). rewrite (nth_error_nth labels i 0 E). split.
    + intros H. injection H as H. apply Reqb_true in H. auto.
    + intros [_ ->]. f_equal. apply Reqb_true. reflexivity.
  - apply nth_error_None in E. split; [discriminate|lia].
Qed.
Lemma members_NoDup labels v : NoDup (members labels v).
Proof. apply nonzero_NoDup. Qed.
Lemma members_filter labels v : members labels v = filter (fun i => Reqb (nth i labels 0) v) (seq 0 (length labels)).
Proof.
  unfold members. rewrite nonzero_filter. unfold label_mask. rewrite map_length. apply filter_ext_in. intros i Hi. apply in_seq in Hi. rewrite (nth_map_in _ _ _ 0) by lia. reflexivity.
Qed.
Lemma members_length labels v : length (members labels v) = label_count labels v.
Proof.
  unfold members. rewrite nonzero_length. unfold count_true, label_mask, label_count. induction labels as [|a l IH]; simpl; auto. destruct (Reqb a v); simpl; auto.
Qed.
Lemma label_count_pos labels v : In v labels <-> (1 <= label_count labels v)%nat.
Proof.
  unfold label_count. induction labels as [|a l IH]; simpl; [split; [tauto|lia]|]. destruct (Reqb a v) eqn:E.
  - apply Reqb_true in E. simpl. split; [lia|auto].
  - apply Reqb_false in E. rewrite <- IH. split; [intros [|]; [congruence|auto]|auto].
Qed.

(** ** counting by value *)
Lemma sum_indicator vs a : NoDup vs -> In a vs -> Rsum (map (fun v => if Reqb a v then 1 else 0) vs) = 1.
Proof.
  induction 1 as [|v vs Hv Hd IH]; intros Hin; [destruct Hin|]. cbn [map]. rewrite Rsum_cons. destruct (Reqb a v) eqn:E.
  - apply Reqb_true in E. subst v. rewrite (Rsum_map_ext _ (fun _ => 0)); [rewrite Rsum_map_const; ring|]. intros x Hx. destruct (Reqb a x) eqn:E; auto. apply Reqb_true in E. congruence.
  - apply Reqb_false in E. destruct Hin as [-> | Hin]; [congruence|]. rewrite IH; auto. ring.
Qed.

Lemma sum_by_value {A} (key : A -> R) (l : list A) vs : NoDup vs -> (forall a, In a l -> In (key a) vs) ->
  Rsum (map (fun v => INR (length (filter (fun a => Reqb (key a) v) l))) vs) = INR (length l).
Proof.
  intros Hd. induction l as [|a l IH]; intros H.
  - cbn [filter length INR]. rewrite Rsum_map_const. ring.
  - rewrite (Rsum_map_ext _ (fun v => (if Reqb (key a) v then 1 else 0) + INR (length (filter (fun a => Reqb (key a) v) l)))).
    + rewrite Rsum_map_plus, sum_indicator by (auto; apply H; left; auto). rewrite IH by (intros; apply H; right; auto). cbn [length]. rewrite S_INR. ring.
    + intros v Hv. cbn [filter]. destruct (Reqb (key a) v); cbn [length]; [rewrite S_INR; ring|ring].
Qed.

Lemma SS_NoDup l : StronglySorted Rlt l -> NoDup l.
Proof.
  induction 1 as [|a l Hs IH Hf]; constructor; auto. intros H. rewrite Forall_forall in Hf. specialize (Hf a H). lra.
Qed.

Lemma NoDup_app_l {A} (l l' : list A) : NoDup (l ++ l')%list -> NoDup l.
Proof. induction l as [|a l IH]; intros H; [constructor|]. inversion H; subst. constructor; auto. intros Ha. apply H2, in_or_app. auto. Qed.

(** ** drawing *)
Section Drawing.
  Variable G : Type.
  Variable choice : G -> list nat -> nat -> G * list nat.
  Variable nearest : R -> nat.
  Hypothesis Hc : valid_choice choice.

  Lemma draw_spec g pop k : NoDup pop -> (0 <= k <= Z.of_nat (length pop))%Z ->
    exists g' s, draw G choice g pop k = Ok (g', s) /\ Z.of_nat (length s) = k /\ NoDup s /\ incl s pop.
  Proof.
    intros Hd Hk. unfold draw. destruct (Z.ltb_spec k 0); [lia|]. destruct (Z.ltb_spec (Z.of_nat (length pop)) k); [lia|]. cbn [orb].
    destruct (Hc g pop (Z.to_nat k)) as [HL [rest HP]]; [lia|]. destruct (choice g pop (Z.to_nat k)) as [g' s]. cbn [snd] in *. exists g', s. split; auto. split; [rewrite HL; lia|].
    pose proof (Permutation_NoDup HP Hd) as Hd'. split; [apply (NoDup_app_l _ rest Hd')|]. intros x Hx. apply (Permutation_in x (Permutation_sym HP)), in_or_app. auto.
  Qed.

  Lemma draw_bad g pop k : (k < 0 \/ Z.of_nat (length pop) < k)%Z -> draw G choice g pop k = Raise ValueError.
  Proof. intros H. unfold draw. destruct (Z.ltb_spec k 0); auto. destruct (Z.ltb_spec (Z.of_nat (length pop)) k); auto. lia. Qed.

  Lemma cluster_size_bounds N s size : (1 <= size)%nat -> (1 <= cluster_sample_size N s size <= Z.of_nat size)%Z.
  Proof. intros H. unfold cluster_sample_size. lia. Qed.

  Lemma NoDup_app_i {A} (l l' : list A) : NoDup l -> NoDup l' -> (forall x, In x l -> ~ In x l') -> NoDup (l ++ l')%list.
  Proof.
    intros H H' Hx. induction H as [|a l Ha Hl IH]; simpl; auto. constructor.
    - rewrite in_app_iff. intros [|]; [auto|]. apply (Hx a); [left|]; auto.
    - apply IH. intros x Hx'. apply Hx. right. auto.
  Qed.

  Lemma filter_all {A} (f : A -> bool) l : (forall x, In x l -> f x = true) -> filter f l = l.
  Proof. induction l as [|a l IH]; intros H; simpl; auto. rewrite (H a) by (left; auto). rewrite IH; auto. intros. apply H. right. auto. Qed.
  Lemma filter_none {A} (f : A -> bool) l : (forall x, In x l -> f x = false) -> filter f l = [].
  Proof. induction l as [|a l IH]; intros H; simpl; auto. rewrite (H a) by (left; auto). apply IH. intros. apply H. right. auto. Qed.

  Lemma draw_clusters_spec N s labels vs : NoDup vs -> (forall v, In v vs -> In v labels) -> forall g,
    exists g' idx, draw_clusters G choice g N s labels vs = Ok (g', idx) /\ NoDup idx /\
      (forall i, In i idx -> (i < length labels)%nat /\ In (nth i labels 0) vs) /\
      forall v, In v vs -> Z.of_nat (chosen labels idx v) = cluster_sample_size N s (label_count labels v).
  Proof.
    intros Hd. induction Hd as [|v vs Hv Hd IH]; intros Hin g.
    - exists g, []. simpl. repeat split; auto using NoDup_nil; intros; contradiction.
    - cbn [draw_clusters]. destruct (draw_spec g (members labels v) (cluster_sample_size N s (length (members labels v))) (members_NoDup _ _)) as (g1 & s1 & E1 & L1 & D1 & I1).
      { pose proof (cluster_size_bounds N s (length (members labels v))) as HB. assert ((1 <= length (members labels v))%nat) by (rewrite members_length; apply label_count_pos, Hin; left; auto). lia. }
      rewrite E1. cbn [bind fst]. destruct (IH ltac:(intros; apply Hin; right; auto) g1) as (g2 & s2 & E2 & D2 & I2 & C2). rewrite E2. cbn [bind fst snd]. exists g2, (s1 ++ s2)%list.
      assert (H1 : forall i, In i s1 -> (i < length labels)%nat /\ nth i labels 0 = v) by (intros i Hi; apply in_members, I1, Hi).
      split; auto. split; [|split].
      + apply NoDup_app_i; auto. intros i Hi Hi2. destruct (H1 i Hi) as [_ E]. destruct (I2 i Hi2) as [_ Hv']. congruence.
      + intros i Hi. apply in_app_iff in Hi as [Hi | Hi]; [destruct (H1 i Hi) as [A B]; split; auto; left; auto|destruct (I2 i Hi); split; auto; right; auto].
      + intros v' Hv'. unfold chosen. rewrite filter_app, app_length. destruct Hv' as [<- | Hv'].
        * rewrite (filter_all _ s1) by (intros i Hi; apply Reqb_true, H1, Hi). rewrite (filter_none _ s2).
          -- simpl. rewrite Nat.add_0_r, L1, members_length. reflexivity.
          -- intros i Hi. apply Reqb_false. intros E. destruct (I2 i Hi) as [_ H]. congruence.
        * rewrite (filter_none _ s1); [simpl; apply C2; auto|]. intros i Hi. apply Reqb_false. destruct (H1 i Hi) as [_ ->]. congruence.
  Qed.

  Lemma trunc_spec x : (0 <= x -> IZR (trunc x) <= x < IZR (trunc x) + 1) /\ (x < 0 -> IZR (trunc x) - 1 < x <= IZR (trunc x)).
  Proof.
    unfold trunc. destruct (Rltb x 0) eqn:E; [apply Rltb_true in E|apply Rltb_false in E]; split; intros H; try lra.
    - pose proof (Rceil_spec x). lra.
    - unfold Rfloor. pose proof (base_Int_part x). lra.
  Qed.

  Lemma size_det a N s : (0 < N)%nat -> size_spec a N s -> s = match a with SizeInt k => k | SizeFloat r => trunc (r * INR N) end.
  Proof.
    intros HN H. destruct a as [k|r]; [exact H|]. destruct H as [A B]. destruct (trunc_spec (r * INR N)) as [C D]. set (t := trunc (r * INR N)) in *.
    assert (0 < INR N) by (apply lt_0_INR; auto). destruct (Rle_dec 0 r) as [Hr | Hr].
    - assert (0 <= r * INR N) by (apply Rmult_le_pos; lra). specialize (A Hr). specialize (C H0).
      assert (IZR s < IZR t + 1) by lra. assert (IZR t < IZR s + 1) by lra. rewrite <- plus_IZR in *. apply lt_IZR in H1, H2. lia.
    - assert (r * INR N < 0) by nra. specialize (B ltac:(lra)). specialize (D H0).
      assert (IZR s < IZR t + 1) by lra. assert (IZR t < IZR s + 1) by lra. rewrite <- plus_IZR in *. apply lt_IZR in H1, H2. lia.
  Qed.

  Lemma size_zero a s : size_spec a 0 s -> s = match a with SizeInt k => k | SizeFloat r => trunc (r * INR 0) end.
  Proof.
    destruct a as [k|r]; [auto|]. intros [A B]. simpl INR in *. rewrite Rmult_0_r in *. rewrite (trunc_eq 0 0) by (try lia; lra).
    destruct (Rle_dec 0 r) as [Hr | Hr].
    - specialize (A Hr). assert (IZR s < 1) by lra. assert (-1 < IZR s) by lra. apply lt_IZR in H, H0. lia.
    - specialize (B ltac:(lra)). assert (IZR s < 1) by lra. assert (-1 < IZR s) by lra. apply lt_IZR in H, H0. lia.
  Qed.

  Theorem sample_with_labels : forall seed g0 ys a s labels, length labels = length ys -> (0 < length ys)%nat -> size_spec a (length ys) s ->
    exists g idx, sample_partial G choice nearest seed g0 ys (Some a) None (Some labels) = Ok (g, idx) /\
      NoDup idx /\ (forall i, In i idx -> (i < length ys)%nat) /\
      (forall v, In v labels -> (1 <= chosen labels idx v <= label_count labels v)%nat) /\
      (forall v, In v labels -> Z.of_nat (chosen labels idx v) = Z.min (Z.max (Rceil (INR (label_count labels v) * IZR s / INR (length ys))) 1) (Z.of_nat (label_count labels v))) /\
      ((s <= Z.of_nat (length ys))%Z -> (s <= Z.of_nat (length idx))%Z) /\
      ((Z.of_nat (length ys) <= s)%Z -> Permutation idx (seq 0 (length ys))) /\
      ((1 <= s)%Z -> forall values, distinct_values labels values -> (Z.of_nat (length idx) < s + Z.of_nat (length values))%Z).
  Proof.
    intros seed g0 ys a s labels HL HN Hs. unfold sample_partial. rewrite <- (size_det a (length ys) s HN Hs). destruct (Nat.eqb_spec (length ys) 0) as [|_]; [lia|].
    assert (Hne : labels <> []) by (destruct labels; [simpl in HL; lia|discriminate]). destruct labels as [|l0 labels0] eqn:El; [congruence|]. rewrite <- El in *. clear El l0 labels0.
    set (g := match seed with Some s => s | None => g0 end). set (N := length ys) in *.
    pose proof (unique_sorted labels) as Hus. pose proof (SS_NoDup _ Hus) as Hud. pose proof (unique_in labels) as Hui.
    destruct (draw_clusters_spec N s labels (unique labels) Hud ltac:(intros v; apply Hui) g) as (g' & idx & E & D & I & C).
    exists g', idx. split; auto. split; auto. split; [intros i Hi; rewrite <- HL; apply I; auto|].
    assert (Cn : forall v, In v labels -> Z.of_nat (chosen labels idx v) = cluster_sample_size N s (label_count labels v)) by (intros v Hv; apply C, Hui, Hv).
    assert (Cb : forall v, In v labels -> (1 <= chosen labels idx v <= label_count labels v)%nat).
    { intros v Hv. pose proof (Cn v Hv) as E1. pose proof (cluster_size_bounds N s (label_count labels v)) as E2. apply label_count_pos in Hv. specialize (E2 Hv). lia. }
    split; auto. split; [exact Cn|].
    assert (HNp : 0 < INR N) by (apply lt_0_INR; auto).
    assert (SN : Rsum (map (fun v => INR (label_count labels v)) (unique labels)) = INR N).
    { rewrite <- HL. apply (sum_by_value (fun a => a)); auto. intros v Hv. apply Hui. auto. }
    assert (SI : Rsum (map (fun v => INR (chosen labels idx v)) (unique labels)) = INR (length idx)).
    { apply (sum_by_value (fun i => nth i labels 0)); auto. intros i Hi. apply I. auto. }
    assert (SS : Rsum (map (fun v => INR (label_count labels v) * IZR s / INR N) (unique labels)) = IZR s).
    { unfold Rdiv. rewrite (Rsum_map_ext _ (fun v => INR (label_count labels v) * (IZR s * / INR N))) by (intros; ring). rewrite Rsum_map_scal_r, SN. field. lra. }
    assert (CR : forall v, In v (unique labels) -> INR (chosen labels idx v) = IZR (cluster_sample_size N s (label_count labels v))).
    { intros v Hv. rewrite INR_IZR_INZ. f_equal. auto. }
    assert (LP : forall v, In v (unique labels) -> 1 <= INR (label_count labels v)).
    { intros v Hv. change 1 with (INR 1). apply le_INR, label_count_pos, Hui, Hv. }
    split; [|split].
    - intros Hle. apply le_IZR. rewrite <- INR_IZR_INZ, <- SI, <- SS. apply Rsum_map_le. intros v Hv. rewrite CR by auto. unfold cluster_sample_size.
      assert (A1 : INR (label_count labels v) * IZR s / INR N <= IZR (Rceil (INR (label_count labels v) * IZR s / INR N))) by apply Rceil_spec.
      assert (A2 : INR (label_count labels v) * IZR s / INR N <= IZR (Z.of_nat (label_count labels v))).
      { rewrite <- INR_IZR_INZ. apply IZR_le in Hle. rewrite <- INR_IZR_INZ in Hle. pose proof (LP v Hv). apply (Rmult_le_reg_r (INR N)); auto. unfold Rdiv. rewrite Rmult_assoc, Rinv_l, Rmult_1_r by lra. nra. }
      destruct (Z.min_spec (Z.max (Rceil (INR (label_count labels v) * IZR s / INR N)) 1) (Z.of_nat (label_count labels v))) as [[_ ->] | [_ ->]]; auto.
      eapply Rle_trans; [exact A1|]. apply IZR_le. lia.
    - intros Hge. apply NoDup_Permutation_bis; [auto| |].
      + rewrite seq_length. apply INR_le. fold N. rewrite <- SI, <- SN. apply Rsum_map_le. intros v Hv. rewrite CR by auto. unfold cluster_sample_size.
        assert (A2 : IZR (Z.of_nat (label_count labels v)) <= INR (label_count labels v) * IZR s / INR N).
        { rewrite <- INR_IZR_INZ. apply IZR_le in Hge. rewrite <- INR_IZR_INZ in Hge. pose proof (LP v Hv). apply (Rmult_le_reg_r (INR N)); auto. unfold Rdiv. rewrite Rmult_assoc, Rinv_l, Rmult_1_r by lra. nra. }
        pose proof (Rceil_spec (INR (label_count labels v) * IZR s / INR N)) as [A1 _].
        assert (Z.of_nat (label_count labels v) <= Rceil (INR (label_count labels v) * IZR s / INR N))%Z by (apply le_IZR; lra).
        eapply Rle_trans; [right; apply INR_IZR_INZ|]. apply IZR_le. lia.
      + intros i Hi. apply in_seq. split; [lia|]. simpl. unfold N in *. rewrite <- HL. apply I. auto.
    - intros H1 values [Hvs Hvi]. assert (values = unique labels) as -> by (apply SS_same; auto; intros x; rewrite Hvi, Hui; reflexivity).
      apply lt_IZR. rewrite plus_IZR, <- !INR_IZR_INZ, <- SI, <- SS. apply IZR_le in H1.
      assert (HU : unique labels <> []). { destruct labels as [|l0 ls]; [congruence|]. intros E0. assert (In l0 (unique (l0 :: ls))) by (apply unique_in; left; auto). rewrite E0 in H. destruct H. }
      assert (St : forall v, In v (unique labels) -> INR (chosen labels idx v) < INR (label_count labels v) * IZR s / INR N + 1).
      { intros v Hv. rewrite CR by auto. unfold cluster_sample_size. pose proof (LP v Hv).
        assert (A0 : 0 < INR (label_count labels v) * IZR s / INR N) by (apply Rmult_lt_0_compat; [nra|apply Rinv_0_lt_compat; auto]).
        pose proof (Rceil_spec (INR (label_count labels v) * IZR s / INR N)) as [A1 A2]. assert (1 <= Rceil (INR (label_count labels v) * IZR s / INR N))%Z by (assert (0 < Rceil (INR (label_count labels v) * IZR s / INR N))%Z by (apply lt_IZR; lra); lia).
        eapply Rle_lt_trans; [|exact A2]. apply IZR_le. lia. }
      clear - St HU. induction (unique labels) as [|v vs IH]; [congruence|]. cbn [map]. rewrite !Rsum_cons. cbn [length]. rewrite S_INR. pose proof (St v (or_introl eq_refl)).
      destruct vs as [|v' vs]; [simpl; lra|]. specialize (IH ltac:(discriminate) ltac:(intros; apply St; right; auto)). lra.
  Qed.

  Theorem sample_without_labels : forall seed g0 ys a s, size_spec a (length ys) s ->
    ((0 <= s <= Z.of_nat (length ys))%Z -> exists g idx, sample_partial G choice nearest seed g0 ys (Some a) None None = Ok (g, idx) /\
        Z.of_nat (length idx) = s /\ NoDup idx /\ forall i, In i idx -> (i < length ys)%nat) /\
    ((s < 0 \/ Z.of_nat (length ys) < s)%Z -> sample_partial G choice nearest seed g0 ys (Some a) None None = Raise ValueError).
  Proof.
    intros seed g0 ys a s Hs. assert (E : s = match a with SizeInt k => k | SizeFloat r => trunc (r * INR (length ys)) end).
    { destruct (Nat.eq_dec (length ys) 0) as [E0 | E0]; [rewrite E0 in *; apply size_zero; auto|apply size_det; auto; lia]. }
    unfold sample_partial. rewrite <- E. split.
    - intros H. destruct (draw_spec (match seed with Some s => s | None => g0 end) (seq 0 (length ys)) s (seq_NoDup _ _)) as (g' & idx & E1 & E2 & E3 & E4); [rewrite seq_length; lia|].
      exists g', idx. repeat split; auto. intros i Hi. apply E4, in_seq in Hi. lia.
    - intros H. apply draw_bad. rewrite seq_length. lia.
  Qed.

  Theorem sample_seeded : forall st g1 g2 ys size q labels,
    sample_partial G choice nearest (Some st) g1 ys size q labels = sample_partial G choice nearest (Some st) g2 ys size q labels.
  Proof. reflexivity. Qed.

  Theorem sample_selection : forall seed g ys labels a q, 
    sample_partial G choice nearest seed g ys None None labels = Raise (PyException "No selection method is chosen.") /\
    sample_partial G choice nearest seed g ys (Some a) (Some q) labels = Raise (PyException "Only one selection method is allowed.").
  Proof. intros. split; reflexivity. Qed.

  (** *** quantiles *)
  Lemma filter_perm_length {A} (f : A -> bool) l l' : Permutation l l' -> length (filter f l) = length (filter f l').
  Proof. intros H. apply Permutation_length. induction H; simpl; auto; try (destruct (f x); auto); [destruct (f y); auto using perm_swap|]. etransitivity; eauto. Qed.

  Lemma sorted_rank l r : StronglySorted Rle l -> (r < length l)%nat -> has_rank l (nth r l 0) r.
  Proof.
    intros HS Hr.
    assert (Hn : forall i j, (i <= j)%nat -> (j < length l)%nat -> nth i l 0 <= nth j l 0).
    { clear Hr. induction HS as [|a l HS IH Hf]; intros i j Hij Hj; simpl in Hj; [lia|]. destruct j as [|j], i as [|i]; try lia; simpl; try lra; [|apply IH; lia]. rewrite Forall_forall in Hf. apply Hf, nth_In. lia. }
    split; [apply nth_In; auto|]. assert (E : l = (firstn r l ++ skipn r l)%list) by (symmetry; apply firstn_skipn).
    assert (L1 : length (firstn r l) = r) by (rewrite firstn_length; lia).
    remember (nth r l 0) as v eqn:Ev. split.
    - rewrite E. rewrite filter_app, app_length. rewrite (filter_none _ (skipn r l)).
      + simpl. rewrite Nat.add_0_r. transitivity (length (firstn r l)); [|lia]. clear. induction (firstn r l) as [|a m IH]; simpl; auto. destruct (Rltb _ _); simpl; lia.
      + intros x Hx. apply (In_nth _ _ 0) in Hx as (k & Hk & <-). rewrite skipn_length in Hk. rewrite skipn_nth. apply Rltb_false. rewrite Ev. apply Hn; lia.
    - assert (E2 : l = (firstn (S r) l ++ skipn (S r) l)%list) by (symmetry; apply firstn_skipn). rewrite E2. rewrite filter_app, app_length. rewrite (filter_all _ (firstn (S r) l)).
      + rewrite firstn_length. lia.
      + intros x Hx. apply (In_nth _ _ 0) in Hx as (k & Hk & <-). rewrite firstn_length in Hk. apply Rleb_true. rewrite Ev.
        assert (Ek : nth k (firstn (S r) l) 0 = nth k l 0) by (rewrite E2 at 2; rewrite app_nth1; auto; rewrite firstn_length; lia). rewrite Ek. apply Hn; lia.
  Qed.

  Lemma has_rank_perm l l' v r : Permutation l l' -> has_rank l v r -> has_rank l' v r.
  Proof.
    intros HP (A & B & C). split; [eapply Permutation_in; eauto|]. rewrite <- (filter_perm_length _ l l' HP), <- (filter_perm_length _ l l' HP). auto.
  Qed.

  Lemma first_index_spec l v : In v l -> exists i, first_index l v = Ok i /\ first_at l v i.
  Proof.
    intros H. unfold first_index. destruct (members l v) as [|i ms] eqn:E.
    - exfalso. apply (In_nth _ _ 0) in H as (k & Hk & Ek). assert (In k (members l v)) by (apply in_members; auto). rewrite E in H. destruct H.
    - exists i. split; auto. assert (Hi : In i (members l v)) by (rewrite E; left; auto). apply in_members in Hi as [A B]. split; auto. split; auto.
      intros j Hj Ej. assert (Hjm : In j (members l v)) by (apply in_members; split; [lia|auto]). rewrite E in Hjm. pose proof (nonzero_sorted (label_mask l v)) as HS. fold (members l v) in HS. rewrite E in HS. inversion HS as [|? ? HS' HFa]; subst. rewrite Forall_forall in HFa.
      destruct Hjm as [-> | Hjm]; [lia|]. specialize (HFa j Hjm). lia.
  Qed.

  Hypothesis Hq : valid_nearest nearest.

  Lemma nearest_lt n q : (0 < n)%nat -> 0 <= q <= 1 -> (nearest (INR (n - 1) * q) < n)%nat.
  Proof.
    intros Hn Hr. assert (0 <= INR (n - 1)) by apply pos_INR. assert (0 <= INR (n - 1) * q) by nra. pose proof (Hq _ H0) as E. assert (INR (n - 1) * q <= INR (n - 1)) by nra.
    assert (E2 := Rle_trans _ _ _ (Rle_abs _) E). clear E; rename E2 into E. assert (INR (nearest (INR (n - 1) * q)) < INR n). { assert (INR n = INR (n - 1) + 1) by (rewrite <- S_INR; f_equal; lia). lra. }
    apply INR_lt. auto.
  Qed.

  Theorem sample_quantile : forall seed g0 ys qs labels, ys <> [] -> (forall y, In y ys -> y <> []) -> (forall q, In q qs -> 0 <= q <= 1) ->
    let means := map average ys in
    exists g idx, sample_partial G choice nearest seed g0 ys None (Some qs) labels = Ok (g, idx) /\
      g = match seed with Some st => st | None => g0 end /\
      Forall2 (fun q i => exists v r, Rabs (INR r - INR (length ys - 1) * q) <= 1 / 2 /\ has_rank means v r /\ first_at means v i) qs idx.
  Proof.
    intros seed g0 ys qs labels Hne Hy Hqs means. unfold sample_partial. set (g := match seed with Some s => s | None => g0 end).
    assert (HN : (0 < length ys)%nat) by (destruct ys; [congruence|simpl; lia]). destruct (Nat.eqb_spec (length ys) 0); [lia|].
    assert (E1 : existsb (fun q => Rltb q 0 || Rltb 1 q) qs = false).
    { apply not_true_is_false. rewrite existsb_exists. intros (q & Hin & Hb). specialize (Hqs q Hin). apply orb_true_iff in Hb as [Hb | Hb]; apply Rltb_true in Hb; lra. }
    rewrite E1. assert (E2 : existsb (fun y : list R => (length y =? 0)%nat) ys = false).
    { apply not_true_is_false. rewrite existsb_exists. intros (y & Hin & Hb). specialize (Hy y Hin). apply Nat.eqb_eq in Hb. destruct y; [congruence|discriminate]. }
    rewrite E2. change (map mean ys) with means. assert (HLm : length means = length ys) by (unfold means; apply map_length).
    assert (Hex : forall qs, (forall q, In q qs -> 0 <= q <= 1) -> exists idx, mapM (fun q => first_index means (nth (nearest (INR (length ys - 1) * q)) (sortR means) 0)) qs = Ok idx /\
      Forall2 (fun q i => exists v r, Rabs (INR r - INR (length ys - 1) * q) <= 1 / 2 /\ has_rank means v r /\ first_at means v i) qs idx).
    { clear Hqs E1 qs. induction qs as [|q qs IH]; intros Hqs; [exists []; split; [reflexivity|constructor]|].
      destruct IH as (idx & Ei & Hi); [intros; apply Hqs; right; auto|]. specialize (Hqs q (or_introl eq_refl)).
      set (r := nearest (INR (length ys - 1) * q)). assert (Hr : (r < length (sortR means))%nat).
      { rewrite <- (Permutation_length (sortR_perm means)), HLm. apply nearest_lt; auto. }
      pose proof (sorted_rank (sortR means) r (sortR_sorted means) Hr) as Hrk. set (v := nth r (sortR means) 0) in *.
      assert (Hrk' : has_rank means v r) by (eapply has_rank_perm; [apply Permutation_sym, sortR_perm|exact Hrk]).
      destruct (first_index_spec means v) as (i & E & Hf); [apply Hrk'|]. exists (i :: idx). split.
      - cbn [mapM]. fold r. fold v. rewrite E. cbn [bind]. rewrite Ei. reflexivity.
      - constructor; auto. exists v, r. split; auto. apply Hq. apply Rmult_le_pos; [apply pos_INR|lra]. }
    destruct (Hex qs Hqs) as (idx & Ei & Hi). rewrite Ei. cbn [bind]. eauto.
  Qed.
End Drawing.

(** ** medoids *)
Lemma argmin_from_spec l : forall k best bv (f : nat -> R), (forall i, (i < length l)%nat -> nth i l 0 = f (k + i)%nat) -> (best < k)%nat -> bv = f best ->
  (forall j, (j < k)%nat -> f best <= f j /\ ((j < best)%nat -> f best < f j)) ->
  let m := argmin_from k best bv l in (m < k + length l)%nat /\ forall j, (j < k + length l)%nat -> f m <= f j /\ ((j < m)%nat -> f m < f j).
Proof.
  induction l as [|x l IH]; intros k best bv f Hf Hb -> Hbest; simpl.
  - rewrite Nat.add_0_r. split; auto.
  - pose proof (Hf 0%nat ltac:(simpl; lia)) as H0. simpl in H0. rewrite Nat.add_0_r in H0. subst x.
    assert (Hf' : forall i, (i < length l)%nat -> nth i l 0 = f (S k + i)%nat) by (intros i Hi; specialize (Hf (S i) ltac:(simpl; lia)); simpl in Hf; rewrite Hf; f_equal; lia).
    replace (k + S (length l))%nat with (S k + length l)%nat by lia. destruct (Rltb (f k) (f best)) eqn:E.
    + apply Rltb_true in E. apply IH; [auto|lia|reflexivity|]. intros j Hj. destruct (Nat.eq_dec j k) as [-> | Hjk]; [split; [lra|lia]|]. destruct (Hbest j ltac:(lia)). split; [lra|intros; lra].
    + apply Rltb_false in E. apply IH; [auto|lia|reflexivity|]. intros j Hj. destruct (Nat.eq_dec j k) as [-> | Hjk]; [split; [lra|lia]|]. apply Hbest. lia.
Qed.

Lemma argmin_spec l m : argmin l = Ok m -> (m < length l)%nat /\ forall j, (j < length l)%nat -> nth m l 0 <= nth j l 0 /\ ((j < m)%nat -> nth m l 0 < nth j l 0).
Proof.
  destruct l as [|x l]; [discriminate|]. intros H. injection H as <-. apply (argmin_from_spec l 1 0 x (fun j => nth j (x :: l) 0)); auto; try lia.
  intros j Hj. replace j with 0%nat by lia. simpl. split; [lra|lia].
Qed.

Lemma euclid_distance p q : euclid p q = distance p q.
Proof. unfold euclid, distance. f_equal. f_equal. revert q. induction p as [|a p IH]; intros [|b q]; simpl; auto. rewrite IH. f_equal. ring. Qed.

Theorem typical_medoid : forall embedding labels, length embedding = length labels ->
  exists values idx, choose_cluster_typical embedding labels = Ok idx /\ distinct_values labels values /\ Forall2 (medoid embedding labels) values idx.
Proof.
  intros E labels HL. exists (unique labels).
  set (F := fun c => let ms := members labels c in pts <- take_checked E ms ;; k <- argmin (map (fun p => Rsum (map (euclid p) pts)) pts) ;; getitem ms k).
  assert (HF : forall v, In v labels -> exists i, F v = Ok i /\ medoid E labels v i).
  { intros v Hv. unfold F. set (ms := members labels v). cbv zeta. fold ms.
    assert (Ht : take_checked E ms = Ok (map (fun i => nth i E []) ms)).
    { unfold take_checked. assert (Hm : forall i, In i ms -> (i < length E)%nat) by (intros i Him; apply in_members in Him; lia). clear - Hm. induction ms as [|i ms IH]; [reflexivity|]. cbn [mapM map].
      rewrite (getitem_lt []) by (apply Hm; left; auto). cbn [bind]. rewrite IH by (intros; apply Hm; right; auto). reflexivity. }
    rewrite Ht. cbn [bind]. set (costs := map (fun p => Rsum (map (euclid p) (map (fun i => nth i E []) ms))) (map (fun i => nth i E []) ms)).
    assert (Hlen : length costs = length ms) by (unfold costs; rewrite !map_length; auto).
    assert (Hpos : (1 <= length ms)%nat) by (unfold ms; rewrite members_length; apply label_count_pos; auto).
    destruct (argmin costs) as [k | ] eqn:Ea; [|destruct costs; [simpl in Hlen; lia|discriminate]]. cbn [bind]. apply argmin_spec in Ea as [Hk Hmin].
    rewrite (getitem_lt 0%nat) by lia. exists (nth k ms 0%nat). split; auto.
    assert (Hc : forall j, (j < length ms)%nat -> nth j costs 0 = total_distance E labels v (nth j ms 0%nat)).
    { intros j Hj. unfold costs. rewrite map_map. rewrite (nth_map_in _ _ _ 0%nat) by auto. rewrite map_map. unfold total_distance. rewrite <- members_filter. fold ms. apply Rsum_map_ext. intros t _. apply euclid_distance. }
    assert (Hmk : In (nth k ms 0%nat) ms) by (apply nth_In; lia). pose proof (proj1 (in_members labels v _) Hmk) as [A B]. split; auto. split; auto.
    intros j Hj Ej. assert (Hjm : In j ms) by (apply in_members; auto). apply (In_nth _ _ 0%nat) in Hjm as (t & Ht' & <-). destruct (Hmin t ltac:(lia)) as [C D]. rewrite !Hc in C, D by lia. split; auto.
    intros Hlt. apply D. pose proof (nonzero_sorted (label_mask labels v)) as HS. change (nonzero (label_mask labels v)) with ms in HS. destruct (Nat.lt_ge_cases t k); auto. exfalso.
    assert ((nth k ms 0 <= nth t ms 0)%nat); [|lia].
    clear - HS Ht' H. revert k t Ht' H. induction HS as [|a l HS IH Hf]; intros k t Ht Hkt; simpl in Ht; [lia|]. destruct t as [|t], k as [|k]; try lia; simpl; [|apply IH; lia]. rewrite Forall_forall in Hf. apply Nat.lt_le_incl, Hf, nth_In. lia. }
  assert (Hex : forall vs, (forall v, In v vs -> In v labels) -> exists idx, mapM F vs = Ok idx /\ Forall2 (medoid E labels) vs idx).
  { clearbody F. induction vs as [|v vs IH]; intros Hv; [exists []; split; [reflexivity|constructor]|]. destruct IH as (idx & Ei & Hi); [intros; apply Hv; right; auto|].
    destruct (HF v (Hv v (or_introl eq_refl))) as (i & E1 & E2). exists (i :: idx). cbn [mapM]. rewrite E1. cbn [bind]. rewrite Ei. split; auto. }
  destruct (Hex (unique labels)) as (idx & A & B); [intros v; apply unique_in|]. exists idx. split; auto. split; auto. split; [apply unique_sorted|apply unique_in].
Qed.

(** ** ranges and colours *)
Lemma fold_min_spec l x : (In (fold_left Rmin l x) (x :: l)) /\ forall y, In y (x :: l) -> fold_left Rmin l x <= y.
Proof.
  revert x. induction l as [|a l IH]; intros x; simpl; [split; [auto|intros y [<- | []]; lra]|]. destruct (IH (Rmin x a)) as [A B]. split.
  - destruct A as [A | A]; [|auto]. destruct (Rmin_or x a) as [E | E]; rewrite E in A |- *; auto.
  - intros y Hy. pose proof (B (Rmin x a) (or_introl eq_refl)). pose proof (Rmin_l x a). pose proof (Rmin_r x a). destruct Hy as [<- | [<- | Hy]]; try lra. apply B. right. auto.
Qed.
Lemma fold_max_spec l x : (In (fold_left Rmax l x) (x :: l)) /\ forall y, In y (x :: l) -> y <= fold_left Rmax l x.
Proof.
  revert x. induction l as [|a l IH]; intros x; simpl; [split; [auto|intros y [<- | []]; lra]|]. destruct (IH (Rmax x a)) as [A B]. split.
  - destruct A as [A | A]; [|auto]. destruct (Rmax_or x a) as [E | E]; rewrite E in A |- *; auto.
  - intros y Hy. pose proof (B (Rmax x a) (or_introl eq_refl)). pose proof (Rmax_l x a). pose proof (Rmax_r x a). destruct Hy as [<- | [<- | Hy]]; try lra. apply B. right. auto.
Qed.

Lemma vmin_spec v : v <> [] -> exists lo, vmin v = Ok lo /\ In lo v /\ forall y, In y v -> lo <= y.
Proof. destruct v as [|x v]; [congruence|]. intros _. eexists. split; [reflexivity|]. apply fold_min_spec. Qed.
Lemma vmax_spec v : v <> [] -> exists hi, vmax v = Ok hi /\ In hi v /\ forall y, In y v -> y <= hi.
Proof. destruct v as [|x v]; [congruence|]. intros _. eexists. split; [reflexivity|]. apply fold_max_spec. Qed.

Theorem range_margin_spec : forall v vmin' vmax' margin, v <> [] ->
  exists lo hi, In lo v /\ In hi v /\ (forall y, In y v -> lo <= y <= hi) /\
    range_margin (Some v) vmin' vmax' margin = Ok (lo - margin * (hi - lo), hi + margin * (hi - lo)) /\
    (0 <= margin -> forall y, In y v -> lo - margin * (hi - lo) <= y <= hi + margin * (hi - lo)).
Proof.
  intros v a b margin Hne. destruct (vmin_spec v Hne) as (lo & E1 & I1 & B1). destruct (vmax_spec v Hne) as (hi & E2 & I2 & B2). exists lo, hi. split; auto. split; auto. split; auto. split.
  - unfold range_margin. rewrite E1, E2. cbn [bind]. f_equal. f_equal; ring.
  - intros Hm y Hy. specialize (B1 y Hy). specialize (B2 y Hy). assert (0 <= margin * (hi - lo)) by (apply Rmult_le_pos; lra). lra.
Qed.
Theorem range_margin_values : forall lo hi margin, range_margin None (Some lo) (Some hi) margin = Ok (lo - margin * (hi - lo), hi + margin * (hi - lo)).
Proof. intros. simpl. f_equal. f_equal; ring. Qed.
Theorem range_margin_missing : forall a b margin, a = None \/ b = None -> range_margin None a b margin = Raise (PyException "Invalid parameter").
Proof. intros a b m [-> | ->]; [reflexivity|destruct a; reflexivity]. Qed.

Theorem color_spec : forall v, v <> [] ->
  ((exists a b, In a v /\ In b v /\ a <> b) -> exists u, vector_normed v = Ok (map Fin u) /\ length u = length v /\
     (forall i, (i < length v)%nat -> 0 <= nth i u 0 <= 1) /\
     (forall i, (i < length v)%nat -> (forall y, In y v -> nth i v 0 <= y) -> nth i u 0 = 0) /\
     (forall i, (i < length v)%nat -> (forall y, In y v -> y <= nth i v 0) -> nth i u 0 = 1) /\
     (forall i j, (i < length v)%nat -> (j < length v)%nat -> (nth i u 0 <= nth j u 0 <-> nth i v 0 <= nth j v 0))) /\
  ((forall a b, In a v -> In b v -> a = b) -> vector_normed v = Ok (map (fun _ => NaN) v)).
Proof.
  intros v Hne. destruct (vmin_spec v Hne) as (lo & E1 & I1 & B1). destruct (vmax_spec v Hne) as (hi & E2 & I2 & B2). unfold vector_normed. rewrite E1, E2. cbn [bind]. split.
  - intros (a & b & Ha & Hb & Hab). assert (Hlt : lo < hi). { pose proof (B1 a Ha). pose proof (B2 a Ha). pose proof (B1 b Hb). pose proof (B2 b Hb). destruct (Rtotal_order a b) as [|[|]]; lra. }
    exists (map (fun x => (x - lo) / (hi - lo)) v). assert (Hi : 0 < / (hi - lo)) by (apply Rinv_0_lt_compat; lra).
    assert (Hn : forall i, (i < length v)%nat -> nth i (map (fun x => (x - lo) / (hi - lo)) v) 0 = (nth i v 0 - lo) * / (hi - lo)) by (intros i Hi'; rewrite (nth_map_in _ _ _ 0) by auto; reflexivity).
    split; [|split; [|split; [|split; [|split]]]].
    + f_equal. rewrite map_map. apply map_ext. intros x. apply (ediv_fin (x - lo) (hi - lo)). lra.
    + apply map_length.
    + intros i Hl. rewrite Hn by auto. pose proof (B1 _ (nth_In v 0 Hl)). pose proof (B2 _ (nth_In v 0 Hl)). split; [apply Rmult_le_pos; lra|]. rewrite <- (Rinv_r (hi - lo)) by lra. apply Rmult_le_compat_r; lra.
    + intros i Hl H. rewrite Hn by auto. pose proof (B1 _ (nth_In v 0 Hl)). pose proof (H lo I1). replace (nth i v 0 - lo) with 0 by lra. ring.
    + intros i Hl H. rewrite Hn by auto. pose proof (B2 _ (nth_In v 0 Hl)). pose proof (H hi I2). replace (nth i v 0) with hi by lra. apply Rinv_r. lra.
    + intros i j Hl Hj. rewrite !Hn by auto. split; intros H; [apply Rmult_le_reg_r in H; lra|apply Rmult_le_compat_r; lra].
  - intros H. f_equal. apply map_ext_in. intros x Hx. rewrite (H x lo Hx I1), (H hi lo I2 I1). unfold Rminus. rewrite Rplus_opp_r. simpl. destruct (Req_EM_T 0 0); [|congruence]. destruct (Rlt_dec 0 0); [lra|]. destruct (Rlt_dec 0 0); [lra|reflexivity].
Qed.

Theorem color_ints_range : forall c, (forall x, In x c -> 0 <= x <= 1) -> forall k, In k (color_ints c) -> (0 <= k <= 255)%Z.
Proof.
  intros c H k Hk. unfold color_ints in Hk. apply in_map_iff in Hk as (x & <- & Hx). specialize (H x Hx). destruct (trunc_spec (x * 255)) as [A _]. specialize (A ltac:(lra)).
  split; [assert (-1 < IZR (trunc (x * 255))) by lra; apply lt_IZR in H0; lia|apply le_IZR; lra].
Qed.

(** ** traces *)
Lemma increasing_ge l k : StronglySorted lt l -> (k < length l)%nat -> (k <= nth k l 0)%nat.
Proof.
  intros H. revert k. assert (Hg : forall k j, (j + k < length l)%nat -> (nth j l 0 + k <= nth (j + k) l 0)%nat).
  { induction H as [|a l HS IH Hf]; intros k j Hk; simpl in Hk; [lia|]. destruct j as [|j].
    - destruct k as [|k]; [simpl; lia|]. simpl. destruct k as [|k]; [rewrite Forall_forall in Hf; specialize (Hf (nth 0 l 0%nat) ltac:(apply nth_In; lia)); lia|].
      specialize (IH (S k) 0%nat ltac:(simpl; lia)). simpl in IH. rewrite Forall_forall in Hf. specialize (Hf (nth 0 l 0%nat) ltac:(apply nth_In; lia)). lia.
    - simpl. apply IH. lia. }
  intros k Hk. specialize (Hg k 0%nat ltac:(lia)). simpl in Hg. lia.
Qed.
Lemma increasing_step l j k : StronglySorted lt l -> (j <= k)%nat -> (k < length l)%nat -> (nth j l 0 + (k - j) <= nth k l 0)%nat.
Proof.
  intros H. revert j k. induction H as [|a l HS IH Hf]; intros j k Hjk Hk; simpl in Hk; [lia|]. destruct j as [|j], k as [|k]; try lia; simpl; try lia.
  - rewrite Forall_forall in Hf. specialize (Hf (nth 0 l 0%nat) ltac:(apply nth_In; lia)). specialize (IH 0%nat k ltac:(lia) ltac:(lia)). lia.
  - specialize (IH j k ltac:(lia) ltac:(lia)). lia.
Qed.

Lemma members_sorted labels v : StronglySorted lt (members labels v).
Proof. apply nonzero_sorted. Qed.

Lemma seq_members_prefix labels v n : (n <= length labels)%nat -> (forall j, (j < n)%nat -> nth j labels 0 = v) -> forall k, (k < n)%nat -> nth k (members labels v) 0%nat = k.
Proof.
  intros Hn H k Hk. rewrite members_filter. replace (length labels) with (n + (length labels - n))%nat by lia. rewrite seq_app, filter_app. rewrite (filter_all _ (seq 0 n)).
  - rewrite app_nth1 by (rewrite seq_length; auto). apply seq_nth. auto.
  - intros j Hj. apply in_seq in Hj. apply Reqb_true. apply H. lia.
Qed.

Theorem scatter_hover : forall labels c points shown, In (c, points, shown) (cluster_traces labels) ->
  forall k, (k < length points)%nat ->
    nth k shown 0%nat = k /\ (nth k shown 0%nat = nth k points 0%nat <-> forall j, (j <= nth k points 0)%nat -> nth j labels 0 = c).
Proof.
  intros labels c points shown H k Hk. unfold cluster_traces in H. apply in_map_iff in H as (v & E & Hv). injection E as <- <- <-.
  assert (Hlen : (length (members labels v) <= length labels)%nat).
  { rewrite members_filter. rewrite <- (seq_length (length labels) 0) at 2. clear. induction (seq 0 (length labels)) as [|a l IH]; simpl; auto. destruct (Reqb _ _); simpl; lia. }
  assert (Es : nth k (seq 0 (length labels)) 0%nat = k) by (rewrite seq_nth; lia). split; auto. rewrite Es. split.
  - intros E j Hj. rewrite <- E in Hj. pose proof (members_sorted labels v) as HS. assert (Hjm : nth j (members labels v) 0%nat = j).
    { pose proof (increasing_ge _ j HS ltac:(lia)). pose proof (increasing_step _ j k HS Hj Hk). lia. }
    assert (HIn : In j (members labels v)) by (rewrite <- Hjm at 1; apply nth_In; lia). apply in_members in HIn. tauto.
  - intros H. set (p := nth k (members labels v) 0%nat) in *. assert (Hp : In p (members labels v)) by (apply nth_In; auto). pose proof (proj1 (in_members _ _ _) Hp) as [Hpl _].
    symmetry. assert (Hpp : nth p (members labels v) 0%nat = p) by (apply (seq_members_prefix labels v (S p)); [lia|intros; apply H; lia|lia]).
    assert (Hkp : (k <= p)%nat) by (apply increasing_ge; auto; apply members_sorted). apply (seq_members_prefix labels v (S p)); [lia|intros; apply H; lia|lia].
Qed.

Theorem embedding_hover : forall labels c points shown, In (c, points, shown) (embedding_traces labels) -> shown = points.
Proof.
  intros labels c points shown H. unfold embedding_traces in H. apply in_map_iff in H as (v & E & Hv). injection E as <- <- <-. unfold take. transitivity (map (fun i : nat => i) (members labels v)); [|apply map_id].
  apply map_ext_in. intros i Hi. apply in_members in Hi. apply seq_nth. tauto.
Qed.

Theorem traces_partition : forall labels i, (i < length labels)%nat ->
  (exists! c, exists points shown, In (c, points, shown) (cluster_traces labels) /\ In i points) /\
    (exists! c, exists points shown, In (c, points, shown) (embedding_traces labels) /\ In i points).
Proof.
  intros labels i Hi. split; exists (nth i labels 0); split.
  - exists (members labels (nth i labels 0)), (seq 0 (length labels)). split; [|apply in_members; auto]. unfold cluster_traces. apply in_map_iff. eexists. split; [reflexivity|]. apply unique_in, nth_In. auto.
  - intros c (p & s & H & Hp). unfold cluster_traces in H. apply in_map_iff in H as (v & E & Hv). injection E as <- <- <-. apply in_members in Hp. tauto.
  - eexists _, _. split; [|apply in_members; split; [exact Hi|reflexivity]]. unfold embedding_traces. apply in_map_iff. eexists. split; [reflexivity|]. apply unique_in, nth_In. auto.
  - intros c (p & s & H & Hp). unfold embedding_traces in H. apply in_map_iff in H as (v & E & Hv). injection E as <- <- <-. apply in_members in Hp. tauto.
Qed.

Theorem legend_once : forall labels, length (show_vector labels) = length labels /\
    forall i, (i < length labels)%nat -> (nth i (show_vector labels) false = true <-> forall j, (j < i)%nat -> nth j labels 0 <> nth i labels 0).
Proof.
  intros labels. unfold show_vector. split; [rewrite map_length, seq_length; auto|]. intros i Hi. rewrite (nth_map_in _ _ _ 0%nat) by (rewrite seq_length; auto). rewrite seq_nth by auto. simpl.
  set (v := nth i labels 0). assert (Him : In i (members labels v)) by (apply in_members; auto). destruct (members labels v) as [|f ms] eqn:E; [destruct Him|].
  assert (Hfm : In f (members labels v)) by (rewrite E; left; auto). apply in_members in Hfm as [Hfl Hfv].
  pose proof (members_sorted labels v) as HS. rewrite E in HS. inversion HS as [|? ? _ HFa]; subst. rewrite Forall_forall in HFa. rewrite Nat.eqb_eq. split.
  - intros -> j Hj Ej. assert (Hjm : In j (members labels v)) by (apply in_members; split; [lia|auto]). rewrite E in Hjm. destruct Hjm as [-> | Hjm]; [lia|]. specialize (HFa j Hjm). lia.
  - intros H. destruct Him as [-> | Him]; auto. specialize (HFa i Him). exfalso. apply (H f); auto.
Qed.

Theorem importance_aligned : forall A (d : A) sort_index labels importance,
  length labels = length importance -> Permutation sort_index (seq 0 (length importance)) ->
  (forall i j, (i < j)%nat -> (j < length sort_index)%nat -> average (nth (nth i sort_index 0%nat) importance []) <= average (nth (nth j sort_index 0%nat) importance [])) ->
  let (labels', importance') := sorted_importance d sort_index labels importance in
  Permutation (combine labels' importance') (combine labels importance) /\
    forall i j, (i < j)%nat -> (j < length importance')%nat -> average (nth i importance' []) <= average (nth j importance' []).
Proof.
  intros A d si labels imp HL HP Hs. unfold sorted_importance, take.
  assert (Hsl : length si = length imp) by (rewrite (Permutation_length HP); apply seq_length). split.
  - assert (Ec : combine (map (fun i => nth i labels d) si) (map (fun i => nth i imp []) si) = map (fun i => (nth i labels d, nth i imp [])) si) by (clear; induction si; simpl; congruence).
    rewrite Ec. eapply Permutation_trans; [apply (Permutation_map (fun i => (nth i labels d, nth i imp [])) HP)|].
    replace (map (fun i => (nth i labels d, nth i imp [])) (seq 0 (length imp))) with (combine labels imp); [apply Permutation_refl|]. clear - HL. symmetry.
    apply (list_eq_nth (d, [])); [rewrite map_length, seq_length, combine_length; lia|]. intros i Hi. rewrite map_length, seq_length in Hi. rewrite (nth_map_in _ _ _ 0%nat) by (rewrite seq_length; auto). rewrite seq_nth by auto. simpl. rewrite combine_nth by auto. reflexivity.
  - intros i j Hij Hj. rewrite map_length in Hj. rewrite !(nth_map_in _ _ _ 0%nat) by lia. apply Hs; auto.
Qed.

Theorem aspect_true_to_scale : forall xi yi slices, 0 < xi -> 0 < yi ->
  exists ax ay az, scatter_aspect xi yi slices = (Fin ax, Fin ay, Fin az) /\ ax * yi = ay * xi /\ Rmin ax ay = 1 /\ az = Rmax ax ay * INR slices * (6 / 10).
Proof.
  intros xi yi n Hx Hy. unfold scatter_aspect. destruct (Rltb xi yi) eqn:E.
  - apply Rltb_true in E. rewrite ediv_fin by lra. assert (1 < yi / xi) by (apply (Rmult_lt_reg_r xi); auto; unfold Rdiv; rewrite Rmult_assoc, Rinv_l by lra; lra).
    exists 1, (yi / xi), (yi / xi * INR n * (6 / 10)). split; [reflexivity|]. split; [field; lra|]. rewrite Rmin_left, Rmax_right by lra. auto.
  - apply Rltb_false in E. rewrite ediv_fin by lra. assert (1 <= xi / yi) by (apply (Rmult_le_reg_r yi); auto; unfold Rdiv; rewrite Rmult_assoc, Rinv_l by lra; lra).
    exists (xi / yi), 1, (xi / yi * INR n * (6 / 10)). split; [reflexivity|]. split; [field; lra|]. rewrite Rmin_right, Rmax_left by lra. auto.
Qed.
Theorem aspect_degenerate : forall slices, (0 < slices)%nat ->
  scatter_aspect 0 0 slices = (NaN, Fin 1, NaN) /\ (forall yi, 0 < yi -> scatter_aspect 0 yi slices = (Fin 1, PInf, PInf)) /\ (forall xi, 0 < xi -> scatter_aspect xi 0 slices = (PInf, Fin 1, PInf)).
Proof.
  intros n Hn. assert (Hp : 0 < INR n) by (apply lt_0_INR; auto).
  assert (Hm : emul (emul PInf (Fin (INR n))) (Fin (6 / 10)) = PInf).
  { assert (H1 : forall r, 0 < r -> emul PInf (Fin r) = PInf) by (intros r Hr; unfold emul, esign; repeat (destruct (Rlt_dec _ _); try lra); auto). rewrite !H1 by lra. reflexivity. }
  split; [|split].
  - unfold scatter_aspect. destruct (Rltb 0 0) eqn:E; [apply Rltb_true in E; lra|]. assert (E0 : ediv (Fin 0) (Fin 0) = NaN) by (simpl; destruct (Req_EM_T 0 0); [|congruence]; destruct (Rlt_dec 0 0); [lra|]; destruct (Rlt_dec 0 0); [lra|reflexivity]). rewrite E0. reflexivity.
  - intros y Hy. unfold scatter_aspect. destruct (Rltb 0 y) eqn:E; [|apply Rltb_false in E; lra]. assert (E0 : ediv (Fin y) (Fin 0) = PInf) by (simpl; destruct (Req_EM_T 0 0); [|congruence]; destruct (Rlt_dec 0 y); [reflexivity|lra]). rewrite E0, Hm. reflexivity.
  - intros x Hx. unfold scatter_aspect. destruct (Rltb x 0) eqn:E; [apply Rltb_true in E; lra|]. assert (E0 : ediv (Fin x) (Fin 0) = PInf) by (simpl; destruct (Req_EM_T 0 0); [|congruence]; destruct (Rlt_dec 0 x); [reflexivity|lra]). rewrite E0, Hm. reflexivity.
Qed.

(** ** line styles *)
Lemma Rpower_unit r p : 0 < r <= 1 -> 0 <= p -> 0 < Rpower r p <= 1.
Proof.
  intros Hr Hp. unfold Rpower. split; [apply exp_pos|]. rewrite <- exp_0. assert (ln r <= 0). { rewrite <- ln_1. destruct (Req_dec r 1) as [-> | ]; [lra|]. left. apply ln_increasing; lra. }
  assert (p * ln r <= 0) by nra. destruct H0 as [H0 | ->]; [left; apply exp_increasing; auto|lra].
Qed.
Lemma Rpower_mono r s p : 0 < r <= s -> 0 <= p -> Rpower r p <= Rpower s p.
Proof.
  intros Hr Hp. unfold Rpower. assert (ln r <= ln s) by (destruct (Req_dec r s) as [-> | ]; [lra|left; apply ln_increasing; lra]). assert (p * ln r <= p * ln s) by nra.
  destruct H0 as [H0 | ->]; [left; apply exp_increasing; auto|lra].
Qed.

Lemma style_ratio_unit sg p N c : 0 <= p -> (1 <= c <= N)%nat -> 0 < style_ratio sg p N c <= 1.
Proof.
  intros Hp Hc. unfold style_ratio. apply Rpower_unit; auto. assert (H1 : 1 <= INR c) by (change 1 with (INR 1); apply le_INR; lia). assert (H2 : INR c <= INR N) by (apply le_INR; lia).
  destruct sg.
  - pose proof (exp_pos (- ((INR c / INR N - 1 / 2) * 10))). set (e := exp _) in *. assert (0 < / (1 + e)) by (apply Rinv_0_lt_compat; lra). unfold Rdiv. rewrite Rmult_1_l. split; auto. rewrite <- Rinv_1. apply Rinv_le_contravar; lra.
  - split; [apply Rmult_lt_0_compat; [lra|apply Rinv_0_lt_compat; lra]|]. apply (Rmult_le_reg_r (INR N)); [lra|]. unfold Rdiv. rewrite Rmult_assoc, Rinv_l by lra. lra.
Qed.
Lemma style_ratio_mono sg p N c c' : 0 <= p -> (1 <= c)%nat -> (c <= c')%nat -> (c' <= N)%nat -> style_ratio sg p N c <= style_ratio sg p N c'.
Proof.
  intros Hp H1 H2 H3. unfold style_ratio. apply Rpower_mono; auto. assert (1 <= INR c) by (change 1 with (INR 1); apply le_INR; lia). assert (INR c <= INR c') by (apply le_INR; lia). assert (INR c' <= INR N) by (apply le_INR; lia).
  assert (0 < / INR N) by (apply Rinv_0_lt_compat; lra). assert (Hr : INR c / INR N <= INR c' / INR N) by (unfold Rdiv; apply Rmult_le_compat_r; lra).
  destruct sg.
  - pose proof (exp_pos (- ((INR c / INR N - 1 / 2) * 10))). pose proof (exp_pos (- ((INR c' / INR N - 1 / 2) * 10))).
    assert (exp (- ((INR c' / INR N - 1 / 2) * 10)) <= exp (- ((INR c / INR N - 1 / 2) * 10))).
    { assert (Hle : - ((INR c' / INR N - 1 / 2) * 10) <= - ((INR c / INR N - 1 / 2) * 10)) by lra. destruct Hle as [Hle | ->]; [left; apply exp_increasing; auto|lra]. }
    set (e := exp (- ((INR c / INR N - 1 / 2) * 10))) in *. set (e' := exp (- ((INR c' / INR N - 1 / 2) * 10))) in *.
    unfold Rdiv. rewrite !Rmult_1_l. split; [apply Rinv_0_lt_compat; lra|apply Rinv_le_contravar; lra].
  - split; auto. apply Rmult_lt_0_compat; lra.
Qed.

Lemma lookup_combine v vs (f : R -> R) : In v vs -> lookup_label v (combine vs (map f vs)) = Some (f v).
Proof.
  induction vs as [|a vs IH]; intros H; [destruct H|]. simpl. destruct (Reqb a v) eqn:E; [apply Reqb_true in E; subst; auto|]. apply Reqb_false in E. destruct H as [|H]; [congruence|auto].
Qed.

Lemma fold_natmax l x : forall y, In y (x :: l) -> (y <= fold_left Nat.max l x)%nat.
Proof.
  revert x. induction l as [|a l IH]; intros x y Hy; simpl; [destruct Hy as [-> | []]; auto|]. destruct Hy as [-> | [-> | Hy]].
  - eapply Nat.le_trans; [apply (Nat.le_max_l y a)|apply IH; left; auto].
  - eapply Nat.le_trans; [apply (Nat.le_max_r x y)|apply IH; left; auto].
  - apply IH. right. auto.
Qed.
Lemma fold_natmin l x : forall y, In y (x :: l) -> (fold_left Nat.min l x <= y)%nat.
Proof.
  revert x. induction l as [|a l IH]; intros x y Hy; simpl; [destruct Hy as [-> | []]; auto|]. destruct Hy as [-> | [-> | Hy]].
  - eapply Nat.le_trans; [apply IH; left; auto|apply (Nat.le_min_l y a)].
  - eapply Nat.le_trans; [apply IH; left; auto|apply (Nat.le_min_r x y)].
  - apply IH. right. auto.
Qed.
Lemma fold_natmax_in l x : In (fold_left Nat.max l x) (x :: l).
Proof. revert x. induction l as [|a l IH]; intros x; simpl; auto. destruct (IH (Nat.max x a)) as [E | E]; auto. destruct (Nat.max_dec x a) as [E' | E']; rewrite E' in E |- *; auto. Qed.
Lemma fold_natmin_in l x : In (fold_left Nat.min l x) (x :: l).
Proof. revert x. induction l as [|a l IH]; intros x; simpl; auto. destruct (IH (Nat.min x a)) as [E | E]; auto. destruct (Nat.min_dec x a) as [E' | E']; rewrite E' in E |- *; auto. Qed.

Theorem style_spec : forall sg p lo hi labels, labels <> [] -> 0 <= p -> lo <= hi ->
  exists st, style_vector sg p lo hi labels = Ok st /\ length st = length labels /\
    (forall i, (i < length labels)%nat -> lo <= nth i st 0 <= hi) /\
    (forall i j, (i < length labels)%nat -> (j < length labels)%nat -> (cluster_size labels i <= cluster_size labels j)%nat -> nth i st 0 <= nth j st 0) /\
    ((forall i j, (i < length labels)%nat -> (j < length labels)%nat -> cluster_size labels i = cluster_size labels j) -> forall i, (i < length labels)%nat -> nth i st 0 = hi).
Proof.
  intros sg p lo hi labels Hne Hp Hlh. unfold style_vector, cluster_size. set (values := unique labels).
  assert (Hv : forall v, In v values <-> In v labels) by apply unique_in.
  set (counts := map (fun v => length (members labels v)) values).
  assert (Hin : forall v, In v labels -> In (label_count labels v) counts) by (intros v H; unfold counts; apply in_map_iff; exists v; split; [apply members_length|apply Hv; auto]).
  assert (Hin' : forall c, In c counts -> exists v, In v labels /\ c = label_count labels v) by (intros c H; unfold counts in H; apply in_map_iff in H as (v & <- & H); exists v; split; [apply Hv; auto|apply members_length]).
  assert (Hcm : map (style_ratio sg p (length labels)) counts = map (fun v => style_ratio sg p (length labels) (label_count labels v)) values) by (unfold counts; rewrite map_map; apply map_ext; intros; rewrite members_length; auto).
  destruct counts as [|c cs] eqn:Ec.
  { destruct labels as [|l0 ls]; [congruence|]. destruct (Hin l0 (or_introl eq_refl)). }
  assert (Hcb : forall v, In v labels -> (1 <= label_count labels v <= length labels)%nat).
  { intros v H. split; [apply label_count_pos; auto|]. unfold label_count. clear. induction labels as [|a l IH]; simpl; auto. destruct (Reqb a v); simpl; lia. }
  eexists. split; [reflexivity|]. split; [apply map_length|].
  destruct (Nat.eqb_spec (fold_left Nat.max cs c) (fold_left Nat.min cs c)) as [E | E].
  - assert (Hst : forall i, (i < length labels)%nat -> nth i (map (fun v => match lookup_label v (combine values (map (fun _ => 1) values)) with Some r => lo + (hi - lo) * r | None => 0 end) labels) 0 = hi).
    { intros i Hi. rewrite (nth_map_in _ _ _ 0) by auto. rewrite (lookup_combine _ _ (fun _ => 1)) by (apply Hv, nth_In; auto). ring. }
    split; [intros i Hi; rewrite Hst by auto; lra|]. split; [intros i j Hi Hj _; rewrite !Hst by auto; lra|]. intros _ i Hi. apply Hst; auto.
  - rewrite Hcm.
    assert (Hst : forall i, (i < length labels)%nat -> nth i (map (fun v => match lookup_label v (combine values (map (fun v => style_ratio sg p (length labels) (label_count labels v)) values)) with Some r => lo + (hi - lo) * r | None => 0 end) labels) 0 = lo + (hi - lo) * style_ratio sg p (length labels) (label_count labels (nth i labels 0))).
    { intros i Hi. rewrite (nth_map_in _ _ _ 0) by auto. rewrite (lookup_combine _ _ (fun v => style_ratio sg p (length labels) (label_count labels v))) by (apply Hv, nth_In; auto). reflexivity. }
    split; [|split].
    + intros i Hi. rewrite Hst by auto. pose proof (style_ratio_unit sg p (length labels) (label_count labels (nth i labels 0)) Hp ltac:(apply Hcb, nth_In; auto)). nra.
    + intros i j Hi Hj Hle. rewrite !Hst by auto. pose proof (style_ratio_mono sg p (length labels) _ _ Hp (proj1 (Hcb _ (nth_In labels 0 Hi))) Hle (proj2 (Hcb _ (nth_In labels 0 Hj)))). nra.
    + intros Heq. exfalso. apply E. destruct (Hin' _ (fold_natmax_in cs c)) as (v & Hvl & ->). destruct (Hin' _ (fold_natmin_in cs c)) as (w & Hwl & ->).
      apply (In_nth _ _ 0) in Hvl as (i & Hi & <-). apply (In_nth _ _ 0) in Hwl as (j & Hj & <-). auto.
Qed.

(** ** examples *)
Definition exLabels : list R := [7; -1; 7; 7; 2].
Definition exYs : list (list R) := [[1; 3]; [0]; [5; 5; 5]; [2]; [4; 0]].
Definition exEmb : list (list R) := [[0; 0]; [9; 9]; [1; 0]; [5; 0]; [3; 3]].
Lemma exEmb_len : length exEmb = length exLabels. Proof. reflexivity. Qed.
Lemma exLabels_example : length exLabels = length exYs /\ (0 < length exYs)%nat /\ valid_choice first_choice /\ size_spec (SizeFloat (1 / 2)) (length exYs) 2 /\ size_spec (SizeInt 3) (length exYs) 3.
Proof.
  split; [reflexivity|]. split; [simpl; lia|]. split; [exact first_choice_valid|]. split; [|reflexivity]. split; intros H; simpl; lra.
Qed.
Definition round_half (x : R) : nat := Z.to_nat (Int_part (x + 1 / 2)).
Lemma round_half_valid : valid_nearest round_half.
Proof.
  intros v Hv. unfold round_half. destruct (base_Int_part (v + 1 / 2)) as [A B]. assert (HI : (0 <= Int_part (v + 1 / 2))%Z) by (assert (-1 < IZR (Int_part (v + 1 / 2))) by lra; apply lt_IZR in H; lia).
  rewrite INR_IZR_INZ, Z2Nat.id by auto. apply Rabs_le. lra.
Qed.
Lemma quantile_example : valid_nearest round_half /\ exYs <> [] /\ (forall y, In y exYs -> y <> []) /\ (forall q, In q [0; 1 / 2; 1] -> 0 <= q <= 1).
Proof.
  split; [exact round_half_valid|]. split; [discriminate|]. split.
  - intros y Hy. simpl in Hy. intuition (subst; discriminate).
  - intros q Hq. simpl in Hq. intuition (subst; lra).
Qed.
Lemma scatter_refuted : exists labels c points shown k, In (c, points, shown) (cluster_traces labels) /\ (k < length points)%nat /\ nth k shown 0%nat <> nth k points 0%nat.
Proof.
  set (labels := [0; 1]). exists labels, 1, (members labels 1), (seq 0 2), 0%nat.
  assert (HI : In 1%nat (members labels 1)) by (apply in_members; simpl; auto). assert (HT : In (1, members labels 1, seq 0 2) (cluster_traces labels)).
  { unfold cluster_traces. apply in_map_iff. exists 1. split; [reflexivity|]. apply unique_in. simpl. auto. }
  assert (HL : (0 < length (members labels 1))%nat) by (destruct (members labels 1); [destruct HI|simpl; lia]). split; auto. split; auto. intros E. apply (proj2 (scatter_hover labels 1 _ _ HT 0%nat HL)) with (j := 0%nat) in E; [simpl in E; lra|lia].
Qed.
