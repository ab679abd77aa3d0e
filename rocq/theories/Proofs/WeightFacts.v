From Coq Require Import Lra Psatz Sorting.Sorted.
From Verif.Model Require Import Base Ext Sort Kernel Distance WeightMatrix.
From Verif.Spec Require Import KernelSpec WeightSpec.
From Verif.Proofs Require Import ListFacts KernelFacts SortFacts AdaptiveFacts KernelProps KernelExamples SumFacts.
Open Scope string_scope.
Open Scope nat_scope.
Open Scope R_scope.

(** ** row bandwidths *)
Lemma hf8_unique row q b b' :
  row <> [] -> hyndman_fan_8 row q b -> hyndman_fan_8 row q b' -> 0 < q <= 1 -> b = b'.
Proof.
  intros Hne [A1 [A2 A3]] [B1 [B2 B3]] Hq.
  set (n := length row) in *. set (h := (INR n + 1 / 3) * q + 1 / 3) in *.
  assert (Hn : (0 < n)%nat) by (unfold n; destruct row; [contradiction|simpl; lia]).
  destruct (Rlt_dec h 1) as [H|H]; [eapply kth_smallest_unique; eauto|].
  destruct (Rle_dec (INR n) h) as [H'|H']; [eapply kth_smallest_unique; eauto|].
  set (j := Z.to_nat (Rfloor h)).
  pose proof (Rfloor_spec h) as Hf.
  assert (H0 : (1 <= Rfloor h)%Z).
  { replace 1%Z with (Rfloor 1) by (apply (Rfloor_IZR 1)). apply Rfloor_mono; lra. }
  assert (Ej : INR j = IZR (Rfloor h)) by (unfold j; rewrite INR_IZR_INZ, Z2Nat.id by lia; auto).
  assert (Hj : (1 <= j < n)%nat).
  { split; [unfold j; lia|]. apply INR_lt. lra. }
  assert (Hh : INR j <= h < INR j + 1) by lra.
  assert (K1 : kth_smallest row j (nth (j - 1) (sortR row) 0)).
  { replace j with (S (j - 1)) at 1 by lia. apply sorted_kth. unfold n in *; lia. }
  assert (K2 : kth_smallest row (S j) (nth j (sortR row) 0)) by (apply sorted_kth; unfold n in *; lia).
  rewrite (A3 j _ _ Hj Hh K1 K2), (B3 j _ _ Hj Hh K1 K2). reflexivity.
Qed.

Lemma row_bandwidth_unique p row b b' : row_bandwidth p row b -> row_bandwidth p row b' -> b = b'.
Proof.
  destruct p as [b0|z|q]; simpl.
  - congruence.
  - intros [_ [_ H]] [_ [_ H']]. eapply kth_smallest_unique; eauto.
  - intros [Hq [Hn H]] [_ [_ H']]. eapply hf8_unique; eauto.
Qed.

Lemma row_bandwidth_exists p row :
  (exists b, row_bandwidth p row b) <->
  match p with
  | FixedBandwidth _ => True
  | NearestCount z => (0 < z)%Z /\ (Z.to_nat z <= length row)%nat
  | Fraction q => 0 < q <= 1 /\ row <> []
  end.
Proof.
  destruct p as [b0|z|q]; simpl.
  - split; eauto.
  - split.
    + intros [b [H1 [H2 _]]]; auto.
    + intros [H1 H2]. exists (nth (Z.to_nat z - 1) (sortR row) 0). repeat (split; auto).
      all: pose proof (sorted_kth row (Z.to_nat z - 1) ltac:(lia)) as Hs;
        replace (S (Z.to_nat z - 1)) with (Z.to_nat z) in Hs by lia; apply Hs.
  - split.
    + intros [b [H1 [H2 _]]]; auto.
    + intros [H1 H2]. eexists. split; [exact H1|]. split; [exact H2|]. apply avi_hf8; auto.
Qed.

Lemma row_bandwidth_nonneg p row b :
  Forall (Rle 0) row -> row_bandwidth p row b -> (forall b', p = FixedBandwidth b' -> 0 <= b') -> 0 <= b.
Proof.
  intros HF Hb Hfix. destruct p as [b0|z|q]; simpl in Hb.
  - subst; apply (Hfix b0); auto.
  - destruct Hb as [_ [_ [Hin _]]]. rewrite Forall_forall in HF; auto.
  - destruct Hb as [Hq [Hne Hb]].
    rewrite (hf8_unique row q b _ Hne Hb (avi_hf8 row q Hne Hq) Hq).
    destruct (adaptive_float_minmax row q _ Hne Hq eq_refl) as [[x [Hx [_ Hle]]] _].
    rewrite Forall_forall in HF. specialize (HF x Hx). lra.
Qed.

(** ** one dimension *)
Definition raw_matrix (k : string) (D : matrix R) (bs : list R) : matrix R :=
  map2 (fun row b => map (fun d => kernel_value k b d) row) D bs.

Lemma Forall2_impl' {A B} (P Q : A -> B -> Prop) l l' :
  (forall a b, In a l -> P a b -> Q a b) -> Forall2 P l l' -> Forall2 Q l l'.
Proof.
  intros H HF. induction HF as [|x y l l' Hxy HF IH]; constructor.
  - apply H; auto. left; auto.
  - apply IH. intros a b Ha. apply H. right; auto.
Qed.

Lemma mmap_Fin_raw k D bs :
  mmap Fin (raw_matrix k D bs) = map2 (fun row b => map (fun d => Fin (kernel_value k b d)) row) D bs.
Proof.
  unfold mmap, raw_matrix. rewrite map_map2. apply map2_ext_in. intros; rewrite map_map; reflexivity.
Qed.

Lemma wbd_ok_iff D k b c w :
  entries (Rle 0) D -> D <> [] ->
  (weight_by_distance (A2 D) k b c = Ok w <->
   exists p bs, known_kernel (kernel_name k) /\ rule_of b c = Some p /\
     Forall2 (row_bandwidth p) D bs /\ w = A2 (mmap Fin (raw_matrix (kernel_name k) D bs))).
Proof.
  intros HD Hne. set (K := kernel_name k).
  assert (Hkf : forall bw bs W, bandwidth_rows (nrows D) bw = Ok bs ->
            (kernel_function D bw K = Ok W <-> known_kernel K /\ W = mmap Fin (raw_matrix K D bs))).
  { intros bw bs W Hbs. destruct (known_kernel_dec K) as [Hk|Hk].
    - rewrite (kernel_function_known K D bw bs Hk Hbs HD), mmap_Fin_raw.
      split; [intros H; inversion H; auto|intros [_ ->]; auto].
    - unfold kernel_function. rewrite Hbs; simpl. rewrite (kernel_expr_unknown K Hk).
      split; [discriminate|intros [H _]; contradiction]. }
  unfold weight_by_distance. fold K. destruct b as [b|], c as [c|]; simpl.
  - split; [discriminate|]. intros [p [bs [_ [H _]]]]; discriminate.
  - assert (Hrep : bandwidth_rows (nrows D) (BScalar b) = Ok (repeat b (nrows D))) by reflexivity.
    rewrite bind_ok. split.
    + intros [W [H1 H2]]. inversion H2; subst. apply (Hkf _ _ _ Hrep) in H1 as [Hk ->].
      exists (FixedBandwidth b), (repeat b (nrows D)). repeat split; auto.
      clear. unfold nrows. induction D; simpl; constructor; auto. reflexivity.
    + intros [p [bs [Hk [Hp [HF ->]]]]]. inversion Hp; subst p.
      assert (E : bs = repeat b (nrows D)).
      { clear -HF. unfold nrows. induction HF; simpl; auto. simpl in H. f_equal; auto. }
      subst bs. eexists; split; [|reflexivity]. apply (Hkf _ _ _ Hrep); auto.
  - rewrite bind_ok. unfold adaptive_kernel. split.
    + intros [W [H1 H2]]. inversion H2; subst. apply bind_ok in H1 as [bs [H1 H3]].
      assert (Hlen : length bs = length D).
      { destruct c; simpl in H1.
        - destruct (z <=? 0)%Z; [discriminate|]. apply mapM_length in H1; auto.
        - destruct (Rleb q 0); [discriminate|]. apply mapM_length in H1; auto.
        - discriminate. }
      assert (Hrows : bandwidth_rows (nrows D) (BColumn bs) = Ok bs).
      { simpl. unfold nrows. rewrite Hlen, Nat.eqb_refl; auto. }
      apply (Hkf _ _ _ Hrows) in H3 as [Hk ->].
      destruct c as [z|q|]; [| |discriminate].
      * apply adaptive_int_ok in H1 as [Hz HF].
        exists (NearestCount z), bs. repeat (split; auto).
        revert HF. apply Forall2_impl'. intros a x _ [Ha1 Ha2]. simpl; auto.
      * apply adaptive_float_ok in H1 as [Hq HF].
        exists (Fraction q), bs. repeat (split; auto).
        revert HF. apply Forall2_impl'. intros a x _ [Ha1 [Ha2 Ha3]]. simpl. split; [lra|]. split; auto.
        subst x. apply avi_hf8; auto.
    + intros [p [bs [Hk [Hp [HF ->]]]]].
      eexists; split; [|reflexivity]. rewrite bind_ok. exists bs.
      assert (Hrows : bandwidth_rows (nrows D) (BColumn bs) = Ok bs).
      { simpl. unfold nrows. rewrite <- (Forall2_len _ _ _ HF), Nat.eqb_refl; auto. }
      split; [|apply (Hkf _ _ _ Hrows); auto].
      destruct c as [z|q|]; [| |discriminate]; inversion Hp; subst p.
      * apply adaptive_int_ok.
        destruct HF as [|x y l l' Hxy HF]; [contradiction|].
        split; [apply Hxy|]. assert (HF2 : Forall2 (row_bandwidth (NearestCount z)) (x :: l) (y :: l')) by (constructor; auto).
        revert HF2. apply Forall2_impl'. intros a b0 _ [_ [Ha1 Ha2]]; auto.
      * apply adaptive_float_ok.
        destruct HF as [|x y l l' Hxy HF]; [contradiction|].
        split; [apply Hxy|]. assert (HF2 : Forall2 (row_bandwidth (Fraction q)) (x :: l) (y :: l')) by (constructor; auto).
        revert HF2. apply Forall2_impl'. intros a b0 _ [Ha1 [Ha2 Ha3]]. split; [lra|]. split; auto.
        eapply hf8_unique; eauto. apply avi_hf8; auto.
  - split; [discriminate|]. intros [p [bs [_ [H _]]]]; discriminate.
Qed.

(** ** products of several dimensions *)
Definition prod_at (Ms : list (matrix R)) (i j : nat) : R := Rprod (map (fun M => mget 0 M i j) Ms).
Definition prod_mat (Ms : list (matrix R)) (r c : nat) : matrix R := mtab r c (prod_at Ms).
Definition safe_div (x s : R) : R := if Req_EM_T s 0 then x / 1 else x / s.
Definition norm_of (Ms : list (matrix R)) (r c : nat) : matrix R :=
  mtab r c (fun i j => safe_div (prod_at Ms i j) (Rsum (tabulate c (prod_at Ms i)))).

Lemma mmap_mtab {A B} (f : A -> B) r c g : mmap f (mtab r c g) = mtab r c (fun i j => f (g i j)).
Proof.
  unfold mmap, mtab. rewrite map_tabulate. apply tabulate_ext. intros; apply map_tabulate.
Qed.

Lemma map2_tabulate {A B C} (f : A -> B -> C) n g h :
  map2 f (tabulate n g) (tabulate n h) = tabulate n (fun i => f (g i) (h i)).
Proof.
  unfold tabulate. induction (seq 0 n); simpl; f_equal; auto.
Qed.

Lemma mtab_ext {A} r c (f g : nat -> nat -> A) :
  (forall i j, (i < r)%nat -> (j < c)%nat -> f i j = g i j) -> mtab r c f = mtab r c g.
Proof. intros H. apply tabulate_ext; intros i Hi. apply tabulate_ext; intros j Hj; auto. Qed.

Lemma A2mtab_ext r c f g :
  (forall i j, (i < r)%nat -> (j < c)%nat -> f i j = g i j) ->
  A2 (mmap Fin (mtab r c f)) = A2 (mmap Fin (mtab r c g)).
Proof. intros H. rewrite (mtab_ext r c f g H). reflexivity. Qed.

Lemma mtab_of {A} (d : A) m r c : rect m r c -> m = mtab r c (fun i j => mget d m i j).
Proof.
  intros H. apply (matrix_eq d _ _ r c); auto using mtab_rect.
  intros; rewrite mtab_get by auto. reflexivity.
Qed.

Lemma nd_prod_ok Ms r c :
  Ms <> [] -> Forall (fun M => rect M r c) Ms ->
  nd_prod (map (fun M => A2 (mmap Fin M)) Ms) = A2 (mmap Fin (prod_mat Ms r c)).
Proof.
  intros Hne HF. destruct Ms as [|M Ms]; [contradiction|]. simpl.
  inversion HF as [|? ? HM HMs]; subst. clear HF Hne.
  assert (G : forall acc, fold_left (nd_map2 emul) (map (fun M => A2 (mmap Fin M)) Ms) (A2 (mmap Fin (mtab r c acc)))
       = A2 (mmap Fin (mtab r c (fun i j => acc i j * prod_at Ms i j)))).
  { clear HM M. induction HMs as [|M Ms HM HMs IH]; intros acc; cbn [map fold_left].
    - unfold prod_at. simpl. apply A2mtab_ext. intros. unfold Rprod; simpl; ring.
    - replace (nd_map2 emul (A2 (mmap Fin (mtab r c acc))) (A2 (mmap Fin M)))
        with (A2 (mmap Fin (mtab r c (fun i j => acc i j * mget 0 M i j)))).
      + rewrite IH. apply A2mtab_ext. intros. unfold prod_at, Rprod; simpl; ring.
      + assert (EM : mmap Fin M = mtab r c (fun i j => Fin (mget 0 M i j)))
          by (rewrite <- mmap_mtab; f_equal; apply mtab_of; auto).
        cbn [nd_map2]. rewrite EM. f_equal. rewrite !mmap_mtab.
        unfold mtab. rewrite map2_tabulate. apply tabulate_ext; intros i Hi.
        rewrite map2_tabulate. reflexivity. }
  rewrite (mtab_of 0 M r c HM) at 1. rewrite G. reflexivity.
Qed.

Lemma esum_Fin l : esum (map Fin l) = Fin (Rsum l).
Proof. induction l; simpl; auto. unfold esum in *; simpl. rewrite IHl. reflexivity. Qed.

Lemma normalise_row_Fin row :
  normalise_row (map Fin row) = map Fin (map (fun w => safe_div w (Rsum row)) row).
Proof.
  unfold normalise_row. rewrite esum_Fin, !map_map. apply map_ext. intros w.
  unfold safe_div. simpl. unfold Reqb. destruct (Req_EM_T (Rsum row) 0); simpl.
  - destruct (Req_EM_T 1 0); [lra|]. reflexivity.
  - destruct (Req_EM_T (Rsum row) 0); [contradiction|]. reflexivity.
Qed.

Lemma normalise_ok Ms r c :
  normalise (A2 (mmap Fin (prod_mat Ms r c))) = Ok (mmap Fin (norm_of Ms r c)).
Proof.
  simpl. apply (f_equal Ok). unfold prod_mat, norm_of, mmap, mtab. rewrite !map_tabulate.
  apply tabulate_ext. intros i Hi. rewrite normalise_row_Fin, !map_tabulate. reflexivity.
Qed.

(** ** the whole function *)
Definition dim_ok (kt : dim_arg string) (bw : dim_arg R) (nc : dim_arg count_arg)
           (D : matrix R) (dim : nat) (k : string) (p : dim_rule) (bs : list R) : Prop :=
  requests kt bw nc dim k p /\ Forall2 (row_bandwidth p) D bs.

Lemma getitem_broadcast {A} (a : dim_arg A) n dim x :
  (dim < n)%nat -> (getitem (broadcast_arg n a) dim = Ok x <-> arg_defined a dim /\ arg_at a dim = x).
Proof.
  intros H. rewrite getitem_ok. destruct a as [|a|l]; simpl.
  - rewrite nth_error_repeat by auto. split; [intros E; inversion E; auto|intros [_ <-]; auto].
  - rewrite nth_error_repeat by auto. split; [intros E; inversion E; auto|intros [_ <-]; auto].
  - split.
    + intros E. split; [apply nth_error_Some; rewrite E; discriminate|]. apply nth_error_nth; auto.
    + intros [Hl <-]. apply nth_error_nth'; auto.
Qed.

Lemma one_shape_valid Ds r c : valid_distances Ds r c -> (0 < r)%nat -> one_shape (map A2 Ds) = true.
Proof.
  intros [Hne HF] Hr. destruct Ds as [|D Ds]; [contradiction|]. simpl.
  apply forallb_forall. intros x Hx. apply in_map_iff in Hx as [D' [<- HD']].
  rewrite Forall_forall in HF.
  destruct (HF D (or_introl eq_refl)) as [[H1 H2] _]. destruct (HF D' (or_intror HD')) as [[H3 H4] _].
  unfold shape_eqb, shape, nrows, ncols. rewrite H1, H3.
  destruct D as [|x D]; [simpl in H1; lia|]. destruct D' as [|y D']; [simpl in H3; lia|].
  apply Forall_inv in H2. apply Forall_inv in H4. simpl. rewrite H2, H4.
  match goal with |- (if ?x then _ else _) = _ => destruct x; auto end.
Qed.

Lemma raw_matrix_rect k D bs r c : rect D r c -> length bs = r -> rect (raw_matrix k D bs) r c.
Proof.
  intros [H1 H2] Hb. split.
  - unfold raw_matrix. rewrite map2_length. lia.
  - unfold raw_matrix. clear H1 Hb. revert bs. induction H2; intros bs; destruct bs; simpl; constructor; auto.
    rewrite map_length; auto.
Qed.

Lemma Forall_nth_lt {A} (P : A -> Prop) d l : Forall P l <-> forall i, (i < length l)%nat -> P (nth i l d).
Proof.
  split.
  - intros H i Hi. rewrite Forall_forall in H. apply H, nth_In; auto.
  - intros H. apply Forall_forall. intros x Hx. destruct (In_nth _ _ d Hx) as [i [Hi <-]]; auto.
Qed.

Lemma wmfd_ok_iff Ds kt bw nc r c W :
  valid_distances Ds r c -> (0 < r)%nat ->
  (weight_matrix_from_distance (map A2 Ds) kt RNone bw nc = Ok W <->
   (is_none bw && is_none nc = false) /\
   exists Ms : list (matrix R), length Ms = length Ds /\
     (forall dim, (dim < length Ds)%nat -> exists k p bs, dim_ok kt bw nc (nth dim Ds []) dim k p bs /\
        nth dim Ms [] = raw_matrix k (nth dim Ds []) bs) /\
     W = mmap Fin (norm_of Ms r c)).
Proof.
  intros HV Hr. pose proof HV as [Hne HF].
  unfold weight_matrix_from_distance. rewrite (one_shape_valid Ds r c HV Hr). cbn [negb].
  destruct (is_none bw && is_none nc) eqn:En.
  { split; [discriminate|intros [H _]; discriminate]. }
  cbn [merge_distances bind]. rewrite map_length. set (n := length Ds).
  assert (Hrect : forall dim, (dim < n)%nat -> rect (nth dim Ds []) r c /\ entries (Rle 0) (nth dim Ds [])).
  { intros dim Hd. exact (proj1 (Forall_nth_lt _ _ _) HF dim Hd). }
  assert (Hstep : forall dim w, (dim < n)%nat ->
     ((d <- getitem (map A2 Ds) dim ;; k <- getitem (broadcast_arg n kt) dim ;;
       b <- getitem (broadcast_arg n bw) dim ;; c <- getitem (broadcast_arg n nc) dim ;;
       weight_by_distance d k b c) = Ok w <->
      exists k p bs, dim_ok kt bw nc (nth dim Ds []) dim k p bs /\
        w = A2 (mmap Fin (raw_matrix k (nth dim Ds []) bs)))).
  { intros dim w Hd. destruct (Hrect dim Hd) as [HR HE].
    assert (HneD : nth dim Ds [] <> []) by (destruct HR as [H _]; intros E; rewrite E in H; simpl in H; lia).
    rewrite (getitem_lt (A2 [])) by (rewrite map_length; auto).
    rewrite (map_nth (@A2 R) Ds [] dim). cbn [bind].
    rewrite bind_ok. split.
    - intros [k [Hk H]]. apply bind_ok in H as [b [Hb H]]. apply bind_ok in H as [cc [Hc H]].
      apply getitem_broadcast in Hk as [Hk1 Hk2]; auto.
      apply getitem_broadcast in Hb as [Hb1 Hb2]; auto.
      apply getitem_broadcast in Hc as [Hc1 Hc2]; auto.
      apply wbd_ok_iff in H as [p [bs [Hkk [Hp [HB ->]]]]]; auto.
      destruct k as [k|]; [|exfalso; clear -Hkk; unfold known_kernel in Hkk; simpl in Hkk; intuition discriminate].
      exists k, p, bs. split; auto. split; auto. repeat (split; auto). subst; auto.
    - intros [k [p [bs [[[Hk1 [Hk2 [Hb [Hc Hp]]]] HB] ->]]]].
      exists (Some k). split; [apply getitem_broadcast; auto|].
      { split; auto. destruct kt; simpl in *; auto.
        destruct (Nat.lt_ge_cases dim (length l)); auto. rewrite nth_overflow in Hk1 by auto; discriminate. }
      rewrite bind_ok. exists (arg_at bw dim). split; [apply getitem_broadcast; auto|].
      rewrite bind_ok. exists (arg_at nc dim). split; [apply getitem_broadcast; auto|].
      apply wbd_ok_iff; auto. exists p, bs. auto. }
  rewrite bind_ok. split.
  - intros [ws [H1 H2]]. split; auto. apply mapM_ok_iff in H1.
    assert (G : forall s m, (s + m <= n)%nat -> forall ws, Forall2 (fun x y => (d <- getitem (map A2 Ds) x ;; k <- getitem (broadcast_arg n kt) x ;;
       b <- getitem (broadcast_arg n bw) x ;; c <- getitem (broadcast_arg n nc) x ;;
       weight_by_distance d k b c) = Ok y) (seq s m) ws ->
       exists Ms : list (matrix R), length Ms = m /\ ws = map (fun M => A2 (mmap Fin M)) Ms /\
       forall dim, (dim < m)%nat -> exists k p bs, dim_ok kt bw nc (nth (s + dim) Ds []) (s + dim) k p bs /\
        nth dim Ms [] = raw_matrix k (nth (s + dim) Ds []) bs).
    { intros s m. revert s. induction m; intros s Hs ws' HF2; inversion HF2 as [|? ? ? ? Hh3 Hh4]; subst.
      - exists []. repeat split; auto. intros; lia.
      - apply Hstep in Hh3 as [k [p [bs [Hk ->]]]]; [|lia].
        destruct (IHm (S s) ltac:(lia) _ Hh4) as [Ms [HL [HW HM]]].
        exists (raw_matrix k (nth s Ds []) bs :: Ms). simpl. split; [lia|]. split; [f_equal; auto|].
        intros [|dim] Hd.
        + exists k, p, bs. rewrite Nat.add_0_r. auto.
        + destruct (HM dim ltac:(lia)) as [k' [p' [bs' HH]]]. exists k', p', bs'.
          replace (s + S dim)%nat with (S s + dim)%nat by lia. auto. }
    destruct (G 0%nat n ltac:(lia) ws H1) as [Ms [HL [-> HM]]].
    exists Ms. split; auto. split; auto.
    rewrite (nd_prod_ok Ms r c) in H2.
    + rewrite normalise_ok in H2. inversion H2; auto.
    + intros ->. simpl in HL. unfold n in HL. destruct Ds; [contradiction|discriminate].
    + apply (proj2 (Forall_nth_lt _ ([] : matrix R) _)). intros i Hi. assert (Hi' : (i < n)%nat) by (rewrite <- HL; exact Hi). destruct (HM i Hi') as [k [p [bs [[_ HB] ->]]]].
      simpl. destruct (Hrect i Hi') as [HR _].
      apply raw_matrix_rect; auto. apply Forall2_len in HB. destruct HR as [HR1 _]. rewrite <- HR1; symmetry; exact HB.
  - intros [_ [Ms [HL [HM ->]]]].
    exists (map (fun M => A2 (mmap Fin M)) Ms). split.
    + apply mapM_ok_iff.
      assert (G : forall s m (Ms' : list (matrix R)), length Ms' = m -> (s + m <= n)%nat ->
         (forall dim, (dim < m)%nat -> exists k p bs, dim_ok kt bw nc (nth (s + dim) Ds []) (s + dim) k p bs /\
        nth dim Ms' [] = raw_matrix k (nth (s + dim) Ds []) bs) ->
         Forall2 (fun x y => (d <- getitem (map A2 Ds) x ;; k <- getitem (broadcast_arg n kt) x ;;
       b <- getitem (broadcast_arg n bw) x ;; c <- getitem (broadcast_arg n nc) x ;;
       weight_by_distance d k b c) = Ok y) (seq s m) (map (fun M => A2 (mmap Fin M)) Ms')).
      { intros s m. revert s. induction m; intros s Ms' HL' Hs H; destruct Ms' as [|M Ms']; simpl in HL'; try lia; simpl; constructor.
        - apply Hstep; [lia|]. destruct (H 0%nat ltac:(lia)) as [k [p [bs [HH E]]]].
          rewrite Nat.add_0_r in *. simpl in E. subst M. exists k, p, bs; auto.
        - apply IHm; [lia|lia|]. intros dim Hd. destruct (H (S dim) ltac:(lia)) as [k [p [bs HH]]].
          exists k, p, bs. replace (S s + dim)%nat with (s + S dim)%nat by lia. auto. }
      apply (G 0%nat n Ms); auto.
    + rewrite (nd_prod_ok Ms r c).
      * apply normalise_ok.
      * intros ->. simpl in HL. unfold n in HL. destruct Ds; [contradiction|discriminate].
      * apply (proj2 (Forall_nth_lt _ ([] : matrix R) _)). intros i Hi. assert (Hi' : (i < n)%nat) by (rewrite <- HL; exact Hi). destruct (HM i Hi') as [k [p [bs [[_ HB] ->]]]].
        simpl. destruct (Hrect i Hi') as [HR _].
        apply raw_matrix_rect; auto. apply Forall2_len in HB. destruct HR as [HR1 _]. rewrite <- HR1; symmetry; exact HB.
Qed.
