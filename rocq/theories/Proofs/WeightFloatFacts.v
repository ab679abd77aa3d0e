(** The rounded weight matrix, entry by entry. *)
From Coq Require Import Lra Psatz.
From Verif.Model Require Import Base Ext Sort Kernel Distance WeightMatrix KernelFloat WeightFloat.
From Verif.Spec Require Import KernelSpec WeightSpec FloatSpec WeightFloatSpec.
From Verif.Proofs Require Import ListFacts KernelFacts SortFacts AdaptiveFacts KernelProps KernelExamples SumFacts WeightFacts FloatFacts FloatNorm.
Open Scope string_scope.
Open Scope nat_scope.
Open Scope R_scope.

Section WF.
  Variable fl fexp fcube : R -> ext.
  Variable rowsum : list ext -> ext.
  Variable quantile : R -> list R -> R.

  Definition entry_fl (k : string) (b d : R) : ext :=
    match kernel_expr_fl fl fexp fcube k with Some f => kernel_entry_fl fl k f d b | None => NaN end.
  Definition raw_fl (k : string) (D : matrix R) (bs : list R) : matrix ext :=
    map2 (fun row b => map (entry_fl k b) row) D bs.

  Lemma kernel_expr_fl_unknown k : ~ known_kernel k -> kernel_expr_fl fl fexp fcube k = None.
  Proof.
    intros H. unfold kernel_expr_fl.
    repeat match goal with |- context [String.eqb k ?s] => destruct (String.eqb_spec k s) as [E|_];
      [exfalso; apply H; unfold known_kernel; subst; auto 9|] end. reflexivity.
  Qed.
  Lemma kernel_fl_iff D bw bs K W : bandwidth_rows (nrows D) bw = Ok bs ->
    (kernel_function_fl fl fexp fcube D bw K = Ok W <-> known_kernel K /\ W = raw_fl K D bs).
  Proof.
    intros Hbs. unfold kernel_function_fl. rewrite Hbs. cbn [bind]. unfold raw_fl, entry_fl.
    destruct (known_kernel_dec K) as [Hk|Hk].
    - destruct (kernel_expr_fl_known fl fexp fcube K Hk) as [f ->]. split; [intros H; inversion H; auto|intros [_ ->]; auto].
    - rewrite (kernel_expr_fl_unknown K Hk). split; [discriminate|intros [H _]; contradiction].
  Qed.

  Lemma wbd_fl_iff D k b c w : D <> [] ->
    (weight_by_distance_fl fl fexp fcube quantile D k b c = Ok w <->
     exists p bs, known_kernel (kernel_name k) /\ rule_of b c = Some p /\
       Forall2 (row_bandwidth_fl quantile p) D bs /\ w = raw_fl (kernel_name k) D bs).
  Proof.
    intros Hne. set (K := kernel_name k).
    unfold weight_by_distance_fl. fold K. destruct b as [b|], c as [c|]; cbn [rule_of].
    - split; [discriminate|]. intros [p [bs [_ [H _]]]]; discriminate.
    - assert (Hrep : bandwidth_rows (nrows D) (BScalar b) = Ok (repeat b (nrows D))) by reflexivity.
      rewrite (kernel_fl_iff _ _ _ _ _ Hrep). split.
      + intros [Hk ->]. exists (FixedBandwidth b), (repeat b (nrows D)). repeat split; auto.
        clear. unfold nrows. induction D; simpl; constructor; auto. reflexivity.
      + intros [p [bs [Hk [Hp [HF ->]]]]]. inversion Hp; subst p.
        assert (E : bs = repeat b (nrows D)).
        { clear -HF. unfold nrows. induction HF; simpl; auto. simpl in H. f_equal; auto. }
        subst bs. auto.
    - unfold adaptive_kernel_fl, adaptive_bandwidth_fl. rewrite bind_ok. split.
      + intros [bs [H1 H3]]. apply bind_ok in H1 as [bs0 [H1 H2]].
        destruct c as [z|q|]; [| |discriminate].
        * injection H2 as <-. apply adaptive_int_ok in H1 as [Hz HF].
          assert (Hrows : bandwidth_rows (nrows D) (BColumn bs0) = Ok bs0).
          { simpl. unfold nrows. rewrite <- (Forall2_len _ _ _ HF), Nat.eqb_refl; auto. }
          apply (kernel_fl_iff _ _ _ _ _ Hrows) in H3 as [Hk ->].
          exists (NearestCount z), bs0. split; [exact Hk|]. split; [reflexivity|]. split; [|reflexivity].
          revert HF. apply Forall2_impl'. intros a x _ [Ha1 Ha2]. simpl; auto.
        * injection H2 as <-. apply adaptive_float_ok in H1 as [Hq HF].
          assert (Hrows : bandwidth_rows (nrows D) (BColumn (map (quantile q) D)) = Ok (map (quantile q) D)).
          { simpl. unfold nrows. rewrite map_length, Nat.eqb_refl; auto. }
          apply (kernel_fl_iff _ _ _ _ _ Hrows) in H3 as [Hk ->].
          exists (Fraction q), (map (quantile q) D). split; [exact Hk|]. split; [reflexivity|]. split; [|reflexivity].
          clear -HF Hq. induction HF as [|x y l l' [Hx1 [Hx2 _]] HF IH]; simpl; constructor; auto. simpl. repeat split; auto.
      + intros [p [bs [Hk [Hp [HF ->]]]]].
        destruct c as [z|q|]; [| |discriminate]; inversion Hp; subst p.
        * exists bs. split.
          -- rewrite bind_ok. exists bs. split; [|reflexivity]. apply adaptive_int_ok.
             destruct HF as [|x y l l' Hxy HF]; [contradiction|].
             split; [apply Hxy|]. assert (HF2 : Forall2 (row_bandwidth_fl quantile (NearestCount z)) (x :: l) (y :: l')) by (constructor; auto).
             revert HF2. apply Forall2_impl'. intros a b0 _ [_ [Ha1 Ha2]]; auto.
          -- assert (Hrows : bandwidth_rows (nrows D) (BColumn bs) = Ok bs).
             { simpl. unfold nrows. rewrite <- (Forall2_len _ _ _ HF), Nat.eqb_refl; auto. }
             apply (kernel_fl_iff _ _ _ _ _ Hrows); auto.
        * assert (E : bs = map (quantile q) D).
          { clear -HF. induction HF as [|x y l l' [_ [_ Hx]] HF IH]; simpl; f_equal; auto. }
          subst bs. exists (map (quantile q) D). split.
          -- rewrite bind_ok. exists (map (fun row => at_virtual_index (sortR row) (virtual_median_unbiased (length row) q)) D).
             split; [|reflexivity]. apply adaptive_float_ok. split.
             ++ destruct HF as [|x y l l' [Hxy _] HF]; [contradiction|lra].
             ++ clear -HF. induction D as [|x D IH]; simpl; constructor; inversion HF; subst; auto.
                simpl in *. intuition lra.
          -- assert (Hrows : bandwidth_rows (nrows D) (BColumn (map (quantile q) D)) = Ok (map (quantile q) D)).
             { simpl. unfold nrows. rewrite map_length, Nat.eqb_refl; auto. }
             apply (kernel_fl_iff _ _ _ _ _ Hrows); auto.
    - split; [discriminate|]. intros [p [bs [_ [H _]]]]; discriminate.
  Qed.

  (** Product over the dimensions of one entry. *)
  Definition eprod_at (Ms : list (matrix ext)) (i j : nat) : ext :=
    match map (fun M => mget NaN M i j) Ms with [] => NaN | w :: ws => fold_left (fmul fl) ws w end.

  Lemma prod_fl_ok Ms r c : Ms <> [] -> Forall (fun M => rect M r c) Ms ->
    prod_fl fl Ms = mtab r c (eprod_at Ms).
  Proof.
    intros Hne HF. destruct Ms as [|M Ms]; [contradiction|]. simpl.
    inversion HF as [|? ? HM HMs]; subst. clear HF Hne.
    assert (G : forall acc, fold_left (map2 (map2 (fmul fl))) Ms (mtab r c acc)
         = mtab r c (fun i j => fold_left (fmul fl) (map (fun M => mget NaN M i j) Ms) (acc i j))).
    { clear HM M. induction HMs as [|M Ms HM HMs IH]; intros acc; cbn [map fold_left]; [reflexivity|].
      assert (E : map2 (map2 (fmul fl)) (mtab r c acc) M = mtab r c (fun i j => fmul fl (acc i j) (mget NaN M i j))).
      { rewrite (mtab_of NaN M r c HM) at 1. unfold mtab. rewrite map2_tabulate. apply tabulate_ext. intros. rewrite map2_tabulate. reflexivity. }
      rewrite E.
      rewrite IH. reflexivity. }
    rewrite (mtab_of NaN M r c HM) at 1. rewrite G. apply mtab_ext. intros. unfold eprod_at. reflexivity.
  Qed.

  Definition dim_fl (kt : dim_arg string) (bw : dim_arg R) (nc : dim_arg count_arg)
             (D : matrix R) (dim : nat) (k : string) (p : dim_rule) (bs : list R) : Prop :=
    requests kt bw nc dim k p /\ Forall2 (row_bandwidth_fl quantile p) D bs.

  Lemma raw_fl_rect k D bs r c : rect D r c -> length bs = r -> rect (raw_fl k D bs) r c.
  Proof.
    intros [H1 H2] Hb. split.
    - unfold raw_fl. rewrite map2_length. lia.
    - unfold raw_fl. clear H1 Hb. revert bs. induction H2; intros bs; destruct bs; simpl; constructor; auto.
      rewrite map_length; auto.
  Qed.

  Lemma wmfd_fl_iff Ds kt bw nc r c W :
    valid_distances Ds r c -> (0 < r)%nat ->
    (weight_matrix_from_distance_fl fl fexp fcube rowsum quantile Ds kt bw nc = Ok W <->
     (is_none bw && is_none nc = false) /\
     exists Ms : list (matrix ext), length Ms = length Ds /\
       (forall dim, (dim < length Ds)%nat -> exists k p bs, dim_fl kt bw nc (nth dim Ds []) dim k p bs /\
          nth dim Ms [] = raw_fl k (nth dim Ds []) bs) /\
       W = map (fun row => normalise_row_fl fl row (rowsum row)) (mtab r c (eprod_at Ms))).
  Proof.
    intros HV Hr. pose proof HV as [Hne HF].
    unfold weight_matrix_from_distance_fl. rewrite (one_shape_valid Ds r c HV Hr). cbn [negb].
    destruct (is_none bw && is_none nc) eqn:En.
    { split; [discriminate|intros [H _]; discriminate]. }
    set (n := length Ds). cbv zeta.
    assert (Hrect : forall dim, (dim < n)%nat -> rect (nth dim Ds []) r c /\ entries (Rle 0) (nth dim Ds [])).
    { intros dim Hd. exact (proj1 (Forall_nth_lt _ _ _) HF dim Hd). }
    set (step := fun dim => d <- getitem Ds dim ;; k <- getitem (broadcast_arg n kt) dim ;;
         b <- getitem (broadcast_arg n bw) dim ;; c <- getitem (broadcast_arg n nc) dim ;;
         weight_by_distance_fl fl fexp fcube quantile d k b c).
    assert (Hstep : forall dim w, (dim < n)%nat ->
       (step dim = Ok w <->
        exists k p bs, dim_fl kt bw nc (nth dim Ds []) dim k p bs /\ w = raw_fl k (nth dim Ds []) bs)).
    { intros dim w Hd. unfold step. destruct (Hrect dim Hd) as [HR HE].
      assert (HneD : nth dim Ds [] <> []) by (destruct HR as [H _]; intros E; rewrite E in H; simpl in H; lia).
      rewrite (getitem_lt ([] : matrix R)) by auto. cbn [bind].
      rewrite bind_ok. split.
      - intros [k [Hk H]]. apply bind_ok in H as [b [Hb H]]. apply bind_ok in H as [cc [Hc H]].
        apply getitem_broadcast in Hk as [Hk1 Hk2]; auto.
        apply getitem_broadcast in Hb as [Hb1 Hb2]; auto.
        apply getitem_broadcast in Hc as [Hc1 Hc2]; auto.
        apply wbd_fl_iff in H as [p [bs [Hkk [Hp [HB ->]]]]]; auto.
        destruct k as [k|]; [|exfalso; clear -Hkk; unfold known_kernel in Hkk; simpl in Hkk; intuition discriminate].
        exists k, p, bs. split; auto. split; auto. repeat (split; auto). subst; auto.
      - intros [k [p [bs [[[Hk1 [Hk2 [Hb [Hc Hp]]]] HB] ->]]]].
        exists (Some k). split; [apply getitem_broadcast; auto|].
        { split; auto. destruct kt; simpl in *; auto.
          destruct (Nat.lt_ge_cases dim (length l)); auto. rewrite nth_overflow in Hk1 by auto; discriminate. }
        rewrite bind_ok. exists (arg_at bw dim). split; [apply getitem_broadcast; auto|].
        rewrite bind_ok. exists (arg_at nc dim). split; [apply getitem_broadcast; auto|].
        apply wbd_fl_iff; auto. exists p, bs. auto. }
    assert (HN : forall Ms : list (matrix ext), length Ms = n ->
      (forall dim, (dim < n)%nat -> exists k p bs, dim_fl kt bw nc (nth dim Ds []) dim k p bs /\
          nth dim Ms [] = raw_fl k (nth dim Ds []) bs) -> prod_fl fl Ms = mtab r c (eprod_at Ms)).
    { intros Ms HL HM. apply prod_fl_ok.
      - intros ->. simpl in HL. unfold n in HL. destruct Ds; [contradiction|discriminate].
      - apply (proj2 (Forall_nth_lt _ ([] : matrix ext) _)). intros i Hi. assert (Hi' : (i < n)%nat) by (rewrite <- HL; exact Hi).
        destruct (HM i Hi') as [k [p [bs [[_ HB] ->]]]]. destruct (Hrect i Hi') as [HR _].
        apply raw_fl_rect; auto. apply Forall2_len in HB. destruct HR as [HR1 _]. rewrite <- HR1; symmetry; exact HB. }
    rewrite bind_ok. split.
    - intros [ws [H1 H2]]. split; auto. apply mapM_ok_iff in H1.
      assert (HL : length ws = n) by (rewrite <- (Forall2_len _ _ _ H1), seq_length; auto).
      assert (HM : forall dim, (dim < n)%nat -> exists k p bs, dim_fl kt bw nc (nth dim Ds []) dim k p bs /\
          nth dim ws [] = raw_fl k (nth dim Ds []) bs).
      { intros dim Hd. apply Hstep; auto.
        pose proof (Forall2_nth _ _ _ 0%nat [] dim H1 ltac:(rewrite seq_length; auto)) as H3.
        rewrite seq_nth in H3 by auto. exact H3. }
      exists ws. split; auto. split; auto. rewrite (HN ws HL HM) in H2. injection H2 as <-. reflexivity.
    - intros [_ [Ms [HL [HM ->]]]]. exists Ms. split; [|rewrite (HN Ms HL HM); reflexivity].
      apply mapM_ok_iff.
      assert (G : forall m s (Ms' : list (matrix ext)), length Ms' = m ->
         (forall dim, (dim < m)%nat -> step (s + dim)%nat = Ok (nth dim Ms' [])) ->
         Forall2 (fun x y => step x = Ok y) (seq s m) Ms').
      { induction m; intros s Ms' HL' H; destruct Ms' as [|M Ms']; simpl in HL'; try lia; simpl; constructor.
        - specialize (H 0%nat ltac:(lia)). rewrite Nat.add_0_r in H. exact H.
        - apply IHm; [lia|]. intros dim Hd. specialize (H (S dim) ltac:(lia)).
          replace (S s + dim)%nat with (s + S dim)%nat by lia. exact H. }
      apply G; auto. intros dim Hd. apply Hstep; auto.
  Qed.
End WF.
