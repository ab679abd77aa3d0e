(** Properties of the rounded weight matrix. *)
From Coq Require Import Lra Psatz.
From Verif.Model Require Import Base Ext Sort Kernel Distance WeightMatrix KernelFloat WeightFloat.
From Verif.Spec Require Import KernelSpec WeightSpec FloatSpec WeightFloatSpec.
From Verif.Proofs Require Import ListFacts KernelFacts SortFacts AdaptiveFacts KernelProps KernelExamples SumFacts CsrFacts WeightFacts WeightProps FloatFacts FloatNorm WeightFloatFacts.
Open Scope string_scope.
Open Scope nat_scope.
Open Scope R_scope.

Definition real_of (x : ext) : R := match x with Fin r => r | _ => 0 end.

Lemma choice_upto {A} n (P : nat -> A -> Prop) (d : A) : (forall i, (i < n)%nat -> exists a, P i a) ->
  exists f, forall i, (i < n)%nat -> P i (f i).
Proof.
  induction n as [|n IH]; intros H.
  - exists (fun _ => d). intros; lia.
  - destruct IH as [f Hf]; [intros; apply H; lia|]. destruct (H n ltac:(lia)) as [a Ha].
    exists (fun i => if Nat.eqb i n then a else f i). intros i Hi. destruct (Nat.eqb_spec i n) as [->|N]; [exact Ha|apply Hf; lia].
Qed.

Section WP.
  Variable fl fexp fcube : R -> ext.
  Hypothesis HR : rounding fl.
  Hypothesis HE : faithful_exp fl fexp.
  Hypothesis HC : faithful_cube fl fcube.
  Variable rowsum : list ext -> ext.
  Variable quantile : R -> list R -> R.
  Let mono := proj1 HR.
  Let unitr (w : R) : Prop := 0 <= w <= 1 /\ representable fl w.

  (** Products are monotone. *)
  Lemma fmul_unit a b : unitr a -> unitr b -> exists p, fmul fl (Fin a) (Fin b) = Fin p /\ unitr p /\ p <= a /\ p <= b /\ (a = 1 -> b = 1 -> p = 1).
  Proof.
    intros [Ha Ra] [Hb Rb]. assert (0 <= a * b <= 1) by nra.
    destruct (fl_unit fl HR (a * b) H) as (p & E & Hp). exists p.
    assert (L : forall c, representable fl c -> a * b <= c -> p <= c).
    { intros c Rc Hc. pose proof (mono _ _ Hc) as M. unfold representable in Rc. rewrite E, Rc in M. exact M. }
    assert (G : forall c, representable fl c -> c <= a * b -> c <= p).
    { intros c Rc Hc. pose proof (mono _ _ Hc) as M. unfold representable in Rc. rewrite E, Rc in M. exact M. }
    repeat split; try lra.
    - exact E.
    - apply (proj1 (proj2 HR) _ _ E).
    - apply L; auto. nra.
    - apply L; auto. nra.
    - intros -> ->. assert (R1 : representable fl 1) by apply HR. pose proof (L 1 R1 ltac:(lra)). pose proof (G 1 R1 ltac:(lra)). lra.
  Qed.
  Lemma fold_unit ws : Forall unitr ws -> forall a, unitr a ->
    exists p, fold_left (fmul fl) (map Fin ws) (Fin a) = Fin p /\ unitr p /\ p <= a /\ (forall w, In w ws -> p <= w) /\
      (a = 1 -> (forall w, In w ws -> w = 1) -> p = 1).
  Proof.
    intros H. induction H as [|w ws Hw Hws IH]; intros a Ha; cbn [map fold_left].
    - exists a. split; [reflexivity|]. split; [exact Ha|]. split; [lra|]. split; [intros w []|auto].
    - destruct (fmul_unit a w Ha Hw) as (q & -> & Hq & Qa & Qw & Q1). destruct (IH q Hq) as (p & E & Hp & Pq & Pw & P1).
      exists p. split; [exact E|]. split; [exact Hp|]. split; [lra|]. split.
      + intros v [<-|Hv]; [lra|auto].
      + intros -> HA. apply P1; [apply Q1; auto; apply HA; left; auto|]. intros v Hv. apply HA. right; auto.
  Qed.
  Lemma fold_mono ws vs : Forall2 (fun w v => unitr w /\ unitr v /\ w <= v) ws vs -> forall a b p q,
    unitr a -> unitr b -> a <= b ->
    fold_left (fmul fl) (map Fin ws) (Fin a) = Fin p -> fold_left (fmul fl) (map Fin vs) (Fin b) = Fin q -> p <= q.
  Proof.
    intros H. induction H as [|w v ws vs [Hw [Hv L]] HF IH]; intros a b p q Ha Hb Lab; cbn [map fold_left].
    - intros E1 E2. injection E1 as <-. injection E2 as <-. exact Lab.
    - destruct (fmul_unit a w Ha Hw) as (x & Ex & Hx & _). destruct (fmul_unit b v Hb Hv) as (y & Ey & Hy & _).
      rewrite Ex, Ey. apply IH; auto.
      assert (M : ele (fl (a * w)) (fl (b * v))). { apply mono. destruct Ha as [Ha _], Hb as [Hb _], Hw as [Hw _], Hv as [Hv _]. nra. }
      unfold fmul, emul, rounded in Ex, Ey. rewrite Ex, Ey in M. exact M.
  Qed.

  Lemma entry_known k b d : known_kernel k -> 0 <= d ->
    exists w, entry_fl fl fexp fcube k b d = Fin w /\ unitr w /\ weighs_fl fl fexp fcube k b d w.
  Proof.
    intros Hk Hd. destruct (kernel_expr_fl_known fl fexp fcube k Hk) as [f Hf]. unfold entry_fl. rewrite Hf.
    destruct (entry_unit fl fexp fcube HR HE HC k f d b Hk Hf Hd) as (w & E & Hw).
    exists w. split; [exact E|]. split; [split; [exact Hw|exact (entry_repr fl fexp fcube HR HE HC k f d b w Hk Hf Hd E)]|].
    apply (weighs_fl_entry fl fexp fcube k b d w f Hf). exact E.
  Qed.

  Variable Ds : list (matrix R).
  Variable kt : dim_arg string.
  Variable bw : dim_arg R.
  Variable nc : dim_arg count_arg.
  Variable r c : nat.
  Hypothesis HV : valid_distances Ds r c.
  Hypothesis Hr : (0 < r)%nat.
  Hypothesis HS : sums_rows fl rowsum c.

  Definition raw_at (raw : nat -> nat -> nat -> R) (i j : nat) : list R := tabulate (length Ds) (fun dim => raw dim i j).

  Lemma wfl_inv W : weight_matrix_from_distance_fl fl fexp fcube rowsum quantile Ds kt bw nc = Ok W ->
    exists (ks : nat -> string) (ps : nat -> dim_rule) (bs : nat -> nat -> R) (raw : nat -> nat -> nat -> R) (p : nat -> nat -> R) (s : nat -> R) (V : matrix R),
      (forall dim, (dim < length Ds)%nat -> requests kt bw nc dim (ks dim) (ps dim)) /\
      (forall dim i, (dim < length Ds)%nat -> (i < r)%nat -> row_bandwidth_fl quantile (ps dim) (nth i (nth dim Ds []) []) (bs dim i)) /\
      (forall dim i j, (dim < length Ds)%nat -> (i < r)%nat -> (j < c)%nat ->
         weighs_fl fl fexp fcube (ks dim) (bs dim i) (mget 0 (nth dim Ds []) i j) (raw dim i j) /\ unitr (raw dim i j)) /\
      (forall i j, (i < r)%nat -> (j < c)%nat -> unitr (p i j) /\
         match raw_at raw i j with [] => False | w :: ws => fold_left (fmul fl) (map Fin ws) (Fin w) = Fin (p i j) end) /\
      (forall i, (i < r)%nat -> float_sum fl (tabulate c (p i)) (s i)) /\
      W = mmap Fin V /\ rect V r c /\
      (forall i, (i < r)%nat -> normalise_row_fl fl (map Fin (tabulate c (p i))) (Fin (s i)) = map Fin (nth i V [])).
  Proof.
    intros H. apply (wmfd_fl_iff fl fexp fcube rowsum quantile Ds kt bw nc r c W HV Hr) in H as [_ (Ms & HL & HM & ->)].
    pose proof HV as [Hne HF].
    assert (Hrect : forall dim, (dim < length Ds)%nat -> rect (nth dim Ds []) r c /\ entries (Rle 0) (nth dim Ds [])).
    { intros dim Hd. exact (proj1 (Forall_nth_lt _ _ _) HF dim Hd). }
    destruct (choice_upto (length Ds) (fun dim (x : string * dim_rule * list R) => let '(k, q, b) := x in
      dim_fl quantile kt bw nc (nth dim Ds []) dim k q b /\ nth dim Ms [] = raw_fl fl fexp fcube k (nth dim Ds []) b) ("", FixedBandwidth 0, [])) as [g Hg].
    { intros dim Hd. destruct (HM dim Hd) as (k & q & b & HH). exists (k, q, b). exact HH. }
    set (ks := fun dim => fst (fst (g dim))). set (ps := fun dim => snd (fst (g dim))). set (bs := fun dim i => nth i (snd (g dim)) 0).
    assert (HD : forall dim, (dim < length Ds)%nat -> requests kt bw nc dim (ks dim) (ps dim) /\
       Forall2 (row_bandwidth_fl quantile (ps dim)) (nth dim Ds []) (snd (g dim)) /\
       nth dim Ms [] = raw_fl fl fexp fcube (ks dim) (nth dim Ds []) (snd (g dim))).
    { intros dim Hd. specialize (Hg dim Hd). unfold ks, ps. destruct (g dim) as [[k q] b]. destruct Hg as [[G1 G2] G3]. simpl. auto. }
    set (raw := fun dim i j => real_of (mget NaN (nth dim Ms []) i j)).
    assert (HW : forall dim i j, (dim < length Ds)%nat -> (i < r)%nat -> (j < c)%nat ->
         mget NaN (nth dim Ms []) i j = Fin (raw dim i j) /\
         weighs_fl fl fexp fcube (ks dim) (bs dim i) (mget 0 (nth dim Ds []) i j) (raw dim i j) /\ unitr (raw dim i j)).
    { intros dim i j Hd Hi Hj. destruct (HD dim Hd) as (HQ & HB & EM). destruct (Hrect dim Hd) as [HR1 HE1].
      assert (Hk : known_kernel (ks dim)) by apply HQ.
      assert (Hd0 : 0 <= mget 0 (nth dim Ds []) i j).
      { unfold mget. apply (proj1 (Forall_nth_lt (Rle 0) 0 (nth i (nth dim Ds []) []))).
        - apply (proj1 (Forall_nth_lt (Forall (Rle 0)) [] (nth dim Ds []))); [exact HE1|]. destruct HR1 as [-> _]. exact Hi.
        - rewrite (rect_row _ _ _ _ HR1 Hi). exact Hj. }
      destruct (entry_known (ks dim) (bs dim i) _ Hk Hd0) as (w & Ew & Uw & Ww).
      assert (E : mget NaN (nth dim Ms []) i j = Fin w).
      { rewrite EM. unfold mget, raw_fl.
        rewrite (map2_nth (fun row b => map (entry_fl fl fexp fcube (ks dim) b) row) (nth dim Ds []) (snd (g dim)) i [] 0 []).
        - rewrite (nth_map_in _ (nth i (nth dim Ds []) []) j 0 NaN); [exact Ew|]. rewrite (rect_row _ _ _ _ HR1 Hi). exact Hj.
        - destruct HR1 as [-> _]. exact Hi.
        - rewrite <- (Forall2_len _ _ _ HB). destruct HR1 as [-> _]. exact Hi. }
      unfold raw. rewrite E. simpl. auto. }
    assert (HP : forall i j, (i < r)%nat -> (j < c)%nat -> exists p, eprod_at fl Ms i j = Fin p /\ unitr p /\
         match raw_at raw i j with [] => False | w :: ws => fold_left (fmul fl) (map Fin ws) (Fin w) = Fin p end).
    { intros i j Hi Hj. unfold eprod_at.
      assert (E : map (fun M => mget NaN M i j) Ms = map Fin (raw_at raw i j)).
      { unfold raw_at. rewrite map_tabulate. apply (nth_ext _ _ NaN NaN).
        - rewrite map_length, tabulate_length. exact HL.
        - rewrite map_length. intros dim Hd. rewrite tabulate_nth by lia. rewrite (nth_map_in _ Ms dim [] NaN) by exact Hd.
          apply HW; auto. lia. }
      rewrite E. assert (HU : Forall unitr (raw_at raw i j)).
      { unfold raw_at. apply (proj2 (Forall_nth_lt unitr 0 _)). rewrite tabulate_length. intros dim Hd. rewrite tabulate_nth by exact Hd. apply HW; auto. }
      assert (HN : raw_at raw i j <> []).
      { intros E0. apply (f_equal (@length R)) in E0. unfold raw_at in E0. rewrite tabulate_length in E0. destruct Ds; [contradiction|discriminate]. }
      destruct (raw_at raw i j) as [|w ws]; [contradiction|]. inversion HU as [|? ? Hw Hws]; subst.
      destruct (fold_unit ws Hws w Hw) as (p & Ep & Up & _). exists p. cbn [map]. auto. }
    set (p := fun i j => real_of (eprod_at fl Ms i j)).
    assert (HP' : forall i j, (i < r)%nat -> (j < c)%nat -> eprod_at fl Ms i j = Fin (p i j) /\ unitr (p i j) /\
         match raw_at raw i j with [] => False | w :: ws => fold_left (fmul fl) (map Fin ws) (Fin w) = Fin (p i j) end).
    { intros i j Hi Hj. destruct (HP i j Hi Hj) as (x & Ex & Ux & Fx). unfold p. rewrite Ex. simpl. auto. }
    assert (HSum : forall i, (i < r)%nat -> exists s, rowsum (map Fin (tabulate c (p i))) = Fin s /\ float_sum fl (tabulate c (p i)) s).
    { intros i Hi. apply HS; [apply tabulate_length|]. apply (proj2 (Forall_nth_lt _ 0 _)). rewrite tabulate_length. intros j Hj.
      rewrite tabulate_nth by exact Hj. apply HP'; auto. }
    set (s := fun i => real_of (rowsum (map Fin (tabulate c (p i))))).
    assert (HS' : forall i, (i < r)%nat -> rowsum (map Fin (tabulate c (p i))) = Fin (s i) /\ float_sum fl (tabulate c (p i)) (s i)).
    { intros i Hi. destruct (HSum i Hi) as (x & Ex & Fx). unfold s. rewrite Ex. simpl. auto. }
    assert (HNU : forall i, (i < r)%nat -> exists vs, normalise_row_fl fl (map Fin (tabulate c (p i))) (Fin (s i)) = map Fin vs /\ length vs = c).
    { intros i Hi. destruct (normalise_unit fl HR (tabulate c (p i)) (s i)) as (vs & Ev & Lv & _).
      - apply (proj2 (Forall_nth_lt _ 0 _)). rewrite tabulate_length. intros j Hj. rewrite tabulate_nth by exact Hj.
        destruct (HP' i j Hi Hj) as (_ & [U1 U2] & _). split; [lra|exact U2].
      - apply HS'. exact Hi.
      - exists vs. rewrite tabulate_length in Lv. auto. }
    set (V := tabulate r (fun i => map real_of (normalise_row_fl fl (map Fin (tabulate c (p i))) (Fin (s i))))).
    assert (HVr : forall i, (i < r)%nat -> normalise_row_fl fl (map Fin (tabulate c (p i))) (Fin (s i)) = map Fin (nth i V []) /\ length (nth i V []) = c).
    { intros i Hi. unfold V. rewrite tabulate_nth by exact Hi. destruct (HNU i Hi) as (vs & -> & Lv).
      assert (E : map real_of (map Fin vs) = vs) by (rewrite map_map; apply map_id). rewrite E. auto. }
    exists ks, ps, bs, raw, p, s, V. split; [intros; apply HD; auto|]. split.
    { intros dim i Hd Hi. destruct (HD dim Hd) as (_ & HB & _). apply (Forall2_nth _ _ _ [] 0 i HB).
      destruct (Hrect dim Hd) as [[-> _] _]. exact Hi. }
    split; [intros; apply HW; auto|]. split; [intros; apply HP'; auto|]. split; [intros; apply HS'; auto|].
    split; [|split; [|intros; apply HVr; auto]].
    - unfold mtab. rewrite map_tabulate. unfold mmap.
      replace (map (map Fin) V) with (tabulate r (fun i => map Fin (nth i V []))).
      + apply tabulate_ext. intros i Hi. rewrite <- (proj1 (HVr i Hi)).
        assert (E : tabulate c (eprod_at fl Ms i) = map Fin (tabulate c (p i))).
        { rewrite map_tabulate. apply tabulate_ext. intros j Hj. apply HP'; auto. }
        cbv beta. change (fun j => eprod_at fl Ms i j) with (eprod_at fl Ms i). rewrite E. f_equal. apply HS'. exact Hi.
      + apply (nth_ext _ _ [] []); [rewrite map_length, tabulate_length; unfold V; rewrite tabulate_length; auto|].
        rewrite tabulate_length. intros i Hi. rewrite tabulate_nth by exact Hi.
        rewrite (nth_map_in _ V i [] []); [reflexivity|]. unfold V. rewrite tabulate_length. exact Hi.
    - split; [unfold V; apply tabulate_length|]. apply (proj2 (Forall_nth_lt _ [] _)). intros i Hi. apply HVr. unfold V in Hi. rewrite tabulate_length in Hi. exact Hi.
  Qed.
End WP.
