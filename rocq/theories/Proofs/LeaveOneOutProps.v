(** Proofs for C187. *)
From Coq Require Import Lra Lia.
From Verif.Model Require Import Base Ext Csr Neighbour Distance WeightModel Inspect LeaveOneOut.
From Verif.Spec Require Import KernelSpec NeighbourSpec WeightModelSpec InspectSpec LeaveOneOutSpec.
From Verif.Proofs Require Import ListFacts SumFacts CsrFacts NeighbourProps WeightModelFacts WeightModelProps FitProps InspectProps LeaveOutProps EndToEnd LinearPredict.
Open Scope nat_scope.
Open Scope R_scope.

Lemma filter_all {A} (f : A -> bool) l : (forall x, In x l -> f x = true) -> filter f l = l.
Proof. induction l as [|a l IH]; intros H; simpl; auto. rewrite (H a) by (left; auto). rewrite IH; auto. intros; apply H; right; auto. Qed.
Lemma others_split n i : (i < n)%nat -> (seq 0 i ++ seq (S i) (n - S i))%list = others n i.
Proof.
  intros Hi. unfold others. replace n with (i + (1 + (n - S i)))%nat at 2 by lia. rewrite seq_app, filter_app. cbn [plus seq filter]. rewrite Nat.eqb_refl. cbn [negb].
  rewrite !filter_all; auto; intros j Hj; apply in_seq in Hj; destruct (Nat.eqb_spec j i); auto; lia.
Qed.
Lemma others_lt n i j : In j (others n i) -> (j < n)%nat.
Proof. intros H. apply filter_In in H as [H _]. apply in_seq in H. lia. Qed.

Lemma nth_seq_all (l : list R) : map (fun i => nth i l 0) (seq 0 (length l)) = l.
Proof. apply (list_eq_nth 0); [rewrite map_length, seq_length; auto|]. intros i Hi. rewrite map_length, seq_length in Hi. rewrite (nth_map_in _ _ _ 0%nat) by (rewrite seq_length; auto). rewrite seq_nth by auto. reflexivity. Qed.

Section Loo.
  Context {est : Type}.
  Variable fit_plain : nat -> matrix R -> list R -> result est.
  Variable predict_est : est -> matrix R -> result (list R).

  Lemma combine_seq {A B} (g : nat -> A) (f : nat * A -> B) n : forall a, map f (combine (seq a n) (map g (seq a n))) = map (fun i => f (i, g i)) (seq a n).
  Proof. induction n; intros a; simpl; auto. rewrite IHn. auto. Qed.
  Lemma mapM_map {A B C} (f : B -> result C) (g : A -> B) l : mapM f (map g l) = mapM (fun a => f (g a)) l.
  Proof. induction l; simpl; auto. rewrite IHl. auto. Qed.
  Lemma mapM_combine_seq {A B} (g : nat -> A) (f : nat * A -> result B) n a : mapM f (combine (seq a n) (map g (seq a n))) = mapM (fun i => f (i, g i)) (seq a n).
  Proof. revert a; induction n; intros a; simpl; auto. rewrite IHn. auto. Qed.

  Lemma round_is X y i v : length X = length y -> (i < length X)%nat ->
    loo_round est fit_plain predict_est X y i ((seq 0 i ++ seq (S i) (length X - S i))%list, [i]) = Ok [v] <-> left_out_prediction fit_plain predict_est X y i v.
  Proof.
    intros HL Hi. unfold loo_round. rewrite others_split by auto. unfold left_out_prediction.
    rewrite (take_checked_ok [] X) by (intros j Hj; apply others_lt in Hj; lia). rewrite (take_checked_ok 0 y) by (intros j Hj; apply others_lt in Hj; lia).
    cbn [bind]. unfold take. unfold take_checked. cbn [mapM]. rewrite (getitem_lt [] X) by auto. cbn [bind].
    destruct (fit_plain i _ _) as [e|e]; cbn [bind]; split.
    - intros H. exists e. auto.
    - intros (e' & E & H). injection E as <-. auto.
    - discriminate.
    - intros (e' & E & H). discriminate.
  Qed.

  Lemma llocv_iff X y points Xp s : length X = length points -> length y = length X -> Xp = map2 (@app R) X points ->
    fit_llocv_models est fit_plain predict_est X y points = Ok s <->
    (2 <= length X)%nat /\ exists ps score, s = Fin score /\ length ps = length X /\ is_r2 y ps score /\
      forall i, (i < length X)%nat -> left_out_prediction fit_plain predict_est Xp y i (nth i ps 0).
  Proof.
    intros HP HY EX. unfold fit_llocv_models, hconcat. rewrite (proj2 (Nat.eqb_eq _ _) HP). cbn [bind]. rewrite <- EX.
    assert (HX : length Xp = length X) by (rewrite EX, map2_length; lia). set (n := length X) in *. rewrite HX. unfold loo_split.
    destruct (n <=? 1)%nat eqn:En; [apply Nat.leb_le in En; split; [discriminate|intros [? _]; lia]|]. apply Nat.leb_gt in En. cbn [bind].
    rewrite map_length, seq_length. rewrite mapM_combine_seq. cbn [fst snd].
    assert (RI : forall i v, (i < n)%nat -> loo_round est fit_plain predict_est Xp y i ((seq 0 i ++ seq (S i) (n - S i))%list, [i]) = Ok [v] <-> left_out_prediction fit_plain predict_est Xp y i v).
    { intros i v Hi. rewrite <- HX. apply round_is; lia. }
    set (f := fun i => loo_round est fit_plain predict_est Xp y i ((seq 0 i ++ seq (S i) (n - S i))%list, [i])) in *.
    split.
    - intros H. destruct (mapM f (seq 0 n)) as [ls|e] eqn:E1; [|discriminate]. cbn [bind] in H.
      destruct (mapM _ ls) as [p|e] eqn:E2; [|discriminate]. cbn [bind] in H. split; [lia|].
      assert (F : Forall2 (fun i v => f i = Ok [v]) (seq 0 n) p).
      { apply mapM_ok_iff in E1. apply mapM_ok_iff in E2. clear -E1 E2. revert p E2. induction E1 as [|i l is0 ls0 Hf HF IH]; intros p E2; inversion E2 as [|? v ? p' Hv HF2]; subst; constructor; auto.
        destruct l as [|v0 [|]]; try discriminate. injection Hv as <-. auto. }
      assert (Lp : length p = n) by (rewrite <- (Forall2_len _ _ _ F), seq_length; auto).
      destruct (r2_total y p) as [sc Hsc]; [lia|lia|]. rewrite Hsc in H. injection H as <-. exists p, sc. split; auto. split; auto.
      split; [apply (r2_fin _ _ _ Hsc)|]. intros i Hi. apply RI; auto.
      clear -F Hi. assert (G : forall a l p, Forall2 (fun i v => f i = Ok [v]) (seq a l) p -> forall i, (i < l)%nat -> f (a + i)%nat = Ok [nth i p 0]).
      { intros a l. revert a. induction l; intros a q HF j Hj; [lia|]. inversion HF; subst. destruct j; [rewrite Nat.add_0_r; auto|]. cbn [nth]. replace (a + S j)%nat with (S a + j)%nat by lia. apply IHl; auto. lia. }
      apply (G 0%nat n p F i Hi).
    - intros (_ & ps & score & -> & Lp & Hr & HA).
      assert (E1 : mapM f (seq 0 n) = Ok (map (fun i => [nth i ps 0]) (seq 0 n))) by (apply mapM_all_ok; intros i Hi; apply in_seq in Hi; apply RI; [lia|apply HA; lia]).
      rewrite E1. cbn [bind]. rewrite mapM_map.
      rewrite (mapM_all_ok _ (fun i => nth i ps 0)) by (intros; reflexivity). cbn [bind].
      assert (ES : map (fun i => nth i ps 0) (seq 0 n) = ps) by (rewrite <- Lp; apply nth_seq_all).
      rewrite ES. destruct (r2_total y ps) as [sc Hsc]; [lia|lia|]. rewrite Hsc. do 2 f_equal. eapply is_r2_fun; [apply (r2_fin _ _ _ Hsc)|exact Hr].
  Qed.
End Loo.

(** ** Local models that cover everything with equal weights *)
Section Covering.
  Context {est : Type}.
  Variable fit_est : nat -> matrix R -> list R -> list ext -> result est.
  Variable fit_plain : nat -> matrix R -> list R -> result est.
  Variable predict_est : est -> matrix R -> result (list R).
  Hypothesis HCA : counts_alike fit_est fit_plain.

  Lemma cover_set W N omega i : (i < N)%nat -> 0 < omega -> (forall j, (j < N)%nat -> mget (Fin 0) W i j = Fin omega) ->
    training_set true W N i = others N i /\ map (used_weight true W i) (others N i) = repeat (Fin omega) (length (others N i)).
  Proof.
    intros Hi Ho HW. split.
    - unfold training_set, others. apply filter_ext_in. intros j Hj. apply in_seq in Hj. unfold used_weight. cbn [andb]. rewrite (Nat.eqb_sym i j).
      destruct (Nat.eqb_spec j i); cbn [negb]; [unfold eis_zero; rdec; reflexivity|]. rewrite HW by lia. unfold eis_zero. rdec. reflexivity.
    - assert (H : forall j, In j (others N i) -> used_weight true W i j = Fin omega).
      { intros j Hj. apply filter_In in Hj as [Hj Hn]. apply in_seq in Hj. unfold used_weight. cbn [andb]. rewrite (Nat.eqb_sym i j). destruct (j =? i)%nat; [discriminate|]. apply HW. lia. }
      revert H. generalize (others N i). induction l as [|a l IH]; intros H; simpl; auto. rewrite (H a) by (left; auto). rewrite IH; auto. intros; apply H; right; auto.
  Qed.

  Theorem covering G choice cpu wm c order g fs s0 X y points coords given w W N omega :
    valid_choice choice -> (0 < cpu)%nat -> length X = N -> length points = N -> valid_data (map2 (@app R) X points) y ->
    (forall i, (i < N)%nat -> 0 < omega i) -> (forall i j, (i < N)%nat -> (j < N)%nat -> mget (Fin 0) W i j = Fin (omega i)) ->
    in_force wm fs coords given w -> holds w W N -> schedule (num_tasks cpu c N) order ->
    leave_local_out c = true -> sample_local_rate c = None -> valid_jobs c ->
    let o := fit est fit_est predict_est G choice cpu wm c order g fs s0 (map2 (@app R) X points) y coords given in
    forall s, fit_llocv_models est fit_plain predict_est X y points = Ok s <-> o_result est G o = Ok tt /\ llocv_score_ est (o_state est G o) = Some s.
  Proof.
    intros Hch Hcpu HX HP HV Hom HWe Hf Hh HS HLO HSR HJ o s. set (Xp := map2 (@app R) X points) in *.
    assert (HXp : length Xp = N) by (unfold Xp; rewrite map2_length; lia).
    assert (HY : length y = N) by (destruct HV as (q & [E _] & _); lia).
    rewrite (llocv_iff fit_plain predict_est X y points Xp s) by (auto; lia). rewrite HX.
    pose proof (fit_all_locations est fit_est predict_est G choice cpu wm c order g fs s0 Xp y coords given w W N Hch Hcpu HXp Hf Hh HSR HS) as HA. cbv zeta in HA. fold o in HA.
    assert (HN : num_locations c N = N) by (unfold num_locations; rewrite HSR; reflexivity).
    assert (HSc : o_result est G o = Ok tt -> exists ps sc, local_predict_ est (o_state est G o) = Some ps /\ llocv_score_ est (o_state est G o) = Some sc /\ r2_score y ps = Ok sc).
    { intros Ho. assert (HS' : schedule (num_tasks cpu c (num_locations c N)) order) by (rewrite HN; exact HS).
      destruct (fit_results est fit_est predict_est G choice cpu wm c order g fs s0 Xp y coords given w W N Hch Hcpu HXp Hf Hh HS' Ho)
        as (l & es & ps & sc & Hy & H1 & H2 & H3 & H4 & H5 & H6 & H7 & H8 & H9 & H10 & _ & _ & H13 & _ & _ & _).
      assert (El : l = seq 0 N) by (apply sorted_all; auto; rewrite H10; auto). subst l.
      assert (Ey : take 0 y (seq 0 N) = y) by (unfold take; rewrite <- HY; apply nth_seq_all). rewrite Ey in H7. exists ps, sc. auto. }
    assert (HLM : forall i p, (i < N)%nat -> (exists e, local_model fit_est Xp y (leave_local_out c) W N i e /\ predict_est e [nth i Xp []] = Ok [p]) <-> left_out_prediction fit_plain predict_est Xp y i p).
    { intros i p Hi. unfold left_out_prediction, local_model. rewrite HLO, HXp. destruct (cover_set W N (omega i) i Hi (Hom i Hi) (fun j Hj => HWe i j Hi Hj)) as [ET EW].
      cbv zeta. rewrite ET, EW. split; intros (e & H1 & H2); exists e; split; auto; revert H1;
      replace (length (others N i)) with (length (map (fun j => nth j Xp []) (others N i))) by apply map_length; rewrite HCA by (rewrite ?map_length; auto); auto. }
    split.
    - intros (H2 & ps & score & -> & Lp & Hr & HQ).
      assert (HO : o_result est G o = Ok tt /\ local_predict_ est (o_state est G o) = Some ps).
      { apply HA. split; auto. split; auto. split; auto. split; auto. intros i Hi. apply HLM; auto. }
      destruct HO as [HO Hps]. split; auto. destruct (HSc HO) as (ps' & sc & E1 & E2 & E3). rewrite Hps in E1. injection E1 as <-. rewrite E2.
      destruct (r2_total y ps) as [sc' Hsc]; [lia|lia|]. rewrite Hsc in E3. injection E3 as <-. do 2 f_equal. eapply is_r2_fun; [apply (r2_fin _ _ _ Hsc)|exact Hr].
    - intros [HO Hs]. destruct (HSc HO) as (ps & sc & E1 & E2 & E3). rewrite Hs in E2. injection E2 as <-.
      destruct (proj1 (HA ps) (conj HO E1)) as (_ & _ & H2 & Lp & HQ). split; auto.
      destruct (r2_total y ps) as [sc' Hsc]; [lia|lia|]. rewrite Hsc in E3. injection E3 as <-. exists ps, sc'. split; auto. split; auto. split; [apply (r2_fin _ _ _ Hsc)|].
      intros i Hi. apply HLM; auto.
  Qed.
End Covering.

(** ** The mean of the others *)
Lemma others_sum n i (g : nat -> R) : (i < n)%nat -> Rsum (map g (others n i)) = Rsum (map g (seq 0 n)) - g i.
Proof.
  intros Hi. unfold others. rewrite Rsum_filter. rewrite <- (Rsum_only i g (seq 0 n)) by (try apply seq_NoDup; apply in_seq; lia). rewrite <- Rsum_map_minus.
  apply Rsum_map_ext. intros j _. rewrite (Nat.eqb_sym i j). destruct (j =? i)%nat; cbn [negb]; lra.
Qed.
Lemma others_length n i : (i < n)%nat -> length (others n i) = (n - 1)%nat.
Proof. intros Hi. rewrite <- others_split by auto. rewrite app_length, !seq_length. lia. Qed.

Theorem mean_of_others {est} (fit_plain : nat -> matrix R -> list R -> result est) predict_est X y points n :
  knows_the_mean fit_plain predict_est -> length X = n -> length points = n -> length y = n -> (2 <= n)%nat ->
  ((exists i j, (i < n)%nat /\ (j < n)%nat /\ nth i y 0 <> nth j y 0) ->
     fit_llocv_models est fit_plain predict_est X y points = Ok (Fin (1 - (INR n / (INR n - 1)) ^ 2))) /\
  ((forall i j, (i < n)%nat -> (j < n)%nat -> nth i y 0 = nth j y 0) -> fit_llocv_models est fit_plain predict_est X y points = Ok (Fin 1)).
Proof.
  intros HK HX HP HY Hn. set (Xp := map2 (@app R) X points).
  assert (HXp : length Xp = n) by (unfold Xp; rewrite map2_length; lia).
  assert (Hn1 : 0 < INR n - 1) by (apply (le_INR 2) in Hn; simpl in Hn; lra).
  set (p := map (fun i => (Rsum y - nth i y 0) / (INR n - 1)) (seq 0 n)).
  assert (HQ : forall i, (i < n)%nat -> left_out_prediction fit_plain predict_est Xp y i (nth i p 0)).
  { intros i Hi. unfold left_out_prediction. rewrite HXp.
    destruct (HK i (map (fun j => nth j Xp []) (others n i)) (map (fun j => nth j y 0) (others n i))) as (e & E1 & E2).
    - intros E. apply (f_equal (@length R)) in E. rewrite map_length, others_length in E by auto. simpl in E. lia.
    - exists e. split; auto. rewrite E2. cbn [map]. do 2 f_equal. rewrite others_sum, map_length, others_length by auto.
      unfold p. rewrite (nth_map_in _ _ _ 0%nat) by (rewrite seq_length; auto). rewrite seq_nth by auto. cbn [plus].
      rewrite <- HY at 1. rewrite nth_seq_all. rewrite minus_INR by lia. reflexivity. }
  assert (Lp : length p = n) by (unfold p; rewrite map_length, seq_length; auto).
  set (m := Rsum y / INR (length y)). set (sst := Rsum (map (fun a => (a - m) * (a - m)) y)).
  assert (HM : INR n * m = Rsum y) by (unfold m; rewrite HY; field; lra).
  assert (ESSE : Rsum (map2 (fun a b => (a - b) * (a - b)) y p) = (INR n / (INR n - 1)) ^ 2 * sst).
  { unfold sst. rewrite <- Rsum_map_scal. 
    assert (EY : forall g : R -> R, map g y = map (fun i => g (nth i y 0)) (seq 0 n)) by (intros g; rewrite <- (nth_seq_all y) at 1; rewrite map_map, HY; reflexivity).
    rewrite EY. assert (E0 : map2 (fun a b => (a - b) * (a - b)) y p = map2 (fun a b => (a - b) * (a - b)) (map (fun i => nth i y 0) (seq 0 n)) p) by (rewrite <- HY, nth_seq_all; reflexivity).
    rewrite E0. unfold p.
    assert (EM : forall (f : R -> R -> R) (a b : nat -> R) l, map2 f (map a l) (map b l) = map (fun i => f (a i) (b i)) l) by (induction l; simpl; congruence).
    rewrite EM. apply Rsum_map_ext. intros i _. rewrite <- HM. field. lra. }
  assert (HD : forall s, is_r2 y p s -> fit_llocv_models est fit_plain predict_est X y points = Ok (Fin s)).
  { intros s Hs. apply (llocv_iff fit_plain predict_est X y points Xp); auto; try lia. split; [lia|]. exists p, s. rewrite HX. auto. }
  assert (HZ : sst = 0 <-> forall i, (i < n)%nat -> nth i y 0 = m).
  { unfold sst. split.
    - intros H i Hi. assert (G : forall l, Rsum (map (fun a => (a - m) * (a - m)) l) = 0 -> forall a, In a l -> a = m).
      { clear. induction l as [|b l IH]; intros H a Ha; [destruct Ha|]. unfold Rsum in H. cbn [map fold_right] in H. fold (Rsum (map (fun a => (a - m) * (a - m)) l)) in H.
        assert (0 <= Rsum (map (fun a => (a - m) * (a - m)) l)) by (apply Rsum_nonneg; intros z Hz; apply in_map_iff in Hz as (v & <- & _); apply (Rle_0_sqr (v - m))).
        pose proof (Rle_0_sqr (b - m)) as Hb. unfold Rsqr in Hb. destruct Ha as [<-|Ha]; [|apply IH; auto; lra].
        assert ((b - m) * (b - m) = 0) by lra. apply Rmult_integral in H1. destruct H1; lra. }
      apply (G y H). apply nth_In. lia.
    - intros H. transitivity (Rsum (map (fun _ : R => 0) y)); [|rewrite Rsum_map_const; ring]. apply Rsum_map_ext. intros a Ha.
      apply (In_nth _ _ 0) in Ha as (i & Hi & <-). rewrite H by lia. ring. }
  split.
  - intros (i & j & Hi & Hj & Hne). apply HD. unfold is_r2. cbv zeta. fold m sst. rewrite ESSE.
    assert (sst <> 0) by (intros E; apply Hne; rewrite (proj1 HZ E i Hi), (proj1 HZ E j Hj); auto).
    split; [intros _; field; split; lra|]. split; intros; contradiction.
  - intros H. assert (E : sst = 0).
    { apply HZ. intros i Hi. assert (Rsum y = INR n * nth i y 0).
      { rewrite <- (nth_seq_all y) at 1. rewrite HY. rewrite (Rsum_map_ext _ (fun _ => nth i y 0)); [rewrite Rsum_map_const, seq_length; reflexivity|]. intros k Hk. apply in_seq in Hk. apply H; lia. }
      apply (Rmult_eq_reg_l (INR n)); [|lra]. lra. }
    apply HD. unfold is_r2. cbv zeta. fold m sst. rewrite ESSE, E, Rmult_0_r. split; [intros Q; contradiction|]. split; auto. intros _ Q. contradiction.
Qed.
