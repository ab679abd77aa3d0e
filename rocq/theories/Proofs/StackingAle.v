(** The ALE curve of a linearly stacked model. *)
From Coq Require Import Lra.
From Verif.Model Require Import Base Ext Csr Neighbour Distance WeightModel NumbaImpl Stacking Inspect Ale StackingInspect.
From Verif.Spec Require Import InspectSpec AleSpec AleShapeSpec.
From Verif.Proofs Require Import ListFacts SumFacts KernelFacts CsrFacts NeighbourFacts WeightModelFacts InspectProps AleFacts AleProps AleProps2 AleShape.
Open Scope nat_scope.
Open Scope R_scope.

Lemma select_length {A B} (mask : list bool) (u : list A) (v : list B) : length u = length v -> length (select mask u) = length (select mask v).
Proof.
  revert u v. induction mask as [|b mask IH]; intros [|a u] [|c v] H; cbn; auto; try discriminate.
  injection H as H. destruct b; cbn; [f_equal|]; auto.
Qed.

(** Which curves exist does not depend on the model, as long as it predicts. *)
Lemma wale_other store X f p1 p2 w norm m q a :
  (forall rows, exists v, p1 rows = Ok v /\ length v = length rows) -> (forall rows, exists v, p2 rows = Ok v /\ length v = length rows) ->
  weighted_ale store X f p1 (Some w) norm m = Ok (q, a) -> exists a', weighted_ale store X f p2 (Some w) norm m = Ok (q, a').
Proof.
  intros P1 P2 H. unfold weighted_ale in *.
  apply bind_ok in H as (values & Hc & H). rewrite Hc. cbn [bind].
  apply bind_ok in H as ((q0 & nq) & Hg & H). rewrite Hg. cbn [bind fst] in *.
  set (idx := bin_indices q0 values) in *.
  apply bind_ok in H as (low & Hl & H). rewrite Hl. cbn [bind]. apply bind_ok in H as (high & Hh & H). rewrite Hh. cbn [bind].
  destruct (P1 (set_column store X f low)) as (u1 & U1 & N1). destruct (P1 (set_column store X f high)) as (u2 & U2 & N2).
  destruct (P2 (set_column store X f low)) as (v1 & V1 & M1). destruct (P2 (set_column store X f high)) as (v2 & V2 & M2).
  rewrite U1, U2 in H. rewrite V1, V2. cbn [bind] in *.
  unfold minus_arrays in *. rewrite N1, N2 in H. rewrite M1, M2.
  destruct (Nat.eqb_spec (length (set_column store X f high)) (length (set_column store X f low))) as [EL|]; [|discriminate]. cbn [bind] in *.
  unfold mask_index in *. rewrite N1 in H. rewrite M1.
  destruct (length (map (fun i => (i =? 1)%nat) idx) =? length (set_column store X f low))%nat; [|discriminate]. cbn [bind] in *.
  destruct (length (map (fun i => (i =? 1)%nat) idx) =? length w)%nat; [|discriminate]. cbn [bind] in *.
  unfold average in *. destruct (Reqb (Rsum (select (map (fun i => (i =? 1)%nat) idx) w)) 0); [discriminate|]. cbn [bind] in *.
  apply bind_ok in H as (avg & Ha & H).
  assert (E : exists avg', mapM (fun k : nat => bind (if (length (map (fun i => (i =? k)%nat) idx) =? length (map2 Rminus v2 v1))%nat then Ok (select (map (fun i => (i =? k)%nat) idx) (map2 Rminus v2 v1)) else Raise IndexError)
     (fun d => bind (if (length (map (fun i => (i =? k)%nat) idx) =? length w)%nat then Ok (select (map (fun i => (i =? k)%nat) idx) w) else Raise IndexError)
     (fun u => if Reqb (Rsum u) 0 then Raise ZeroDivisionError else Ok (Rsum (map2 Rmult d u) / Rsum u)))) (group_keys idx) = Ok avg' /\ length avg' = length avg).
  { clear H. assert (EK : length (map2 Rminus v2 v1) = length (map2 Rminus u2 u1)) by (rewrite !map2_length; lia). rewrite EK. clear EK.
    revert avg Ha. induction (group_keys idx) as [|k ks IH]; intros avg Ha; cbn [mapM] in *.
    - injection Ha as <-. exists []. auto.
    - destruct (length (map (fun i => (i =? k)%nat) idx) =? length (map2 Rminus u2 u1))%nat; [|discriminate]. cbn [bind] in *.
      destruct (length (map (fun i => (i =? k)%nat) idx) =? length w)%nat; [|discriminate]. cbn [bind] in *.
      destruct (Reqb _ 0); [discriminate|]. cbn [bind] in *.
      apply bind_ok in Ha as (rest & Hr & Ha). injection Ha as <-. destruct (IH rest Hr) as (rest' & R1 & R2). rewrite R1. cbn [bind].
      eexists. split; [reflexivity|]. cbn. lia. }
  destruct E as (avg' & E1 & E2). rewrite E1. cbn [bind].
  destruct norm.
  - apply bind_ok in H as (t & Ht & H). injection H as <- _. unfold trapezoid_mean in *.
    assert (EE : forall l l' : list R, length l = length l' -> forall g : R -> R -> R,
      length (map2 g (removelast (0 :: cumsum l)) (tl (0 :: cumsum l))) = length (map2 g (removelast (0 :: cumsum l')) (tl (0 :: cumsum l')))).
    { intros l l' HL g. rewrite !map2_length. cbn [tl].
      assert (HC : length (cumsum l) = length (cumsum l')) by (unfold cumsum; rewrite !cumsum_from_length; auto).
      destruct (cumsum l), (cumsum l'); cbn in HC; try discriminate; auto.
      assert (HR : forall (u v : list R), length u = length v -> length (removelast u) = length (removelast v)).
      { clear. intros u v H. destruct u as [|x u], v as [|y v]; try discriminate; auto. rewrite (app_removelast_last 0 (l := x :: u)), (app_removelast_last 0 (l := y :: v)) in H by discriminate.
        rewrite !app_length in H. cbn [length] in H. lia. }
      rewrite (HR (0 :: r :: l0) (0 :: r0 :: l1)) by (cbn in *; lia). cbn [length] in *. lia. }
    rewrite (EE avg' avg) by auto. destruct (_ =? _)%nat; [|discriminate]. cbn [bind]. eauto.
  - injection H as <- _. eauto.
Qed.

Lemma rowwise_predicts p G : rowwise p G -> forall rows : matrix R, exists v, p rows = Ok v /\ length v = length rows.
Proof. intros H rows. exists (map G rows). rewrite H, map_length. auto. Qed.

(** The curve of a constant model. *)
Lemma wale_constant store X N F f p b w norm m q a : rect X N F -> (0 < N)%nat -> (0 <= m)%Z -> rowwise p (fun _ => b) ->
  weighted_ale store X f p (Some w) norm m = Ok (q, a) -> forall k, (k < length q)%nat -> nth k a 0 = if norm then 0 else b.
Proof.
  intros HX HN Hm Hp H. set (z := fun rows : matrix R => Ok (map (fun _ : list R => 0) rows)).
  assert (Hz : rowwise z (fun _ => 0)) by (intros rows; reflexivity).
  destruct (wale_other store X f p z w norm m q a (rowwise_predicts _ _ Hp) (rowwise_predicts _ _ Hz) H) as [a0 H0].
  assert (H3 : rowwise z (fun x => 1 * (fun _ => 0) x + 1 * (fun _ : list R => 0) x)) by (intros rows; unfold z; f_equal; apply map_ext; intros; ring).
  destruct (linear_combination store X N F f z z z _ _ 1 1 w norm m _ _ _ _ _ _ HX HN Hm Hz Hz H3 H0 H0 H0) as (_ & _ & L0 & _ & Z0).
  destruct (ale_steps store X N F f _ _ w norm m _ _ HX Hp (proj1 (wale_inv _ _ _ _ _ _ _ _ _ _ _ HX HN Hm H))) as [SS B].
  destruct (wale_inv _ _ _ _ _ _ _ _ _ _ _ HX HN Hm H) as ((HP & LA & _) & _).
  assert (Z1 : forall k, (k < length q)%nat -> nth k a0 0 = 0) by (intros k Hk; specialize (Z0 k Hk); lra).
  assert (St : forall k, (1 <= k < length q)%nat -> nth k a 0 - nth (k - 1) a 0 = 0).
  { intros k Hk. eapply average_unique; [apply (SS k Hk)|]. destruct (SS k Hk) as [Hn _].
    eapply average_ext; [|apply (average_constant _ _ 0 Hn)]. intros i _. cbn beta. ring. }
  destruct norm.
  - assert (E : a = a0).
    { apply (curve_eq q (feature_values X f) _ _ m HP Hm LA L0).
      - intros k Hk. rewrite (St k Hk), !Z1 by lia. ring.
      - right. split; [apply (wale_centred _ _ _ _ _ _ _ _ _ _ HX HN Hm H)|apply (wale_centred _ _ _ _ _ _ _ _ _ _ HX HN Hm H0)]. }
    intros k Hk. rewrite E. auto.
  - assert (E0 : nth 0 a 0 = b).
    { eapply average_unique; [apply (B eq_refl)|]. destruct (B eq_refl) as [Hn _]. apply average_constant. exact Hn. }
    induction k as [|k IH]; intros Hk; [exact E0|]. specialize (St (S k) ltac:(lia)). replace (S k - 1)%nat with k in St by lia. rewrite <- IH by lia. lra.
Qed.

(** Finite combinations. *)
Lemma wale_combination store X N F f (bases : list ((list R -> R) * (matrix R -> result (list R)) * R)) p b w norm m q a :
  rect X N F -> (0 < N)%nat -> (0 <= m)%Z ->
  Forall (fun t => rowwise (snd (fst t)) (fst (fst t))) bases ->
  rowwise p (fun x => Rsum (map (fun t => snd t * fst (fst t) x) bases) + b) ->
  weighted_ale store X f p (Some w) norm m = Ok (q, a) ->
  exists curves, length curves = length bases /\
    Forall2 (fun t c => weighted_ale store X f (snd (fst t)) (Some w) norm m = Ok (q, c)) bases curves /\
    forall k, (k < length q)%nat -> nth k a 0 = Rsum (map2 (fun t c => snd t * nth k c 0) bases curves) + if norm then 0 else b.
Proof.
  intros HX HN Hm HB. revert p a. induction HB as [|t bases Ht HB IH]; intros p a Hp H.
  - exists []. split; [reflexivity|]. split; [constructor|]. intros k Hk. cbn. rewrite Rplus_0_l.
    apply (wale_constant store X N F f p b w norm m q a); auto. intros rows. rewrite Hp. f_equal. apply map_ext. intros x. cbn. ring.
  - set (p' := fun rows : matrix R => Ok (map (fun x => Rsum (map (fun t => snd t * fst (fst t) x) bases) + b) rows)).
    assert (Hp' : rowwise p' (fun x => Rsum (map (fun t => snd t * fst (fst t) x) bases) + b)) by (intros rows; reflexivity).
    destruct (wale_other store X f p p' w norm m q a (rowwise_predicts _ _ Hp) (rowwise_predicts _ _ Hp') H) as [a' H'].
    destruct (wale_other store X f p (snd (fst t)) w norm m q a (rowwise_predicts _ _ Hp) (rowwise_predicts _ _ Ht) H) as [at' Ht'].
    destruct (IH p' a' Hp' H') as (curves & C1 & C2 & C3). exists (at' :: curves). split; [cbn; lia|]. split; [constructor; auto|].
    assert (Hp2 : rowwise p (fun x => snd t * fst (fst t) x + 1 * (Rsum (map (fun t => snd t * fst (fst t) x) bases) + b))).
    { intros rows. rewrite Hp. f_equal. apply map_ext. intros x. cbn [map]. rewrite Rsum_cons. ring. }
    destruct (linear_combination store X N F f _ _ _ _ _ (snd t) 1 w norm m _ _ _ _ _ _ HX HN Hm Ht Hp' Hp2 Ht' H' H) as (_ & _ & _ & _ & E).
    intros k Hk. rewrite (E k Hk), (C3 k Hk). cbn [map2]. rewrite Rsum_cons. ring.
Qed.

(** A stacking estimator with linear meta model. *)
Lemma stacking_rowwise {est meta} (predict_est : est -> matrix R -> result (list R)) (predict_meta : meta -> matrix R -> result (list R))
  (h : est -> list R -> R) coef b bases : bases <> [] -> length coef = length bases ->
  (forall e, In e bases -> rowwise (predict_est e) (h e)) ->
  rowwise (predict_member est predict_est meta predict_meta (Stacked est meta (StackingEstimator est meta (MLinear meta coef (Fin b)) bases)))
    (fun x => Rsum (map2 (fun c e => c * h e x) coef bases) + b).
Proof.
  intros Hne Hlen HB rows. unfold predict_member, predict_stacking. cbn [se_bases se_meta].
  assert (EM : mapM (fun e => predict_est e rows) bases = Ok (map (fun e => map (h e) rows) bases)).
  { clear Hlen Hne. induction bases as [|e bases IH]; [reflexivity|]. cbn [mapM map]. rewrite (HB e) by (left; auto). cbn [bind].
    rewrite IH by (intros; apply HB; right; auto). reflexivity. }
  rewrite EM. cbn [bind]. rewrite map_length. destruct bases as [|e0 bases]; [congruence|].
  assert (EF : ncols (map (fun e => map (h e) rows) (e0 :: bases)) = length rows) by (cbn; apply map_length). rewrite EF.
  assert (EA : forallb (fun c => (length c =? length rows)%nat) (map (fun e => map (h e) rows) (e0 :: bases)) = true).
  { apply forallb_forall. intros c Hc. apply in_map_iff in Hc as (e & <- & _). rewrite map_length. apply Nat.eqb_refl. }
  rewrite EA. cbn [length Nat.eqb orb negb predict_model bind].
  match goal with |- mapM ?f (map ?g ?t) = _ => assert (ET : t = map (fun x => map (fun e => h e x) (e0 :: bases)) rows) end.
  { unfold transpose, tabulate. apply (list_eq_nth []); [rewrite !map_length, seq_length; auto|].
    intros k Hk. rewrite map_length, seq_length in Hk. rewrite (nth_map_in _ _ _ 0%nat) by (rewrite seq_length; auto). rewrite seq_nth by auto. rewrite Nat.add_0_l.
    rewrite (nth_map_in _ _ _ []) by auto. rewrite map_map. apply map_ext. intros e. rewrite (nth_map_in _ _ _ []) by auto. reflexivity. }
  rewrite ET. rewrite map_map, mapM_map. apply mapM_all_ok. intros x _. cbn [eadd]. f_equal. f_equal.
  unfold dot. clear. generalize (e0 :: bases) as l. intros l. revert coef. induction l as [|e l IH]; intros [|c coef]; cbn [map map2]; auto.
  rewrite !Rsum_cons, IH. ring.
Qed.

Theorem stacked_curve {est meta} (predict_est : est -> matrix R -> result (list R)) (predict_meta : meta -> matrix R -> result (list R))
  (h : est -> list R -> R) store X N F f coef b bases w norm m q a :
  rect X N F -> (0 < N)%nat -> (0 <= m)%Z -> bases <> [] -> length coef = length bases ->
  (forall e, In e bases -> rowwise (predict_est e) (h e)) ->
  weighted_ale store X f (predict_member est predict_est meta predict_meta (Stacked est meta (StackingEstimator est meta (MLinear meta coef (Fin b)) bases)))
    (Some w) norm m = Ok (q, a) ->
  exists curves, Forall2 (fun e c => weighted_ale store X f (predict_est e) (Some w) norm m = Ok (q, c)) bases curves /\
    forall k, (k < length q)%nat -> nth k a 0 = Rsum (map2 (fun c curve => c * nth k curve 0) coef curves) + if norm then 0 else b.
Proof.
  intros HX HN Hm Hne Hlen HB H.
  set (l := map2 (fun e c => (h e, predict_est e, c)) bases coef).
  assert (HF : Forall (fun t => rowwise (snd (fst t)) (fst (fst t))) l).
  { unfold l. clear -HB. revert coef. induction bases as [|e bases IH]; intros [|c coef]; cbn [map2]; constructor; [apply HB; left; auto|apply IH; intros; apply HB; right; auto]. }
  assert (HG : forall x, Rsum (map2 (fun c e => c * h e x) coef bases) = Rsum (map (fun t => snd t * fst (fst t) x) l)).
  { intros x. unfold l. clear. revert coef. induction bases as [|e bases IH]; intros [|c coef]; cbn [map2 map fst snd]; auto. rewrite !Rsum_cons, IH. reflexivity. }
  pose proof (stacking_rowwise predict_est predict_meta h coef b bases Hne Hlen HB) as Hp.
  edestruct (wale_combination store X N F f l) as (curves & C1 & C2 & C3); [exact HX|exact HN|exact Hm|exact HF| |exact H|].
  { intros rows. rewrite Hp. f_equal. apply map_ext. intros x. rewrite HG. reflexivity. }
  exists curves. unfold l in C1, C2, C3. clear -C1 C2 C3 Hlen. split.
  - clear C3. revert coef Hlen curves C1 C2. induction bases as [|e bases IH]; intros [|c coef] HL curves C1 C2; cbn [map2] in C2; try discriminate; inversion C2; subst; constructor; auto.
    apply (IH coef); auto.
  - intros k Hk. rewrite (C3 k Hk). f_equal. clear -Hlen. revert coef Hlen curves.
    induction bases as [|e bases IH]; intros [|c coef] HL [|v curves]; cbn [map2 fst snd]; try discriminate; auto. rewrite !Rsum_cons. f_equal. apply IH. auto.
Qed.
