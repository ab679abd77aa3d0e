(** Proofs about local permutation importance (C172). *)
From Coq Require Import Lra Lia.
From Verif.Model Require Import Base Ext Csr Distance WeightModel Inspect LocalImportance.
From Verif.Spec Require Import InspectSpec LocalImportanceSpec.
From Verif.Proofs Require Import ListFacts SumFacts CsrFacts WeightFacts InspectProps InspectProps3.
Open Scope nat_scope.
Open Scope R_scope.

(** ** weighted R2 *)
Lemma Reqb_spec x y : reflect (x = y) (Reqb x y).
Proof. unfold Reqb. destruct (Req_EM_T x y); constructor; assumption. Qed.

Lemma map2_comm {A B C} (f : A -> B -> C) (g : B -> A -> C) : (forall a b, f a b = g b a) -> forall l m, map2 f l m = map2 g m l.
Proof. intros H l. induction l as [|a l IH]; intros [|b m]; simpl; auto. rewrite H, IH. reflexivity. Qed.

Lemma wr2_unique y p w s t : Rsum w <> 0 -> is_weighted_r2 y p w s -> is_weighted_r2 y p w t -> s = t.
Proof.
  intros Hw (m & Hm & A & B & C) (m' & Hm' & A' & B' & C').
  assert (m' = m) by (apply (Rmult_eq_reg_r (Rsum w)); congruence). subst m'. cbv zeta in *.
  destruct (Req_dec (Rsum (map2 Rmult w (map (fun a => (a - m) * (a - m)) y))) 0) as [E|E].
  - destruct (Req_dec (Rsum (map2 Rmult w (map2 (fun a b => (a - b) * (a - b)) y p))) 0) as [E'|E'].
    + rewrite (B E E'), (B' E E'). reflexivity.
    + rewrite (C E E'), (C' E E'). reflexivity.
  - rewrite (A E), (A' E). reflexivity.
Qed.

Lemma r2_weighted_total y p w : (2 <= length y)%nat -> length p = length y -> length w = length y -> Rsum w <> 0 ->
  exists s, r2_weighted y p w = Ok (Fin s) /\ is_weighted_r2 y p w s.
Proof.
  intros H2 Hp Hw Hs. unfold r2_weighted. rewrite Hp, Hw, Nat.eqb_refl. cbn [negb orb].
  destruct y as [|a [|b y]]; simpl in H2; try lia. set (Y := a :: b :: y) in *.
  destruct (Reqb_spec (Rsum w) 0) as [E|_]; [contradiction|]. eexists; split; [reflexivity|].
  exists (Rsum (map2 Rmult Y w) / Rsum w). split.
  { rewrite (map2_comm Rmult Rmult Rmult_comm). field. exact Hs. }
  cbv zeta. set (sst := Rsum (map2 Rmult w (map _ Y))). set (sse := Rsum (map2 Rmult w (map2 _ Y p))).
  destruct (Reqb_spec sst 0) as [E|E]; destruct (Reqb_spec sse 0) as [E'|E']; repeat split; intros; try contradiction; reflexivity.
Qed.

Lemma r2_weighted_finite y p w v : r2_weighted y p w = Ok v -> (2 <= length y)%nat ->
  exists s, v = Fin s /\ is_weighted_r2 y p w s /\ Rsum w <> 0.
Proof.
  intros H H2. pose proof H as H0. unfold r2_weighted in H.
  destruct (Nat.eqb_spec (length y) (length p)) as [Ep|]; [|discriminate].
  destruct (Nat.eqb_spec (length y) (length w)) as [Ew|]; [|discriminate]. cbn [negb orb] in H.
  assert (Hs : Rsum w <> 0).
  { destruct y as [|a [|b y]]; simpl in H2; try lia. destruct (Reqb_spec (Rsum w) 0); [discriminate|assumption]. }
  destruct (r2_weighted_total y p w H2 (eq_sym Ep) (eq_sym Ew) Hs) as (s & E & HS).
  rewrite H0 in E. injection E as ->. eauto.
Qed.

Lemma r2_weighted_one y p w : length y = 1%nat -> length p = 1%nat -> length w = 1%nat -> r2_weighted y p w = Ok NaN.
Proof. intros Hy Hp Hw. unfold r2_weighted. rewrite Hy, Hp, Hw. simpl. destruct y as [|a [|b y]]; simpl in Hy; try lia. reflexivity. Qed.

(** ** rearranging *)
Lemma bijection_compose n p q : bijection n p -> bijection n q -> bijection n (fun i => p (q i)).
Proof.
  unfold bijection. intros Hp Hq. rewrite <- (map_map q p). transitivity (map p (seq 0 n)); [|exact Hp]. apply Permutation_map. exact Hq.
Qed.
Lemma bijection_id n : bijection n (fun i => i).
Proof. unfold bijection. rewrite map_id. reflexivity. Qed.
Lemma map_nth_seq {A} (l : list A) d : map (fun i => nth i l d) (seq 0 (length l)) = l.
Proof.
  induction l as [|a l IH]; simpl; auto. f_equal. rewrite <- seq_shift, map_map. exact IH.
Qed.
Lemma bijection_nth n l : Permutation l (seq 0 n) -> bijection n (fun i => nth i l 0%nat).
Proof.
  intros H. unfold bijection. assert (HL : length l = n) by (rewrite (Permutation_length H); apply seq_length).
  rewrite <- HL at 1. rewrite map_nth_seq. exact H.
Qed.
Lemma bijection_lt n p i : bijection n p -> (i < n)%nat -> (p i < n)%nat.
Proof.
  intros H Hi. assert (In (p i) (seq 0 n)) as Hin; [|apply in_seq in Hin; lia].
  apply (Permutation_in _ H). apply in_map. apply in_seq. lia.
Qed.

Lemma rearranged_rect X n F f p X' : rect X n F -> rearranged X f p X' -> rect X' n F.
Proof.
  intros [HL HF] [HL' HR]. split; [congruence|]. apply Forall_forall. intros x Hx. apply In_nth with (d := []) in Hx as (i & Hi & <-).
  destruct (HR i) as [E _]; [congruence|]. rewrite E. rewrite Forall_forall in HF. apply HF, nth_In. congruence.
Qed.

Lemma rearranged_compose X n F f p q X1 X2 : rect X n F -> (f < F)%nat -> bijection n q ->
  rearranged X f p X1 -> rearranged X1 f q X2 -> rearranged X f (fun i => p (q i)) X2.
Proof.
  intros HR Hf Hq H1 H2. pose proof HR as [HLX HFX]. pose proof H1 as [HL1 H1']. pose proof H2 as [HL2 H2']. split; [congruence|].
  intros i Hi. specialize (H2' i ltac:(congruence)). destruct (H1' i Hi) as [E1 V1]. destruct H2' as [E2 V2].
  assert (Hqi : (q i < length X)%nat) by (rewrite HLX in *; apply bijection_lt; auto). destruct (H1' (q i) Hqi) as [Eq Vq].
  assert (HW : forall j, (j < length X)%nat -> length (nth j X []) = F).
  { intros j Hj. rewrite Forall_forall in HFX. apply HFX, nth_In, Hj. }
  split; [congruence|]. intros j Hj. rewrite V2 by congruence. destruct (Nat.eqb_spec j f) as [->|n0].
  - rewrite Vq by (rewrite HW; auto). rewrite Nat.eqb_refl. reflexivity.
  - rewrite V1 by auto. destruct (Nat.eqb_spec j f); [contradiction|reflexivity].
Qed.

Lemma nth_list_set {A} (l : list A) k v j d : (j < length l)%nat -> nth j (list_set l k v) d = if (j =? k)%nat then v else nth j l d.
Proof.
  revert k j. induction l as [|a l IH]; intros k j Hj; simpl in Hj; [lia|].
  destruct k, j; simpl; auto. apply IH. lia.
Qed.

Lemma shuffle_column_ok X n F f idx : rect X n F -> (f < F)%nat -> Permutation idx (seq 0 n) ->
  exists X', shuffle_column X idx f = Ok X' /\ rearranged X f (fun i => nth i idx 0%nat) X'.
Proof.
  intros [HL HF] Hf HP. assert (HLi : length idx = n) by (rewrite (Permutation_length HP); apply seq_length).
  assert (HW : forall j, (j < n)%nat -> length (nth j X []) = F).
  { intros j Hj. rewrite Forall_forall in HF. apply HF, nth_In. lia. }
  assert (E : mapM (fun j => row <- getitem X j ;; getitem row f) idx = Ok (map (fun j => nth f (nth j X []) 0) idx)).
  { assert (HI : forall j, In j idx -> (j < n)%nat). { intros j Hj. apply (Permutation_in _ HP), in_seq in Hj. lia. }
    clear HP HLi. induction idx as [|j idx IH]; simpl; auto.
    unfold getitem at 1. rewrite (nth_error_nth' X []) by (rewrite HL; apply HI; left; auto). cbn [bind].
    unfold getitem at 1. rewrite (nth_error_nth' _ 0) by (rewrite HW; auto; apply HI; left; auto). cbn [bind].
    rewrite IH by (intros; apply HI; right; auto). reflexivity. }
  unfold shuffle_column. rewrite E. cbn [bind]. rewrite map_length, HLi, HL, Nat.eqb_refl. eexists; split; [reflexivity|].
  split; [rewrite map2_length, map_length; lia|]. intros i Hi.
  rewrite (map2_nth _ _ _ _ [] 0) by (rewrite ?map_length; lia).
  rewrite (nth_map_in _ _ _ 0%nat 0) by lia. split; [apply list_set_length|]. intros j Hj. apply nth_list_set, Hj.
Qed.

Lemma mapM_exists {A B} (f : A -> result B) l : (forall x, In x l -> exists b, f x = Ok b) -> exists bs, mapM f l = Ok bs.
Proof.
  induction l as [|a l IH]; intros H; [eexists; reflexivity|]. destruct (H a (or_introl eq_refl)) as (b & Hb).
  destruct IH as (bs & Hbs); [intros; apply H; right; auto|]. cbn [mapM]. rewrite Hb. cbn [bind]. rewrite Hbs. eexists; reflexivity.
Qed.

(** ** means *)
Lemma mean_ext_fin l : is_mean l (mean_ext (map Fin l)).
Proof.
  split; intros H; [subst; reflexivity|]. unfold mean_ext. destruct (map Fin l) as [|v vs] eqn:E; [destruct l; [contradiction|discriminate]|]. rewrite <- E.
  rewrite esum_Fin, map_length. unfold ediv. destruct (Req_EM_T (INR (length l)) 0) as [H0|]; [|reflexivity].
  exfalso. apply H. destruct l; [reflexivity|]. exfalso. revert H0. apply not_0_INR. discriminate.
Qed.

Section Importance.
  Variable est : Type.
  Variable predict_est : est -> matrix R -> result (list R).
  Variable G : Type.
  Variable shuffle : G -> list nat -> G * list nat.
  Hypothesis HG : valid_permute shuffle.
  Notation scores := (permutation_scores est predict_est G shuffle).
  Notation importance := (permutation_importance_sk est predict_est G shuffle).

  (** The rearrangements of the repeats. *)
  Fixpoint rearrangements (g : G) (idx : list nat) (p : nat -> nat) (r : nat) : list (nat -> nat) :=
    match r with
    | O => []
    | S r => let '(g', idx') := shuffle g idx in
             let p' := fun i => p (nth i idx' 0%nat) in
             p' :: rearrangements g' idx' p' r
    end.

  Lemma rearrangements_ok n r : forall g idx p, Permutation idx (seq 0 n) -> bijection n p ->
    length (rearrangements g idx p r) = r /\ Forall (bijection n) (rearrangements g idx p r).
  Proof.
    induction r as [|r IH]; intros g idx p Hi Hp; simpl; [auto|].
    pose proof (HG g idx) as HP. destruct (shuffle g idx) as [g' idx'] eqn:E. simpl in HP.
    assert (Hi' : Permutation idx' (seq 0 n)) by (rewrite HP; exact Hi).
    assert (Hp' : bijection n (fun i => p (nth i idx' 0%nat))) by (apply bijection_compose; [exact Hp|apply bijection_nth, Hi']).
    destruct (IH g' idx' _ Hi' Hp') as [HL HF]. split; simpl; [f_equal; exact HL|constructor; auto].
  Qed.

  Lemma scores_inv e y w f n F X0 : rect X0 n F -> (f < F)%nat -> forall r g idx X p ss,
    Permutation idx (seq 0 n) -> bijection n p -> rearranged X0 f p X -> scores e y w f g idx X r = Ok ss ->
    Forall2 (fun q s => exists X' pr, rearranged X0 f q X' /\ predict_est e X' = Ok pr /\ r2_weighted y pr w = Ok s) (rearrangements g idx p r) ss.
  Proof.
    intros HR Hf. induction r as [|r IH]; intros g idx X p ss Hi Hp HX H; simpl in *; [injection H as <-; constructor|].
    pose proof (HG g idx) as HP. destruct (shuffle g idx) as [g' idx'] eqn:E. simpl in HP.
    assert (Hi' : Permutation idx' (seq 0 n)) by (rewrite HP; exact Hi).
    assert (Hp' : bijection n (fun i => p (nth i idx' 0%nat))) by (apply bijection_compose; [exact Hp|apply bijection_nth, Hi']).
    destruct (shuffle_column_ok X n F f idx' (rearranged_rect _ _ _ _ _ _ HR HX) Hf Hi') as (X' & E1 & HX').
    rewrite E1 in H. cbn [bind] in H. apply bind_ok in H as (s & Hs & H). apply bind_ok in H as (rest & Hrest & H). injection H as <-.
    pose proof (rearranged_compose _ _ _ _ _ _ _ _ HR Hf (bijection_nth _ _ Hi') HX HX') as HC.
    unfold score_est in Hs. apply bind_ok in Hs as (pr & Hpr & Hs). constructor; [exists X', pr; auto|].
    apply (IH g' idx' X'); auto.
  Qed.

  Lemma scores_total e y w f n F (X0 : matrix R) (P : ext -> Prop) : rect X0 n F -> (f < F)%nat ->
    (forall X', rect X' n F -> exists s, score_est est predict_est e X' y w = Ok s /\ P s) -> forall r g idx X,
    Permutation idx (seq 0 n) -> rect X n F -> exists ss, scores e y w f g idx X r = Ok ss /\ length ss = r /\ Forall P ss.
  Proof.
    intros HR Hf HS. induction r as [|r IH]; intros g idx X Hi HX; simpl; [eexists; eauto|].
    pose proof (HG g idx) as HP. destruct (shuffle g idx) as [g' idx'] eqn:E. simpl in HP.
    assert (Hi' : Permutation idx' (seq 0 n)) by (rewrite HP; exact Hi).
    destruct (shuffle_column_ok X n F f idx' HX Hf Hi') as (X' & E1 & HX').
    pose proof (rearranged_rect _ _ _ _ _ _ HX HX') as HRX'. rewrite E1. cbn [bind].
    destruct (HS X' HRX') as (s & Es & Ps). rewrite Es. cbn [bind].
    destruct (IH g' idx' X' Hi' HRX') as (ss & E2 & E3 & E4). rewrite E2. cbn [bind]. eexists; split; [reflexivity|]. split; simpl; auto.
  Qed.

  Lemma rearranged_id X f : rearranged X f (fun i => i) X.
  Proof. split; auto. intros i Hi. split; auto. intros j Hj. destruct (Nat.eqb_spec j f) as [->|]; reflexivity. Qed.

  Theorem sk_inv seed e X y w r imp n F :
    rect X n F -> (2 <= n)%nat -> length y = n -> importance seed e X y w r = Ok imp ->
    exists w', Forall2 (fun v a => v = Fin a) w w' /\ Rsum w' <> 0 /\ mean_drops predict_est e X y w' F r imp.
  Proof.
    intros HR Hn Hy H. pose proof HR as [HL HF]. unfold permutation_importance_sk in H. apply bind_ok in H as (w' & Hw & H).
    apply bind_ok in H as (base & Hb & H). unfold score_est in Hb. apply bind_ok in Hb as (q & Hq & Hb).
    destruct (r2_weighted_finite _ _ _ _ Hb ltac:(lia)) as (s & -> & Hs & Hw0).
    exists w'. split; [apply finite_weights_ok, Hw|]. split; [exact Hw0|].
    assert (HF' : ncols X = F). { destruct X as [|x X]; [simpl in HL; lia|]. inversion HF; subst. reflexivity. }
    rewrite HF' in H. split; [apply mapM_length in H; rewrite H, seq_length; reflexivity|].
    set (ps := rearrangements seed (seq 0 n) (fun i => i) r).
    destruct (rearrangements_ok n r seed (seq 0 n) (fun i => i) (Permutation_refl _) (bijection_id n)) as [HPl HPf].
    exists ps. split; [exact HPl|]. split; [rewrite HL; exact HPf|]. intros f Hf.
    apply (mapM_nth _ _ _ f 0%nat NaN) in H; [|rewrite seq_length; exact Hf]. rewrite seq_nth in H by exact Hf. rewrite Nat.add_0_l in H.
    rewrite HL in H. apply bind_ok in H as (ss & Hss & H). apply (f_equal (fun x => match x with Ok v => v | Raise _ => NaN end)) in H. rewrite <- H.
    pose proof (scores_inv e y w' f n F X HR Hf r seed (seq 0 n) X (fun i => i) ss (Permutation_refl _) (bijection_id n) (rearranged_id X f) Hss) as HI.
    fold ps in HI.
    assert (HD : exists ds, Forall2 (score_drop predict_est e X y w' f) ps ds /\ map (fun v => esub (Fin s) v) ss = map Fin ds).
    { clear -HI Hq Hs Hy Hn. induction HI as [|p v ps ss (X' & q' & H1 & H2 & H3) _ IH].
      - exists []. split; constructor.
      - destruct IH as (ds & IH1 & IH2). destruct (r2_weighted_finite _ _ _ _ H3 ltac:(lia)) as (s' & -> & Hs' & _).
        exists (s - s' :: ds). split.
        + constructor; [exists q, s, X', q', s'; repeat (split; [assumption|]); reflexivity|exact IH1].
        + cbn [map]. rewrite IH2. reflexivity. }
    destruct HD as (ds & HD & ->). exists ds. split; [exact HD|]. apply mean_ext_fin.
  Qed.

  (** It succeeds if the estimator predicts, and then says NaN if there is one
      observation only. *)
  Theorem sk_total seed e X y w r n F :
    rect X n F -> (2 <= n)%nat -> length y = n -> length w = n -> Rsum w <> 0 -> predicts predict_est F e ->
    exists imp, importance seed e X y (map Fin w) r = Ok imp.
  Proof.
    intros HR Hn Hy Hw Hs HP. pose proof HR as [HL HF]. unfold permutation_importance_sk.
    assert (HFW : finite_weights (map Fin w) = Ok w). { apply finite_weights_ok. clear. induction w; simpl; constructor; auto. }
    rewrite HFW. cbn [bind].
    assert (HS : forall X', rect X' n F -> exists s, score_est est predict_est e X' y w = Ok s /\ True).
    { intros X' [HL' HF']. destruct (HP X' HF') as (p & Ep & HLp). unfold score_est. rewrite Ep. cbn [bind].
      destruct (r2_weighted_total y p w ltac:(lia) ltac:(congruence) ltac:(congruence) Hs) as (s & -> & _). eauto. }
    destruct (HS X HR) as (b & Eb & _). rewrite Eb. cbn [bind]. rewrite HL.
    assert (HF' : ncols X = F). { destruct X as [|x X]; [simpl in HL; lia|]. inversion HF; subst. reflexivity. }
    rewrite HF'. destruct (mapM_exists (fun f => ss <- scores e y w f seed (seq 0 n) X r ;; Ok (mean_ext (map (fun s => esub b s) ss))) (seq 0 F)) as [imp Hi]; [|eauto].
    intros f Hf. apply in_seq in Hf. destruct (scores_total e y w f n F X _ HR ltac:(lia) HS r seed (seq 0 n) X (Permutation_refl _) HR) as (ss & -> & _).
    cbn [bind]. eauto.
  Qed.

  Theorem sk_one seed e x y w r F :
    length x = F -> predicts predict_est F e -> (0 < r)%nat ->
    importance seed e [x] [y] [Fin w] r = Ok (repeat NaN F).
  Proof.
    intros HF HP Hr. unfold permutation_importance_sk. simpl finite_weights. cbn [bind].
    assert (HR : rect [x] 1 F) by (split; [reflexivity|repeat constructor; exact HF]).
    assert (HS : forall X', rect X' 1 F -> exists s, score_est est predict_est e X' [y] [w] = Ok s /\ s = NaN).
    { intros X' [HL' HF']. destruct (HP X' HF') as (p & Ep & HLp). unfold score_est. rewrite Ep. cbn [bind].
      rewrite r2_weighted_one by (simpl; congruence). eauto. }
    destruct (HS [x] HR) as (b & Eb & ->). change (finite_weights [Fin w]) with (Ok [w]). cbn [bind]. rewrite Eb. cbn [bind]. change (ncols [x]) with (length x). rewrite HF.
    assert (E : forall l, (forall f, In f l -> (f < F)%nat) ->
      mapM (fun f => ss <- scores e [y] [w] f seed (seq 0 (length [x])) [x] r ;; Ok (mean_ext (map (fun s => esub NaN s) ss))) l = Ok (repeat NaN (length l))).
    { induction l as [|f l IH]; intros Hl; [reflexivity|]. cbn [mapM length repeat].
      destruct (scores_total e [y] [w] f 1 F [x] _ HR (Hl f (or_introl eq_refl)) HS r seed (seq 0 1) [x] (Permutation_refl _) HR) as (ss & Es & HLs & _).
      cbn [length]. rewrite Es. cbn [bind]. cbn [length] in IH. rewrite IH by (intros; apply Hl; right; auto). cbn [bind].
      replace (mean_ext (map (fun s => esub NaN s) ss)) with NaN; [reflexivity|].
      destruct ss as [|s ss]; [simpl in HLs; lia|]. simpl. reflexivity. }
    rewrite (E (seq 0 F)); [rewrite seq_length; reflexivity|]. intros f Hf. apply in_seq in Hf. lia.
  Qed.
End Importance.
