(** Maps of local importances (C182). *)
From Coq Require Import Lra Lia.
From Verif.Model Require Import Base Ext Csr Distance WeightModel Inspect LocalImportance ImportanceMaps.
From Verif.Spec Require Import NeighbourSpec WeightModelSpec InspectSpec LocalImportanceSpec ImportanceMapsSpec.
From Verif.Proofs Require Import ListFacts SumFacts CsrFacts KernelFacts WeightModelFacts InspectProps InspectProps3 LocalImportanceProps LocalImportanceFacts LocalImportanceApi.
Open Scope nat_scope.
Open Scope R_scope.

(** ** Extremes *)
Lemma fold_emin_nan l : fold_left emin2 l NaN = NaN.
Proof. induction l as [|x l IH]; simpl; auto. Qed.
Lemma fold_emax_nan l : fold_left emax2 l NaN = NaN.
Proof. induction l as [|x l IH]; simpl; auto. Qed.
Lemma fold_emin_in l x : In NaN (x :: l) -> fold_left emin2 l x = NaN.
Proof.
  revert x. induction l as [|y l IH]; intros x [->|H]; simpl; try apply fold_emin_nan; auto; try (destruct H; fail).
  destruct H as [->|H]; [destruct x; apply fold_emin_nan|]. apply IH. right; auto.
Qed.
Lemma fold_emax_in l x : In NaN (x :: l) -> fold_left emax2 l x = NaN.
Proof.
  revert x. induction l as [|y l IH]; intros x [->|H]; simpl; try apply fold_emax_nan; auto; try (destruct H; fail).
  destruct H as [->|H]; [destruct x; apply fold_emax_nan|]. apply IH. right; auto.
Qed.

Lemma fold_emin_fin l x : exists lo, fold_left emin2 (map Fin l) (Fin x) = Fin lo /\ lowest (x :: l) lo.
Proof.
  revert x. induction l as [|y l IH]; intros x.
  - exists x. split; [reflexivity|]. split; [left; auto|]. intros a [<-|[]]. lra.
  - cbn [map fold_left]. unfold emin2 at 2. cbn [egtb]. destruct (Rltb y x) eqn:E; [apply Rltb_true in E|apply Rltb_false in E].
    + destruct (IH y) as (lo & H & H1 & H2). exists lo. split; [exact H|]. split; [right; exact H1|].
      intros a [<-|Ha]; [assert (lo <= y) by (apply H2; left; auto); lra|auto].
    + destruct (IH x) as (lo & H & H1 & H2). exists lo. split; [exact H|]. split; [destruct H1; [left; auto|right; right; auto]|].
      intros a [<-|[<-|Ha]]; [apply H2; left; auto|assert (lo <= x) by (apply H2; left; auto); lra|apply H2; right; auto].
Qed.
Lemma fold_emax_fin l x : exists hi, fold_left emax2 (map Fin l) (Fin x) = Fin hi /\ highest (x :: l) hi.
Proof.
  revert x. induction l as [|y l IH]; intros x.
  - exists x. split; [reflexivity|]. split; [left; auto|]. intros a [<-|[]]. lra.
  - cbn [map fold_left]. unfold emax2 at 2. cbn [egtb]. destruct (Rltb x y) eqn:E; [apply Rltb_true in E|apply Rltb_false in E].
    + destruct (IH y) as (lo & H & H1 & H2). exists lo. split; [exact H|]. split; [right; exact H1|].
      intros a [<-|Ha]; [assert (y <= lo) by (apply H2; left; auto); lra|auto].
    + destruct (IH x) as (lo & H & H1 & H2). exists lo. split; [exact H|]. split; [destruct H1; [left; auto|right; right; auto]|].
      intros a [<-|[<-|Ha]]; [apply H2; left; auto|assert (x <= lo) by (apply H2; left; auto); lra|apply H2; right; auto].
Qed.
Lemma lowest_unique l a b : lowest l a -> lowest l b -> a = b.
Proof. intros [A1 A2] [B1 B2]. pose proof (A2 _ B1). pose proof (B2 _ A1). lra. Qed.
Lemma highest_unique l a b : highest l a -> highest l b -> a = b.
Proof. intros [A1 A2] [B1 B2]. pose proof (A2 _ B1). pose proof (B2 _ A1). lra. Qed.
Lemma amin_fin l lo : lowest l lo -> amin (map Fin l) = Ok (Fin lo).
Proof.
  intros H. destruct l as [|x l]; [destruct H as [[] _]|]. cbn [map amin]. destruct (fold_emin_fin l x) as (b & -> & Hb).
  do 2 f_equal. apply (lowest_unique (x :: l)); auto.
Qed.
Lemma amax_fin l hi : highest l hi -> amax (map Fin l) = Ok (Fin hi).
Proof.
  intros H. destruct l as [|x l]; [destruct H as [[] _]|]. cbn [map amax]. destruct (fold_emax_fin l x) as (b & -> & Hb).
  do 2 f_equal. apply (highest_unique (x :: l)); auto.
Qed.
Lemma has_lowest l : l <> [] -> exists lo, lowest l lo.
Proof. destruct l as [|x l]; [congruence|]. intros _. destruct (fold_emin_fin l x) as (b & _ & H). eauto. Qed.
Lemma has_highest l : l <> [] -> exists lo, highest l lo.
Proof. destruct l as [|x l]; [congruence|]. intros _. destruct (fold_emax_fin l x) as (b & _ & H). eauto. Qed.

(** ** Row by row *)
Lemma rect_ncols {A} (m : matrix A) N F : rect m N F -> (0 < N)%nat -> ncols m = F.
Proof. intros [HL HF] HN. destruct m as [|row m]; [simpl in HL; lia|]. inversion HF; subst. reflexivity. Qed.

Lemma mapM_amin m N F : rect m N F -> (0 < F)%nat -> exists lo, mapM amin m = Ok lo /\ length lo = N.
Proof.
  intros [HL HF] Hp. assert (H : ~ raises (mapM amin m)).
  { intros HR. apply mapM_raises_iff in HR as (row & Hrow & e & He). rewrite Forall_forall in HF. specialize (HF _ Hrow).
    destruct row; [simpl in HF; lia|discriminate]. }
  destruct (mapM amin m) as [lo|e] eqn:E; [|exfalso; apply H; eexists; eauto]. exists lo. split; [auto|]. rewrite (mapM_length _ _ _ E). exact HL.
Qed.
Lemma mapM_amax m N F : rect m N F -> (0 < F)%nat -> exists lo, mapM amax m = Ok lo /\ length lo = N.
Proof.
  intros [HL HF] Hp. assert (H : ~ raises (mapM amax m)).
  { intros HR. apply mapM_raises_iff in HR as (row & Hrow & e & He). rewrite Forall_forall in HF. specialize (HF _ Hrow).
    destruct row; [simpl in HF; lia|discriminate]. }
  destruct (mapM amax m) as [lo|e] eqn:E; [|exfalso; apply H; eexists; eauto]. exists lo. split; [auto|]. rewrite (mapM_length _ _ _ E). exact HL.
Qed.

Theorem rows_raise {point} (points : list point) m N F :
  rect m N F -> (2 <= N)%nat -> (2 <= F)%nat -> F <> N -> importance_script points m = Raise ValueError.
Proof.
  intros HR HN HF H. unfold importance_script, normalise_rows. destruct (mapM_amin m N F HR ltac:(lia)) as (lo & -> & HL). cbn [bind].
  unfold broadcast. rewrite (rect_ncols m N F HR) by lia. rewrite HL.
  destruct (F =? N)%nat eqn:E1; [apply Nat.eqb_eq in E1; lia|]. destruct (N =? 1)%nat eqn:E2; [apply Nat.eqb_eq in E2; lia|].
  destruct (F =? 1)%nat eqn:E3; [apply Nat.eqb_eq in E3; lia|]. reflexivity.
Qed.

(** Maps of a rectangular array. *)
Lemma scatter_shows {point} (points : list point) c : length points = length c ->
  exists picture, scatter_map points c = Ok picture /\ shows points (fun j => nth j c NaN) picture.
Proof.
  intros HL. unfold scatter_map. rewrite HL, Nat.eqb_refl. eexists. split; [reflexivity|]. split; [rewrite combine_length; lia|].
  revert c HL. induction points as [|q points IH]; intros [|a c] HL [|j] p Hp; try discriminate; simpl in *; [congruence|].
  apply IH; auto.
Qed.
Lemma column_ok m N F i : rect m N F -> (i < F)%nat -> column_of m i = Ok (map (fun row => nth i row NaN) m).
Proof.
  intros [HL HF] Hi. unfold column_of. apply mapM_all_ok. intros row Hrow. rewrite Forall_forall in HF. apply getitem_lt. rewrite HF; auto.
Qed.
Theorem maps_show {point} (points : list point) m N F : rect m N F -> (0 < N)%nat -> length points = N ->
  exists pictures, maps points m = Ok pictures /\ length pictures = F /\
    forall f picture, nth_error pictures f = Some picture -> shows points (fun j => nth f (nth j m []) NaN) picture.
Proof.
  intros HR HN HP. unfold maps. rewrite (rect_ncols m N F HR HN).
  assert (H : forall k a, (a + k <= F)%nat -> exists pictures, mapM (fun i => c <- column_of m i ;; scatter_map points c) (seq a k) = Ok pictures /\ length pictures = k /\
    forall f picture, nth_error pictures f = Some picture -> shows points (fun j => nth (a + f) (nth j m []) NaN) picture).
  { induction k as [|k IH]; intros a Ha; cbn [seq mapM].
    - exists []. split; [reflexivity|]. split; [reflexivity|]. intros [|f] p; discriminate.
    - rewrite (column_ok m N F a HR) by lia. cbn [bind]. pose proof HR as [HL _].
      destruct (scatter_shows points (map (fun row => nth a row NaN) m)) as (picture & -> & HS); [rewrite map_length; congruence|]. cbn [bind].
      destruct (IH (S a)) as (ps & -> & Hl & Hf); [lia|]. cbn [bind]. exists (picture :: ps). split; [reflexivity|]. split; [simpl; congruence|].
      intros [|f] p Hp; cbn [nth_error] in Hp.
      + injection Hp as <-. rewrite Nat.add_0_r. destruct HS as [S1 S2]. split; [exact S1|]. intros j q Hj. rewrite (S2 j q Hj). do 2 f_equal.
        assert (j < length points)%nat by (apply nth_error_Some; congruence).
        rewrite (nth_map_in (fun row => nth a row NaN) m j [] NaN) by (rewrite HL; lia). reflexivity.
      + replace (a + S f)%nat with (S a + f)%nat by lia. apply Hf, Hp. }
  destruct (H F 0%nat) as (ps & E & Hl & Hf); [lia|]. exists ps. auto.
Qed.

(** As many features as locations. *)
Theorem square_rows M N : rect M N N -> (2 <= N)%nat ->
  exists n, normalise_rows (map (map Fin) M) = Ok n /\ rect n N N /\
    forall i j, (i < N)%nat -> (j < N)%nat -> exists lo hi, lowest (nth j M []) lo /\ highest (nth j M []) hi /\
      nth j (nth i n []) NaN = ediv (Fin (nth j (nth i M []) 0 - lo)) (Fin (hi - lo)).
Proof.
  intros HM HN. pose proof HM as [HL HF]. set (m := map (map Fin) M).
  assert (HR : rect m N N).
  { split; [unfold m; rewrite map_length; auto|]. unfold m. rewrite Forall_map. revert HF. apply Forall_impl. intros row. rewrite map_length. auto. }
  destruct (mapM_amin m N N HR) as (lo & E1 & L1); [lia|]. destruct (mapM_amax m N N HR) as (hi & E2 & L2); [lia|].
  unfold normalise_rows. rewrite E1, E2. cbn [bind]. unfold broadcast at 1. rewrite (rect_ncols m N N HR) by lia. rewrite L1, Nat.eqb_refl. cbn [bind].
  set (d := map (fun row => map2 esub row lo) m).
  assert (HD : rect d N N).
  { destruct HR as [R1 R2]. split; [unfold d; rewrite map_length; auto|]. unfold d. rewrite Forall_map. revert R2. apply Forall_impl. intros row. rewrite map2_length. lia. }
  unfold broadcast. rewrite (rect_ncols d N N HD) by lia. rewrite map2_length, L1, L2, Nat.min_id, Nat.eqb_refl.
  eexists. split; [reflexivity|]. split.
  { destruct HD as [R1 R2]. split; [rewrite map_length; auto|]. rewrite Forall_map. revert R2. apply Forall_impl. intros row. rewrite !map2_length. lia. }
  intros i j Hi Hj. apply mapM_ok_iff in E1. apply mapM_ok_iff in E2.
  assert (HLow : forall k, (k < N)%nat -> amin (nth k m []) = Ok (nth k lo NaN)).
  { intros k Hk. clear -E1 Hk HR. destruct HR as [HL _]. revert k N HL Hk. induction E1 as [|row a m lo Ha _ IH]; intros [|k] N HL Hk; simpl in *; try lia; auto. apply (IH k (length m)); lia. }
  assert (HHigh : forall k, (k < N)%nat -> amax (nth k m []) = Ok (nth k hi NaN)).
  { intros k Hk. clear -E2 Hk HR. destruct HR as [HL _]. revert k N HL Hk. induction E2 as [|row a m lo Ha _ IH]; intros [|k] N HL Hk; simpl in *; try lia; auto. apply (IH k (length m)); lia. }
  assert (Hrow : forall k, nth k m [] = map Fin (nth k M [])) by (intros k; unfold m; change (@nil ext) with (map Fin []); apply map_nth).
  assert (HLM : forall k, (k < N)%nat -> length (nth k M []) = N) by (intros k Hk; rewrite Forall_forall in HF; apply HF, nth_In; lia).
  assert (Hne : nth j M [] <> []) by (intros E; specialize (HLM j Hj); rewrite E in HLM; simpl in HLM; lia).
  destruct (has_lowest _ Hne) as (a & Ha). destruct (has_highest _ Hne) as (b & Hb). exists a, b. split; [exact Ha|]. split; [exact Hb|].
  assert (Ea : nth j lo NaN = Fin a) by (specialize (HLow j Hj); rewrite Hrow, (amin_fin _ _ Ha) in HLow; congruence).
  assert (Eb : nth j hi NaN = Fin b) by (specialize (HHigh j Hj); rewrite Hrow, (amax_fin _ _ Hb) in HHigh; congruence).
  destruct HR as [R1 R2]. destruct HD as [D1 D2].
  assert (Ld : length (nth i d []) = N) by (rewrite Forall_forall in D2; apply D2, nth_In; lia).
  rewrite (nth_map_in (fun row => map2 ediv row (map2 esub hi lo)) d i [] []) by lia.
  rewrite (map2_nth _ _ _ _ NaN NaN) by (rewrite ?map2_length; lia).
  rewrite (map2_nth _ hi lo j NaN NaN) by lia. rewrite Ea, Eb.
  unfold d. rewrite (nth_map_in (fun row => map2 esub row lo) m i [] []) by lia. rewrite (map2_nth _ _ _ _ NaN NaN); [|rewrite Hrow, map_length, HLM; lia|lia].
  rewrite Hrow, Ea, (nth_map_in Fin (nth i M []) j 0 NaN) by (rewrite HLM; lia). unfold esub. simpl. do 2 f_equal; unfold Rminus; reflexivity.
Qed.

(** A single feature. *)
Theorem single_feature m N : rect m N 1 -> (2 <= N)%nat ->
  exists n, normalise_rows m = Ok n /\ rect n N N /\ forall i j, ~ is_number (nth j (nth i n []) NaN).
Proof.
  intros HR HN. pose proof HR as [HL HF].
  destruct (mapM_amin m N 1 HR) as (lo & E1 & L1); [lia|]. destruct (mapM_amax m N 1 HR) as (hi & E2 & L2); [lia|].
  assert (Eh : hi = lo).
  { apply mapM_ok_iff in E1. apply mapM_ok_iff in E2. clear -E1 E2 HF. revert hi E2. induction E1 as [|row a m lo Ha _ IH]; intros hi E2; inversion E2; subst; [auto|]. inversion HF; subst.
    f_equal; [|apply IH; auto]. destruct row as [|x [|? ?]]; try discriminate. simpl in *. congruence. }
  subst hi. unfold normalise_rows. rewrite E1, E2. cbn [bind]. unfold broadcast at 1. rewrite (rect_ncols m N 1 HR) by lia. rewrite L1.
  destruct (1 =? N)%nat eqn:Q1; [apply Nat.eqb_eq in Q1; lia|]. destruct (N =? 1)%nat eqn:Q2; [apply Nat.eqb_eq in Q2; lia|]. cbn [Nat.eqb bind].
  set (d := map (fun row => map (esub (hd NaN row)) lo) m).
  assert (HD : rect d N N) by (split; [unfold d; rewrite map_length; auto|]; unfold d; rewrite Forall_map; apply Forall_forall; intros; rewrite map_length; auto).
  unfold broadcast. rewrite (rect_ncols d N N HD) by lia. rewrite map2_length, L1, Nat.min_id, Nat.eqb_refl.
  eexists. split; [reflexivity|]. split.
  { destruct HD as [R1 R2]. split; [rewrite map_length; auto|]. rewrite Forall_map. revert R2. apply Forall_impl. intros row. rewrite !map2_length. lia. }
  intros i j [r Hr]. destruct HD as [D1 D2].
  destruct (Nat.lt_ge_cases i (length d)) as [Hi|Hi]; [|rewrite (nth_overflow (map _ d)) in Hr by (rewrite map_length; lia); destruct j; discriminate].
  rewrite (nth_map_in (fun row => map2 ediv row (map2 esub lo lo)) d i [] []) in Hr by lia.
  assert (Ld : length (nth i d []) = N) by (rewrite Forall_forall in D2; apply D2, nth_In; lia).
  destruct (Nat.lt_ge_cases j N) as [Hj|Hj]; [|rewrite nth_overflow in Hr by (rewrite !map2_length; lia); discriminate].
  rewrite (map2_nth _ _ _ _ NaN NaN) in Hr by (rewrite ?map2_length; lia). rewrite (map2_nth _ lo lo j NaN NaN) in Hr by lia.
  assert (HZ : esub (nth j lo NaN) (nth j lo NaN) = NaN \/ esub (nth j lo NaN) (nth j lo NaN) = Fin 0).
  { destruct (nth j lo NaN); unfold esub; simpl; auto. right. f_equal. lra. }
  destruct HZ as [E|E]; rewrite E in Hr; [destruct (nth j (nth i d []) NaN); discriminate|].
  destruct (nth j (nth i d []) NaN) as [a| | |]; cbn [ediv] in Hr; try (destruct (Rlt_dec 0 0); discriminate); try discriminate.
  destruct (Req_EM_T 0 0); [|lra]. destruct (Rlt_dec 0 a); [discriminate|]. destruct (Rlt_dec a 0); discriminate.
Qed.

(** ** All at once *)
Lemma concat_map_map {A B} (f : A -> B) (M : matrix A) : concat (map (map f) M) = map f (concat M).
Proof. induction M as [|row M IH]; simpl; auto. rewrite map_app, IH. reflexivity. Qed.

Theorem all_numbers M lo hi : lowest (concat M) lo -> highest (concat M) hi -> lo < hi ->
  normalise_all (map (map Fin) M) = Ok (map (map (fun a => Fin ((a - lo) / (hi - lo)))) M).
Proof.
  intros HL HH H. unfold normalise_all. rewrite concat_map_map, (amin_fin _ _ HL), (amax_fin _ _ HH). cbn [bind]. f_equal. rewrite map_map. apply map_ext. intros row.
  rewrite map_map. apply map_ext. intros a. unfold esub. cbn [eopp eadd ediv]. destruct (Req_EM_T (hi + - lo) 0); [lra|]. f_equal.
Qed.
Theorem all_equal M c : (forall row a, In row M -> In a row -> a = c) -> concat M <> [] ->
  exists n, normalise_all (map (map Fin) M) = Ok n /\ Forall (Forall (fun x => x = NaN)) n.
Proof.
  intros H Hne. assert (HC : forall a, In a (concat M) -> a = c) by (intros a Ha; apply in_concat in Ha as (row & Hr & Ha); eauto).
  destruct (has_lowest _ Hne) as (lo & HL). destruct (has_highest _ Hne) as (hi & HH). unfold normalise_all. rewrite concat_map_map, (amin_fin _ _ HL), (amax_fin _ _ HH). cbn [bind].
  eexists. split; [reflexivity|]. apply Forall_forall. intros row Hrow. apply in_map_iff in Hrow as (row1 & <- & Hrow). apply in_map_iff in Hrow as (row2 & <- & Hrow).
  apply Forall_forall. intros x Hx. apply in_map_iff in Hx as (y & <- & Hy). apply in_map_iff in Hy as (a & <- & Ha).
  rewrite (H row2 a Hrow Ha), (HC lo (proj1 HL)), (HC hi (proj1 HH)). unfold esub. cbn [eopp eadd ediv]. destruct (Req_EM_T (c + - c) 0); [|lra].
  destruct (Rlt_dec 0 (c + - c)); [lra|]. destruct (Rlt_dec (c + - c) 0); [lra|]. reflexivity.
Qed.
Theorem one_missing m : In NaN (concat m) -> exists n, normalise_all m = Ok n /\ length n = length m /\
  Forall (Forall (fun x => x = NaN)) n.
Proof.
  intros H. unfold normalise_all. destruct (concat m) as [|x l] eqn:E; [destruct H|]. cbn [amin amax bind]. rewrite (fold_emin_in l x H), (fold_emax_in l x H).
  eexists. split; [reflexivity|]. split; [apply map_length|]. apply Forall_forall. intros row Hrow. apply in_map_iff in Hrow as (r & <- & _).
  apply Forall_forall. intros y Hy. apply in_map_iff in Hy as (a & <- & _). unfold esub. cbn [eopp]. destruct a; reflexivity.
Qed.

(** ** Through the API *)
Section Api.
  Context {est : Type}.
  Variable predict_est : est -> matrix R -> result (list R).
  Context {G : Type}.
  Variable shuffle : G -> list nat -> G * list nat.
  Variable seed : nat -> G.
  Hypothesis HG : valid_permute shuffle.
  Notation sk := (fun i => permutation_importance_sk est predict_est G shuffle (seed i)).
  Notation local_score := (importance_score_local est sk).

  Lemma sk_columns sd e X y w r v : permutation_importance_sk est predict_est G shuffle sd e X y w r = Ok v -> y <> [] /\ length v = ncols X.
  Proof.
    unfold permutation_importance_sk. intros H. apply bind_ok in H as (ws & _ & H). apply bind_ok in H as (b & Hb & H). split.
    - intros ->. unfold score_est in Hb. apply bind_ok in Hb as (p & _ & Hb). unfold r2_weighted in Hb. destruct (_ || _); discriminate.
    - apply mapM_length in H. rewrite seq_length in H. exact H.
  Qed.

  Lemma local_table c order s X y es N F score W r m :
    fitted_model s X y es N F score -> fitted_weights s W N -> cache_data c = true -> cache_estimator c = true -> schedule N order ->
    local_score c order s r = Ok m -> rect m N F.
  Proof.
    intros HM HW C1 C2 HS H. apply (importance_local_ok est sk c order s X y es N F score W r m HM HW C1 C2 HS) in H as [HL H].
    split; [exact HL|]. pose proof HM as (_ & _ & _ & _ & _ & He & HX & _). apply Forall_forall. intros row Hrow. apply (In_nth _ _ []) in Hrow as (i & Hi & <-).
    destruct (nth_error es i) as [e|] eqn:E; [|apply nth_error_None in E; lia]. specialize (H i e E). cbv zeta in H. apply sk_columns in H as [Hy ->].
    apply (rect_ncols _ (length (positive_set W N i)) F); [apply (local_rows X N F); auto; intros j Hj; unfold positive_set in Hj; apply filter_In in Hj as [Hj _]; apply in_seq in Hj; lia|].
    destruct (positive_set W N i); [simpl in Hy; congruence|simpl; lia].
  Qed.

  Theorem api_rows_raise {point} (points : list point) c order s X y es N F score W r m :
    fitted_model s X y es N F score -> fitted_weights s W N -> cache_data c = true -> cache_estimator c = true -> schedule N order ->
    local_score c order s r = Ok m -> (2 <= F)%nat -> F <> N -> importance_script points m = Raise ValueError.
  Proof.
    intros HM HW C1 C2 HS H HF Hn. pose proof (local_table _ _ _ _ _ _ _ _ _ _ _ _ HM HW C1 C2 HS H) as HR.
    pose proof HM as (_ & _ & _ & _ & _ & _ & _ & _ & HN & _). apply (rows_raise points m N F); auto.
  Qed.

  Theorem api_example {point} (points : list point) c order s X y es N F score W r m :
    fitted_model s X y es N F score -> fitted_weights s W N -> cache_data c = true -> cache_estimator c = true -> schedule N order ->
    local_score c order s r = Ok m -> length points = N ->
    exists pictures, example_script points m = Ok pictures /\ length pictures = F /\
      forall f picture, nth_error pictures f = Some picture -> shows points (fun j => nth f (nth j m []) NaN) picture.
  Proof.
    intros HM HW C1 C2 HS H HP. pose proof (local_table _ _ _ _ _ _ _ _ _ _ _ _ HM HW C1 C2 HS H) as HR.
    pose proof HM as (_ & _ & _ & _ & _ & _ & _ & _ & HN & _). apply (maps_show points m N F); auto. lia.
  Qed.

  Theorem api_blank {point} (points : list point) c order s X y es N F score W r m i e j :
    fitted_model s X y es N F score -> fitted_weights s W N -> cache_data c = true -> cache_estimator c = true -> schedule N order ->
    local_score c order s r = Ok m -> length points = N ->
    nth_error es i = Some e -> (0 < r)%nat -> predicts predict_est F e -> positive_set W N i = [j] ->
    exists picture, fitting_script_map points m = Ok picture /\ shows points (fun _ => NaN) picture.
  Proof.
    intros HM HW C1 C2 HS H HP He Hr Hp Hj. pose proof (local_table _ _ _ _ _ _ _ _ _ _ _ _ HM HW C1 C2 HS H) as HR.
    pose proof (local_single predict_est shuffle seed HG c order s X y es N F score W r m i e j HM HW C1 C2 HS H He Hr Hp Hj) as E.
    pose proof HM as (_ & _ & _ & _ & _ & He' & _ & _ & HN & HF & _). pose proof HR as [HL HRow].
    assert (Hi : (i < N)%nat) by (rewrite <- He'; apply nth_error_Some; congruence).
    destruct (one_missing m) as (n & En & Hn & HNaN).
    { apply in_concat. exists (nth i m []). split; [apply nth_In; lia|]. rewrite E. destruct F; [lia|]. left. reflexivity. }
    unfold fitting_script_map. rewrite En. cbn [bind].
    assert (HRn : rect n N F).
    { unfold normalise_all in En. apply bind_ok in En as (lo & _ & En). apply bind_ok in En as (hi & _ & En). injection En as <-. split; [rewrite map_length; auto|].
      rewrite Forall_map. revert HRow. apply Forall_impl. intros row. rewrite map_length. auto. }
    rewrite (column_ok n N F 0 HRn HF). cbn [bind].
    destruct (scatter_shows points (map (fun row => nth 0 row NaN) n)) as (picture & -> & HS1 & HS2); [rewrite map_length; lia|].
    exists picture. split; [reflexivity|]. split; [exact HS1|]. intros k p Hk. rewrite (HS2 k p Hk). do 2 f_equal.
    assert (k < length n)%nat by (assert (k < length points)%nat by (apply nth_error_Some; congruence); lia).
    rewrite (nth_map_in (fun row => nth 0 row NaN) n k [] NaN) by auto.
    assert (Hin : In (nth k n []) n) by (apply nth_In; auto). rewrite Forall_forall in HNaN. specialize (HNaN _ Hin).
    destruct (nth k n []) as [|a row]; [reflexivity|]. inversion HNaN; auto.
  Qed.
End Api.

(** The map of the fitting script when all are numbers. *)
Theorem fitting_map {point} (points : list point) M N F lo hi : rect M N F -> (0 < F)%nat -> length points = N ->
  lowest (concat M) lo -> highest (concat M) hi -> lo < hi ->
  exists picture, fitting_script_map points (map (map Fin) M) = Ok picture /\
    shows points (fun j => Fin ((nth 0 (nth j M []) 0 - lo) / (hi - lo))) picture.
Proof.
  intros [HL HR] HF HP H1 H2 H3. unfold fitting_script_map. rewrite (all_numbers M lo hi H1 H2 H3). cbn [bind].
  rewrite (column_ok _ N F 0); [|split; [rewrite map_length; auto|rewrite Forall_map; revert HR; apply Forall_impl; intros; rewrite map_length; auto]|auto]. cbn [bind].
  match goal with |- context [scatter_map points ?c] => destruct (scatter_shows points c) as (picture & -> & S1 & S2); [rewrite !map_length; lia|] end.
  exists picture. split; [reflexivity|]. split; [exact S1|]. intros j p Hj. rewrite (S2 j p Hj). do 2 f_equal.
  assert (j < length M)%nat by (assert (j < length points)%nat by (apply nth_error_Some; congruence); lia).
  rewrite map_map. rewrite (nth_map_in _ M j [] NaN) by auto. assert (Hin : In (nth j M []) M) by (apply nth_In; auto). rewrite Forall_forall in HR. specialize (HR _ Hin).
  destruct (nth j M []) as [|a row]; [simpl in HR; lia|]. reflexivity.
Qed.
