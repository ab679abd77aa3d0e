(** The order of the features. *)
From Coq Require Import Lra Lia Permutation.
From Verif.Model Require Import Base Ext Sort Csr Neighbour Distance Ale WeightModel Inspect LocalImportance PartialDependence.
From Verif.Spec Require Import KernelSpec NeighbourSpec WeightModelSpec InspectSpec UnitsSpec FeatureUnitsSpec FeatureOrderSpec.
From Verif.Proofs Require Import ListFacts CsrFacts WeightModelFacts WeightModelProps FitProps Units FeatureUnits.
Open Scope string_scope.
Open Scope nat_scope.
Open Scope R_scope.

Lemma at_nth {A B} (P : A -> B -> Prop) l l' i da db : Forall2 P l l' -> (i < length l)%nat -> P (nth i l da) (nth i l' db).
Proof. intros H. revert i. induction H; intros [|i] Hi; cbn in *; auto; try lia. apply IHForall2. lia. Qed.

Section Lists.
  Variables (F : nat) (perm : list nat).
  Hypothesis Hp : ordering F perm.

  Lemma ord_length : length perm = F.
  Proof. rewrite (Permutation_length Hp). apply seq_length. Qed.
  Lemma ord_nodup : NoDup perm.
  Proof. apply (Permutation_NoDup (Permutation_sym Hp)). apply seq_NoDup. Qed.
  Lemma ord_in f : In f perm <-> (f < F)%nat.
  Proof. split; intros H; [apply (Permutation_in _ Hp) in H; apply in_seq in H; lia|apply (Permutation_in _ (Permutation_sym Hp)), in_seq; lia]. Qed.
  Lemma ord_lt k : (k < F)%nat -> (nth k perm 0%nat < F)%nat.
  Proof. intros H. apply ord_in, nth_In. rewrite ord_length. exact H. Qed.
  Lemma re_length {A} (d : A) l : length (reordered d perm l) = F.
  Proof. unfold reordered. rewrite map_length. apply ord_length. Qed.
  Lemma re_nth {A} (d : A) l k : (k < F)%nat -> nth k (reordered d perm l) d = nth (nth k perm 0%nat) l d.
  Proof. intros H. unfold reordered. apply (nth_map_in (fun f => nth f l d) perm k 0%nat d). rewrite ord_length. exact H. Qed.
  Lemma re_get {A} (d : A) l k : length l = F -> (k < F)%nat -> getitem (reordered d perm l) k = getitem l (nth k perm 0%nat).
  Proof. intros HL H. rewrite (getitem_lt d) by (rewrite re_length; exact H). rewrite (getitem_lt d) by (rewrite HL; apply ord_lt, H). rewrite re_nth by exact H. reflexivity. Qed.
  Lemma re_set (l : list R) k v : length l = F -> (k < F)%nat -> reordered 0 perm (list_set l (nth k perm 0%nat) v) = list_set (reordered 0 perm l) k v.
  Proof.
    intros HL Hk. apply (list_eq_nth 0); [rewrite list_set_length, !re_length; reflexivity|]. intros j Hj. rewrite re_length in Hj. rewrite re_nth by exact Hj.
    destruct (Nat.eq_dec j k) as [->|Hne].
    - rewrite !list_set_nth_eq; [reflexivity|rewrite re_length; exact Hk|rewrite HL; apply ord_lt, Hk].
    - rewrite !list_set_nth_neq; [rewrite re_nth by exact Hj; reflexivity|auto|].
      intros E. apply Hne. apply (proj1 (NoDup_nth perm 0%nat) ord_nodup); [rewrite ord_length; exact Hj|rewrite ord_length; exact Hk|auto].
  Qed.
  Lemma mapM_re {A} (d : A) (g g' : nat -> result A) l :
    (forall k v, (k < F)%nat -> g (nth k perm 0%nat) = Ok v -> g' k = Ok v) -> mapM g (seq 0 F) = Ok l -> mapM g' (seq 0 F) = Ok (reordered d perm l).
  Proof.
    intros HG HM. apply mapM_ok_iff in HM. pose proof (Forall2_len _ _ _ HM) as HL. rewrite seq_length in HL.
    assert (HN : forall f, (f < F)%nat -> g f = Ok (nth f l d)).
    { intros f Hf. pose proof (at_nth _ _ _ f 0%nat d HM) as E. rewrite seq_length, seq_nth in E by exact Hf. exact (E Hf). }
    assert (E : forall k, In k (seq 0 F) -> g' k = Ok ((fun k => nth (nth k perm 0%nat) l d) k)).
    { intros k Hk. apply in_seq in Hk. apply HG; [lia|]. apply HN, ord_lt. lia. }
    rewrite (mapM_all_ok _ _ _ E). apply (f_equal (@Ok _)). apply (list_eq_nth d); [rewrite map_length, seq_length, re_length; reflexivity|].
    intros k Hk. rewrite map_length, seq_length in Hk. rewrite (nth_map_in _ _ _ 0%nat) by (rewrite seq_length; exact Hk). rewrite seq_nth, re_nth by exact Hk. reflexivity.
  Qed.
  Lemma rewrites_order : (0 < F)%nat -> rewrites F F (reordered 0 perm).
  Proof. intros H. split; [exact H|]. intros row _. apply re_length. Qed.
  Lemma re_rows X : rows_of F (map (reordered 0 perm) X).
  Proof. apply Forall_forall. intros r Hr. apply in_map_iff in Hr as (x & <- & _). apply re_length. Qed.
End Lists.

Section Inspect.
  Context {est : Type}.
  Variable predict_est : est -> matrix R -> result (list R).
  Variables (F : nat) (perm : list nat).
  Hypothesis Hp : ordering F perm.
  Notation phi := (reordered 0 perm).
  Notation "k '!'" := (nth k perm 0%nat) (at level 1).
  Notation agrees := (agrees predict_est F phi).

  (** ** Importance *)
  Variable G : Type.
  Variable shuffle : G -> list nat -> G * list nat.

  Lemma shuffle_column_order X idx k X' : rows_of F X -> (k < F)%nat -> shuffle_column X idx (k !) = Ok X' ->
    rows_of F X' /\ shuffle_column (map phi X) idx k = Ok (map phi X').
  Proof.
    intros HX Hk. unfold shuffle_column. intros H. apply bind_ok in H as (col & Hc & H). rewrite map_length.
    assert (E : mapM (fun j => row <- getitem (map phi X) j ;; getitem row k) idx = Ok col).
    { rewrite <- Hc. clear -HX Hk Hp. induction idx as [|j idx IH]; [reflexivity|]. cbn [mapM]. rewrite IH. rewrite getitem_map.
      destruct (getitem X j) as [row|] eqn:Er; [|reflexivity]. cbn [bind]. rewrite (re_get F perm Hp); [reflexivity| |exact Hk]. apply (rows_nth F X j row HX Er). }
    rewrite E. cbn [bind]. destruct (length col =? length X)%nat; [|discriminate]. injection H as <-. clear E Hc. split.
    - clear -HX. revert col. induction HX as [|x X Hx HX IH]; intros [|c col]; cbn; constructor; [rewrite list_set_length; exact Hx|apply IH].
    - apply (f_equal (@Ok _)). revert col. induction HX as [|x X Hx HX IH]; intros [|c col]; cbn; [reflexivity..|]. rewrite IH. f_equal. symmetry. apply (re_set F perm Hp); auto.
  Qed.
  Lemma score_order e e' X y w v : agrees e e' -> rows_of F X -> score_est est predict_est e X y w = Ok v -> score_est est predict_est e' (map phi X) y w = Ok v.
  Proof. intros Ha HX. unfold score_est. intros H. apply bind_ok in H as (p & H1 & H2). rewrite (Ha X p HX H1). exact H2. Qed.
  Lemma scores_order e e' y w k r : agrees e e' -> (k < F)%nat -> forall g idx X l, rows_of F X ->
    permutation_scores est predict_est G shuffle e y w (k !) g idx X r = Ok l -> permutation_scores est predict_est G shuffle e' y w k g idx (map phi X) r = Ok l.
  Proof.
    intros Ha Hk. induction r as [|r IH]; intros g idx X l HX; cbn [permutation_scores]; [auto|]. destruct (shuffle g idx) as [g' idx'].
    intros H. apply bind_ok in H as (X' & H1 & H). apply bind_ok in H as (v & H2 & H). apply bind_ok in H as (rest & H3 & H). injection H as <-.
    destruct (shuffle_column_order X idx' k X' HX Hk H1) as [HX' ->]. cbn [bind]. rewrite (score_order e e' X' y w v Ha HX' H2). cbn [bind]. rewrite (IH _ _ _ _ HX' H3). reflexivity.
  Qed.
  Lemma importance_order seed e e' X y w r l : agrees e e' -> rows_of F X -> length y = length X ->
    permutation_importance_sk est predict_est G shuffle seed e X y w r = Ok l -> permutation_importance_sk est predict_est G shuffle seed e' (map phi X) y w r = Ok (reordered NaN perm l).
  Proof.
    intros Ha HX HL. unfold permutation_importance_sk. intros H. apply bind_ok in H as (w1 & -> & H). apply bind_ok in H as (b & Hb & H). cbn [bind].
    rewrite (score_order e e' X y w1 b Ha HX Hb). cbn [bind]. rewrite map_length.
    assert (HN : ncols X = F /\ ncols (map phi X) = F).
    { destruct X as [|x X]; [|inversion HX; subst; split; [auto|cbn; apply (re_length _ perm Hp)]]. exfalso. destruct y; [|discriminate HL].
      unfold score_est in Hb. apply bind_ok in Hb as (p & Hb1 & Hb). unfold r2_weighted in Hb. destruct (negb _ || negb _)%bool; discriminate. }
    destruct HN as [N1 N2]. rewrite N2. rewrite N1 in H. revert H. apply (mapM_re F perm Hp NaN). intros k v Hk H. apply bind_ok in H as (sc & H1 & H). injection H as <-.
    rewrite (scores_order e e' y w1 k r Ha Hk _ _ _ _ HX H1). reflexivity.
  Qed.

  (** ** Models of the same data with the features in another order *)
  Record mirrors (s s' : state est) (X : matrix R) (es es' : list (option est)) : Prop := {
    mi_obs : n_obs est s' = n_obs est s; mi_F : n_features_in est s = Some F; mi_F' : n_features_in est s' = Some F;
    mi_X : data_X est s = Some X; mi_X' : data_X est s' = Some (map phi X); mi_rows : rows_of F X; mi_y : data_y est s' = data_y est s;
    mi_w : weight_matrix_ est s' = weight_matrix_ est s; mi_nb : neighbour_matrix_ est s' = neighbour_matrix_ est s;
    mi_es : local_estimators est s = Some es; mi_es' : local_estimators est s' = Some es'; mi_agree : Forall2 (slot_rel agrees) es es' }.

  Lemma slots_get es es' i e : Forall2 (slot_rel agrees) es es' -> get_est est es i = Ok e -> exists e', get_est est es' i = Ok e' /\ agrees e e'.
  Proof.
    unfold get_est, getitem. intros H. revert i. induction H as [|o o' es es' Ho H IH]; intros [|i]; cbn; try discriminate; [|apply IH].
    destruct o as [x|], o' as [x'|]; cbn in *; try discriminate; try tauto. intros E. injection E as <-. eauto.
  Qed.
  Lemma select_lengths {A B} mask (a : list A) (b : list B) : length a = length b -> length (select mask a) = length (select mask b).
  Proof. revert a b. induction mask as [|[] mask IH]; intros [|x a] [|y b] H; cbn in *; try discriminate; auto. Qed.

  Definition view_rel (v v' : est * matrix R * list R * list ext) : Prop :=
    let '(e, Xs, ys, ws) := v in let '(e', Xs', ys', ws') := v' in
    agrees e e' /\ rows_of F Xs /\ Xs' = map phi Xs /\ ys' = ys /\ ws' = ws /\ length ys = length Xs.
  Lemma view_order s s' X es es' i : mirrors s s' X es es' -> later view_rel (local_view est s i) (local_view est s' i).
  Proof.
    intros [M1 M2 M3 M4 M5 M6 M7 M8 M9 M10 M11 M12] v. unfold local_view. rewrite M10, M11, M8, M9, M4, M5, M7. cbn [need bind]. intros H.
    apply bind_ok in H as (e & He & H). destruct (slots_get es es' i e M12 He) as (e' & -> & Ha). cbn [bind].
    apply bind_ok in H as (W & -> & H). apply bind_ok in H as (nb & -> & H). apply bind_ok in H as (y & -> & H). cbn [bind].
    destruct W as [m|m]; [|discriminate]. destruct nb as [b|b]; [|discriminate].
    apply bind_ok in H as (w & -> & H). apply bind_ok in H as (mask & -> & H). cbn [bind]. apply bind_ok in H as (Xs & H1 & H).
    unfold mask_index at 1 in H1. unfold mask_index at 1. rewrite (map_length phi). destruct (length mask =? length X)%nat eqn:EL; [|discriminate]. injection H1 as <-. cbn [bind].
    apply bind_ok in H as (ys & H2 & H). rewrite H2. cbn [bind]. apply bind_ok in H as (ws & -> & H). injection H as <-. cbn [bind].
    rewrite select_map. eexists. split; [reflexivity|]. repeat split; auto; [apply rows_select; exact M6|].
    unfold mask_index in H2. destruct (length mask =? length y)%nat eqn:EL2; [|discriminate]. injection H2 as <-. apply Nat.eqb_eq in EL, EL2. apply select_lengths. congruence.
  Qed.

  Lemma Forall2_map2_later {A A' B C} (P : A -> A' -> Prop) (Q : B -> C -> Prop) (f : nat -> A -> result B) (f' : nat -> A' -> result C) :
    (forall i a a', P a a' -> later Q (f i a) (f' i a')) -> forall l idx l', Forall2 P l l' -> Forall2 (later Q) (map2 f idx l) (map2 f' idx l').
  Proof. intros H l idx l' HP. revert idx. induction HP as [|a a' l l' Ha HP IH]; intros [|i idx]; cbn; constructor; auto. Qed.
  Lemma Forall2_eq {A B} (h : A -> B) l l' : Forall2 (fun a b => b = h a) l l' -> l' = map h l.
  Proof. induction 1 as [|a b l l' -> H IH]; cbn; congruence. Qed.

  Theorem local_importance_order seed c order s s' X es es' r m : mirrors s s' X es es' ->
    importance_score_local est (fun i => permutation_importance_sk est predict_est G shuffle (seed i)) c order s r = Ok m ->
    importance_score_local est (fun i => permutation_importance_sk est predict_est G shuffle (seed i)) c order s' r = Ok (map (reordered NaN perm) m).
  Proof.
    intros HM. unfold importance_score_local. destruct (negb (cache_data c) || negb (cache_estimator c))%bool; [discriminate|]. rewrite (mi_obs _ _ _ _ _ HM).
    intros H. apply bind_ok in H as (n & -> & H). cbn [bind]. apply bind_ok in H as (views & HV & H).
    destruct (mapM_later view_rel (local_view est s) (local_view est s') (seq 0 n) (fun i => view_order s s' X es es' i HM) views HV) as (views' & -> & P). cbn [bind].
    edestruct (parallel_later (fun a b => b = reordered NaN perm a) order) as (m' & -> & P'); [|exact H|rewrite (Forall2_eq _ _ _ P'); reflexivity].
    apply (Forall2_map2_later view_rel); [|exact P]. intros i [[[e Xs] ys] ws] [[[e' Xs'] ys'] ws'] (Ha & HX & -> & -> & -> & HL) l Hl.
    eexists. split; [apply (importance_order (seed i) e e' Xs ys ws r l Ha HX HL Hl)|reflexivity].
  Qed.

  (** ** Curves *)
  Variable store : R -> R.
  Variable resolution : nat.
  Notation sk := (partial_dependence_sk est predict_est store resolution).
  Notation grid := (grid_from_X_sk resolution).

  Lemma values_order X k : rows_of F X -> (k < F)%nat -> mapM (fun row => getitem row k) (map phi X) = mapM (fun row => getitem row (k !)) X.
  Proof.
    intros HX Hk. induction HX as [|x X Hx HX IH]; [reflexivity|]. cbn [map mapM]. rewrite IH, (re_get F perm Hp) by auto. reflexivity.
  Qed.
  Lemma grid_order X k : rows_of F X -> (k < F)%nat -> grid (map phi X) k = grid X (k !).
  Proof. intros HX Hk. unfold grid_from_X_sk. rewrite values_order by auto. reflexivity. Qed.
  Lemma set_rows X k v : rows_of F X -> (k < F)%nat ->
    rows_of F (map (fun row => list_set row (k !) v) X) /\ map (fun row => list_set row k v) (map phi X) = map phi (map (fun row => list_set row (k !) v) X).
  Proof.
    intros HX Hk. split.
    - apply Forall_forall. intros r Hr. apply in_map_iff in Hr as (x & <- & Hx). rewrite list_set_length. unfold rows_of in HX. rewrite Forall_forall in HX. auto.
    - rewrite !map_map. apply map_ext_in. intros x Hx. symmetry. apply (re_set F perm Hp); auto. unfold rows_of in HX. rewrite Forall_forall in HX. auto.
  Qed.
  Lemma mapM_imp {A B} (f g : A -> result B) l r : (forall a b, In a l -> f a = Ok b -> g a = Ok b) -> mapM f l = Ok r -> mapM g l = Ok r.
  Proof.
    revert r. induction l as [|a l IH]; intros r HI; cbn [mapM]; [auto|]. intros H. apply bind_ok in H as (b & H1 & H). apply bind_ok in H as (bs & H2 & H).
    rewrite (HI a b (or_introl eq_refl) H1). cbn [bind]. rewrite (IH bs); [exact H| |exact H2]. intros a' b' Ha. apply HI. right. exact Ha.
  Qed.
  Lemma sk_order e e' X k r : agrees e e' -> rows_of F X -> (k < F)%nat -> sk e X (k !) = Ok r -> sk e' (map phi X) k = Ok r.
  Proof.
    intros Ha HX Hk. unfold partial_dependence_sk. assert (HB : forall T (Y : matrix R) (z : result T), Y <> [] -> match Y with [] => Raise ValueError | _ => z end = z) by (intros T [|? ?] z HY; [congruence|reflexivity]).
    destruct (list_eq_dec (list_eq_dec Req_EM_T) X []) as [->|HN]; [discriminate|]. rewrite !HB by (destruct X; [congruence|discriminate]). rewrite grid_order, map_length by auto.
    intros H. apply bind_ok in H as (vs & -> & H). apply bind_ok in H as (ps & H1 & H). cbn [bind].
    rewrite (mapM_imp (fun v => predict_est e (map (fun row => list_set row (k !) (store v)) X)) _ vs ps); [exact H| |exact H1].
    intros v p _ Hv. destruct (set_rows X k (store v) HX Hk) as [R1 ->]. apply (Ha _ _ R1 Hv).
  Qed.
  Lemma lpd_order e e' X w l : agrees e e' -> rows_of F X -> local_partial_dependence est sk e X w F = Ok l ->
    local_partial_dependence est sk e' (map phi X) w F = Ok (reordered ([], []) perm l).
  Proof.
    intros Ha HX. unfold local_partial_dependence. apply (mapM_re F perm Hp). intros k v Hk H. apply bind_ok in H as (p & H1 & H).
    rewrite (sk_order e e' X k p Ha HX Hk H1). exact H.
  Qed.

  Lemma concat_order {T} (d : T) (curves : list (list T)) : Forall (fun r => length r = F) curves -> forall c, In c (List.concat (map (reordered d perm) curves)) <-> In c (List.concat curves).
  Proof.
    intros HC c. rewrite !in_concat. split.
    - intros (r & Hr & Hc). apply in_map_iff in Hr as (r0 & <- & Hr). unfold reordered in Hc. apply in_map_iff in Hc as (f & <- & Hf). apply (ord_in F perm Hp) in Hf.
      exists r0. split; [exact Hr|]. apply nth_In. rewrite Forall_forall in HC. rewrite HC by auto. exact Hf.
    - intros (r & Hr & Hc). exists (reordered d perm r). split; [apply in_map, Hr|]. apply (In_nth _ _ d) in Hc as (f & Hf & <-). unfold reordered.
      apply in_map_iff. exists f. split; [reflexivity|]. apply (ord_in F perm Hp). rewrite Forall_forall in HC. rewrite <- (HC r Hr). exact Hf.
  Qed.
  Lemma object_order curves r : Forall (fun l => length l = F) curves -> object_array F curves = Ok r ->
    object_array F (map (reordered ([], []) perm) curves) = Ok (map (reordered ([], []) perm) (fst r), reordered [] perm (snd r)).
  Proof.
    intros HC. unfold object_array. pose proof (concat_order ([], []) curves HC) as HI.
    destruct (List.concat curves) as [|c0 cs] eqn:E1; [discriminate|]. destruct (forallb _ cs) eqn:E2; [discriminate|]. intros H. injection H as <-. cbn [fst snd].
    destruct (List.concat (map (reordered ([], []) perm) curves)) as [|d0 ds]; [exfalso; destruct (proj2 (HI c0) (or_introl eq_refl))|].
    destruct (forallb (fun c => (curve_length c =? curve_length d0)%nat) ds) eqn:E3.
    { exfalso. assert (A : forall c, In c (c0 :: cs) -> curve_length c = curve_length d0).
      { intros c Hc. apply HI in Hc as [<-|Hc]; [reflexivity|]. rewrite forallb_forall in E3. apply Nat.eqb_eq, E3, Hc. }
      assert (B : forallb (fun c => (curve_length c =? curve_length c0)%nat) cs = true); [|congruence].
      apply forallb_forall. intros c Hc. apply Nat.eqb_eq. rewrite (A c), (A c0); auto; [left; reflexivity|right; exact Hc]. }
    apply (f_equal (@Ok _)). f_equal. unfold transpose, tabulate, reordered at 2.
    apply (list_eq_nth []); [rewrite !map_length, seq_length, (ord_length F perm Hp); reflexivity|]. intros k Hk. rewrite map_length, seq_length in Hk.
    rewrite (nth_map_in _ _ _ 0%nat) by (rewrite seq_length; exact Hk). rewrite seq_nth by exact Hk. cbn [plus].
    rewrite (nth_map_in _ perm k 0%nat) by (rewrite (ord_length F perm Hp); exact Hk). pose proof (ord_lt F perm Hp k Hk) as Hl.
    rewrite (nth_map_in _ (seq 0 F) (k !) 0%nat) by (rewrite seq_length; exact Hl). rewrite seq_nth by exact Hl. cbn [plus]. rewrite map_map. apply map_ext_in.
    intros r Hr. apply (re_nth F perm Hp). exact Hk.
  Qed.

  Theorem pd_order order s s' X es es' curves by_feature : mirrors s s' X es es' ->
    partial_dependence est sk order s = Ok (curves, by_feature) ->
    partial_dependence est sk order s' = Ok (map (reordered ([], []) perm) curves, reordered [] perm by_feature).
  Proof.
    intros HM. unfold partial_dependence. rewrite (mi_obs _ _ _ _ _ HM), (mi_F _ _ _ _ _ HM), (mi_F' _ _ _ _ _ HM).
    intros H. apply bind_ok in H as (n & -> & H). cbn [bind need] in *. apply bind_ok in H as (views & HV & H).
    destruct (mapM_later view_rel (local_view est s) (local_view est s') (seq 0 n) (fun i => view_order s s' X es es' i HM) views HV) as (views' & -> & P). cbn [bind].
    apply bind_ok in H as (cs & H1 & H).
    edestruct (parallel_later (fun a b : list (list R * list R) => length a = F /\ b = reordered ([], []) perm a) order) as (m' & -> & P'); [|exact H1|].
    - clear -P Hp. induction P as [|v v' vs vs' Hv P IH]; cbn [map]; constructor; auto. destruct v as [[[e Xs] ys] ws], v' as [[[e' Xs'] ys'] ws']. destruct Hv as (Ha & HX & -> & -> & -> & HL).
      intros l Hl. apply bind_ok in Hl as (w & -> & Hl). cbn [bind]. eexists. split; [apply (lpd_order e e' Xs w l Ha HX Hl)|]. split; [|reflexivity].
      unfold local_partial_dependence in Hl. apply mapM_ok_iff, Forall2_len in Hl. rewrite seq_length in Hl. auto.
    - cbn [bind]. assert (A : Forall (fun l => length l = F) cs /\ m' = map (reordered ([], []) perm) cs).
      { clear -P'. induction P' as [|a b l l' [HA HB] P [I1 I2]]; split; cbn; auto. congruence. }
      destruct A as [A ->]. apply (object_order cs _ A H).
  Qed.

  Theorem ice_order s s' X es es' curves by_feature : mirrors s s' X es es' ->
    local_ICE est predict_est grid store s = Ok (curves, by_feature) ->
    local_ICE est predict_est grid store s' = Ok (map (reordered ([], []) perm) curves, reordered [] perm by_feature).
  Proof.
    intros HM. unfold local_ICE. rewrite (mi_obs _ _ _ _ _ HM), (mi_F _ _ _ _ _ HM), (mi_F' _ _ _ _ _ HM), (mi_X _ _ _ _ _ HM), (mi_X' _ _ _ _ _ HM).
    intros H. apply bind_ok in H as (n & -> & H). cbn [bind need] in *. apply bind_ok in H as (cs & H1 & H).
    match type of H1 with mapM ?fa ?l = _ => match goal with |- bind (mapM ?fb _) _ = _ =>
      destruct (mapM_later (fun a b : list (list R * list R) => length a = F /\ b = reordered ([], []) perm a) fa fb l) with (x := cs) as (m' & E & P'); [|exact H1|] end end.
    2:{ rewrite E. cbn [bind]. assert (A : Forall (fun l => length l = F) cs /\ m' = map (reordered ([], []) perm) cs).
      { clear -P'. induction P' as [|a b l l' [HA HB] P [I1 I2]]; split; cbn; auto. congruence. }
      destruct A as [A ->]. apply (object_order cs _ A H). }
    intros i l Hl. apply bind_ok in Hl as (v & Hv & Hl). destruct (view_order s s' X es es' i HM v Hv) as (v' & -> & Hr). cbn [bind].
    destruct v as [[[e Xs] ys] ws], v' as [[[e' Xs'] ys'] ws']. destruct Hr as (Ha & HX & -> & -> & -> & HL).
    apply bind_ok in Hl as (x & Hx & Hl). rewrite getitem_map, Hx. cbn [bind].
    assert (Lx : length x = F) by (apply (rows_nth F X i x (mi_rows _ _ _ _ _ HM) Hx)). eexists. split.
    - revert Hl. apply (mapM_re F perm Hp). intros k c Hk H2. unfold ice_curve in *. rewrite grid_order by auto. apply bind_ok in H2 as (vs & -> & H2). cbn [bind].
      apply bind_ok in H2 as (p & H2 & H3). assert (E : map (fun v => list_set (phi x) k (store v)) vs = map phi (map (fun v => list_set x (k !) (store v)) vs)).
      { rewrite map_map. apply map_ext. intros v. symmetry. apply (re_set F perm Hp); auto. }
      rewrite E, (Ha _ p); [exact H3| |exact H2]. apply Forall_forall. intros r Hr. apply in_map_iff in Hr as (v & <- & _). rewrite list_set_length. exact Lx.
    - split; [|reflexivity]. apply mapM_ok_iff, Forall2_len in Hl. rewrite seq_length in Hl. auto.
  Qed.

  (** ** Accumulated local effects *)
  Lemma column_order X k : rows_of F X -> (k < F)%nat -> X <> [] -> column (map phi X) k = column X (k !).
  Proof.
    intros HX Hk HN. unfold column. destruct X as [|x X]; [congruence|]. assert (N1 : ncols (map phi (x :: X)) = F) by (cbn; apply (re_length _ perm Hp)). assert (N2 : ncols (x :: X) = F) by (inversion HX as [|? ? Hx0 ?]; exact Hx0). rewrite N1, N2.
    rewrite (proj2 (Nat.ltb_lt _ _) Hk), (proj2 (Nat.ltb_lt _ _) (ord_lt _ perm Hp k Hk)). apply (f_equal (@Ok _)). cbn [map]. f_equal; [apply (re_nth _ perm Hp); auto|].
    rewrite map_map. apply map_ext. intros a. apply (re_nth _ perm Hp). exact Hk.
  Qed.
  Lemma set_column_order X k vs : rows_of F X -> (k < F)%nat -> rows_of F (set_column store X (k !) vs) /\ set_column store (map phi X) k vs = map phi (set_column store X (k !) vs).
  Proof.
    intros HX Hk. unfold set_column. revert vs. induction HX as [|x X Hx HX IH]; intros [|v vs]; cbn; try (split; [constructor|reflexivity]).
    destruct (IH vs) as [I1 I2]. split; [constructor; [rewrite list_set_length; exact Hx|exact I1]|]. f_equal; [symmetry; apply (re_set F perm Hp); auto|exact I2].
  Qed.
  Lemma column_some X f v : column X f = Ok v -> X <> [].
  Proof. intros H ->. unfold column in H. cbn in H. discriminate. Qed.
  Lemma weighted_ale_order e e' X k w nm mb r : agrees e e' -> rows_of F X -> (k < F)%nat ->
    weighted_ale store X (k !) (predict_est e) w nm mb = Ok r -> weighted_ale store (map phi X) k (predict_est e') w nm mb = Ok r.
  Proof.
    intros Ha HX Hk. unfold weighted_ale. intros H. apply bind_ok in H as (vs & Hc & H). rewrite (column_order X k HX Hk (column_some _ _ _ Hc)), Hc. cbn [bind].
    apply bind_ok in H as (gr & -> & H). cbn [bind]. cbv zeta in *. apply bind_ok in H as (lo & -> & H). apply bind_ok in H as (hi & -> & H). cbn [bind].
    apply bind_ok in H as (pl & H1 & H). apply bind_ok in H as (ph & H2 & H).
    destruct (set_column_order X k lo HX Hk) as [A1 ->]. destruct (set_column_order X k hi HX Hk) as [A2 ->].
    rewrite (Ha _ _ A1 H1), (Ha _ _ A2 H2). exact H.
  Qed.
  Theorem local_ale_order s s' X es es' k r : mirrors s s' X es es' -> (k < F)%nat ->
    local_ALE store est predict_est s (k !) = Ok r -> local_ALE store est predict_est s' k = Ok r.
  Proof.
    intros HM Hk. unfold local_ALE. rewrite (mi_es _ _ _ _ _ HM), (mi_es' _ _ _ _ _ HM). cbn [need bind]. rewrite <- (Forall2_len _ _ _ (mi_agree _ _ _ _ _ HM)).
    apply mapM_imp. intros i c _ H. apply bind_ok in H as (v & Hv & H). destruct (view_order s s' X es es' i HM v Hv) as (v' & -> & Hr). cbn [bind].
    destruct v as [[[e Xs] ys] ws], v' as [[[e' Xs'] ys'] ws']. destruct Hr as (Ha & HX & -> & -> & -> & HL).
    apply bind_ok in H as (w & -> & H). cbn [bind]. apply (weighted_ale_order e e' Xs k _ _ _ _ Ha HX Hk H).
  Qed.
  Theorem global_ale_order s s' X es es' k r : mirrors s s' X es es' -> (k < F)%nat ->
    global_ALE store est predict_est s (k !) = Ok r -> global_ALE store est predict_est s' k = Ok r.
  Proof.
    intros HM Hk. pose proof (mi_rows _ _ _ _ _ HM) as HX. unfold global_ALE. rewrite (mi_es _ _ _ _ _ HM), (mi_es' _ _ _ _ _ HM), (mi_X _ _ _ _ _ HM), (mi_X' _ _ _ _ _ HM). cbn [need bind].
    intros H. apply bind_ok in H as (vs & Hc & H). rewrite (column_order X k HX Hk (column_some _ _ _ Hc)), Hc. cbn [bind].
    apply bind_ok in H as (gr & -> & H). cbn [bind]. cbv zeta in *. apply bind_ok in H as (lo & -> & H). apply bind_ok in H as (hi & -> & H). cbn [bind].
    apply bind_ok in H as (pairs & H1 & H). destruct (set_column_order X k lo HX Hk) as [A1 ->]. destruct (set_column_order X k hi HX Hk) as [A2 ->].
    rewrite <- (Forall2_len _ _ _ (mi_agree _ _ _ _ _ HM)).
    erewrite (mapM_imp _ _ (seq 0 (length es)) pairs); [exact H| |exact H1]. cbv beta. intros i c _ H2.
    apply bind_ok in H2 as (e & He & H2). destruct (slots_get es es' i e (mi_agree _ _ _ _ _ HM) He) as (e' & -> & Ha). cbn [bind].
    apply bind_ok in H2 as (a & Ea & H2). apply bind_ok in H2 as (b & Eb & H2). rewrite !getitem_map, Ea, Eb. cbn [bind].
    apply bind_ok in H2 as (p & Ep & H2). change [phi a; phi b] with (map phi [a; b]). rewrite (Ha [a; b] p); [exact H2| |exact Ep].
    constructor; [apply (rows_nth F _ i a A1 Ea)|]. constructor; [apply (rows_nth F _ i b A2 Eb)|constructor].
  Qed.
End Inspect.

(** ** Fits *)
Section Fit.
  Context {est : Type}.
  Variable fit_est : nat -> matrix R -> list R -> list ext -> result est.
  Variable predict_est : est -> matrix R -> result (list R).
  Variables (F : nat) (perm : list nat).
  Hypothesis Hp : ordering F perm.
  Hypothesis HF : (0 < F)%nat.
  Hypothesis Hov : overlooks F (reordered 0 perm) fit_est predict_est.
  Variable G : Type.
  Variable choice : G -> list nat -> nat -> G * list nat.
  Variable cpu : nat.
  Variable wm : filesystem -> list coords -> list coords -> filesystem * result weights.
  Notation FIT := (fit est fit_est predict_est G choice cpu wm).

  Theorem fit_mirrors c order g fs s0 s0' X y coords given : rows_of F X -> cache_data c = true ->
    let o := FIT c order g fs s0 X y coords given in
    let o' := FIT c order g fs s0' (map (reordered 0 perm) X) y coords given in
    o_result est G o = Ok tt ->
    o_result est G o' = Ok tt /\ exists es es', mirrors predict_est F perm (o_state est G o) (o_state est G o') X es es'.
  Proof.
    intros HX Hc o o' Hok.
    destruct (fit_rewritten fit_est predict_est F (reordered 0 perm) Hov G choice cpu wm c order g fs s0 s0' X y coords given F (rewrites_order F perm Hp HF) HX Hok)
      as (Hok' & es & es' & _ & _ & _ & _ & _ & E1 & E2 & HF2 & HD). fold o in E1, HD. fold o' in Hok', E2, HD. split; [exact Hok'|]. exists es, es'.
    destruct (HD Hc) as (D1 & D2 & _ & _ & D3 & D4).
    destruct (fit_inv est fit_est predict_est G choice cpu wm c order g fs s0 X y coords given Hok) as (w & ? & ? & ? & ? & ? & ? & V1 & V2 & _ & _ & _ & _ & E). fold o in E.
    destruct (fit_inv est fit_est predict_est G choice cpu wm c order g fs s0' (map (reordered 0 perm) X) y coords given Hok') as (w' & ? & ? & ? & ? & ? & ? & _ & V2' & _ & _ & _ & _ & E'). fold o' in E'.
    assert (w' = w) by (eapply in_force_fun; eauto). subst w'.
    assert (HN : ncols X = F /\ ncols (map (reordered 0 perm) X) = F).
    { apply check_ok in V1 as (_ & C2 & _). destruct X as [|r0 X]; [cbn in C2; lia|]. split; [inversion HX as [|? ? Hr0 ?]; exact Hr0|]. cbn. apply (re_length _ perm Hp). }
    destruct HN as [N1 N2]. constructor; auto; try congruence; rewrite ?E, ?E'; cbn; rewrite ?map_length; congruence.
  Qed.
End Fit.
