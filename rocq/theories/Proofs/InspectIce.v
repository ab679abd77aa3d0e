From Coq Require Import Lra Psatz.
From Verif.Model Require Import Base Ext Sort Csr Neighbour Distance WeightModel Inspect.
From Verif.Spec Require Import KernelSpec NeighbourSpec WeightModelSpec InspectSpec.
From Verif.Proofs Require Import ListFacts SortFacts SumFacts KernelFacts CsrFacts NeighbourFacts NeighbourProps WeightModelFacts WeightModelProps FitProps PredictProps StackingFacts InspectProps InspectProps2 InspectProps3 InspectProps4 FitExamples InspectExamples.
Open Scope nat_scope.
Open Scope R_scope.

Section Ice.
  Variable est : Type.
  Variable predict_est : est -> matrix R -> result (list R).
  Variable sk_partial : est -> matrix R -> nat -> result (list R * matrix R).
  Variable grid_from_X : matrix R -> nat -> result (list R).
  Variable store : R -> R.

  Lemma Forall2_nth_map {A B C} (P : A -> B -> Prop) (h : B -> C) l m k da dc :
    Forall2 P l m -> (k < length l)%nat -> exists b, P (nth k l da) b /\ nth k (map h m) dc = h b.
  Proof. intros H. revert k. induction H as [|a b l m Hab H IH]; intros [|k] Hk; simpl in *; try lia; eauto. apply IH. lia. Qed.

  Lemma ice_values s X y es N F score W curves by_feature i e h f :
    fitted_model s X y es N F score -> fitted_weights s W N ->
    local_ICE est predict_est grid_from_X store s = Ok (curves, by_feature) ->
    nth_error es i = Some e -> rowwise predict_est e h -> (f < F)%nat ->
    let c := nth f (nth i curves []) ([], []) in
    length (snd c) = length (fst c) /\
    forall k, (k < length (fst c))%nat -> exists x, with_feature (nth i X []) f (store (nth k (fst c) 0)) x /\ nth k (snd c) 0 = h x.
  Proof.
    intros HM HW H He Hh Hf c. apply (local_ICE_ok est predict_est grid_from_X store s X y es N F score W _ HM HW) in H as (cv & [_ HC] & _ & E).
    injection E as E _. subst cv. destruct (HC i e He) as [_ Hc]. destruct (Hc f Hf) as (_ & rows & HF & Hp). fold c in HF, Hp.
    rewrite Hh in Hp. injection Hp as Hp. split.
    - rewrite <- Hp, map_length. symmetry. clear -HF. induction HF; simpl; auto.
    - intros k Hk. destruct (Forall2_nth_map _ h _ _ k 0 0 HF Hk) as (x & A & B). exists x. rewrite <- Hp. auto.
  Qed.

  Lemma with_feature_det x f v a b : with_feature x f v a -> with_feature x f v b -> a = b.
  Proof. intros A B. rewrite (with_feature_eq _ _ _ _ A), (with_feature_eq _ _ _ _ B). reflexivity. Qed.

  Lemma ice_same_stored s X y es N F score W curves by_feature i e h f k l :
    fitted_model s X y es N F score -> fitted_weights s W N ->
    local_ICE est predict_est grid_from_X store s = Ok (curves, by_feature) ->
    nth_error es i = Some e -> rowwise predict_est e h -> (f < F)%nat ->
    let c := nth f (nth i curves []) ([], []) in
    (k < length (fst c))%nat -> (l < length (fst c))%nat -> store (nth k (fst c) 0) = store (nth l (fst c) 0) ->
    nth k (snd c) 0 = nth l (snd c) 0.
  Proof.
    intros HM HW H He Hh Hf c Hk Hl Hs. destruct (ice_values _ _ _ _ _ _ _ _ _ _ _ _ _ _ HM HW H He Hh Hf) as [_ HV]. fold c in HV.
    destruct (HV k Hk) as (x & A & ->), (HV l Hl) as (x' & B & ->). rewrite Hs in A. rewrite (with_feature_det _ _ _ _ _ A B). reflexivity.
  Qed.

  (** All grids of the same size. *)
  Lemma ice_same_size s X y es N F score W n :
    fitted_model s X y es N F score -> fitted_weights s W N ->
    (forall i f q, (i < N)%nat -> (f < F)%nat -> grid_from_X (map (fun j => nth j X []) (positive_set W N i)) f = Ok q -> length q = n) ->
    raises (local_ICE est predict_est grid_from_X store s).
  Proof.
    intros HM HW HG. apply raises_not_ok. intros out H.
    apply (local_ICE_ok est predict_est grid_from_X store s X y es N F score W _ HM HW) in H as (curves & [HL HC] & HN & _). apply HN. exists n.
    intros row c Hr Hc. destruct (In_nth _ _ [] Hr) as (i & Hi & <-). rewrite HL in Hi.
    assert (HLe : length es = N) by apply HM.
    destruct (nth_error es i) as [e|] eqn:Ee; [|apply nth_error_None in Ee; lia].
    destruct (HC i e Ee) as [HF HC']. destruct (In_nth _ _ ([], []) Hc) as (f & Hf & <-). rewrite HF in Hf.
    destruct (HC' f Hf) as [Hg _]. eapply HG; eauto.
  Qed.

  Lemma pd_same_size order s X y es N F score W n :
    fitted_model s X y es N F score -> fitted_weights s W N -> schedule N order ->
    (forall i e f q, nth_error es i = Some e -> (f < F)%nat -> sk_partial e (map (fun j => nth j X []) (positive_set W N i)) f = Ok q -> length (fst q) = n) ->
    raises (partial_dependence est sk_partial order s).
  Proof.
    intros HM HW HS HG. apply raises_not_ok. intros out H.
    apply (partial_dependence_ok est sk_partial order s X y es N F score W _ HM HW HS) in H as (curves & [HL HC] & HN & _). apply HN. exists n.
    intros row c Hr Hc. destruct (In_nth _ _ [] Hr) as (i & Hi & <-). rewrite HL in Hi.
    assert (HLe : length es = N) by apply HM.
    destruct (nth_error es i) as [e|] eqn:Ee; [|apply nth_error_None in Ee; lia].
    destruct (HC i e Ee) as (w & _ & HF & HC'). destruct (In_nth _ _ ([], []) Hc) as (f & Hf & <-). rewrite HF in Hf.
    destruct (HC' f Hf) as (ind & Hg & _). apply (HG i e f _ Ee Hf Hg).
  Qed.
End Ice.

Lemma importance_zero est (predict_est : est -> matrix R -> result (list R)) G permute c s g :
  raises (snd (importance_score_global est predict_est G permute c s g 0)).
Proof.
  unfold importance_score_global, importance_trials. destruct (_ || _); [eexists; reflexivity|].
  destruct (n_obs est s); [|eexists; reflexivity]. destruct (n_features_in est s); eexists; reflexivity.
Qed.

Definition trunc_store (v : R) : R := IZR (trunc v).

Lemma trunc_store_cuts : cuts_off trunc_store.
Proof.
  intros z v H. unfold trunc_store, trunc. f_equal. destruct (Rltb v 0) eqn:E.
  - apply Rltb_true in E. destruct H as [H|[H1 H2]]; [lra|]. apply Rceil_eq. lra.
  - apply Rltb_false in E. destruct H as [H|[H1 H2]]; apply Rfloor_unique; lra.
Qed.

(** Feature 0 on a fine grid, feature 1 on its values. *)
Definition fine_grid (Xs : matrix R) (f : nat) : result (list R) :=
  if (f =? 0)%nat then Ok [0; 1 / 2; 1] else Ok (map (fun x => nth f x 0) Xs).

Lemma fine_ice : exists curves by_feature, local_ICE R off_predict fine_grid trunc_store i_state = Ok (curves, by_feature) /\
  forall i, (i < 3)%nat -> fst (nth 0 (nth i curves []) ([], [])) = [0; 1 / 2; 1].
Proof.
  destruct i_state_fitted as (es & score & HM & _). 
  assert (HLe : length es = 3%nat) by apply HM. destruct (three es HLe) as (a & b & c & ->). destruct i_sets as (E0 & E1 & E2).
  exists [[([0; 1 / 2; 1], map (fun v => a + trunc_store v) [0; 1 / 2; 1]); ([6], [a + 0])];
          [([0; 1 / 2; 1], map (fun v => b + trunc_store v) [0; 1 / 2; 1]); ([5; 4], [b + 1; b + 1])];
          [([0; 1 / 2; 1], map (fun v => c + trunc_store v) [0; 1 / 2; 1]); ([6], [c + 2])]].
  eexists. split.
  - apply (local_ICE_ok R _ _ _ _ _ _ _ _ _ _ _ _ HM i_weights). eexists. split; [|split; [|reflexivity]].
    + split; [reflexivity|]. intros i e He. assert (Hi : (i < 3)%nat) by (apply nth_error_Some_lt in He; auto).
      apply lt3 in Hi as [-> | [-> | ->]]; injection He as <-; (split; [reflexivity|]); rewrite ?E0, ?E1, ?E2; intros [|[|f]] Hf; try lia; cbv zeta; cbn [nth fst snd]; (split; [reflexivity|]).
      * exists (map (fun v => list_set [0; 5] 0 (trunc_store v)) [0; 1 / 2; 1]). split; [|reflexivity]. repeat constructor; apply list_set_with_feature.
      * exists [list_set [0; 5] 1 (trunc_store 6)]. split; [|reflexivity]. repeat constructor; apply list_set_with_feature.
      * exists (map (fun v => list_set [1; 6] 0 (trunc_store v)) [0; 1 / 2; 1]). split; [|reflexivity]. repeat constructor; apply list_set_with_feature.
      * exists (map (fun v => list_set [1; 6] 1 (trunc_store v)) [5; 4]). split; [|reflexivity]. repeat constructor; apply list_set_with_feature.
      * exists (map (fun v => list_set [2; 4] 0 (trunc_store v)) [0; 1 / 2; 1]). split; [|reflexivity]. repeat constructor; apply list_set_with_feature.
      * exists [list_set [2; 4] 1 (trunc_store 6)]. split; [|reflexivity]. repeat constructor; apply list_set_with_feature.
    + intros [n Hn].
      assert (A : 3%nat = n) by (apply (Hn _ ([0; 1 / 2; 1], map (fun v => a + trunc_store v) [0; 1 / 2; 1]) (or_introl eq_refl)); left; reflexivity).
      assert (B : 1%nat = n) by (apply (Hn _ ([6], [a + 0]) (or_introl eq_refl)); right; left; reflexivity). lia.
  - intros i Hi. apply lt3 in Hi as [-> | [-> | ->]]; reflexivity.
Qed.

Lemma integer_ice : exists grid_from_X store curves by_feature es score, cuts_off store /\ fitted_model i_state iX fy es 3 2 score /\
  local_ICE R off_predict grid_from_X store i_state = Ok (curves, by_feature) /\
  exists i e h k, nth_error es i = Some e /\ rowwise off_predict e h /\
    let c := nth 0 (nth i curves []) ([], []) in
    (k < length (fst c))%nat /\ forall x, with_feature (nth i iX []) 0 (nth k (fst c) 0) x -> nth k (snd c) 0 <> h x.
Proof.
  destruct fine_ice as (curves & bf & H & Hg). destruct i_state_fitted as (es & score & HM & _).
  exists fine_grid, trunc_store, curves, bf, es, score. split; [exact trunc_store_cuts|]. split; [exact HM|]. split; [exact H|].
  assert (HLe : length es = 3%nat) by apply HM. destruct (three es HLe) as (a & b & c & ->).
  exists 0%nat, a, (fun x => a + nth 0 x 0), 1%nat. split; [reflexivity|]. split; [intros rows; reflexivity|]. cbv zeta.
  destruct (ice_values R off_predict fine_grid trunc_store i_state iX fy [a; b; c] 3 2 score fW_left_out curves bf 0 a (fun x => a + nth 0 x 0) 0 HM i_weights H eq_refl (fun rows => eq_refl) ltac:(lia)) as [_ HV].
  rewrite (Hg 0%nat) in * by lia. split; [simpl; lia|]. intros x Hx. destruct (HV 1%nat ltac:(simpl; lia)) as (x' & A & ->).
  apply with_feature_eq in Hx, A. subst x x'. cbn [nth iX list_set].
  assert (E : trunc_store (1 / 2) = 0) by (apply (trunc_store_cuts 0%Z); left; lra). rewrite E. lra.
Qed.

Lemma ice_returns est (predict_est : est -> matrix R -> result (list R)) grid_from_X store s X y es N F score W resolution :
  fitted_model s X y es N F score -> fitted_weights s W N ->
  (forall Xs f q, grid_from_X Xs f = Ok q -> length q = grid_size resolution Xs f) ->
  (forall i f, (i < N)%nat -> (f < F)%nat -> exists q, grid_from_X (map (fun j => nth j X []) (positive_set W N i)) f = Ok q) ->
  (forall e, In e es -> predicts predict_est F e) ->
  (exists i f i' f', (i < N)%nat /\ (f < F)%nat /\ (i' < N)%nat /\ (f' < F)%nat /\
     grid_size resolution (map (fun j => nth j X []) (positive_set W N i)) f <>
     grid_size resolution (map (fun j => nth j X []) (positive_set W N i')) f') ->
  exists out, local_ICE est predict_est grid_from_X store s = Ok out.
Proof.
  intros HM HW HS HG HP (i & f & i' & f' & Hi & Hf & Hi' & Hf' & Hne).
  pose proof HM as (H1 & H2 & H3 & H4 & H5 & H6 & H7 & _).
  set (Xi := fun i => map (fun j => nth j X []) (positive_set W N i)).
  set (g := fun i f => match grid_from_X (Xi i) f with Ok q => q | Raise _ => [] end).
  assert (Hgr : forall i f, (i < N)%nat -> (f < F)%nat -> grid_from_X (Xi i) f = Ok (g i f)).
  { intros a b Ha Hb. unfold g, Xi. destruct (HG a b Ha Hb) as [q ->]. reflexivity. }
  set (rows := fun i f => map (fun v => list_set (nth i X []) f (store v)) (g i f)).
  set (ys := fun i f => match nth_error es i with
                         | Some e => match predict_est e (rows i f) with Ok p => p | Raise _ => [] end
                         | None => []
                         end).
  set (curves := tabulate N (fun i => tabulate F (fun f => (g i f, ys i f)))).
  assert (Hc : forall a b, (a < N)%nat -> (b < F)%nat -> nth b (nth a curves []) ([], []) = (g a b, ys a b)).
  { intros a b Ha Hb. unfold curves. rewrite tabulate_nth by auto. rewrite tabulate_nth by auto. reflexivity. }
  assert (HLc : forall a, (a < N)%nat -> length (nth a curves []) = F).
  { intros a Ha. unfold curves. rewrite tabulate_nth by auto. apply tabulate_length. }
  eexists. apply (local_ICE_ok est predict_est grid_from_X store s X y es N F score W _ HM HW). exists curves. split; [|split; [|reflexivity]].
  - split; [unfold curves; apply tabulate_length|]. intros a e He. assert (Ha : (a < N)%nat) by (rewrite <- H6; apply nth_error_Some; congruence).
    split; [auto|]. intros b Hb. cbv zeta. rewrite Hc by auto. cbn [fst snd]. split; [apply Hgr; auto|].
    exists (rows a b). split.
    + unfold rows. generalize (g a b). clear. intros l. induction l; simpl; constructor; auto. apply list_set_with_feature.
    + unfold ys. rewrite He. destruct (HP e (nth_error_In _ _ He) (rows a b)) as (p & -> & _); auto.
      unfold rows. apply Forall_forall. intros x Hx. apply in_map_iff in Hx as (v & <- & _). rewrite list_set_length. apply (rect_row X N F); auto.
  - intros [n Hn]. apply Hne. fold (Xi i) (Xi i'). rewrite <- (HS _ _ _ (Hgr i f Hi Hf)), <- (HS _ _ _ (Hgr i' f' Hi' Hf')).
    transitivity n; [|symmetry].
    + apply (Hn (nth i curves []) (g i f, ys i f)); [apply nth_In; unfold curves; rewrite tabulate_length; auto|]. rewrite <- (Hc i f Hi Hf). apply nth_In. rewrite HLc; auto.
    + apply (Hn (nth i' curves []) (g i' f', ys i' f')); [apply nth_In; unfold curves; rewrite tabulate_length; auto|]. rewrite <- (Hc i' f' Hi' Hf'). apply nth_In. rewrite HLc; auto.
Qed.

Lemma sizes_example : fitted_weights i_state fW_left_out 3 /\
  grid_size 2 (map (fun j => nth j iX []) (positive_set fW_left_out 3 1)) 0 = 2%nat /\
  grid_size 2 (map (fun j => nth j iX []) (positive_set fW_left_out 3 0)) 0 = 1%nat /\
  (forall i f, (i < 3)%nat -> (f < 2)%nat -> (1 <= distinct_values (map (fun j => nth j iX []) (positive_set fW_left_out 3 i)) f)%nat).
Proof.
  split; [exact i_weights|]. destruct i_sets as (E0 & E1 & E2). rewrite E0, E1. unfold grid_size, distinct_values. cbn [map nth iX nodup In].
  repeat match goal with |- context [in_dec ?a ?b ?c] => destruct (in_dec a b c) as [H|H]; simpl in H end; simpl; try lra; try tauto.
  split; [reflexivity|]. split; [reflexivity|]. intros i f Hi Hf.
  assert (HN : forall l : list R, l <> [] -> (1 <= length (nodup Req_EM_T l))%nat).
  { intros [|v l] Hl; [congruence|]. destruct (nodup Req_EM_T (v :: l)) eqn:E; [|simpl; lia].
    exfalso. assert (HI : In v (nodup Req_EM_T (v :: l))) by (apply nodup_In; left; auto). rewrite E in HI. destruct HI. }
  apply HN. apply lt3 in Hi as [-> | [-> | ->]]; rewrite ?E0, ?E1, ?E2; discriminate.
Qed.
