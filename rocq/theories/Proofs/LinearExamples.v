(** Examples for C160: least squares on one feature. *)
From Coq Require Import Lra Psatz Sorting.Sorted.
From Verif.Model Require Import Base Ext Sort Kernel Distance WeightMatrix Csr Neighbour WeightModel.
From Verif.Spec Require Import KernelSpec WeightSpec NeighbourSpec WeightModelSpec LinearSpec.
From Verif.Proofs Require Import ListFacts SumFacts KernelFacts SortFacts WeightFacts WeightProps WeightExamples DistanceFacts CsrFacts NeighbourFacts ShrinkFacts SampleFacts NeighbourProps WeightModelFacts WeightModelProps FitProps PredictProps FitExamples EndToEndExamples HistoryExamples LinearProps LinearPredict.
Open Scope string_scope.
Open Scope nat_scope.
Open Scope R_scope.

(** Weighted regression line; when all weighted rows agree, the horizontal line
    through the weighted mean. *)
Definition ols_fit (c : nat) (X : matrix R) (y : list R) (w : list ext) : result (R * R) :=
  let n := length y in
  if (n =? 0)%nat then Raise ValueError else
  let wt j := fin (nth j w (Fin 0)) in
  let x j := nth 0 (nth j X []) 0 in
  let t j := nth j y 0 in
  let A := Rsum (tabulate n wt) in
  let Bx := Rsum (tabulate n (fun j => wt j * x j)) in
  let By := Rsum (tabulate n (fun j => wt j * t j)) in
  let Bxx := Rsum (tabulate n (fun j => wt j * (x j * x j))) in
  let Bxy := Rsum (tabulate n (fun j => wt j * (x j * t j))) in
  if Req_EM_T A 0 then Ok (0, 0) else
  if Req_EM_T (A * Bxx - Bx * Bx) 0 then Ok (By / A, 0) else
  let b := (A * Bxy - Bx * By) / (A * Bxx - Bx * Bx) in
  Ok ((By - b * Bx) / A, b).
Definition ols_predict (e : R * R) (Z : matrix R) : result (list R) := Ok (map (linear (fst e) [snd e]) Z).
Definition ols_coef (e : R * R) : list R := [snd e].

Lemma S_plus n f g : Rsum (tabulate n (fun j => f j + g j)) = Rsum (tabulate n f) + Rsum (tabulate n g).
Proof. unfold tabulate. apply Rsum_map_plus. Qed.
Lemma S_scal n c f : Rsum (tabulate n (fun j => c * f j)) = c * Rsum (tabulate n f).
Proof. unfold tabulate. apply Rsum_map_scal. Qed.
Lemma S_ext n f g : (forall j, (j < n)%nat -> f j = g j) -> Rsum (tabulate n f) = Rsum (tabulate n g).
Proof. intros H. f_equal. apply tabulate_ext. exact H. Qed.
Lemma S_zero n f : (forall j, (j < n)%nat -> f j = 0) -> Rsum (tabulate n f) = 0.
Proof. intros H. apply Rsum_zero. intros z Hz. apply in_tabulate in Hz as (j & Hj & <-). auto. Qed.
Lemma S_nonneg n f : (forall j, (j < n)%nat -> 0 <= f j) -> 0 <= Rsum (tabulate n f).
Proof. intros H. apply Rsum_nonneg. intros z Hz. apply in_tabulate in Hz as (j & Hj & <-). auto. Qed.
Lemma S_all_zero n f : (forall j, (j < n)%nat -> 0 <= f j) -> Rsum (tabulate n f) = 0 -> forall j, (j < n)%nat -> f j = 0.
Proof.
  intros H H0 j Hj. apply (Rsum_zero_elem (tabulate n f)); auto.
  - intros z Hz. apply in_tabulate in Hz as (k & Hk & <-). auto.
  - apply in_tabulate. exists j. auto.
Qed.

Lemma normal_minimises n (w x t : nat -> R) b0 b c0 c :
  (forall j, (j < n)%nat -> 0 <= w j) ->
  Rsum (tabulate n (fun j => w j * (t j - (b0 + b * x j)))) = 0 ->
  Rsum (tabulate n (fun j => w j * (t j - (b0 + b * x j)) * x j)) = 0 ->
  Rsum (tabulate n (fun j => w j * (t j - (b0 + b * x j)) ^ 2)) <= Rsum (tabulate n (fun j => w j * (t j - (c0 + c * x j)) ^ 2)).
Proof.
  intros Hw H1 H2.
  rewrite (S_ext n (fun j => w j * (t j - (c0 + c * x j)) ^ 2)
    (fun j => w j * (t j - (b0 + b * x j)) ^ 2 + (2 * (b0 - c0) * (w j * (t j - (b0 + b * x j))) +
      (2 * (b - c) * (w j * (t j - (b0 + b * x j)) * x j) + w j * ((b0 - c0) + (b - c) * x j) ^ 2)))) by (intros; ring).
  rewrite !S_plus, !S_scal, H1, H2.
  assert (0 <= Rsum (tabulate n (fun j => w j * ((b0 - c0) + (b - c) * x j) ^ 2))).
  { apply S_nonneg. intros j Hj. apply Rmult_le_pos; [auto|apply pow2_ge_0]. }
  lra.
Qed.

Lemma residual_sums n (w x t : nat -> R) b0 b :
  Rsum (tabulate n (fun j => w j * (t j - (b0 + b * x j)))) =
    Rsum (tabulate n (fun j => w j * t j)) - b0 * Rsum (tabulate n w) - b * Rsum (tabulate n (fun j => w j * x j)) /\
  Rsum (tabulate n (fun j => w j * (t j - (b0 + b * x j)) * x j)) =
    Rsum (tabulate n (fun j => w j * (x j * t j))) - b0 * Rsum (tabulate n (fun j => w j * x j)) - b * Rsum (tabulate n (fun j => w j * (x j * x j))).
Proof.
  split.
  - rewrite (S_ext n _ (fun j => w j * t j + (- b0 * w j + - b * (w j * x j)))) by (intros; ring). rewrite !S_plus, !S_scal. ring.
  - rewrite (S_ext n _ (fun j => w j * (x j * t j) + (- b0 * (w j * x j) + - b * (w j * (x j * x j))))) by (intros; ring). rewrite !S_plus, !S_scal. ring.
Qed.

Lemma normal_equations n (w x t : nat -> R) e :
  (forall j, (j < n)%nat -> 0 <= w j) ->
  let A := Rsum (tabulate n w) in
  let Bx := Rsum (tabulate n (fun j => w j * x j)) in
  let By := Rsum (tabulate n (fun j => w j * t j)) in
  let Bxx := Rsum (tabulate n (fun j => w j * (x j * x j))) in
  let Bxy := Rsum (tabulate n (fun j => w j * (x j * t j))) in
  (if Req_EM_T A 0 then Ok (0, 0) else
   if Req_EM_T (A * Bxx - Bx * Bx) 0 then Ok (By / A, 0) else
   let b := (A * Bxy - Bx * By) / (A * Bxx - Bx * Bx) in Ok ((By - b * Bx) / A, b)) = Ok e ->
  Rsum (tabulate n (fun j => w j * (t j - (fst e + snd e * x j)))) = 0 /\
  Rsum (tabulate n (fun j => w j * (t j - (fst e + snd e * x j)) * x j)) = 0.
Proof.
  intros Hw A Bx By Bxx Bxy HE. destruct (residual_sums n w x t (fst e) (snd e)) as [E1 E2].
  fold A Bx By in E1. fold Bxy Bx Bxx in E2.
  destruct (Req_EM_T A 0) as [HA|HA].
  - pose proof (S_all_zero n w Hw HA) as HZ. split; apply S_zero; intros j Hj; rewrite HZ by auto; ring.
  - rewrite E1, E2. destruct (Req_EM_T (A * Bxx - Bx * Bx) 0) as [HD|HD]; injection HE as <-; cbn [fst snd].
    + split; [field; exact HA|].
      set (m := Bx / A).
      assert (HV : Rsum (tabulate n (fun j => w j * (x j - m) ^ 2)) = 0).
      { rewrite (S_ext n _ (fun j => w j * (x j * x j) + (- (2 * m) * (w j * x j) + m * m * w j))) by (intros; ring).
        rewrite !S_plus, !S_scal. fold A Bx Bxx. replace (Bxx + (- (2 * m) * Bx + m * m * A)) with ((A * Bxx - Bx * Bx) / A) by (unfold m; field; exact HA).
        rewrite HD. field. exact HA. }
      assert (HZ : forall j, (j < n)%nat -> w j * x j = m * w j).
      { intros j Hj. assert (H : w j * (x j - m) ^ 2 = 0).
        { apply (S_all_zero n (fun j => w j * (x j - m) ^ 2)); auto. intros k Hk. apply Rmult_le_pos; [auto|apply pow2_ge_0]. }
        apply Rmult_integral in H as [H|H]; [rewrite H; ring|]. assert (x j - m = 0) by nra. replace (x j) with m by lra. ring. }
      assert (HB : Bxy = m * By).
      { unfold Bxy, By. rewrite <- S_scal. apply S_ext. intros j Hj. replace (w j * (x j * t j)) with (w j * x j * t j) by ring. rewrite HZ by auto. ring. }
      rewrite HB. unfold m. field. exact HA.
    + split; field; auto.
Qed.

Lemma ols_least_squares : least_squares 1 ols_fit ols_predict fst ols_coef.
Proof.
  split; [|intros e Z; reflexivity]. intros i X y w e HX Hy Hw HP HF. split; [reflexivity|]. intros c0 c Hc.
  destruct c as [|c [|? ?]]; try discriminate Hc. unfold ols_fit in HF. rewrite Hy in HF.
  destruct (length X =? 0)%nat eqn:E0; [discriminate HF|].
  assert (Hpos : forall j, (j < length X)%nat -> 0 <= fin (nth j (map Fin w) (Fin 0))).
  { intros j Hj. rewrite (nth_map_in _ _ _ 0) by lia. cbn [fin]. apply (proj1 (Forall_forall _ _) HP). apply nth_In. lia. }
  destruct (normal_equations (length X) (fun j => fin (nth j (map Fin w) (Fin 0))) (fun j => nth 0 (nth j X []) 0) (fun j => nth j y 0) e Hpos HF) as [N1 N2].
  pose proof (normal_minimises (length X) (fun j => fin (nth j (map Fin w) (Fin 0))) (fun j => nth 0 (nth j X []) 0) (fun j => nth j y 0) (fst e) (snd e) c0 c Hpos N1 N2) as HM.
  assert (HR : forall d0 d, weighted_sse X y w d0 [d] =
     Rsum (tabulate (length X) (fun j => fin (nth j (map Fin w) (Fin 0)) * (nth j y 0 - (d0 + d * nth 0 (nth j X []) 0)) ^ 2))).
  { intros d0 d. unfold weighted_sse. apply S_ext. intros j Hj. rewrite (nth_map_in _ _ _ 0) by lia. cbn [fin].
    assert (HL : length (nth j X []) = 1%nat) by (apply (proj1 (Forall_forall _ _) HX); apply nth_In; auto).
    destruct (nth j X []) as [|u [|? ?]]; try discriminate HL. unfold linear. cbn [map2]. rewrite Rsum_cons, Rsum_nil. cbn [nth]. rewrite Rplus_0_r. reflexivity. }
  unfold ols_coef. rewrite !HR. exact HM.
Qed.

Lemma ols_local X y lo W n i : training_set lo W n i <> [] ->
  exists e p, local_model ols_fit X y lo W n i e /\ ols_predict e [nth i X []] = Ok [p].
Proof.
  intros H. unfold local_model, ols_fit, ols_predict. destruct (training_set lo W n i) as [|j T]; [congruence|].
  rewrite !map_length. cbn [length Nat.eqb]. cbv zeta.
  repeat match goal with |- context [if ?d then _ else _] => destruct d end; eexists _, _; split; reflexivity.
Qed.

(** y = 1 + 2 x at 0, 1, 2. *)
Definition ly : list R := [1; 3; 5].
Definition lW : matrix ext := [[Fin 1; Fin 1; Fin 1]; [Fin 1; Fin 1; Fin 1]; [Fin 1; Fin 1; Fin 1]].
Definition fit_line (c : config) (W : matrix ext) v := fit (R * R) ols_fit ols_predict nat first_choice 2 no_wm c [1; 0]%nat 0%nat no_fs (init_state (R * R)) fX ly v (Some (WDense W)).
Definition lcfg : config := cfg true None None None.

Lemma lW_holds : holds (WDense lW) lW 3.
Proof. split; [split; [reflexivity|repeat constructor]|auto]. Qed.
Lemma lW_training : training_set true lW 3 0 = [1%nat; 2%nat] /\ training_set true lW 3 1 = [0%nat; 2%nat] /\ training_set true lW 3 2 = [0%nat; 1%nat].
Proof. unfold training_set, used_weight, mget, lW, eis_zero. cbn [seq filter Nat.eqb andb nth]. rdec. cbn [negb]. auto. Qed.

Lemma fit_line_ok W v : holds (WDense W) W 3 -> (forall i, (i < 3)%nat -> training_set true W 3 i <> []) ->
  o_result (R * R) nat (fit_line lcfg W v) = Ok tt.
Proof.
  intros HH HT. apply (fit_succeeds (R * R) ols_fit ols_predict nat first_choice 2 no_wm _ _ _ _ _ _ _ _ _ (WDense W) W 3 first_choice_valid); auto.
  - left. reflexivity.
  - apply perm_swap.
  - left. reflexivity.
  - split; [apply fX_data; auto|]. split; [exact I|]. split; [intros r Hr; discriminate Hr|]. split; [cbv [num_locations sample_local_rate lcfg cfg]; lia|].
    intros i Hi. cbv [drawn sample_local_rate lcfg cfg] in Hi. simpl in Hi. apply ols_local. apply HT. lia.
Qed.

Lemma lW_nonneg W : (forall i j, mget (Fin 0) W i j = Fin 0 \/ mget (Fin 0) W i j = Fin 1) -> nonnegative_weights W 3.
Proof. intros H i j _ _. destruct (H i j) as [-> | ->]; eexists; (split; [reflexivity|lra]). Qed.
Lemma lW_entries i j : mget (Fin 0) lW i j = Fin 0 \/ mget (Fin 0) lW i j = Fin 1.
Proof. unfold mget, lW. destruct i as [|[|[|[|i]]]]; cbn [nth]; destruct j as [|[|[|[|j]]]]; cbn [nth]; auto. Qed.
Lemma fW_entries i j : mget (Fin 0) fW i j = Fin 0 \/ mget (Fin 0) fW i j = Fin 1.
Proof. unfold mget, fW. destruct i as [|[|[|[|i]]]]; cbn [nth]; destruct j as [|[|[|[|j]]]]; cbn [nth]; auto. Qed.

Lemma line_rel j : (j < 3)%nat -> nth j ly 0 = linear 1 [2] (nth j fX []).
Proof. intros Hj. apply lt3 in Hj as [-> | [-> | ->]]; unfold ly, fX, linear, Rsum; cbn; lra. Qed.

Lemma two_points a b x : a <> b -> affine_combination [[a]; [b]] [x].
Proof.
  intros H. exists [(b - x) / (b - a); (x - a) / (b - a)]. split; [reflexivity|]. split.
  - unfold Rsum. cbn. field. lra.
  - intros [|k]; unfold Rsum; cbn; [field; lra|]. destruct k; cbn; lra.
Qed.

Lemma two_determine a b : a <> b -> determining 1 [[a]; [b]].
Proof.
  intros H c0 c Hc HZ. destruct c as [|c [|? ?]]; try discriminate Hc.
  pose proof (HZ [a] ltac:(left; reflexivity)) as H1. pose proof (HZ [b] ltac:(right; left; reflexivity)) as H2.
  unfold linear, Rsum in H1, H2. cbn in H1, H2. assert (HC : c * (b - a) = 0) by lra.
  apply Rmult_integral in HC as [HC|HC]; [|exfalso; lra]. subst c. split; [lra|reflexivity].
Qed.

Lemma lW_affine x i : (i < 3)%nat -> affine_combination (map (fun j => nth j fX []) (training_set true lW 3 i)) [x].
Proof.
  intros Hi. destruct lW_training as (T0 & T1 & T2). apply lt3 in Hi as [-> | [-> | ->]]; [rewrite T0|rewrite T1|rewrite T2]; cbn [map nth fX]; apply two_points; lra.
Qed.

(** A neighbourhood of one observation. *)
Lemma line_one_neighbour :
  let o := fit_line lcfg fW None in
  o_result (R * R) nat o = Ok tt /\ y_sample_ (R * R) (o_state (R * R) nat o) = Some ly /\
  local_predict_ (R * R) (o_state (R * R) nat o) = Some [3; 3; 3] /\ llocv_score_ (R * R) (o_state (R * R) nat o) = Some (Fin 0).
Proof.
  intros o. destruct fW_training as (T0 & T1 & T2 & _).
  assert (HO : o_result (R * R) nat o = Ok tt).
  { apply fit_line_ok; [apply fW_holds|]. intros i Hi. apply lt3 in Hi as [-> | [-> | ->]]; [rewrite T0|rewrite T1|rewrite T2]; discriminate. }
  assert (HI : in_force no_wm no_fs None (Some (WDense fW)) (WDense fW)) by (left; reflexivity).
  assert (HS : schedule (num_tasks 2 lcfg (num_locations lcfg 3)) [1; 0]%nat) by apply perm_swap.
  assert (HA : aligned lcfg (WDense fW)) by (left; reflexivity).
  destruct (fit_aligned (R * R) ols_fit ols_predict nat first_choice 2 no_wm lcfg [1; 0]%nat 0%nat no_fs (init_state (R * R)) fX ly None (Some (WDense fW)) (WDense fW) fW 3
     first_choice_valid ltac:(lia) eq_refl HI fW_holds HS HA HO)
    as (locs & es & ps & ys & rs & HLo & HE & HP & HY & HR & HSo & HB & HN & Le & Lp & Ly & Lr & HK).
  destruct (fit_score (R * R) ols_fit ols_predict nat first_choice 2 no_wm lcfg [1; 0]%nat 0%nat no_fs (init_state (R * R)) fX ly None (Some (WDense fW)) (WDense fW) fW 3
     first_choice_valid ltac:(lia) eq_refl HI fW_holds HS HO)
    as (ys' & ps' & score & HY' & HP' & HLen & HL2 & HSc & HS1 & _).
  rewrite HY in HY'. rewrite HP in HP'. injection HY' as <-. injection HP' as <-.
  assert (El : locs = seq 0 3) by (apply sorted_all; auto). subst locs. cbn [seq length] in *.
  assert (Eys : ys = ly).
  { apply (list_eq_nth 0); [exact Ly|]. intros k Hk. rewrite Ly in Hk. destruct (HK k Hk) as (-> & _). apply lt3 in Hk as [-> | [-> | ->]]; reflexivity. }
  assert (Eps : ps = [3; 3; 3]).
  { apply (list_eq_nth 0); [exact Lp|]. intros k Hk. rewrite Lp in Hk. destruct (HK k Hk) as (_ & _ & e & HM & HO' & _).
    unfold local_model in HM. apply lt3 in Hk as [-> | [-> | ->]]; cbn [nth] in *; cbn [lcfg cfg leave_local_out] in HM.
    - rewrite T0 in HM. unfold ols_fit, used_weight, mget, fW, fX, ly, tabulate, Rsum in HM. cbn in HM.
      destruct (Req_EM_T (1 + 0) 0) as [E|_]; [exfalso; lra|].
      destruct (Req_EM_T ((1 + 0) * (1 * (1 * 1) + 0) - (1 * 1 + 0) * (1 * 1 + 0)) 0) as [_|E]; [|exfalso; apply E; ring].
      injection HM as <-. unfold ols_predict in HO'. cbn in HO'. injection HO' as HO'. rewrite <- HO'. unfold linear, Rsum. cbn. field.
    - rewrite T1 in HM. unfold ols_fit, used_weight, mget, fW, fX, ly, tabulate, Rsum in HM. cbn in HM.
      destruct (Req_EM_T (1 + (1 + 0)) 0) as [E|_]; [exfalso; lra|].
      match type of HM with context [Req_EM_T ?a 0] => destruct (Req_EM_T a 0) as [E|E] end; [exfalso; lra|].
      injection HM as <-. unfold ols_predict in HO'. cbn in HO'. injection HO' as HO'. rewrite <- HO'. unfold linear, Rsum. cbn. field.
    - rewrite T2 in HM. unfold ols_fit, used_weight, mget, fW, fX, ly, tabulate, Rsum in HM. cbn in HM.
      destruct (Req_EM_T (1 + 0) 0) as [E|_]; [exfalso; lra|].
      destruct (Req_EM_T ((1 + 0) * (1 * (1 * 1) + 0) - (1 * 1 + 0) * (1 * 1 + 0)) 0) as [_|E]; [|exfalso; apply E; ring].
      injection HM as <-. unfold ols_predict in HO'. cbn in HO'. injection HO' as HO'. rewrite <- HO'. unfold linear, Rsum. cbn. field. }
  split; [exact HO|]. split; [rewrite <- Eys; exact HY|]. split; [rewrite <- Eps; exact HP|].
  unfold o, fit_line. rewrite HSc. f_equal. f_equal. rewrite Eys, Eps in HS1. unfold ly, Rsum in HS1. cbn in HS1. rewrite HS1 by lra. field.
Qed.

(** Predictions at the coordinate 2, for a row of 7. *)
Definition trained := fit_line lcfg lW (Some h_pts).
Lemma trained_ok : o_result (R * R) nat trained = Ok tt.
Proof.
  destruct lW_training as (T0 & T1 & T2). apply fit_line_ok; [apply lW_holds|].
  intros i Hi. apply lt3 in Hi as [-> | [-> | ->]]; [rewrite T0|rewrite T1|rewrite T2]; discriminate.
Qed.
Lemma l_dist : p_dist h_pts h_query = Ok (map A2 [ [[2]; [1]; [0]] ]).
Proof. unfold p_dist, distance_matrices. cbn. rabs. repeat f_equal; lra. Qed.
Lemma valid31 a b c : 0 <= a -> 0 <= b -> 0 <= c -> valid_distances [ [[a]; [b]; [c]] ] 3 1.
Proof. intros. split; [discriminate|]. constructor; [|constructor]. split; [split; [reflexivity|repeat constructor]|]. unfold entries. repeat (apply Forall_cons || apply Forall_nil); auto. Qed.
Lemma l_box : boxW [[2]; [1]; [0]] = Ok [[Fin 0]; [Fin 1]; [Fin 1]].
Proof. apply (boxW_ok _ 3 1); [apply valid31; lra|lia|]. box. Qed.
Lemma l_points : weighted_points [[Fin 0]; [Fin 1]; [Fin 1]] 3 0 = [1%nat; 2%nat].
Proof. unfold weighted_points, mget, eis_zero. cbn [seq filter nth]. rdec. reflexivity. Qed.
Lemma trained_data : data_coords (R * R) (o_state (R * R) nat trained) = Some h_pts /\ data_X (R * R) (o_state (R * R) nat trained) = Some fX /\
  data_y (R * R) (o_state (R * R) nat trained) = Some ly.
Proof.
  destruct (fit_inv (R * R) ols_fit ols_predict nat first_choice 2 no_wm _ _ _ _ _ _ _ _ _ trained_ok) as (w1 & g' & locs & preds & es0 & p & score & _ & _ & _ & _ & _ & _ & EE).
  unfold trained, fit_line. rewrite EE. repeat split.
Qed.
Definition refitted := snd (predict_by_fit (R * R) ols_fit ols_predict 2 h_wm lcfg [0; 1]%nat no_fs (o_state (R * R) nat trained) [[7]] (Some h_query) None).
Lemma refitted_ok : exists out, refitted = Ok out.
Proof.
  destruct trained_data as (H1 & H2 & H3).
  pose proof (pbf_spec (R * R) ols_fit ols_predict 2 h_wm lcfg [0; 1]%nat no_fs no_fs (o_state (R * R) nat trained) [[7]] h_query h_pts fX ly [[Fin 0]; [Fin 1]; [Fin 1]] 1 3
    eq_refl ltac:(lia) (Permutation_refl _) H1 H2 H3 (h_weights no_fs _ _ _ _ l_dist l_box) ltac:(split; [reflexivity|repeat constructor]) ltac:(lia) eq_refl eq_refl eq_refl) as HP.
  cbv zeta in HP.
  assert (HE : exists e, ols_fit 0 (map (fun j => nth j fX []) [1%nat; 2%nat]) (map (fun j => nth j ly 0) [1%nat; 2%nat]) [Fin 1; Fin 1] = Ok e).
  { unfold ols_fit. cbn [length map Nat.eqb]. cbv zeta. repeat match goal with |- context [if ?d then _ else _] => destruct d end; eexists; reflexivity. }
  destruct HE as [e HE]. exists [[linear (fst e) [snd e] [7]]]. apply HP. split; [reflexivity|]. intros i Hi. assert (i = 0%nat) by lia. subst i.
  exists e. change (filter _ _) with (weighted_points [[Fin 0]; [Fin 1]; [Fin 1]] 3 0). rewrite l_points. split; [exact HE|reflexivity].
Qed.
