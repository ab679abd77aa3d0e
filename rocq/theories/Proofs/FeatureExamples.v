(** Examples for C174. *)
From Coq Require Import Lra Lia Psatz Sorting.Sorted.
From Verif.Model Require Import Base Ext Csr Neighbour Distance WeightModel Inspect PartialDependence.
From Verif.Spec Require Import KernelSpec NeighbourSpec WeightModelSpec LinearSpec InspectSpec LocalImportanceSpec UnitsSpec FeatureUnitsSpec PartialSpec.
From Verif.Proofs Require Import ListFacts SumFacts KernelFacts CsrFacts NeighbourProps WeightModelFacts WeightModelProps FitProps LinearProps FitExamples LinearExamples InspectProps InspectProps2 InspectProps3 InspectProps4 InspectExamples
  PartialGrid PartialProps PartialExamples FeatureUnits FeatureLinear FeatureCurves LinearPredict.
Open Scope string_scope.
Open Scope nat_scope.
Open Scope R_scope.

(** The regression line of one feature, the horizontal line if all values agree. *)
Definition line_fit (c : nat) (X : matrix R) (y : list R) (w : list ext) : result (R * R) :=
  if (length X =? length y)%nat then ols_fit c X y w else Raise ValueError.

Lemma line_overlooks a k : a <> 0 -> overlooks 1 (in_feature_units [(a, k)]) line_fit ols_predict.
Proof.
  intros Ha i X y w e HX He. unfold line_fit in *. rewrite map_length. destruct (Nat.eqb_spec (length X) (length y)) as [HL|HL]; [|discriminate].
  unfold ols_fit in *. destruct (length y =? 0)%nat eqn:E0; [discriminate|]. cbv zeta in *.
  set (n := length y) in *. set (A := Rsum (tabulate n (fun j => fin (nth j w (Fin 0))))) in *.
  set (Bx := Rsum (tabulate n (fun j => fin (nth j w (Fin 0)) * nth 0 (nth j X []) 0))) in *. set (By := Rsum (tabulate n (fun j => fin (nth j w (Fin 0)) * nth j y 0))) in *.
  set (Bxx := Rsum (tabulate n (fun j => fin (nth j w (Fin 0)) * (nth 0 (nth j X []) 0 * nth 0 (nth j X []) 0)))) in *. set (Bxy := Rsum (tabulate n (fun j => fin (nth j w (Fin 0)) * (nth 0 (nth j X []) 0 * nth j y 0)))) in *.
  assert (Hx : forall j, (j < n)%nat -> nth 0 (nth j (map (in_feature_units [(a, k)]) X) []) 0 = a * nth 0 (nth j X []) 0 + k).
  { intros j Hj. rewrite (nth_map_in _ _ _ []) by lia. unfold rows_of in HX. rewrite Forall_forall in HX.
    assert (Hr : length (nth j X []) = 1%nat) by (apply HX, nth_In; lia). destruct (nth j X []) as [|z [|? ?]]; try discriminate Hr. reflexivity. }
  assert (E1 : Rsum (tabulate n (fun j => fin (nth j w (Fin 0)) * nth 0 (nth j (map (in_feature_units [(a, k)]) X) []) 0)) = a * Bx + k * A).
  { unfold Bx, A. rewrite <- !S_scal, <- S_plus. apply S_ext. intros j Hj. rewrite Hx by auto. ring. }
  assert (E2 : Rsum (tabulate n (fun j => fin (nth j w (Fin 0)) * (nth 0 (nth j (map (in_feature_units [(a, k)]) X) []) 0 * nth 0 (nth j (map (in_feature_units [(a, k)]) X) []) 0))) =
    a * a * Bxx + (2 * a * k * Bx + k * k * A)).
  { unfold Bxx, Bx, A. rewrite <- !S_scal, <- !S_plus. apply S_ext. intros j Hj. rewrite Hx by auto. ring. }
  assert (E3 : Rsum (tabulate n (fun j => fin (nth j w (Fin 0)) * (nth 0 (nth j (map (in_feature_units [(a, k)]) X) []) 0 * nth j y 0))) = a * Bxy + k * By).
  { unfold Bxy, By. rewrite <- !S_scal, <- !S_plus. apply S_ext. intros j Hj. rewrite Hx by auto. ring. }
  rewrite E1, E2, E3. clearbody A Bx By Bxx Bxy. clear E1 E2 E3.
  assert (ED : A * (a * a * Bxx + (2 * a * k * Bx + k * k * A)) - (a * Bx + k * A) * (a * Bx + k * A) = a * a * (A * Bxx - Bx * Bx)) by ring. rewrite ED.
  assert (HA : forall p, rows_of 1 p -> forall b0 b c0 c, (forall z, c0 + c * (a * z + k) = b0 + b * z) ->
    map (linear c0 [c]) (map (in_feature_units [(a, k)]) p) = map (linear b0 [b]) p).
  { intros p Hp b0 b c0 c HE. rewrite map_map. apply map_ext_in. intros r Hr. unfold rows_of in Hp. rewrite Forall_forall in Hp. specialize (Hp r Hr).
    destruct r as [|z [|? ?]]; try discriminate Hp. unfold linear, in_feature_units, in_units, Rsum. cbn. specialize (HE z). lra. }
  destruct (Req_EM_T A 0) as [EA|EA].
  - injection He as <-. eexists. split; [reflexivity|]. intros p q Hp Hq. unfold ols_predict in *. cbn [fst snd] in *. injection Hq as <-. apply (f_equal (@Ok _)). apply HA; auto. intros z. ring.
  - destruct (Req_EM_T (A * Bxx - Bx * Bx) 0) as [EX|EX].
    + destruct (Req_EM_T (a * a * (A * Bxx - Bx * Bx)) 0) as [_|N]; [|exfalso; apply N; rewrite EX; ring].
      injection He as <-. eexists. split; [reflexivity|]. intros p q Hp Hq. unfold ols_predict in *. cbn [fst snd] in *. injection Hq as <-. apply (f_equal (@Ok _)). apply HA; auto. intros z. ring.
    + destruct (Req_EM_T (a * a * (A * Bxx - Bx * Bx)) 0) as [N|_]; [exfalso; apply Rmult_integral in N as [N|N]; [apply Rmult_integral in N; tauto|auto]|].
      injection He as <-. eexists. split; [reflexivity|]. intros p q Hp Hq. unfold ols_predict in *. cbn [fst snd] in *. injection Hq as <-. apply (f_equal (@Ok _)). apply HA; auto.
      intros z. field. auto.
Qed.

(** ** Two neighbours, two features: the relation through both with the smallest
    coefficients, as scikit-learn's LinearRegression finds it. *)
Definition norm_fit (c : nat) (X : matrix R) (y : list R) (w : list ext) : result (R * (R * R)) :=
  match X, y with
  | [[a0; a1]; [b0; b1]], [t0; t1] =>
    let d := (b0 - a0) * (b0 - a0) + (b1 - a1) * (b1 - a1) in
    if Req_EM_T d 0 then Raise ValueError
    else let s := (t1 - t0) / d in Ok (t0 - s * ((b0 - a0) * a0 + (b1 - a1) * a1), (s * (b0 - a0), s * (b1 - a1)))
  | _, _ => Raise ValueError
  end.
Definition norm_coef (e : R * (R * R)) : list R := [fst (snd e); snd (snd e)].
Definition norm_predict (e : R * (R * R)) (A : matrix R) : result (list R) := Ok (map (linear (fst e) (norm_coef e)) A).

Lemma norm_least_squares : least_squares 2 norm_fit norm_predict fst norm_coef.
Proof.
  split; [|intros; reflexivity]. intros i X y w e HX Hy Hw HP HF. split; [reflexivity|]. intros c0 c Hc.
  unfold norm_fit in HF. destruct X as [|[|a0 [|a1 [|? ?]]] [|[|b0 [|b1 [|? ?]]] [|? ?]]]; try discriminate HF.
  destruct y as [|t0 [|t1 [|? ?]]]; try discriminate HF. cbv zeta in HF. destruct (Req_EM_T _ 0) as [|Hd]; [discriminate|]. injection HF as <-.
  match goal with |- ?l <= _ => assert (E : l = 0) end.
  { unfold weighted_sse, tabulate, linear, norm_coef, Rsum. cbn. field. exact Hd. }
  rewrite E. unfold weighted_sse. apply Rsum_nonneg. intros z Hz. apply in_tabulate in Hz as (k & Hk & <-). apply Rmult_le_pos; [|apply pow2_ge_0].
  apply (proj1 (Forall_forall _ _) HP), nth_In. lia.
Qed.

Definition n_X (s : R) : matrix R := [[0; 0]; [1; s]; [1; 0]].
Definition n_y : list R := [0; 1; 0].
Definition n_fit (s : R) := fit (R * (R * R)) norm_fit norm_predict nat first_choice 2 no_wm lcfg [1; 0]%nat 0%nat no_fs (init_state (R * (R * R))) (n_X s) n_y None (Some (WDense lW)).
Lemma n_units : map (in_feature_units [(1, 0); (2, 0)]) (n_X 1) = n_X 2.
Proof. unfold n_X, in_feature_units, in_units. cbn. repeat (f_equal; try lra). Qed.

Lemma n_local s i : 0 < s -> (i < 3)%nat ->
  local_model norm_fit (n_X s) n_y true lW 3 i (nth i [(0, (0, 1 / s)); (0, (0, 0)); (0, (1 / (1 + s * s), s / (1 + s * s)))] (0, (0, 0))).
Proof.
  intros Hs Hi. destruct lW_training as (T0 & T1 & T2). unfold local_model.
  assert (0 < s * s) by nra.
  apply lt3 in Hi as [-> | [-> | ->]]; [rewrite T0|rewrite T1|rewrite T2]; cbn [map nth n_X n_y norm_fit]; cbv zeta; destruct (Req_EM_T _ 0) as [E|_]; try (exfalso; nra); apply (f_equal (@Ok _)).
  - f_equal; [field; lra|f_equal; field; lra].
  - f_equal; [field; lra|f_equal; field; lra].
  - f_equal; [field; nra|f_equal; field; nra].
Qed.

Lemma n_ok s : 0 < s -> o_result _ nat (n_fit s) = Ok tt.
Proof.
  intros Hs. apply (fit_succeeds _ norm_fit norm_predict nat first_choice 2 no_wm _ _ _ _ _ _ _ _ _ (WDense lW) lW 3 first_choice_valid); auto using lW_holds.
  - left. reflexivity.
  - apply perm_swap.
  - left. reflexivity.
  - split; [exists 2%nat; simpl; split; [split; [reflexivity|repeat constructor]|lia]|]. split; [exact I|]. split; [intros r Hr; discriminate Hr|]. split; [cbv [num_locations sample_local_rate lcfg cfg]; lia|].
    intros i Hi. cbv [drawn sample_local_rate lcfg cfg] in Hi. apply in_seq in Hi. exists (nth i [(0, (0, 1 / s)); (0, (0, 0)); (0, (1 / (1 + s * s), s / (1 + s * s)))] (0, (0, 0))).
    eexists. split; [apply n_local; [exact Hs|exact (proj2 Hi)]|reflexivity].
Qed.

Lemma n_predicts s : 0 < s -> local_predict_ _ (o_state _ nat (n_fit s)) = Some [0; 0; 1 / (1 + s * s)].
Proof.
  intros Hs.
  assert (HI : in_force no_wm no_fs None (Some (WDense lW)) (WDense lW)) by (left; reflexivity).
  assert (HS : schedule (num_tasks 2 lcfg (num_locations lcfg 3)) [1; 0]%nat) by apply perm_swap.
  assert (HA : aligned lcfg (WDense lW)) by (left; reflexivity).
  destruct (fit_aligned _ norm_fit norm_predict nat first_choice 2 no_wm lcfg [1; 0]%nat 0%nat no_fs (init_state _) (n_X s) n_y None (Some (WDense lW)) (WDense lW) lW 3
     first_choice_valid ltac:(lia) eq_refl HI lW_holds HS HA (n_ok s Hs))
    as (locs & es & ps & ys & rs & HLo & HE & HP & HY & HR & HSo & HB & HN & Le & Lp & Ly & Lr & HK).
  assert (El : locs = seq 0 3) by (apply sorted_all; auto). subst locs. cbn [seq length] in *.
  unfold n_fit. rewrite HP. apply f_equal. apply (list_eq_nth 0); [exact Lp|]. intros k Hk. rewrite Lp in Hk. destruct (HK k Hk) as (_ & _ & e & HM & HO & _).
  assert (Ek : nth k [0%nat; 1%nat; 2%nat] 0%nat = k) by (apply lt3 in Hk as [-> | [-> | ->]]; reflexivity). rewrite Ek in HM, HO.
  pose proof (n_local s k Hs Hk) as HM2. unfold local_model in HM, HM2. cbn [lcfg cfg leave_local_out] in HM. rewrite HM2 in HM. injection HM as <-.
  unfold norm_predict, norm_coef, linear, n_X, Rsum in HO. assert (0 < s * s) by nra.
  apply lt3 in Hk as [-> | [-> | ->]]; cbn in HO |- *; injection HO as HO; rewrite <- HO; field; nra.
Qed.

Lemma unit_dependent : exists est fit_est predict_est intercept coef X y W u s0,
  least_squares 2 fit_est predict_est intercept coef /\ rect X 3 2 /\ nonnegative_weights W 3 /\ length u = 2%nat /\ proper_units u /\
  let F X := fit est fit_est predict_est nat first_choice 2 no_wm lcfg [1; 0]%nat 0%nat no_fs s0 X y None (Some (WDense W)) in
  o_result est nat (F X) = Ok tt /\ o_result est nat (F (map (in_feature_units u) X)) = Ok tt /\
  local_predict_ est (o_state est nat (F X)) = Some [0; 0; 1 / 2] /\
  local_predict_ est (o_state est nat (F (map (in_feature_units u) X))) = Some [0; 0; 1 / 5].
Proof.
  exists (R * (R * R))%type, norm_fit, norm_predict, fst, norm_coef, (n_X 1), n_y, lW, [(1, 0); (2, 0)], (init_state _).
  split; [apply norm_least_squares|]. split; [split; [reflexivity|repeat constructor]|]. split; [apply lW_nonneg, lW_entries|]. split; [reflexivity|].
  split; [constructor; [cbn; lra|constructor; [cbn; lra|constructor]]|]. rewrite n_units. cbv zeta.
  split; [apply (n_ok 1); lra|]. split; [apply (n_ok 2); lra|]. split.
  - refine (eq_trans (n_predicts 1 _) _); [lra|]. repeat f_equal; lra.
  - refine (eq_trans (n_predicts 2 _) _); [lra|]. repeat f_equal; lra.
Qed.

(** ** Three points on a line with their left-out neighbourhoods, regression lines *)
Definition t_X (a b c : R) : matrix R := [[a]; [b]; [c]].
Definition t_fit (a b c : R) := fit (R * R) line_fit ols_predict nat first_choice 2 no_wm lcfg [1; 0]%nat 0%nat no_fs (init_state (R * R)) (t_X a b c) [10; 20; 40] None (Some (WDense fW)).
Notation t_state a b c := (o_state (R * R) nat (t_fit a b c)).
Definition t_es (a b c : R) : list (R * R) := [(20, 0); (10 - 30 / (c - a) * a, 30 / (c - a)); (20, 0)].

Lemma t_local a b c i : a < c -> (i < 3)%nat -> local_model line_fit (t_X a b c) [10; 20; 40] true fW 3 i (nth i (t_es a b c) (0, 0)).
Proof.
  intros Hac Hi. destruct fW_training as (T0 & T1 & T2 & _). unfold local_model, line_fit. rewrite !map_length, Nat.eqb_refl.
  apply lt3 in Hi as [-> | [-> | ->]]; [rewrite T0|rewrite T1|rewrite T2]; unfold ols_fit, used_weight, mget, fW, t_X, t_es, tabulate, Rsum; cbn.
  - destruct (Req_EM_T (1 + 0) 0) as [E|_]; [exfalso; lra|].
    match goal with |- context [Req_EM_T ?x 0] => destruct (Req_EM_T x 0) as [_|E] end; [|exfalso; apply E; ring]. apply (f_equal (@Ok _)). f_equal. field.
  - destruct (Req_EM_T (1 + (1 + 0)) 0) as [E|_]; [exfalso; lra|].
    match goal with |- context [Req_EM_T ?x 0] => destruct (Req_EM_T x 0) as [E|E] end; [exfalso; nra|]. apply (f_equal (@Ok _)). clear E.
    assert (HD : (1 + (1 + 0)) * (1 * (a * a) + (1 * (c * c) + 0)) - (1 * a + (1 * c + 0)) * (1 * a + (1 * c + 0)) = (c - a) * (c - a)) by ring.
    rewrite HD. f_equal; field; lra.
  - destruct (Req_EM_T (1 + 0) 0) as [E|_]; [exfalso; lra|].
    match goal with |- context [Req_EM_T ?x 0] => destruct (Req_EM_T x 0) as [_|E] end; [|exfalso; apply E; ring]. apply (f_equal (@Ok _)). f_equal. field.
Qed.

Lemma t_ok a b c : a < c -> o_result (R * R) nat (t_fit a b c) = Ok tt.
Proof.
  intros Hac. apply (fit_succeeds _ line_fit ols_predict nat first_choice 2 no_wm _ _ _ _ _ _ _ _ _ (WDense fW) fW 3 first_choice_valid); auto using fW_holds.
  - left. reflexivity.
  - apply perm_swap.
  - left. reflexivity.
  - split; [exists 1%nat; simpl; split; [split; [reflexivity|repeat constructor]|lia]|]. split; [exact I|]. split; [intros r Hr; discriminate Hr|]. split; [cbv [num_locations sample_local_rate lcfg cfg]; lia|].
    intros i Hi. cbv [drawn sample_local_rate lcfg cfg] in Hi. apply in_seq in Hi. exists (nth i (t_es a b c) (0, 0)).
    eexists. split; [apply t_local; [exact Hac|exact (proj2 Hi)]|reflexivity].
Qed.

Lemma t_fitted a b c : a < c -> exists score, fitted_model (t_state a b c) (t_X a b c) [10; 20; 40] (t_es a b c) 3 1 score.
Proof.
  intros Hac.
  destruct (fit_fitted (R * R) line_fit ols_predict nat first_choice 2 no_wm lcfg [1; 0]%nat 0%nat no_fs (init_state (R * R)) (t_X a b c) [10; 20; 40] None (Some (WDense fW)) (WDense fW) fW 3 first_choice_valid ltac:(lia) eq_refl (or_introl eq_refl) fW_holds (perm_swap _ _ _) eq_refl eq_refl eq_refl (t_ok a b c Hac))
    as (es & score & F & ps & HM & _ & _ & HK).
  assert (F = 1%nat). { destruct HM as (_ & _ & _ & _ & _ & _ & HM & _). destruct HM as [_ HM]. inversion HM as [|? ? HF]; subst. reflexivity. }
  subst F. assert (HLe : length es = 3%nat) by apply HM. exists score.
  assert (E : es = t_es a b c); [|subst es; exact HM].
  apply (list_eq_nth (0, 0)); [exact HLe|]. intros i Hi. rewrite HLe in Hi. destruct (nth_error es i) as [e|] eqn:Ee; [|apply nth_error_None in Ee; lia].
  destruct (HK i e Ee) as [HM1 _]. pose proof (t_local a b c i Hac Hi) as HM2. unfold local_model in HM1, HM2. cbn [lcfg cfg leave_local_out] in HM1.
  rewrite HM2 in HM1. injection HM1 as E1. rewrite (nth_error_nth _ _ _ Ee). symmetry. exact E1.
Qed.

Lemma t_weights a b c : a < c -> fitted_weights (t_state a b c) fW_left_out 3.
Proof.
  intros Hac. destruct (fit_weight_attributes (R * R) line_fit ols_predict nat first_choice 2 no_wm lcfg [1; 0]%nat 0%nat no_fs (init_state (R * R)) (t_X a b c) [10; 20; 40] None (Some (WDense fW)) fW 3
    (or_introl eq_refl) fW_rect (t_ok a b c Hac)) as (W' & HW & HU).
  assert (W' = fW_left_out); [|subst; exact HW].
  apply (matrix_eq (Fin 0) _ _ 3 3); [apply HW|split; [reflexivity|repeat constructor]|].
  intros i j Hi Hj. rewrite HU by auto. apply lt3 in Hi as [-> | [-> | ->]], Hj as [-> | [-> | ->]]; reflexivity.
Qed.

Definition t_pd := partial_dependence (R * R) (partial_dependence_sk (R * R) ols_predict (fun v => v) default_resolution).
Definition t_curves (a b c : R) : matrix (list R * list R) := [[([b], [20])]; [([a; c], [10; 40])]; [([b], [20])]].

Lemma t_example a b c : a < c -> exists by_feature, t_pd [2; 0; 1]%nat (t_state a b c) = Ok (t_curves a b c, by_feature).
Proof.
  intros Hac. destruct (t_fitted a b c Hac) as [score HM]. destruct i_sets as (E0 & E1 & E2).
  assert (G1 : grid_from_X_sk default_resolution [[b]] 0 = Ok [b]).
  { eapply (small_grid _ 1 1); [split; [reflexivity|repeat constructor]|lia|unfold default_resolution; lia|repeat (constructor; try lra)|intros x; cbn; tauto]. }
  assert (G2 : grid_from_X_sk default_resolution [[a]; [c]] 0 = Ok [a; c]).
  { eapply (small_grid _ 2 1); [split; [reflexivity|repeat constructor]|lia|unfold default_resolution; lia|repeat (constructor; try lra)|intros x; cbn; tauto]. }
  eexists. apply (partial_dependence_ok (R * R) _ _ _ _ _ _ _ _ _ _ _ HM (t_weights a b c Hac) sched3). exists (t_curves a b c). split; [|split; [|reflexivity]].
  - split; [reflexivity|]. intros i e He. assert (Hi : (i < 3)%nat) by (apply nth_error_Some_lt in He; auto).
    apply lt3 in Hi as [-> | [-> | ->]]; injection He as <-; rewrite ?E0, ?E1, ?E2; cbn [map nth t_X].
    + exists [1]. split; [repeat constructor|]. split; [reflexivity|]. intros [|f] Hf; [|lia]; unfold weighted_curve, partial_dependence_sk; rewrite ?G1; eexists; (split; [reflexivity|]); (split; [reflexivity|]); (split; [reflexivity|]); (split; [unfold Rsum; simpl; lra|]); intros [|j] Hj; try (simpl in Hj; lia); split; unfold linear, Rsum; simpl; lra.
    + exists [1; 1]. split; [repeat constructor|]. split; [reflexivity|]. intros [|f] Hf; [|lia]; unfold weighted_curve, partial_dependence_sk; rewrite ?G2; eexists; (split; [reflexivity|]); (split; [reflexivity|]); (split; [reflexivity|]); (split; [unfold Rsum; simpl; lra|]); intros [|[|j]] Hj; try (simpl in Hj; lia); split; unfold linear, Rsum; simpl; first [lra | field; lra].
    + exists [1]. split; [repeat constructor|]. split; [reflexivity|]. intros [|f] Hf; [|lia]; unfold weighted_curve, partial_dependence_sk; rewrite ?G1; eexists; (split; [reflexivity|]); (split; [reflexivity|]); (split; [reflexivity|]); (split; [unfold Rsum; simpl; lra|]); intros [|j] Hj; try (simpl in Hj; lia); split; unfold linear, Rsum; simpl; lra.
  - intros [n Hn]. assert (A : 1%nat = n) by (apply (Hn _ ([b], [20]) (or_introl eq_refl)); left; reflexivity).
    assert (B : 2%nat = n) by (apply (Hn _ ([a; c], [10; 40]) (or_intror (or_introl eq_refl))); left; reflexivity). lia.
Qed.

Lemma t_units : map (in_feature_units [(9 / 5, 32)]) (t_X 0 1 2) = t_X 32 (169 / 5) (178 / 5).
Proof. unfold t_X, in_feature_units, in_units. cbn. repeat (f_equal; try lra). Qed.

(** ** A feature in ever larger units *)
Definition z_fit (X : matrix R) := fit R off_fit m_predict nat first_choice 2 no_wm (cfg false None None None) [1; 0]%nat 0%nat no_fs s_init X [1; 2; 4] None (Some (WDense fOnes)).
Lemma z_fitted X : rect X 3 2 -> (exists es score, fitted_model (o_state R nat (z_fit X)) X [1; 2; 4] es 3 2 score) /\ fitted_weights (o_state R nat (z_fit X)) fOnes 3.
Proof.
  intros HX. assert (Hok : o_result R nat (z_fit X) = Ok tt).
  { apply (fit_succeeds R off_fit m_predict nat first_choice 2 no_wm _ _ _ _ _ _ _ _ _ (WDense fOnes) fOnes 3 first_choice_valid); auto using fOnes_holds; [apply HX|left; reflexivity|apply perm_swap|left; reflexivity|].
    split; [exists 2%nat; simpl; split; [exact HX|lia]|]. split; [exact I|]. split; [intros q Hq; discriminate Hq|]. split; [cbv [num_locations sample_local_rate cfg]; lia|].
    intros i Hi. unfold local_model, off_fit. rewrite map_length.
    cbv [drawn sample_local_rate cfg] in Hi. simpl in Hi.
    unfold training_set, used_weight, mget, fOnes, eis_zero.
    destruct Hi as [<-|[<-|[<-|[]]]]; cbn [seq filter Nat.eqb andb nth cfg leave_local_out]; rdec; cbn [negb length Nat.eqb]; eexists _, _; split; reflexivity. }
  split.
  - destruct (fit_fitted R off_fit m_predict nat first_choice 2 no_wm (cfg false None None None) [1; 0]%nat 0%nat no_fs s_init X [1; 2; 4] None (Some (WDense fOnes)) (WDense fOnes) fOnes 3 first_choice_valid ltac:(lia) (proj1 HX) (or_introl eq_refl) fOnes_holds (perm_swap _ _ _) eq_refl eq_refl eq_refl Hok)
      as (es & score & F & ps & HM & _).
    assert (F = 2%nat). { pose proof HM as (_ & _ & _ & _ & _ & _ & HM2 & _). destruct HX as [LX HX]. destruct HM2 as [_ HM2]. destruct X; [discriminate LX|]. inversion HX; inversion HM2; congruence. }
    subst F. exists es, score. exact HM.
  - destruct (fit_weight_attributes R off_fit m_predict nat first_choice 2 no_wm (cfg false None None None) [1; 0]%nat 0%nat no_fs s_init X [1; 2; 4] None (Some (WDense fOnes)) fOnes 3
      (or_introl eq_refl) fOnes_rect Hok) as (W' & HW & HU).
    assert (W' = fOnes); [|subst; exact HW].
    apply (matrix_eq (Fin 0) _ _ 3 3); [apply HW|split; [reflexivity|repeat constructor]|].
    intros i j Hi Hj. rewrite HU by auto. apply lt3 in Hi as [-> | [-> | ->]], Hj as [-> | [-> | ->]]; reflexivity.
Qed.
Lemma z_distinct : length (nodup Req_EM_T (values_of (map (fun j => nth j m_X []) (positive_set fOnes 3 0)) 0)) = 3%nat.
Proof. destruct o_example as (_ & _ & HD). apply (HD 0%nat 0%nat); lia. Qed.
