(** Three observations whose target is the feature plus 5, and base learners that
    find the difference. *)
From Coq Require Import Lra.
From Verif.Model Require Import Base Ext Csr Neighbour Distance WeightModel NumbaImpl Stacking StackingPredict.
From Verif.Spec Require Import KernelSpec NeighbourSpec WeightModelSpec RidgeSpec StackingSpec StackingTotalSpec RidgeMetaSpec.
From Verif.Proofs Require Import ListFacts SumFacts KernelFacts NeighbourProps SolverExists StackingProps StackingClaims StackingExamples StackingTotal StackingUsualNumba
  StackingTotalExamples StackingUnitsExamples RidgeChanges StackingPredictTotal StackingEasy.
Open Scope nat_scope.
Open Scope R_scope.

Definition off_fit (i : nat) (X : matrix R) (y w : list R) : result R :=
  match X with [] => Raise ValueError | x :: _ => Ok (nth 0 y 0 - nth 0 x 0) end.
Definition off_predict (e : R) (X : matrix R) : result (list R) := match X with [] => Raise ValueError | _ => Ok (map (ex_row e) X) end.
Notation off_sfit := (sfit R off_fit off_predict R u_fit_meta u_predict_meta solve_exact nat 0%nat rot_choice 4 ex_wm).
Definition off_y : list R := [5; 6; 7].

Lemma off_data : needs_data off_fit off_predict.
Proof.
  split; [discriminate|]. split; [intros i [|x X] y w H _ _; [congruence|eexists; reflexivity]|].
  split; [intros e [|x X]; split; [intros [p H]; discriminate|congruence|discriminate|intros _; eexists; reflexivity]|].
  intros e [|x X] p H; [discriminate|]. injection H as <-. cbn. rewrite map_length. reflexivity.
Qed.
Lemma off_rowwise : rowwise off_predict ex_row.
Proof. intros e [|x X] p H; [discriminate|injection H as <-; reflexivity]. Qed.
Lemma off_run y : length y = 3%nat ->
  so_result R R nat (off_sfit ex_r (sl_c 10) 41%nat (fun _ => None) ex_s0 ex_X y None (Some (SSparse ex_csr))) = Ok tt.
Proof.
  intros Hy.
  apply (usual_numba_iff off_fit off_predict u_fit_meta u_predict_meta solve_exact 0%nat rot_choice 4 ex_wm rot_choice_valid off_data solve_exact_exact ex_r (sl_c 10) 41%nat (fun _ => None) ex_s0 ex_X
    y None (Some (SSparse ex_csr)) (SSparse ex_csr) ex_W).
  - apply (ex_runtime None true).
  - apply (ex_rates None true).
  - left. reflexivity.
  - split; [apply ex_rect|right; exists ex_csr; split; [reflexivity|apply ex_form]].
  - reflexivity.
  - cbn. lra.
  - apply ex_nonneg.
  - split; [exists 1%nat; rewrite Hy; split; [split; [reflexivity|repeat constructor]|cbn; lia]|]. split; [intros q H; discriminate|]. split; [cbn; lia|]. split; [eexists; reflexivity|].
    exists ex_L, ex_W. split; [apply sl_leave|]. split; [reflexivity|]. apply sl_points.
Qed.

(** The learners are right everywhere; the stacked prediction of the first
    observation, whose target is 5, is 70/11. *)
Lemma off_prediction : exists es ps,
  let s := so_state R R nat (off_sfit ex_r (sl_c 10) 41%nat (fun _ => None) ex_s0 ex_X off_y None (Some (SSparse ex_csr))) in
  ss_base_list R R s = Some es /\ ss_stacking_predict R R s = Some ps /\
  (forall e t, In e es -> (t < 3)%nat -> ex_row e (nth t ex_X []) = nth t off_y 0) /\ nth 0 ps 0 = 70 / 11.
Proof.
  assert (Hone : one_per_row off_predict) by (destruct off_data as (_ & _ & _ & H); exact H).
  destruct (sfit_stacked off_fit off_predict u_fit_meta u_predict_meta solve_exact 0%nat rot_choice 4 ex_wm rot_choice_valid Hone ex_r (sl_c 10) 41%nat (fun _ => None) ex_s0 ex_X off_y
    None (Some (SSparse ex_csr)) (SSparse ex_csr) ex_W (ex_runtime None true) (ex_rates None true)) as (L & W1 & es & ps0 & qs & ps & ses & A1 & A2 & A3 & A5 & _ & A4 & _);
    [left; reflexivity|split; [apply ex_rect|right; exists ex_csr; split; [reflexivity|apply ex_form]]|intros _; apply ex_nonneg|apply off_run; reflexivity|].
  rewrite (leave_outs_unique 0%nat rot_choice (sl_c 10) ex_W L ex_L A1 (sl_leave 10)) in *.
  assert (Hes : forall e t, In e es -> (t < 3)%nat -> ex_row e (nth t ex_X []) = nth t off_y 0).
  { intros e t He Ht. apply In_nth_error in He as [j Hj]. destruct A3 as [(N1 & _) Hb _].
    destruct (Hb _ _ Hj) as (B0 & _). assert (Hjn : (j < 3)%nat).
    { assert (nth_error es j <> None) by congruence. apply nth_error_Some in H. rewrite N1 in H. exact H. }
    unfold base_learner in B0. cbv zeta in B0. assert (E : e = 5).
    { destruct j as [|[|[|j]]]; [| | |lia].
      - assert (T : base_training (length ex_X) ex_W ex_L 0 = [1%nat]) by (unfold base_training, ex_W, ex_L; cbn; rdec; reflexivity).
        rewrite T in B0. cbn in B0. injection B0 as <-. lra.
      - assert (T : base_training (length ex_X) ex_W ex_L 1 = [2%nat]) by (unfold base_training, ex_W, ex_L; cbn; rdec; reflexivity).
        rewrite T in B0. cbn in B0. injection B0 as <-. lra.
      - assert (T : base_training (length ex_X) ex_W ex_L 2 = [0%nat]) by (unfold base_training, ex_W, ex_L; cbn; rdec; reflexivity).
        rewrite T in B0. cbn in B0. injection B0 as <-. lra. }
    subst e. unfold ex_row, off_y. destruct t as [|[|[|t]]]; cbn; lra || lia. }
  exists es, ps. cbv zeta. split; [exact A5|]. split; [exact A4|]. split; [exact Hes|].
  destruct (stacking_copies off_fit off_predict u_fit_meta u_predict_meta solve_exact 0%nat rot_choice 4 ex_wm ex_row ex_r (sl_c 10) 41%nat (fun _ => None) ex_s0 ex_X off_y
    None (Some (SSparse ex_csr)) (SSparse ex_csr) ex_W ex_W 0%nat rot_choice_valid off_rowwise (ex_runtime None true) (ex_rates None true)) as (L' & es' & ps' & B1 & B2 & B3 & _ & _ & B6).
  - left; reflexivity.
  - split; [apply ex_rect|right; exists ex_csr; split; [reflexivity|apply ex_form]].
  - left; reflexivity.
  - exact solve_exact_exact.
  - cbn; lra.
  - intros _. apply ex_nonneg.
  - reflexivity.
  - apply off_run; reflexivity.
  - cbn; lia.
  - cbn; lra.
  - exists 1%nat. cbn. split; [lia|]. split; [lia|lra].
  - rewrite A5 in B2. injection B2 as <-. rewrite A4 in B3. injection B3 as <-.
    rewrite (leave_outs_unique 0%nat rot_choice (sl_c 10) ex_W L' ex_L B1 (sl_leave 10)) in *.
    rewrite (B6 (fun t => nth t off_y 0) Hes).
    assert (TM : meta_points (length ex_X) ex_W 0 = [1%nat; 2%nat]) by (unfold meta_points, ex_W; cbn; rdec; reflexivity).
    rewrite TM. change (length (meta_bases (length ex_X) ex_L 0)) with 2%nat.
    unfold ridge_of_copies, codeviation, mean_over, Rsum, off_y, ex_W, mget. cbn. field.
Qed.

(** A ridge regression as meta estimator, with the exact solver. *)
Definition rr_fit (alpha : R) (q : nat) (X : matrix R) (y w : list R) : result (list R * R) :=
  match X, q with
  | [], _ | _, O => Raise ValueError
  | _, _ => match ridge_cholesky solve_exact q X y alpha w with
            | Ok (c, Fin b) => Ok (c, b)
            | _ => Ok (repeat 0 q, 0)
            end
  end.
Definition rr_predict (m : list R * R) (X : matrix R) : result (list R) :=
  Ok (map (fun x => linear (length (fst m)) (fst m) (snd m) x) X).
Lemma rr_ridge : ridge_regression rr_fit rr_predict.
Proof.
  intros alpha q obs m x p Ha HO HF HP. injection HP as <-.
  destruct (fit_ok solve_exact q solve_exact_exact alpha obs HO Ha) as (c & b & E).
  assert (Em : m = (c, b)).
  { unfold fitO in E. unfold rr_fit in HF. destruct (X_of obs); [discriminate|]. destruct q; [discriminate|]. rewrite E in HF. congruence. }
  subst m. apply (fit_iff solve_exact q solve_exact_exact alpha obs c b HO Ha) in E as [L M]. exists c, b. cbn [fst snd]. rewrite L.
  split; [reflexivity|]. split; [reflexivity|]. intros c' b'. rewrite !objO_eq. apply M.
Qed.
Lemma rr_one : one_per_row rr_predict.
Proof. intros m X p H. injection H as <-. apply map_length. Qed.
Lemma rr_design : needs_design rr_fit rr_predict.
Proof.
  split; [discriminate|]. split; [intros alpha [|x X] y w m; discriminate|]. split.
  - intros alpha [|k] [|x X] y w HX Hk _ _ _; try congruence; try lia. unfold rr_fit.
    destruct (ridge_cholesky _ _ _ _ _ _) as [[c [b| | |]]|]; eexists; reflexivity.
  - intros m x. eexists. reflexivity.
Qed.
Notation rr_spredict := (spredict R off_fit off_predict (list R * R) rr_fit rr_predict 4 ex_wm).
Definition rr_s0 : sstate R (list R * R) :=
  SState R (list R * R) None None None None None false None None None None None None None None None None None None.
Lemma rr_run y Xp : length y = 3%nat -> length Xp = 3%nat ->
  exists out, snd (rr_spredict ex_r (ex_c None false) (fun _ => None) rr_s0 ex_X y [] Xp []) = Ok out.
Proof.
  intros Hy HX.
  apply (spredict_iff off_fit off_predict rr_fit rr_predict 4 ex_wm off_data rr_design ex_r (ex_c None false) (fun _ => None) rr_s0 ex_X y [] Xp [] ex_W ex_W (fun _ => None) (fun _ => None)).
  - reflexivity.
  - reflexivity.
  - apply ex_rect.
  - rewrite HX. apply ex_rect.
  - lia.
  - apply (ex_runtime None false).
  - reflexivity.
  - intros k' H. apply (ex_runtime None false), H.
  - split; [exists 1%nat; rewrite Hy; split; [split; [reflexivity|repeat constructor]|cbn; lia]|]. split; [cbn; lia|]. split; [reflexivity|].
    rewrite HX. cbn [length ex_X]. split; [|split].
    + intros j Hj. destruct j as [|[|[|j]]]; [exists 1%nat|exists 0%nat|exists 0%nat|lia]; (split; [lia|split; [cbn; lra|intros [_ H]; discriminate]]).
    + intros j Hj. exists 0%nat. split; [lia|]. destruct j as [|[|[|j]]]; [cbn; lra..|lia].
    + intros i Hi. exists 0%nat. split; [lia|]. destruct i as [|[|[|i]]]; [cbn; lra..|lia].
Qed.
