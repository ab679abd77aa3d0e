(** Property C161: sequences of calls on a stacking model. *)
From Coq Require Import Lra.
From Verif.Model Require Import Base Ext Csr Neighbour Distance WeightModel NumbaImpl Stacking StackingPredict StackingHistory.
From Verif.Spec Require Import KernelSpec NeighbourSpec StackingSpec StackingHistorySpec.
From Verif.Proofs Require Import StackingExamples StackingHistoryProps.
Open Scope string_scope.
Open Scope nat_scope.
Open Scope R_scope.

(** C161: whatever was called on a stacking model before, successful or not, fitting it
    returns or raises, draws, writes files and changes the caller's weight matrix as
    fitting a new object does, and a successful fit leaves the same model.  The cached
    data, the two matrices and stacking_scores_ agree when this fit assigns them. *)
Theorem C161_refit_is_fit :
  forall est fit_est predict_est meta fit_meta predict_meta solve G seed0 choice cpu wm r c history flag flag' g0 fs0 g fs X y v given,
  let new := new_stacking est meta in
  let fit := sfit est fit_est predict_est meta fit_meta predict_meta solve G seed0 choice cpu wm r c g fs in
  let used := sw_state est meta G (srun est fit_est predict_est meta fit_meta predict_meta solve G seed0 choice cpu wm c (SWorld est meta G (new flag) g0 fs0) history) in
  let o := fit used X y v given in
  let o' := fit (new flag') X y v given in
  so_result est meta G o = so_result est meta G o' /\ so_weights est meta G o = so_weights est meta G o' /\
  so_gen est meta G o = so_gen est meta G o' /\ so_fs est meta G o = so_fs est meta G o' /\
  (so_result est meta G o = Ok tt ->
    let a := so_state est meta G o in
    let b := so_state est meta G o' in
    same_stacking a b /\
    (sc_cache_data c = true -> ss_X est meta a = ss_X est meta b /\ ss_y est meta a = ss_y est meta b) /\
    (given = None -> ss_weight_matrix est meta a = ss_weight_matrix est meta b /\
                     ss_neighbour_matrix est meta a = ss_neighbour_matrix est meta b) /\
    (sc_use_numba c = true -> ss_stacking_scores est meta a = ss_stacking_scores est meta b)).
Proof. intros. apply refit. Qed.
Print Assumptions C161_refit_is_fit.

(** C161: predictions do not depend on what was called before either: the object is
    only written to. *)
Theorem C161_predict_forgets :
  forall est fit_est predict_est meta fit_meta predict_meta cpu wm r c fs (s s' : sstate est meta) X y v Xp vp,
  let run s := spredict est fit_est predict_est meta fit_meta predict_meta cpu wm r c fs s X y v Xp vp in
  snd (run s) = snd (run s') /\ snd (fst (run s)) = snd (fst (run s')).
Proof. intros. destruct (spredict_forgets est fit_est predict_est meta fit_meta predict_meta cpu wm r c fs s s' X y v Xp vp) as (A & B & _). split; assumption. Qed.
Print Assumptions C161_predict_forgets.

(** C161: relied on: after a fit the attributes describe that fit.  False: a fit with a
    given weight matrix keeps weight_matrix_ and neighbour_matrix_ of an earlier call, a
    fit without numba keeps stacking_scores_, and one without cache_data keeps the
    earlier data. *)
Theorem C161_attributes_of_the_fit_refuted :
  forall est fit_est predict_est meta fit_meta predict_meta solve G seed0 choice cpu wm r c g fs s X y v given,
  let a := so_state est meta G (sfit est fit_est predict_est meta fit_meta predict_meta solve G seed0 choice cpu wm r c g fs s X y v given) in
  (given <> None -> ss_weight_matrix est meta a = ss_weight_matrix est meta s /\ ss_neighbour_matrix est meta a = ss_neighbour_matrix est meta s) /\
  (sc_use_numba c = false -> ss_stacking_scores est meta a = ss_stacking_scores est meta s) /\
  (sc_cache_data c = false -> ss_X est meta a = ss_X est meta s /\ ss_y est meta a = ss_y est meta s).
Proof.
  intros. destruct (sfit_keeps est fit_est predict_est meta fit_meta predict_meta solve G seed0 choice cpu wm r c g fs s X y v given) as (A & B & C & _).
  split; [exact A|]. split; [exact B|exact C].
Qed.
Print Assumptions C161_attributes_of_the_fit_refuted.

(** C161: relied on: the cache_estimator given to the constructor is in force for every
    fit.  False: after a fit that failed before its base learners were stored it is True
    for good, whatever is called afterwards. *)
Theorem C161_failed_fit_sets_cache_estimator :
  forall est fit_est predict_est meta fit_meta predict_meta solve G seed0 choice cpu wm r c g fs flag X y v given later,
  check_X_y X y = Ok tt -> (v <> None \/ given <> None) ->
  let o := sfit est fit_est predict_est meta fit_meta predict_meta solve G seed0 choice cpu wm r c g fs (new_stacking est meta flag) X y v given in
  ss_base_list est meta (so_state est meta G o) = None ->
  let after := srun est fit_est predict_est meta fit_meta predict_meta solve G seed0 choice cpu wm c (SWorld est meta G (so_state est meta G o) (so_gen est meta G o) (so_fs est meta G o)) later in
  ss_cache_estimator est meta (sw_state est meta G after) = true.
Proof. intros. apply failed_flag; assumption. Qed.
Print Assumptions C161_failed_fit_sets_cache_estimator.

(** A fit from coordinates, then one with a given sparse matrix: both succeed, and
    weight_matrix_ is still the dense matrix of the first. *)
Example C161_example :
  let w := srun R ex_fit ex_predict R ex_fit_meta ex_predict_meta ex_solve nat 0%nat rot_choice 4 ex_wm (ex_c None false)
             (SWorld R R nat (new_stacking R R false) 41%nat (fun _ => None)) [SFit ex_r ex_X [1; 2; 4] (Some []) None] in
  let o := ex_sfit ex_r (ex_c None false) 41%nat (fun _ => None) (sw_state R R nat w) ex_X [1; 2; 4] None (Some (SSparse ex_csr)) in
  let o' := ex_sfit ex_r (ex_c None false) 41%nat (fun _ => None) (new_stacking R R false) ex_X [1; 2; 4] None (Some (SSparse ex_csr)) in
  so_result R R nat o = Ok tt /\
  ss_weight_matrix R R (so_state R R nat o) = Some (SDense ex_W) /\ ss_weight_matrix R R (so_state R R nat o') = None.
Proof.
  cbv zeta. split; [|split].
  - destruct (refit R ex_fit ex_predict R ex_fit_meta ex_predict_meta ex_solve nat 0%nat rot_choice 4 ex_wm ex_r (ex_c None false)
      [SFit ex_r ex_X [1; 2; 4] (Some []) None] (new_stacking R R false) 41%nat (fun _ => None) 41%nat (fun _ => None) ex_X [1; 2; 4] None (Some (SSparse ex_csr)) ex_s0) as (E & _).
    etransitivity; [exact E|]. exact (ex_run_csr 1 2 4 false).
  - etransitivity; [apply C161_attributes_of_the_fit_refuted; discriminate|].
    unfold srun, fold_left, do_scall. cbn [sw_state].
    destruct (StackingProps.sfit_inv ex_fit ex_predict ex_fit_meta ex_predict_meta ex_solve 0%nat rot_choice 4 ex_wm ex_r (ex_c None false) 41%nat (fun _ => None) ex_s0 ex_X [1; 2; 4] (Some []) None (ex_run_coords 1 2 4)) as (x1 & x2 & x3 & x4 & x5 & x6 & x7 & x8 & x9 & x10 & x11 & x12 & x13 & x14 & x15 & x16 & x17 & HI).
    cbv zeta in HI. decompose [and] HI. match goal with H : None = None -> _ |- _ => destruct (H eq_refl) as [E _] end.
    etransitivity; [exact E|].
    match goal with H : shrink_w _ _ _ = _ |- _ => cbn in H; injection H as <- end.
    match goal with H : real_weights _ _ _ _ _ |- _ => rename H into HW end.
    unfold real_weights in HW. cbn in HW. destruct HW as [HW|(_ & v & _ & HW)]; [discriminate|]. injection HW as <-. reflexivity.
  - etransitivity; [apply C161_attributes_of_the_fit_refuted; discriminate|]. reflexivity.
Qed.
(** A first fit without neighbour_leave_out_rate. *)
Example C161_example_flag :
  let c := SConfig true None false None None 10 None None None None false in
  let o := ex_sfit ex_r c 41%nat (fun _ => None) (new_stacking R R false) ex_X [1; 2; 4] None (Some (SDense ex_W)) in
  check_X_y ex_X [1; 2; 4] = Ok tt /\ ss_base_list R R (so_state R R nat o) = None.
Proof. split; reflexivity. Qed.
