(** Property C151: stacking and the unit of the target. *)
From Coq Require Import Lra.
From Verif.Model Require Import Base Ext Csr Neighbour Distance WeightModel NumbaImpl Stacking.
From Verif.Spec Require Import KernelSpec NeighbourSpec RidgeSpec StackingSpec UnitsSpec.
From Verif.Proofs Require Import NeighbourProps SolverExists StackingExamples StackingTotalExamples StackingUnits StackingUnitsExamples.
Open Scope string_scope.
Open Scope nat_scope.
Open Scope R_scope.

(** C151: two fits, the second to the target in another unit with the penalty
    [alpha] multiplied by the square of the factor. *)
Theorem C151_penalty_in_square_units :
  forall est meta fit_est predict_est fit_meta predict_meta solve (f : est -> list R -> R),
  rowwise predict_est f -> (forall e x, exists p, predict_est e [x] = Ok p) ->
  forall a k, a <> 0 -> follows_units fit_est predict_est a k ->
  forall G seed0 choice cpu wm r r' c g g' fs s0 s0' X y coords given w W W' i,
  let n := List.length X in
  let c' := with_alpha c (a * a * sc_alpha c) in
  let FIT := sfit est fit_est predict_est meta fit_meta predict_meta solve G seed0 choice cpu wm in
  let o := FIT r c g fs s0 X y coords given in
  let o' := FIT r' c' g' fs s0' X (map (in_units a k) y) coords given in
  valid_choice choice -> valid_runtime r n (patches cpu c) -> valid_runtime r' n (patches cpu c) ->
  valid_rates c -> real_weights wm fs coords given w -> holds_real w W n -> all_bases_used c w ->
  shrunk_weights (sc_meta_shrink c) W W' ->
  (if sc_use_numba c
   then exact_solver solve /\ 0 < sc_alpha c /\ (exists t, (t < n)%nat /\ t <> i /\ 0 < mget 0 W' i t) /\
        forall u v, (u < n)%nat -> (v < n)%nat -> 0 <= mget 0 W u v
   else meta_follows_units fit_meta predict_meta a k) ->
  so_result est meta G o = Ok tt -> so_result est meta G o' = Ok tt ->
  (i < n)%nat -> 0 < mget 0 W' i i ->
  exists ps ps', ss_stacking_predict est meta (so_state est meta G o) = Some ps /\
    ss_stacking_predict est meta (so_state est meta G o') = Some ps' /\ List.length ps = n /\ List.length ps' = n /\
    nth i ps' 0 = in_units a k (nth i ps 0).
Proof.
  intros est meta fe pe fm pm so f Hf Hp a k Ha Hfu G sd ch cpu wm; exact (stacking_units fe pe fm pm so f Hf Hp a k Ha Hfu sd ch cpu wm).
Qed.
Print Assumptions C151_penalty_in_square_units.

(** With the same penalty it is false: doubling the target [0; 0; 1] does not
    double the stacked prediction at the first observation. *)
Theorem C151_same_penalty_refuted :
  exists y, follows_units u_fit sl_predict 2 0 /\
  let o := sl_sfit ex_r (sl_c 10) 41%nat (fun _ => None) ex_s0 ex_X y None (Some (SSparse ex_csr)) in
  let o' := sl_sfit ex_r (sl_c 10) 41%nat (fun _ => None) ex_s0 ex_X (map (in_units 2 0) y) None (Some (SSparse ex_csr)) in
  so_result R R nat o = Ok tt /\ so_result R R nat o' = Ok tt /\
  exists ps ps', ss_stacking_predict R R (so_state R R nat o) = Some ps /\
    ss_stacking_predict R R (so_state R R nat o') = Some ps' /\ nth 0 ps 0 = 3 / 7 /\ nth 0 ps' 0 = 1 / 2.
Proof.
  exists [0; 0; 1]. split; [apply sl_follows|]. cbv zeta.
  replace (map (in_units 2 0) [0; 0; 1]) with [0; 0; 2] by (unfold in_units; cbn; repeat (f_equal; try lra)).
  split; [apply sl_run; [lra|reflexivity]|]. split; [apply sl_run; [lra|reflexivity]|].
  destruct (sl_prediction 10 1) as (ps & P1 & P2); [lra|]. destruct (sl_prediction 10 2) as (ps' & Q1 & Q2); [lra|].
  exists ps, ps'. split; [exact P1|]. split; [exact Q1|]. split; [rewrite P2|rewrite Q2]; field.
Qed.
Print Assumptions C151_same_penalty_refuted.

(** The hypotheses are met by the same fits with penalties 10 and 2 * 2 * 10. *)
Example C151_example : rowwise sl_predict sl_row /\ (forall e x, exists p, sl_predict e [x] = Ok p) /\ follows_units u_fit sl_predict 2 0 /\
  exact_solver solve_exact /\ holds_real (SSparse ex_csr) ex_W 3 /\ all_bases_used (sl_c 10) (SSparse ex_csr) /\
  so_result R R nat (sl_sfit ex_r (sl_c 10) 41%nat (fun _ => None) ex_s0 ex_X [0; 0; 1] None (Some (SSparse ex_csr))) = Ok tt /\
  so_result R R nat (sl_sfit ex_r (with_alpha (sl_c 10) (2 * 2 * 10)) 41%nat (fun _ => None) ex_s0 ex_X [0; 0; 2] None (Some (SSparse ex_csr))) = Ok tt.
Proof.
  split; [exact sl_rowwise|]. split; [exact sl_one|]. split; [apply sl_follows|]. split; [exact solve_exact_exact|].
  split; [split; [apply ex_rect|right; exists ex_csr; split; [reflexivity|apply ex_form]]|]. split; [left; reflexivity|].
  split; [apply sl_run; [lra|reflexivity]|]. change (with_alpha (sl_c 10) (2 * 2 * 10)) with (sl_c (2 * 2 * 10)). apply sl_run; [lra|reflexivity].
Qed.
