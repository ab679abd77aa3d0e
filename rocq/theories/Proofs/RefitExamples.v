(** Concrete cases for C165. *)
From Coq Require Import Lra Lia.
From Verif.Model Require Import Base Ext Csr Neighbour Distance WeightModel NumbaImpl Stacking.
From Verif.Spec Require Import KernelSpec NeighbourSpec WeightModelSpec StackingSpec StackingTotalSpec RefitSpec.
From Verif.Proofs Require Import ListFacts KernelFacts SortFacts ShrinkFacts NeighbourProps StackingProps StackingClaims StackingClaims2 StackingExamples StackingTotal StackingUsual StackingTotalExamples Refit.
Open Scope nat_scope.
Open Scope R_scope.

Definition t_W : matrix R := [[3; 2; 1]; [1; 3; 2]; [2; 1; 3]].
Definition t_W' : matrix R := [[3; 2; 0]; [0; 3; 2]; [2; 0; 3]].
Definition t_c : sconfig := SConfig true None false (Some 4%Z) (Some 2%nat) 10 (Some (1 / 2)) None (Some (1 / 2)) None false.

Lemma t_rates : valid_rates t_c.
Proof. split; [|split]; intros q H; simpl in H; try discriminate; injection H as <-; lra. Qed.
Lemma t_runtime : valid_runtime ex_r 3 (patches 4 t_c).
Proof. exact (ex_runtime None false). Qed.
Lemma t_holds : holds_real (SDense t_W) t_W 3.
Proof. split; [split; [reflexivity|repeat (apply Forall_cons || apply Forall_nil); reflexivity]|left; reflexivity]. Qed.

Lemma t_sampled g order : sample_neighbour nat 0%nat rot_choice order g t_W (1 / 2) None = Ok (3%nat, ex_L).
Proof.
  unfold sample_neighbour, t_W, mmap, positive. cbn [map bind repeat]. rdec.
  cbn [fill_diagonal mapi mapi_from list_set map count_true select nonzero nonzero_from length].
  unfold sample_count. change (count_true [false; true; true]) with 2%nat. change (count_true [true; false; true]) with 2%nat. change (count_true [true; true; false]) with 2%nat.
  rewrite !(Rceil_eq (INR 2 * (1 / 2)) 1) by (simpl; lra). reflexivity.
Qed.
Lemma t_leave : leave_outs 0%nat rot_choice t_c t_W ex_L.
Proof. exists (1 / 2), [0; 1; 2]%nat, 0%nat, 3%nat. split; [reflexivity|]. split; [apply Permutation_refl|apply t_sampled]. Qed.

Lemma t_middle a b c : In 2 [a; b; c] -> count (fun x => Rleb x 2) [a; b; c] = 2%nat -> count (fun x => Rltb x 2) [a; b; c] = 1%nat -> hyndman_fan_7 [a; b; c] (1 / 2) 2.
Proof.
  intros Hin H1 H2. assert (HK : kth_smallest [a; b; c] 2 2) by (split; auto; lia). split; [discriminate|]. cbn [length]. simpl INR. split; [intros H; lra|].
  intros j v w Hj Hh Hv Hw. assert (j = 2%nat) as ->.
  { destruct j as [|[|[|j]]]; simpl in Hh; try lra; try lia. }
  rewrite <- (kth_smallest_unique _ _ _ _ HK Hv). change (INR 2) with (1 + 1). lra.
Qed.
Lemma t_nz : forall x, x <> 0 -> negb (Reqb x 0) = true.
Proof. intros x H. unfold Reqb. destruct (Req_EM_T x 0); auto; congruence. Qed.
Lemma t_cut : shrunk_weights (Some (1 / 2)) t_W t_W'.
Proof.
  split; [lra|]. unfold t_W, t_W'. repeat (apply Forall2_cons || apply Forall2_nil); right; exists 2; cbn [filter]; rewrite !t_nz by lra;
    (split; [apply t_middle; [simpl; auto|unfold count; cbn [filter]; rdec; reflexivity|unfold count; cbn [filter]; rdec; reflexivity]|cbn [map]; rdec; reflexivity]).
Qed.

Lemma t_points i : (i < 3)%nat -> base_training 3 t_W ex_L i <> [] /\ meta_points 3 t_W' i <> [].
Proof.
  intros Hi. destruct i as [|[|[|i]]]; [| | |lia]; (split; [unfold base_training, t_W, ex_L; cbn; rdec; cbn; discriminate|unfold meta_points, t_W'; cbn; rdec; cbn; discriminate]).
Qed.
Notation t_fit := (u_sfit ex_r t_c 41%nat (fun _ => None) ex_s0 ex_X [1; 2; 4] None (Some (SDense t_W))).
Lemma t_run : so_result R R nat t_fit = Ok tt.
Proof.
  apply (usual_iff u_fit u_predict u_fit_meta u_predict_meta ex_solve 0%nat rot_choice 4 ex_wm rot_choice_valid u_data u_design ex_r t_c 41%nat (fun _ => None) ex_s0 ex_X
    [1; 2; 4] None (Some (SDense t_W)) (SDense t_W) t_W).
  - apply t_runtime.
  - apply t_rates.
  - left. reflexivity.
  - apply t_holds.
  - reflexivity.
  - split; [exists 1%nat; split; [split; [reflexivity|repeat constructor]|cbn; lia]|]. split; [intros q H; discriminate|]. split; [cbn; lia|]. split; [intros; discriminate|].
    exists ex_L, t_W'. split; [apply t_leave|]. split; [apply t_cut|]. split; [split; [reflexivity|discriminate]|]. apply t_points.
Qed.
Lemma t_self : self_heaviest t_W 3.
Proof. intros i j Hi Hj. destruct i as [|[|[|i]]]; [| | |lia]; (destruct j as [|[|[|j]]]; [| | |lia]); unfold mget, t_W; simpl; lra. Qed.
Lemma t_distinct : distinct_weights (nth 0 t_W []) /\ num_nonzero (nth 0 t_W []) = 3%nat.
Proof.
  unfold distinct_weights, num_nonzero, t_W. cbn [nth filter]. rewrite !t_nz by lra. split; [|reflexivity].
  repeat constructor; simpl; intros H; repeat destruct H as [H|H]; lra.
Qed.

Notation u_on := (fit_on R u_fit u_predict R u_fit_meta u_predict_meta ex_solve nat 0%nat rot_choice 4 ex_wm).
Notation u_fits := (fits_on R u_fit u_predict R u_fit_meta u_predict_meta ex_solve nat 0%nat rot_choice 4 ex_wm).
Lemma t_once : exists w', holds_real w' t_W' 3 /\ u_on 3 (SDense t_W) w'.
Proof.
  destruct (shrink_overwrites u_fit u_predict u_fit_meta u_predict_meta ex_solve 0%nat rot_choice 4 ex_wm ex_r t_c 41%nat (fun _ => None) ex_s0 ex_X [1; 2; 4] None (SDense t_W) t_W
    rot_choice_valid t_runtime t_rates t_holds t_run) as (W' & w' & H1 & H2 & H3).
  assert (W' = t_W').
  { destruct H1 as [Hq H1]. destruct t_cut as [_ HC]. apply cut_rows in H1; [|lra]. apply cut_rows in HC; [|lra]. congruence. }
  subst W'. exists w'. split; [exact H2|].
  exists ex_r, t_c, 41%nat, (fun _ => None), ex_s0, ex_X, [1; 2; 4], None, (1 / 2). cbv zeta. split; [reflexivity|]. split; [apply t_runtime|]. split; [apply t_rates|].
  split; [reflexivity|]. split; [lra|]. split; [apply t_run|exact H3].
Qed.
Lemma u_one : one_per_row u_predict.
Proof. exact (needs_one u_fit u_predict u_data). Qed.
Lemma t_not_twice w' : u_on 3 (SDense t_W) w' -> forall w'', ~ u_on 3 w' w''.
Proof.
  intros H1 w'' H2. destruct t_distinct as [D1 D2].
  pose proof (fits_on_bounded u_fit u_predict u_fit_meta u_predict_meta ex_solve 0%nat rot_choice 4 ex_wm rot_choice_valid u_one (proj1 u_design) 3 1 (SDense t_W) w'' t_W 0
    (one_more_fit _ _ _ _ _ _ _ _ _ _ _ _ _ 1 _ w' _ (one_more_fit _ _ _ _ _ _ _ _ _ _ _ _ _ 0 _ _ _ (no_fit _ _ _ _ _ _ _ _ _ _ _ _ _ _) H1) H2) t_holds t_self ltac:(lia) D1). lia.
Qed.
