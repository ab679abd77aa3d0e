(** A concrete fit for the locality of stacking: two groups of three observations. *)
From Coq Require Import Lra.
From Verif.Model Require Import Base Ext Csr Neighbour Distance WeightModel NumbaImpl Stacking.
From Verif.Spec Require Import KernelSpec NeighbourSpec WeightModelSpec StackingSpec StackingTotalSpec.
From Verif.Proofs Require Import ListFacts KernelFacts CsrFacts ShrinkFacts NeighbourFacts SampleFacts WeightModelFacts
  NeighbourProps WeightModelProps StackingCsr StackingFacts StackingMeta StackingProps StackingExamples StackingUsual StackingTotalExamples.
Open Scope nat_scope.
Open Scope R_scope.

Definition el_W : matrix R := (repeat [1; 1; 1; 0; 0; 0] 3 ++ repeat [0; 0; 0; 1; 1; 1] 3)%list.
Definition el_r : runtime := Runtime [0; 1; 2; 3; 4; 5]%nat [0; 1; 2; 3; 4; 5]%nat [0; 1; 2; 3; 4; 5]%nat (repeat [] 6) [1; 0]%nat 7.
Definition el_L : matrix bool :=
  [[true; true; false; false; false; false]; [false; true; true; false; false; false]; [true; false; true; false; false; false];
   [false; false; false; true; false; true]; [false; false; false; true; true; false]; [false; false; false; false; true; true]].
Lemma el_rect : rect el_W 6 6. Proof. split; [reflexivity|repeat constructor]. Qed.
Lemma el_runtime rate numba : valid_runtime el_r 6 (patches 4 (ex_c rate numba)).
Proof.
  unfold valid_runtime, schedule. cbn. repeat split; try apply Permutation_refl.
  intros k' H. injection H as <-. apply perm_swap.
Qed.
Lemma el_sampled g order : sample_neighbour nat 0%nat rot_choice order g el_W (1 / 2) None = Ok (6%nat, el_L).
Proof.
  unfold sample_neighbour, el_W, mmap, positive. cbn [map bind repeat app]. rdec.
  cbn [fill_diagonal mapi mapi_from list_set map count_true select nonzero nonzero_from length].
  unfold sample_count. rewrite !(Rceil_eq _ 1) by (simpl; lra). reflexivity.
Qed.
Lemma el_leave : leave_outs 0%nat rot_choice (ex_c None false) el_W el_L.
Proof. exists (1 / 2), [0; 1; 2; 3; 4; 5]%nat, 0%nat, 6%nat. split; [reflexivity|]. split; [apply Permutation_refl|apply el_sampled]. Qed.
Lemma el_points i : (i < 6)%nat -> base_training 6 el_W el_L i <> [] /\ meta_points 6 el_W i <> [].
Proof.
  intros Hi. do 6 (destruct i as [|i]; [split; [unfold base_training, el_W, el_L; cbn; rdec; cbn; discriminate|unfold meta_points, el_W; cbn; rdec; cbn; discriminate]|]). lia.
Qed.
(** Every data set of six observations with two features can be fitted. *)
Lemma el_run X y : rect X 6 2 -> length y = 6%nat ->
  so_result R R nat (u_sfit el_r (ex_c None false) 41%nat (fun _ => None) ex_s0 X y None (Some (SDense el_W))) = Ok tt.
Proof.
  intros HX Hy. assert (En : length X = 6%nat) by apply HX.
  apply (usual_iff u_fit u_predict u_fit_meta u_predict_meta ex_solve 0%nat rot_choice 4 ex_wm rot_choice_valid u_data u_design el_r (ex_c None false) 41%nat (fun _ => None) ex_s0 X
    y None (Some (SDense el_W)) (SDense el_W) el_W).
  - rewrite En. apply el_runtime.
  - apply ex_rates.
  - left. reflexivity.
  - rewrite En. split; [apply el_rect|left; reflexivity].
  - reflexivity.
  - rewrite En. split; [exists 2%nat; rewrite Hy; split; [exact HX|lia]|]. split; [intros q H; discriminate|]. split; [cbn; lia|]. split; [intros; discriminate|].
    exists el_L, el_W. split; [apply el_leave|]. split; [reflexivity|]. split; [split; [reflexivity|discriminate]|]. apply el_points.
Qed.
Lemma el_far k : (k < 6)%nat -> two_steps 6 el_W 0 k -> (k < 3)%nat.
Proof.
  intros Hk [->|(j & Hj & Hp & Hz)]; [lia|].
  assert (Hj3 : (j < 3)%nat).
  { destruct Hp as [->|Hp]; [lia|]. destruct j as [|[|[|j]]]; [lia..|]. exfalso. do 3 (destruct j as [|j]; [cbn in Hp; lra|]). lia. }
  destruct k as [|[|[|k]]]; [lia..|]. exfalso. apply Hz. do 3 (destruct j as [|j]; [do 3 (destruct k as [|k]; [reflexivity|]); lia|]). lia.
Qed.

(** Four observations in a row: the last has no weight for the first, but reaches
    it through the base learner of the second. *)
Definition em_W : matrix R := [[1; 1; 1; 0]; [1; 1; 1; 1]; [1; 1; 1; 1]; [0; 1; 1; 1]].
Definition em_c : sconfig := SConfig true None false (Some 4%Z) (Some 2%nat) 10 (Some (1 / 4)) None None None false.
Definition em_L : matrix bool := [[true; true; false; false]; [false; true; true; false]; [false; false; true; true]; [false; false; true; true]].
Lemma em_sampled g order : sample_neighbour nat 0%nat rot_choice order g em_W (1 / 4) None = Ok (4%nat, em_L).
Proof.
  unfold sample_neighbour, em_W, mmap, positive. cbn [map bind]. rdec.
  cbn [fill_diagonal mapi mapi_from list_set map count_true select nonzero nonzero_from length].
  unfold sample_count. rewrite !(Rceil_eq _ 1) by (simpl; lra). reflexivity.
Qed.
Ltac em_dec := repeat match goal with
  | |- context[Rnonzero 0] => replace (Rnonzero 0) with false by (unfold Rnonzero; rdec; reflexivity)
  | |- context[Rnonzero 1] => replace (Rnonzero 1) with true by (unfold Rnonzero; rdec; reflexivity)
  | |- context[positive 1] => replace (positive 1) with true by (unfold positive; rdec; reflexivity)
  | |- context[positive 0] => replace (positive 0) with false by (unfold positive; rdec; reflexivity)
  end.
Lemma em_run (y0 y1 y2 y3 : R) : let o := ex_sfit u_r em_c 41%nat (fun _ => None) ex_s0 u_X [y0; y1; y2; y3] None (Some (SDense em_W)) in
  so_result R R nat o = Ok tt /\
  exists ps, ss_stacking_predict R R (so_state R R nat o) = Some ps /\ nth 0 ps 0 = Rsum [y1; y2] + Rsum [Rsum [y1; y2] + 0; Rsum [y2; y3] + 0].
Proof.
  cbv zeta. unfold sfit; match goal with |- context[check_X_y ?a ?b] => change (check_X_y a b) with (@Ok unit tt) end; cbv beta iota;
  unfold leave_out_sample; cbn [em_c sc_leave_out_rate sc_leave_out_shrink]. rewrite em_sampled. cbn [bind fst snd];
  unfold sample_locations; cbn [sc_sample_local_rate shrink_w sc_meta_shrink].
  cbn -[Rplus Rmult Rminus Rdiv Rinv Rsum r2_score]. em_dec. cbn -[Rplus Rmult Rminus Rdiv Rinv Rsum r2_score].
  unfold r2_score. split; [reflexivity|]. eexists. split; reflexivity.
Qed.
