(** Learners that need data, and four observations of which the last is nobody's
    neighbour. *)
From Coq Require Import Lra.
From Verif.Model Require Import Base Ext Csr Neighbour Distance WeightModel NumbaImpl Stacking.
From Verif.Spec Require Import KernelSpec NeighbourSpec WeightModelSpec StackingSpec StackingTotalSpec.
From Verif.Proofs Require Import ListFacts KernelFacts CsrFacts ShrinkFacts NeighbourFacts SampleFacts WeightModelFacts
  NeighbourProps WeightModelProps StackingCsr StackingFacts StackingMeta StackingProps StackingClaims StackingExamples StackingTotal StackingUsual.
Open Scope nat_scope.
Open Scope R_scope.

Definition u_fit (i : nat) (X : matrix R) (y w : list R) : result R := match X with [] => Raise ValueError | _ => Ok (Rsum y) end.
Definition u_predict (e : R) (X : matrix R) : result (list R) := match X with [] => Raise ValueError | _ => Ok (map (ex_row e) X) end.
Definition u_fit_meta (alpha : R) (k : nat) (X : matrix R) (y w : list R) : result R :=
  match X, k with _ :: _, S _ => Ok (Rsum y) | _, _ => Raise ValueError end.
Definition u_predict_meta (m : R) (X : matrix R) : result (list R) := Ok (map (fun row => m + Rsum row) X).

Lemma u_data : needs_data u_fit u_predict.
Proof.
  split; [discriminate|]. split; [intros i [|x X] y w H _ _; [congruence|eexists; reflexivity]|].
  split; [intros e [|x X]; split; [intros [p H]; discriminate|congruence|discriminate|intros _; eexists; reflexivity]|].
  intros e [|x X] p H; [discriminate|]. injection H as <-. cbn. rewrite map_length. reflexivity.
Qed.
Lemma u_design : needs_design u_fit_meta u_predict_meta.
Proof.
  split; [discriminate|]. split; [intros alpha [|x X]; discriminate|].
  split; [intros alpha [|k] [|x X] y w H1 H2 _ _ _; try congruence; try lia; eexists; reflexivity|]. intros m x. eexists. reflexivity.
Qed.

Definition u_W : matrix R := repeat [1; 1; 1; 0] 4.
Definition u_L : matrix bool := [[true; true; false; false]; [false; true; true; false]; [true; false; true; false]; [true; true; false; true]].
Definition u_X : matrix R := [[0]; [1]; [2]; [3]].
Definition u_csr : csr R := csr_of_rows 4 (repeat [(0%nat, 1); (1%nat, 1); (2%nat, 1)] 4).
Definition u_r : runtime := Runtime [0; 1; 2; 3]%nat [3; 2; 1; 0]%nat [1; 0; 2; 3]%nat (repeat [] 4) [1; 0]%nat 7.
Notation u_sfit := (sfit R u_fit u_predict R u_fit_meta u_predict_meta ex_solve nat 0%nat rot_choice 4 ex_wm).

Lemma u_rect : rect u_W 4 4. Proof. split; [reflexivity|repeat constructor]. Qed.
Lemma u_form : csr_form 0 (fun x => Reqb x 0) u_W 4 u_csr.
Proof. unfold csr_form, u_W, u_csr. cbn. rdec. reflexivity. Qed.
Lemma u_runtime : valid_runtime u_r 4 (patches 4 (ex_c None false)).
Proof.
  unfold valid_runtime, schedule. cbn. repeat split.
  - apply Permutation_refl.
  - exact (Permutation_rev [3; 2; 1; 0]%nat).
  - apply perm_swap.
  - intros k' H. injection H as <-. apply perm_swap.
Qed.
Lemma u_sampled g order : sample_neighbour nat 0%nat rot_choice order g u_W (1 / 2) None = Ok (4%nat, u_L).
Proof.
  unfold sample_neighbour, u_W, mmap, positive. cbn [map bind repeat]. rdec.
  cbn [fill_diagonal mapi mapi_from list_set map count_true select nonzero nonzero_from length].
  unfold sample_count. change (count_true [false; true; true; false]) with 2%nat. change (count_true [true; false; true; false]) with 2%nat.
  change (count_true [true; true; false; false]) with 2%nat. change (count_true [true; true; true; false]) with 3%nat.
  rewrite !(Rceil_eq (INR 2 * (1 / 2)) 1) by (simpl; lra). rewrite !(Rceil_eq (INR 3 * (1 / 2)) 2) by (simpl; lra). reflexivity.
Qed.
Lemma u_leave : leave_outs 0%nat rot_choice (ex_c None false) u_W u_L.
Proof. exists (1 / 2), [0; 1; 2; 3]%nat, 0%nat, 4%nat. split; [reflexivity|]. split; [apply Permutation_refl|apply u_sampled]. Qed.

Lemma u_points i : (i < 4)%nat -> base_training 4 u_W u_L i <> [] /\ meta_points 4 u_W i <> [].
Proof.
  intros Hi. destruct i as [|[|[|[|i]]]]; [| | | |lia]; (split; [unfold base_training, u_W, u_L; cbn; rdec; cbn; discriminate|unfold meta_points, u_W; cbn; rdec; cbn; discriminate]).
Qed.

Lemma u_run y0 y1 y2 y3 : so_result R R nat (u_sfit u_r (ex_c None false) 41%nat (fun _ => None) ex_s0 u_X [y0; y1; y2; y3] None (Some (SDense u_W))) = Ok tt.
Proof.
  apply (usual_iff u_fit u_predict u_fit_meta u_predict_meta ex_solve 0%nat rot_choice 4 ex_wm rot_choice_valid u_data u_design u_r (ex_c None false) 41%nat (fun _ => None) ex_s0 u_X
    [y0; y1; y2; y3] None (Some (SDense u_W)) (SDense u_W) u_W).
  - apply u_runtime.
  - apply ex_rates.
  - left. reflexivity.
  - split; [apply u_rect|left; reflexivity].
  - reflexivity.
  - split; [exists 1%nat; split; [split; [reflexivity|repeat constructor]|cbn; lia]|]. split; [intros q H; discriminate|]. split; [cbn; lia|]. split; [intros; discriminate|].
    exists u_L, u_W. split; [apply u_leave|]. split; [reflexivity|]. split; [split; [reflexivity|discriminate]|]. apply u_points.
Qed.
