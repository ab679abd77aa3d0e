(** Property C165: several stacking fits on one weight matrix. *)
From Coq Require Import Lra.
From Verif.Model Require Import Base Ext Csr Neighbour Distance WeightModel NumbaImpl Stacking.
From Verif.Spec Require Import KernelSpec NeighbourSpec WeightModelSpec StackingSpec StackingTotalSpec RefitSpec.
From Verif.Proofs Require Import NeighbourProps StackingExamples StackingTotalExamples Refit RefitExamples.
Open Scope nat_scope.
Open Scope R_scope.

(** C165: whatever models were fitted to whatever data, [k] fits with positive
    meta_fitting_shrink_rate on the same matrix leave in every row some of its weights,
    among them the largest; if the weights of the row are distinct, at least one was lost
    in each fit, until one is left. *)
Theorem C165_every_fit_thins :
  forall est meta fit_est predict_est fit_meta predict_meta solve G seed0 choice cpu wm,
  valid_choice choice -> forall n k w w' W,
  fits_on est fit_est predict_est meta fit_meta predict_meta solve G seed0 choice cpu wm n k w w' -> holds_real w W n ->
  exists W', holds_real w' W' n /\ forall i, (i < n)%nat -> thinned k (nth i W []) (nth i W' []).
Proof. intros est meta fe pe fm pm so G sd ch cpu wm; exact (fits_on_thin fe pe fm pm so sd ch cpu wm). Qed.
Print Assumptions C165_every_fit_thins.

(** C165: if every observation is its own heaviest neighbour, as with all the kernels, a
    row of [m] distinct weights allows at most [m - 2] successful fits.  The meta learner
    is one that rejects empty training sets, or the numba ridge. *)
Theorem C165_number_of_fits :
  forall est meta fit_est predict_est fit_meta predict_meta solve G seed0 choice cpu wm,
  valid_choice choice -> one_per_row predict_est -> (forall alpha k y w (m : meta), fit_meta alpha k [] y w <> Ok m) ->
  forall n k w w' W i,
  fits_on est fit_est predict_est meta fit_meta predict_meta solve G seed0 choice cpu wm n (S k) w w' -> holds_real w W n ->
  self_heaviest W n -> (i < n)%nat -> distinct_weights (nth i W []) -> (S k + 2 <= num_nonzero (nth i W []))%nat.
Proof. intros est meta fe pe fm pm so G sd ch cpu wm; exact (fits_on_bounded fe pe fm pm so sd ch cpu wm). Qed.
Print Assumptions C165_number_of_fits.

(** C165: so a fit that succeeded need not be repeatable on the same weight matrix: here
    the first succeeds and no second one does, for any data. *)
Theorem C165_repeatable_refuted :
  exists W w', holds_real (SDense W) W 3 /\ fit_on R u_fit u_predict R u_fit_meta u_predict_meta ex_solve nat 0%nat rot_choice 4 ex_wm 3 (SDense W) w' /\
  forall w'', ~ fit_on R u_fit u_predict R u_fit_meta u_predict_meta ex_solve nat 0%nat rot_choice 4 ex_wm 3 w' w''.
Proof. exists t_W. destruct t_once as (w' & _ & H). exists w'. split; [exact t_holds|]. split; [exact H|]. exact (t_not_twice w' H). Qed.
Print Assumptions C165_repeatable_refuted.

(** C165: with rate 1 only the largest weights stay, and later fits change nothing. *)
Theorem C165_rate_one : forall W W' W'',
  shrunk_weights (Some 1) W W' -> shrunk_weights (Some 1) W' W'' -> W'' = W'.
Proof. exact cut_one_again. Qed.
Print Assumptions C165_rate_one.

(** Three observations, each its own heaviest neighbour, with three distinct weights. *)
Example C165_example : valid_choice rot_choice /\ one_per_row u_predict /\ (forall alpha k y w (m : R), u_fit_meta alpha k [] y w <> Ok m) /\
  self_heaviest t_W 3 /\ distinct_weights (nth 0 t_W []) /\ num_nonzero (nth 0 t_W []) = 3%nat /\
  exists w', holds_real w' t_W' 3 /\ fit_on R u_fit u_predict R u_fit_meta u_predict_meta ex_solve nat 0%nat rot_choice 4 ex_wm 3 (SDense t_W) w'.
Proof.
  split; [exact rot_choice_valid|]. split; [exact u_one|]. split; [exact (proj1 u_design)|]. split; [exact t_self|].
  split; [exact (proj1 t_distinct)|]. split; [exact (proj2 t_distinct)|exact t_once].
Qed.
