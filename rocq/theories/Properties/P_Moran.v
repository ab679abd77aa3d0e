(** Properties C71-C74, C97-C100, C119: Moran statistics. *)
From Coq Require Import Lra Lia Permutation.
From Verif.Model Require Import Base Ext Moran.
From Verif.Spec Require Import MoranSpec.
From Verif.Proofs Require Import MoranFacts MoranProps MoranMoments MoranRandom MoranExamples MoranDiagram.
Open Scope nat_scope.
Open Scope R_scope.

(** C71 *)
Theorem C71_same_I_and_expectation :
  forall cdf y w, varies y -> usable w (length y) ->
  exists V V' p,
    spatiotemporal_MI y w = Ok (Fin (moran_I y (by_column w (length y))), Fin (-1 / (INR (length y) - 1)), V) /\
    STMI cdf y w = Ok (Fin (moran_I y (by_column w (length y))), Fin (-1 / (INR (length y) - 1)), V', p).
Proof. exact same_global. Qed.
Print Assumptions C71_same_I_and_expectation.

Theorem C71_affine_I :
  forall cdf a b y w, a <> 0 -> varies y -> usable w (length y) ->
  let y' := map (fun t => a * t + b) y in
  exists I E V V' U U' p p', spatiotemporal_MI y w = Ok (I, E, V) /\ spatiotemporal_MI y' w = Ok (I, E, V') /\
    STMI cdf y w = Ok (I, E, U, p) /\ STMI cdf y' w = Ok (I, E, U', p').
Proof. exact affine_I. Qed.
Print Assumptions C71_affine_I.

Theorem C71_affine_everything :
  forall cdf a b y w, a <> 0 -> varies y -> usable w (length y) -> (4 <= length y)%nat ->
  let y' := map (fun t => a * t + b) y in
  spatiotemporal_MI y' w = spatiotemporal_MI y w /\ STMI cdf y' w = STMI cdf y w /\ spatiotemporal_LMI y' w = spatiotemporal_LMI y w.
Proof. exact affine_invariant. Qed.
Print Assumptions C71_affine_everything.

Example C71_example : varies y4 /\ usable ring4 (length y4) /\ usable line4 (length y4) /\ (4 <= length y4)%nat.
Proof. exact (conj y4_varies (conj ring4_usable (conj line4_usable (le_n 4)))). Qed.

(** C72 *)
Theorem C72_local_values_sum_to_global :
  forall y w, varies y -> usable w (length y) ->
  exists ls V, spatiotemporal_LMI y w = Ok (map Fin ls) /\ length ls = length y /\
    spatiotemporal_MI y w = Ok (Fin (moran_I y (by_column w (length y))), Fin (-1 / (INR (length y) - 1)), V) /\
    Rsum ls = S0 (length y) (by_column w (length y)) * moran_I y (by_column w (length y)).
Proof. exact LMI_sum. Qed.
Print Assumptions C72_local_values_sum_to_global.

Example C72_example : varies y4 /\ usable line4 (length y4).
Proof. exact (conj y4_varies line4_usable). Qed.

(** C73: column [j] is divided by the sum of row [j]. *)
Theorem C73_column_scaling :
  forall y w, varies y -> usable w (length y) ->
  spatiotemporal_LMI y w = Ok (map (fun i => Fin (local_moran y (by_column w (length y)) i)) (seq 0 (length y))).
Proof. exact LMI_local. Qed.
Print Assumptions C73_column_scaling.

Theorem C73_row_standardised_when_rows_have_equal_sums :
  forall cdf y w s, varies y -> usable w (length y) -> (forall i, (i < length y)%nat -> row_sum w (length y) i = s) ->
  (exists E V p, STMI cdf y w = Ok (Fin (moran_I y (by_row w (length y))), E, V, p)) /\
  spatiotemporal_LMI y w = Ok (map (fun i => Fin (local_moran y (by_row w (length y)) i)) (seq 0 (length y))).
Proof. exact equal_rows_ok. Qed.
Print Assumptions C73_row_standardised_when_rows_have_equal_sums.

Theorem C73_symmetric_weights_global :
  forall cdf y w, varies y -> rect w (length y) (length y) -> symmetric w (length y) ->
  (forall i, (i < length y)%nat -> row_sum w (length y) i <> 0) -> (4 <= length y)%nat ->
  exists E p, STMI cdf y w = Ok (Fin (moran_I y (by_row w (length y))), E, Fin (randomisation_variance (length y) (by_row w (length y)) (kurtosis y)), p).
Proof. exact symmetric_ok. Qed.
Print Assumptions C73_symmetric_weights_global.

(** Even for symmetric weights the local values are not the row-standardised ones;
    for other weights the global value is not either. *)
Theorem C73_row_standardisation_refuted :
  (symmetric w2s 2 /\ usable w2s 2 /\ varies y2 /\ local_moran y2 (by_column w2s 2) 0 <> local_moran y2 (by_row w2s 2) 0) /\
  (usable w2a 2 /\ moran_I y2 (by_column w2a 2) <> moran_I y2 (by_row w2a 2)).
Proof.
  repeat split; try exact w2s_usable; try exact w2a_usable; try exact y2_varies; try exact rows_refuted_local; try exact rows_refuted_global;
    try apply w2s_usable; try apply w2a_usable.
  intros i j Hi Hj. destruct i as [|[|i]]; destruct j as [|[|j]]; try lia; reflexivity.
Qed.
Print Assumptions C73_row_standardisation_refuted.

Example C73_example : (forall i, (i < 4)%nat -> row_sum ring4 4 i = 2) /\ symmetric line4 4.
Proof. exact (conj ring4_rows line4_sym). Qed.

(** C74: only STMI uses the kurtosis; spatiotemporal_MI uses kurtosis / n. *)
Theorem C74_the_two_variances :
  forall cdf y w, varies y -> usable w (length y) -> (4 <= length y)%nat ->
  let n := length y in let v := by_column w n in let x := INR n in
  exists I E V V' p, spatiotemporal_MI y w = Ok (I, E, Fin V) /\ STMI cdf y w = Ok (I, E, Fin V', p) /\
    V' = randomisation_variance n v (kurtosis y) /\ V = randomisation_variance n v (kurtosis y / x) /\
    V - V' = (kurtosis y - kurtosis y / x) * ((x ^ 2 - x) * S1 n v - 2 * x * S2 n v + 6 * S0 n v ^ 2) / ((x - 1) * (x - 2) * (x - 3) * S0 n v ^ 2) /\
    (V = V' <-> (x ^ 2 - x) * S1 n v - 2 * x * S2 n v + 6 * S0 n v ^ 2 = 0).
Proof. exact two_variances. Qed.
Print Assumptions C74_the_two_variances.

(** Four places in a ring: the variances differ for every non-constant y. *)
Theorem C74_equal_variances_refuted :
  forall cdf y, varies y -> length y = 4%nat ->
  exists I E V V' p, spatiotemporal_MI y ring4 = Ok (I, E, Fin V) /\ STMI cdf y ring4 = Ok (I, E, Fin V', p) /\ V <> V'.
Proof.
  intros cdf y Hv HL. assert (Hu : usable ring4 (length y)) by (rewrite HL; exact ring4_usable).
  destruct (two_variances cdf y ring4 Hv Hu ltac:(lia)) as (I & E & V & V' & p & H1 & H2 & _ & _ & _ & H3).
  exists I, E, V, V', p. split; [exact H1|]. split; [exact H2|]. intros H. apply H3 in H. rewrite HL, ring4_gap in H. lra.
Qed.
Print Assumptions C74_equal_variances_refuted.

Example C74_example : varies y4 /\ length y4 = 4%nat.
Proof. exact (conj y4_varies eq_refl). Qed.

(** C97: the reported p is the lower tail. *)
Theorem C97_p_is_the_lower_tail :
  forall Phi y w, (forall a b, a < b -> Phi a < Phi b) -> Phi 0 = 1 / 2 ->
  varies y -> usable w (length y) -> (4 <= length y)%nat ->
  let n := length y in let v := by_column w n in
  0 < randomisation_variance n v (kurtosis y) ->
  exists I E V p, STMI (fun z => match z with Fin t => Fin (Phi t) | _ => NaN end) y w = Ok (Fin I, Fin E, Fin V, Fin p) /\
    p = Phi ((I - E) / sqrt V) /\ (p > 1 / 2 <-> I > E) /\ (p < 1 / 2 <-> I < E).
Proof. exact p_value. Qed.
Print Assumptions C97_p_is_the_lower_tail.

Example C97_example : (forall a b, a < b -> Phi0 a < Phi0 b) /\ Phi0 0 = 1 / 2 /\ 0 < randomisation_variance 4 (by_column ring4 4) (kurtosis y4).
Proof. split; [intros; unfold Phi0; lra|]. split; [unfold Phi0; lra|exact ring4_variance_pos]. Qed.

(** C98: the order of the observations does not matter. *)
Theorem C98_relabelling :
  forall y p, Permutation p (seq 0 (length y)) -> forall w cdf,
  varies y -> usable w (length y) -> (4 <= length y)%nat ->
  spatiotemporal_MI (relabel_vector p y) (relabel_matrix p w) = spatiotemporal_MI y w /\
  STMI cdf (relabel_vector p y) (relabel_matrix p w) = STMI cdf y w /\
  (forall ls, spatiotemporal_LMI y w = Ok ls ->
     spatiotemporal_LMI (relabel_vector p y) (relabel_matrix p w) = Ok (map (fun i => nth i ls NaN) p)).
Proof. exact relabelling. Qed.
Print Assumptions C98_relabelling.

Example C98_example : Permutation [2; 0; 3; 1]%nat (seq 0 (length y4)) /\ varies y4 /\ usable line4 (length y4).
Proof. exact (conj relabel_example (conj y4_varies line4_usable)). Qed.

(** C99: STMI's expectation and variance are the exact mean and variance of I over all
    rearrangements of the observations, when no location is its own neighbour. *)
Theorem C99_exact_randomisation_moments :
  forall cdf y w Ps, all_permutations (length y) Ps -> varies y -> usable w (length y) -> (4 <= length y)%nat ->
  (forall i, (i < length y)%nat -> mget 0 w i i = 0) ->
  exists I E V p, STMI cdf y w = Ok (Fin I, Fin E, Fin V, p) /\
    I = moran_I y (by_column w (length y)) /\
    E = mean_over Ps (fun q => moran_I (relabel_vector q y) (by_column w (length y))) /\
    V = mean_over Ps (fun q => (moran_I (relabel_vector q y) (by_column w (length y)) - E) ^ 2).
Proof. exact STMI_exact. Qed.
Print Assumptions C99_exact_randomisation_moments.

(** With own-neighbours it is not: here I is 1 for every rearrangement, E is -1. *)
Theorem C99_diagonal_refuted :
  forall cdf Ps, all_permutations 2 Ps ->
  exists E V p, STMI cdf y2 diag2 = Ok (Fin 1, Fin E, V, p) /\ E = -1 /\
    mean_over Ps (fun q => moran_I (relabel_vector q y2) (by_column diag2 2)) = 1.
Proof. exact diagonal_matters. Qed.
Print Assumptions C99_diagonal_refuted.

Example C99_example : (forall n, exists Ps, all_permutations n Ps) /\ varies y4 /\ usable ring4 (length y4) /\ (forall i, (i < length y4)%nat -> mget 0 ring4 i i = 0).
Proof. exact (conj (fun n => ex_intro _ _ (every_perm_ok n)) (conj y4_varies (conj ring4_usable ring4_diag))). Qed.

(** C100: degenerate inputs. *)
Theorem C100_single_observation :
  forall v w, rect w 1 1 -> spatiotemporal_MI [v] w = Raise ZeroDivisionError /\ forall cdf, STMI cdf [v] w = Raise ZeroDivisionError.
Proof. exact MI_single. Qed.
Print Assumptions C100_single_observation.

Theorem C100_constant_values :
  forall cdf y w, ~ varies y -> (2 <= length y)%nat -> usable w (length y) ->
  (exists E V, spatiotemporal_MI y w = Ok (NaN, E, V)) /\ (exists E V p, STMI cdf y w = Ok (NaN, E, V, p)).
Proof. intros cdf y w Hv Hn Hu. exact (conj (constant_MI y w Hv Hn (proj1 Hu)) (constant_STMI cdf y w Hv Hn Hu)). Qed.
Print Assumptions C100_constant_values.

Theorem C100_location_without_neighbours :
  forall cdf y w j, (2 <= length y)%nat -> rect w (length y) (length y) ->
  (forall i k, (i < length y)%nat -> (k < length y)%nat -> 0 <= mget 0 w i k) ->
  (j < length y)%nat -> row_sum w (length y) j = 0 ->
  (exists E V, spatiotemporal_MI y w = Ok (NaN, E, V)) /\ (exists E V p, STMI cdf y w = Ok (NaN, E, V, p)).
Proof. exact zero_row. Qed.
Print Assumptions C100_location_without_neighbours.

Example C100_example : ~ varies [3; 3; 3; 3] /\ usable ring4 4 /\ row_sum [[0; 1]; [0; 0]] 2 1 = 0.
Proof.
  split; [|split; [exact ring4_usable|unfold row_sum, sum_n, mget; cbn; lra]].
  intros (i & j & Hi & Hj & Hne). apply Hne. cbn in Hi, Hj. do 4 (destruct i as [|i]; [do 4 (destruct j as [|j]; [reflexivity|]); lia|]). lia.
Qed.

(** C119: the Moran diagram.  One point per observation, at its deviation from the
    mean and the weighted sum of its neighbours' deviations; the dashed line is the
    least-squares line through the origin, drawn from the smallest to the largest
    deviation. *)
Theorem C119_diagram_points_and_line :
  forall slope_of y w, least_squares slope_of -> varies y -> rect w (length y) (length y) ->
  exists lo hi b,
    plot_moran_diagram slope_of y w =
      Ok (map (fun i => (deviation y i, sum_n (length y) (fun j => mget 0 w i j * deviation y j))) (seq 0 (length y)),
          ((lo, b * lo), (hi, b * hi))) /\
    b = sum_n (length y) (fun i => sum_n (length y) (fun j => mget 0 w i j * deviation y i * deviation y j)) / sum_of_powers y 2 /\
    (exists i, (i < length y)%nat /\ lo = deviation y i) /\ (exists i, (i < length y)%nat /\ hi = deviation y i) /\
    (forall i, (i < length y)%nat -> lo <= deviation y i <= hi).
Proof. exact diagram. Qed.
Print Assumptions C119_diagram_points_and_line.

(** Its slope is the reported I times the common row sum: I itself for weights
    whose rows sum to one. *)
Theorem C119_slope_is_row_sum_times_I :
  forall slope_of cdf y w s, least_squares slope_of -> varies y -> rect w (length y) (length y) -> s <> 0 ->
  (forall i, (i < length y)%nat -> row_sum w (length y) i = s) ->
  exists pts lo hi b I E V p, plot_moran_diagram slope_of y w = Ok (pts, ((lo, b * lo), (hi, b * hi))) /\ lo < hi /\
    STMI cdf y w = Ok (Fin I, E, V, p) /\ b = s * I.
Proof. exact diagram_I. Qed.
Print Assumptions C119_slope_is_row_sum_times_I.

Example C119_example : least_squares ols /\ varies y4 /\ rect ring4 4 4 /\ (forall i, (i < 4)%nat -> row_sum ring4 4 i = 2).
Proof.
  split; [exact ols_ok|]. split; [exact y4_varies|]. split; [exact (proj1 ring4_usable)|].
  intros i Hi. do 4 (destruct i as [|i]; [unfold row_sum, sum_n, mget; cbn; lra|]). lia.
Qed.
