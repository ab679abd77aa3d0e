(** C193: signs, size and mean of the local Moran values. *)
From Coq Require Import Lra Lia Permutation.
From Verif.Model Require Import Base Ext Moran.
From Verif.Spec Require Import MoranSpec MoranRangeSpec.
From Verif.Proofs Require Import MoranExamples MoranDiagram MoranRangeProps LocalMoranProps.
Open Scope nat_scope.
Open Scope R_scope.

(** With equal row sums the local value of a location is the product of the coordinates
    of its point in the Moran diagram, up to a positive factor: it is positive in the
    upper right and lower left quadrant, negative in the others. *)
Theorem C193_quadrants : forall slope_of y w s, least_squares slope_of -> varies y -> rect w (length y) (length y) -> 0 < s ->
  (forall i, (i < length y)%nat -> row_sum w (length y) i = s) ->
  exists ls pts line, spatiotemporal_LMI y w = Ok (map Fin ls) /\ plot_moran_diagram slope_of y w = Ok (pts, line) /\
    length ls = length y /\ length pts = length y /\
    forall i, (i < length y)%nat -> exists a b, nth i pts (0, 0) = (a, b) /\
      nth i ls 0 = a * b / (s * (sum_of_powers y 2 / INR (length y))) /\
      (0 < nth i ls 0 <-> 0 < a * b) /\ (nth i ls 0 < 0 <-> a * b < 0).
Proof. exact quadrants. Qed.
Print Assumptions C193_quadrants.

(** Relied on: the same of all weights.  False: a location in the upper right quadrant
    can have a negative local value. *)
Theorem C193_quadrants_refuted : forall slope_of, least_squares slope_of -> exists y w, varies y /\ usable w (length y) /\ nonnegative w (length y) /\
  (forall i, (i < length y)%nat -> mget 0 w i i = 0) /\
  exists ls pts line a b, spatiotemporal_LMI y w = Ok (map Fin ls) /\ plot_moran_diagram slope_of y w = Ok (pts, line) /\
    nth 0 pts (0, 0) = (a, b) /\ 0 < a /\ 0 < b /\ nth 0 ls 0 < 0.
Proof. exact quadrants_refuted. Qed.
Print Assumptions C193_quadrants_refuted.

(** A local value is at most n/2 times the sum of its (standardised) weights in size... *)
Theorem C193_size : forall y w, varies y -> usable w (length y) -> nonnegative w (length y) -> (forall i, (i < length y)%nat -> mget 0 w i i = 0) ->
  exists ls, spatiotemporal_LMI y w = Ok (map Fin ls) /\ length ls = length y /\
    forall i, (i < length y)%nat -> Rabs (nth i ls 0) <= INR (length y) / 2 * sum_n (length y) (by_column w (length y) i).
Proof. exact local_bound. Qed.
Print Assumptions C193_size.

(** ... which is attained for every number of locations, also when all rows sum to 1.
    Relied on: local values lie between -1 and 1.  False. *)
Theorem C193_size_attained_refuted : forall n, (2 <= n)%nat -> exists y w, length y = n /\ varies y /\ usable w n /\ nonnegative w n /\
  (forall i, (i < n)%nat -> row_sum w n i = 1 /\ mget 0 w i i = 0) /\
  exists ls, spatiotemporal_LMI y w = Ok (map Fin ls) /\ nth 0 ls 0 = - (INR n / 2).
Proof. exact attained. Qed.
Print Assumptions C193_size_attained_refuted.

(** The mean of the local value at a location over all rearrangements of the data. *)
Theorem C193_mean : forall y w Ps, all_permutations (length y) Ps -> varies y -> usable w (length y) ->
  exists L, (forall q, In q Ps -> spatiotemporal_LMI (relabel_vector q y) w = Ok (map Fin (L q))) /\
    forall i, (i < length y)%nat ->
      mean_over Ps (fun q => nth i (L q) 0) =
        by_column w (length y) i i - (sum_n (length y) (by_column w (length y) i) - by_column w (length y) i i) / (INR (length y) - 1).
Proof. exact local_mean. Qed.
Print Assumptions C193_mean.

(** So it is -1/(n-1) for equal row sums without own weights. *)
Theorem C193_mean_equal_rows : forall y w Ps s, all_permutations (length y) Ps -> varies y -> rect w (length y) (length y) -> s <> 0 ->
  (forall i, (i < length y)%nat -> row_sum w (length y) i = s /\ mget 0 w i i = 0) ->
  exists L, (forall q, In q Ps -> spatiotemporal_LMI (relabel_vector q y) w = Ok (map Fin (L q))) /\
    forall i, (i < length y)%nat -> mean_over Ps (fun q => nth i (L q) 0) = -1 / (INR (length y) - 1).
Proof. exact local_mean_equal. Qed.
Print Assumptions C193_mean_equal_rows.

(** Relied on: the same of all weights, since rows are standardised.  False: with other
    row sums it is lower at some locations and higher at others. *)
Theorem C193_mean_refuted : exists y w Ps, all_permutations (length y) Ps /\ varies y /\ usable w (length y) /\ nonnegative w (length y) /\
  (forall i, (i < length y)%nat -> mget 0 w i i = 0) /\
  exists L, (forall q, In q Ps -> spatiotemporal_LMI (relabel_vector q y) w = Ok (map Fin (L q))) /\
    mean_over Ps (fun q => nth 0 (L q) 0) < -1 / (INR (length y) - 1) < mean_over Ps (fun q => nth 2 (L q) 0).
Proof. exact local_mean_refuted. Qed.
Print Assumptions C193_mean_refuted.

Example C193_example : least_squares ols /\ varies y4 /\ usable ring4 4 /\ nonnegative ring4 4 /\
  (forall i, (i < 4)%nat -> row_sum ring4 4 i = 2 /\ mget 0 ring4 i i = 0) /\ (exists Ps, all_permutations 4 Ps) /\
  varies y3 /\ usable w3 3 /\ nonnegative w3 3.
Proof.
  split; [exact ols_ok|]. split; [exact y4_varies|]. split; [exact ring4_usable|]. split; [|split; [|split; [exact (ex_intro _ _ (every_perm_ok 4))|split; [exact y3_varies|split; [exact w3_usable|exact w3_nonneg]]]]].
  - intros i j Hi Hj. do 4 (destruct i as [|i]; [do 4 (destruct j as [|j]; [unfold mget, ring4; cbn [nth]; lra|]); lia|]); lia.
  - intros i Hi. split; [apply ring4_rows; auto|]. do 4 (destruct i as [|i]; [reflexivity|]). lia.
Qed.
