(** C181: the range of Moran's I, and its mean when locations weigh on themselves. *)
From Coq Require Import Lra Lia Permutation.
From Verif.Model Require Import Base Ext Moran.
From Verif.Spec Require Import MoranSpec MoranRangeSpec.
From Verif.Proofs Require Import MoranExamples MoranRangeProps.
Open Scope nat_scope.
Open Scope R_scope.

(** I is at most [c] in size if no location gives and gets, on average, more than [c]
    times the average. *)
Theorem C181_bound : forall cdf y w c, varies y -> usable w (length y) -> nonnegative w (length y) ->
  (forall i, (i < length y)%nat -> INR (length y) * influence (length y) (by_column w (length y)) i <= c * S0 (length y) (by_column w (length y))) ->
  exists I E V V' p, STMI cdf y w = Ok (Fin I, E, V, p) /\ spatiotemporal_MI y w = Ok (Fin I, E, V') /\ Rabs I <= c.
Proof. exact bound. Qed.
Print Assumptions C181_bound.

(** So it lies between -1 and 1 for symmetric weights with equal row sums. *)
Theorem C181_between_one : forall cdf y w s, varies y -> rect w (length y) (length y) -> nonnegative w (length y) -> symmetric w (length y) -> 0 < s ->
  (forall i, (i < length y)%nat -> row_sum w (length y) i = s) ->
  exists I E V V' p, STMI cdf y w = Ok (Fin I, E, V, p) /\ spatiotemporal_MI y w = Ok (Fin I, E, V') /\ -1 <= I <= 1.
Proof. exact regular. Qed.
Print Assumptions C181_between_one.

(** Relied on: I lies between -1 and 1 whenever the weights of each location sum to 1.
    False: there is no bound at all, with no location its own neighbour either. *)
Theorem C181_range_refuted : forall cdf B, exists y w, varies y /\ usable w (length y) /\ nonnegative w (length y) /\
  (forall i, (i < length y)%nat -> row_sum w (length y) i = 1 /\ mget 0 w i i = 0) /\
  exists I E V V' p, STMI cdf y w = Ok (Fin I, E, V, p) /\ spatiotemporal_MI y w = Ok (Fin I, E, V') /\ I > B.
Proof. exact unbounded. Qed.
Print Assumptions C181_range_refuted.

(** The mean of I over all rearrangements exceeds the reported expectation by n/(n-1)
    times the share of the weights that locations have for themselves. *)
Theorem C181_mean_with_own_weights : forall cdf y w Ps, all_permutations (length y) Ps -> varies y -> usable w (length y) ->
  exists I E V p, STMI cdf y w = Ok (I, Fin E, V, p) /\
    mean_over Ps (fun q => moran_I (relabel_vector q y) (by_column w (length y))) =
      E + INR (length y) / (INR (length y) - 1) * (own_weights (length y) (by_column w (length y)) / S0 (length y) (by_column w (length y))).
Proof. exact own_mean. Qed.
Print Assumptions C181_mean_with_own_weights.

(** Relied on: the weights of a fitted model can be used.  False: in them each location
    weighs on itself, and the reported expectation is too low. *)
Theorem C181_expectation_refuted : forall cdf y w Ps i, all_permutations (length y) Ps -> varies y -> usable w (length y) -> nonnegative w (length y) ->
  (i < length y)%nat -> 0 < mget 0 w i i ->
  exists I E V p, STMI cdf y w = Ok (I, Fin E, V, p) /\ E < mean_over Ps (fun q => moran_I (relabel_vector q y) (by_column w (length y))).
Proof. exact own_too_low. Qed.
Print Assumptions C181_expectation_refuted.

Example C181_example : varies y4 /\ rect ring4 4 4 /\ nonnegative ring4 4 /\ symmetric ring4 4 /\ usable ring4 4 /\
  (forall i, (i < 4)%nat -> row_sum ring4 4 i = 2) /\ (exists Ps, all_permutations 4 Ps) /\
  varies y2 /\ usable diag2 2 /\ nonnegative diag2 2 /\ 0 < mget 0 diag2 0 0.
Proof.
  split; [exact y4_varies|]. split; [apply ring4_usable|]. split; [|split; [|split; [exact ring4_usable|split; [exact ring4_rows|split; [exact (ex_intro _ _ (every_perm_ok 4))|split; [exact y2_varies|split; [exact diag2_usable|split]]]]]]].
  - intros i j Hi Hj. do 4 (destruct i as [|i]; [do 4 (destruct j as [|j]; [unfold mget, ring4; cbn [nth]; lra|]); lia|]); lia.
  - intros i j Hi Hj. do 4 (destruct i as [|i]; [do 4 (destruct j as [|j]; [reflexivity|]); lia|]); lia.
  - intros i j Hi Hj. do 2 (destruct i as [|i]; [do 2 (destruct j as [|j]; [unfold mget, diag2; cbn [nth]; lra|]); lia|]); lia.
  - unfold mget, diag2. cbn [nth]. lra.
Qed.
