(** Properties C26-C35: second-order neighbours, shrinking and sampling. *)
From Coq Require Import Lra Sorting.Sorted.
From Verif.Model Require Import Base Ext Csr Neighbour.
From Verif.Spec Require Import KernelSpec NeighbourSpec.
From Verif.Proofs Require Import ListFacts KernelFacts CsrFacts NeighbourProps.
Open Scope nat_scope.
Open Scope R_scope.

(** C26: boolean matrix product, whatever the uninitialised buffer held and in
    whatever order the rows were computed. *)
Theorem C26_boolean_product :
  forall n order buf (N L : matrix bool),
  rect N n n -> rect L n n -> schedule n order -> length buf = n ->
  exists S : matrix bool, second_order_neighbour order buf N (Some L) = S /\ rect S n n /\
    forall i j, (i < n)%nat -> (j < n)%nat ->
      (mget false S i j = true <-> exists k, (k < n)%nat /\ mget false L i k = true /\ mget false N k j = true).
Proof. exact second_order_boolean_product. Qed.
Print Assumptions C26_boolean_product.

Theorem C26_default_two_steps :
  forall n order buf (N : matrix bool),
  rect N n n -> schedule n order -> length buf = n ->
  exists S : matrix bool, second_order_neighbour order buf N None = S /\ rect S n n /\
    forall i j, (i < n)%nat -> (j < n)%nat ->
      (mget false S i j = true <-> exists k, (k < n)%nat /\ mget false N i k = true /\ mget false N k j = true).
Proof. exact second_order_default. Qed.
Print Assumptions C26_default_two_steps.

Example C26_example :
  rect exN 3 3 /\ schedule 3 [2; 0; 1]%nat /\
  exN = [[true; true; false]; [true; false; false]; [false; true; false]] /\
  second_order_neighbour [2; 0; 1]%nat [[]; []; []] exN None =
  [[true; true; false]; [true; true; false]; [true; false; false]].
Proof. exact (conj exN_rect (conj sched3 (conj eq_refl exN_second))). Qed.

(** C27: the sparse routine on the CSR forms. *)
Theorem C27_sparse_agrees :
  forall n order buf (N L : matrix bool) cN cL,
  rect N n n -> rect L n n -> csr_mask N n cN -> csr_mask L n cL -> schedule n order -> length buf = n ->
  let S := second_order_neighbour order buf N (Some L) in
  (exists i j, (i < n)%nat /\ (j < n)%nat /\ mget false S i j = true) ->
  exists c cS, second_order_neighbour_csr order cN cL = Ok c /\ csr_mask S n cS /\
    c_indices c = c_indices cS /\ c_indptr c = c_indptr cS /\
    c_data c = map (fun _ => 1%nat) (c_indices c) /\
    forall i, (i < n)%nat ->
      StronglySorted lt (row_indices c i) /\
      forall j, In j (row_indices c i) <-> (j < n)%nat /\ mget false S i j = true.
Proof. exact second_order_sparse_agrees. Qed.
Print Assumptions C27_sparse_agrees.

(** The case left out above: nothing is a second-order neighbour of anything. *)
Theorem C27_sparse_raises_when_empty :
  forall n order buf (N L : matrix bool) cN cL,
  rect N n n -> rect L n n -> csr_mask N n cN -> csr_mask L n cL -> schedule n order -> length buf = n ->
  (forall i j, (i < n)%nat -> (j < n)%nat -> mget false (second_order_neighbour order buf N (Some L)) i j = false) ->
  raises (second_order_neighbour_csr order cN cL).
Proof. exact second_order_sparse_empty. Qed.
Print Assumptions C27_sparse_raises_when_empty.

Example C27_example :
  csr_mask exN 3 exNc /\
  second_order_neighbour_csr [2; 0; 1]%nat exNc exNc = Ok (Csr [1; 1; 1; 1; 1] [0; 1; 0; 1; 0] [0; 2; 4; 5] 2)%nat.
Proof. exact (conj exN_mask eq_refl). Qed.

(** C28: no parallel loop depends on its schedule. *)
Theorem C28_second_order_schedules :
  forall n order order' buf buf' (N L : matrix bool),
  schedule n order -> schedule n order' -> length buf = n -> length buf' = n ->
  second_order_neighbour order buf N (Some L) = second_order_neighbour order' buf' N (Some L).
Proof. exact second_order_any_schedule. Qed.
Print Assumptions C28_second_order_schedules.

Theorem C28_second_order_csr_schedules :
  forall A B (N : csr A) (L : csr B) order order',
  schedule (c_nrows N) order -> schedule (c_nrows N) order' ->
  second_order_neighbour_csr order N L = second_order_neighbour_csr order' N L.
Proof. exact (@second_order_csr_any_schedule). Qed.
Print Assumptions C28_second_order_csr_schedules.

Theorem C28_shrink_schedules :
  forall order order' (W : matrix R) q ret inplace,
  schedule (length W) order -> schedule (length W) order' ->
  neighbour_shrink order W q ret inplace = neighbour_shrink order' W q ret inplace.
Proof. exact shrink_any_schedule. Qed.
Print Assumptions C28_shrink_schedules.

Theorem C28_shrink_csr_schedules :
  forall order order' ncols rows q ret inplace,
  schedule (length rows) order -> schedule (length rows) order' ->
  neighbour_shrink_csr order (csr_of_rows ncols rows) q ret inplace =
  neighbour_shrink_csr order' (csr_of_rows ncols rows) q ret inplace.
Proof. exact shrink_csr_any_schedule. Qed.
Print Assumptions C28_shrink_csr_schedules.

(** The same for the in-place loop when the threads interleave single element
    writes: it suffices that every row has made its steps (one read step and one
    write per non-zero entry). *)
Theorem C28_shrink_interleavings :
  forall order q (W : matrix R) interleaving,
  0 <= q <= 1 -> schedule (length W) order ->
  (forall i, (i < length W)%nat -> (num_nonzero (nth i W []) < count_occ Nat.eq_dec interleaving i)%nat) ->
  snd (neighbour_shrink order W q true true) = Ok (ShrunkWeights (map fst (shrink_interleaved q interleaving W))).
Proof. exact shrink_any_interleaving. Qed.
Print Assumptions C28_shrink_interleavings.

Example C28_example :
  schedule 3 [2; 0; 1]%nat /\ schedule 3 [0; 1; 2]%nat /\
  second_order_neighbour [2; 0; 1]%nat [[true]; []; []] exN (Some exN) =
  second_order_neighbour [0; 1; 2]%nat [[]; []; []] exN (Some exN).
Proof. exact (conj sched3 (conj (Permutation_refl _) eq_refl)). Qed.

(** C29: shape of the sparse result. *)
Theorem C29_square_when_reflexive :
  forall n order (N L : matrix bool) cN cL,
  rect N n n -> rect L n n -> csr_mask N n cN -> csr_mask L n cL -> schedule n order -> (0 < n)%nat ->
  (forall i, (i < n)%nat -> mget false N i i = true) -> (forall i, (i < n)%nat -> mget false L i i = true) ->
  exists c, second_order_neighbour_csr order cN cL = Ok c /\ c_nrows c = n /\ c_ncols c = n.
Proof. exact second_order_sparse_square. Qed.
Print Assumptions C29_square_when_reflexive.

Theorem C29_shape_exact :
  forall n order (N L : matrix bool) cN cL c,
  rect N n n -> rect L n n -> csr_mask N n cN -> csr_mask L n cL -> schedule n order ->
  second_order_neighbour_csr order cN cL = Ok c ->
  (c_ncols c <= n)%nat /\
  (c_ncols c = n <-> exists i k, (i < n)%nat /\ (k < n)%nat /\ mget false L i k = true /\ mget false N k (n - 1) = true).
Proof. exact second_order_sparse_shape. Qed.
Print Assumptions C29_shape_exact.

Theorem C29_square_refuted :
  exists n order (N : matrix bool) cN c, rect N n n /\ csr_mask N n cN /\ schedule n order /\
    second_order_neighbour_csr order cN cN = Ok c /\ (c_ncols c < n)%nat.
Proof.
  exact (ex_intro _ 3%nat (ex_intro _ [2; 0; 1]%nat (ex_intro _ exN (ex_intro _ exNc (ex_intro _ _
    (conj exN_rect (conj exN_mask (conj sched3 (conj eq_refl (le_n 3)))))))))).
Qed.
Print Assumptions C29_square_refuted.

(** Every point its own neighbour: the sparse result is 2 x 2. *)
Example C29_example : let N := [[true; true]; [false; true]] in let c := Csr [true; true; true] [0; 1; 1]%nat [0; 2; 3]%nat 2%nat in
  rect N 2 2 /\ csr_mask N 2 c /\ schedule 2 [1; 0]%nat /\ (forall i, (i < 2)%nat -> mget false N i i = true) /\
  second_order_neighbour_csr [1; 0]%nat c c = Ok (Csr [1; 1; 1] [0; 1; 1] [0; 2; 3] 2)%nat.
Proof.
  cbv zeta. split; [split; [reflexivity|repeat constructor]|]. split; [reflexivity|]. split; [apply perm_swap|].
  split; [intros [|[|i]] Hi; try reflexivity; lia|reflexivity].
Qed.

(** C30: what shrinking does to each row ([shrink_spec]). *)
Theorem C30_shrink_rows :
  forall order q (W : matrix R), 0 <= q <= 1 -> schedule (length W) order ->
  exists W' : matrix R, snd (neighbour_shrink order W q true true) = Ok (ShrunkWeights W') /\
    Forall2 (shrink_spec q) W W'.
Proof. exact shrink_each_row. Qed.
Print Assumptions C30_shrink_rows.

(** Exactly: below the quantile of the row's non-zero weights (linear
    interpolation) weights are zeroed, from it on they are kept. *)
Theorem C30_shrink_threshold :
  forall order q (W : matrix R) ret inplace, 0 <= q <= 1 -> schedule (length W) order ->
  exists W' : matrix R, shrunk_weights (Some q) W W' /\ (forall W'', shrunk_weights (Some q) W W'' -> W'' = W') /\
    neighbour_shrink order W q ret inplace =
      (if inplace then W' else W, Ok (if ret then ShrunkWeights W' else ShrunkMask (mmap (Rltb 0) W'))).
Proof. exact shrink_threshold. Qed.
Print Assumptions C30_shrink_threshold.

(** The boolean result is the mask of the positive shrunk weights. *)
Theorem C30_shrink_mask :
  forall order q (W : matrix R) inplace, 0 <= q <= 1 -> schedule (length W) order ->
  exists W' : matrix R, snd (neighbour_shrink order W q true inplace) = Ok (ShrunkWeights W') /\
    snd (neighbour_shrink order W q false inplace) = Ok (ShrunkMask (mmap (Rltb 0) W')).
Proof. exact shrink_mask. Qed.
Print Assumptions C30_shrink_mask.

Theorem C30_bad_rate_raises :
  forall order q (W : matrix R) ret inplace, ~ (0 <= q <= 1) -> W <> [] ->
  neighbour_shrink order W q ret inplace = (W, Raise ValueError).
Proof. exact shrink_bad_rate. Qed.
Print Assumptions C30_bad_rate_raises.

Example C30_example :
  exW = [[1; 3; 2; 0]; [0; 0; 0; 5]] /\
  snd (neighbour_shrink [1; 0]%nat exW 1 true true) = Ok (ShrunkWeights [[0; 3; 0; 0]; [0; 0; 0; 5]]).
Proof. exact (conj eq_refl (f_equal snd exW_shrunk)). Qed.

(** C31: sparse shrinking. *)
Theorem C31_sparse_agrees :
  forall order q (W : matrix R) r n c inplace,
  0 <= q <= 1 -> rect W r n -> csr_form 0 (fun x => Reqb x 0) W n c -> schedule r order ->
  exists (W' : matrix R) c',
    snd (neighbour_shrink order W q true inplace) = Ok (ShrunkWeights W') /\
    snd (neighbour_shrink_csr order c q true inplace) = Ok (ShrunkWeights c') /\
    csr_form 0 (fun x => Reqb x 0) W' n c' /\
    exists b cb, snd (neighbour_shrink order W q false inplace) = Ok (ShrunkMask b) /\
      snd (neighbour_shrink_csr order c q false inplace) = Ok (ShrunkMask cb) /\ csr_mask b n cb.
Proof. exact shrink_sparse_agrees. Qed.
Print Assumptions C31_sparse_agrees.

Example C31_example : rect exW 2 4 /\ schedule 2 [1; 0]%nat /\ exists c, csr_form 0 (fun x => Reqb x 0) exW 4 c.
Proof. exact (conj exW_rect (conj (perm_swap _ _ _) (ex_intro _ _ eq_refl))). Qed.

(** C32: the caller's matrix. *)
Theorem C32_callers_matrix :
  forall order q (W : matrix R) ret inplace, 0 <= q <= 1 -> schedule (length W) order ->
  exists W' : matrix R, snd (neighbour_shrink order W q true inplace) = Ok (ShrunkWeights W') /\
    fst (neighbour_shrink order W q ret inplace) = if inplace then W' else W.
Proof. exact shrink_callers_matrix. Qed.
Print Assumptions C32_callers_matrix.

Theorem C32_callers_csr :
  forall order q (W : matrix R) r n c ret inplace,
  0 <= q <= 1 -> rect W r n -> csr_form 0 (fun x => Reqb x 0) W n c -> schedule r order ->
  exists c', snd (neighbour_shrink_csr order c q true inplace) = Ok (ShrunkWeights c') /\
    fst (neighbour_shrink_csr order c q ret inplace) = if inplace then c' else c.
Proof. exact shrink_callers_csr. Qed.
Print Assumptions C32_callers_csr.

Example C32_example : fst (neighbour_shrink [1; 0]%nat exW 1 true true) = [[0; 3; 0; 0]; [0; 0; 0; 5]].
Proof. exact (f_equal fst exW_shrunk). Qed.

(** C33: what sample_neighbour draws, for every generator that draws without
    replacement.  [Ws] are the weights whose positive entries are candidates: the
    given ones, or the shrunk ones if a shrink rate is given. *)
Theorem C33_sampled_rows :
  forall G seed0 (choice : G -> list nat -> nat -> G * list nat) order g W Ws rate shrink n,
  valid_choice choice -> rect W n n -> (0 < n)%nat -> schedule n order -> 0 <= rate ->
  shrunk_weights shrink W Ws ->
  exists g' S, sample_neighbour G seed0 choice order g W rate shrink = Ok (g', S) /\ rect S n n /\
    forall i, (i < n)%nat ->
      let m := num_neighbours i (nth i Ws []) in
      sample_spec (Nat.min m (Nat.max 1 (Z.to_nat (Rceil (INR m * rate))))) i (nth i Ws []) (nth i S []).
Proof. exact sample_neighbour_sound. Qed.
Print Assumptions C33_sampled_rows.

Theorem C33_negative_rate_raises :
  forall G seed0 (choice : G -> list nat -> nat -> G * list nat) order g W rate n i,
  rect W n n -> (i < n)%nat -> INR (num_neighbours i (nth i W [])) * rate <= -1 ->
  raises (sample_neighbour G seed0 choice order g W rate None).
Proof. exact sample_negative_rate. Qed.
Print Assumptions C33_negative_rate_raises.

Example C33_example :
  valid_choice first_choice /\ rect exV 3 3 /\ exV = [[1; 1; 1]; [0; 1; 0]; [1; 0; 0]] /\
  sample_neighbour nat 0%nat first_choice [2; 0; 1]%nat 41%nat exV (1 / 2) None =
  Ok (3%nat, [[true; true; false]; [false; true; false]; [true; false; true]]).
Proof. exact (conj first_choice_valid (conj exV_rect (conj eq_refl exV_sampled))). Qed.

(** C34: neither the result nor the generator's state afterwards depends on the
    state before (nor on the schedule). *)
Theorem C34_reproducible_and_reseeds :
  forall G seed0 (choice : G -> list nat -> nat -> G * list nat) order order' g g' W rate shrink,
  schedule (length W) order -> schedule (length W) order' ->
  sample_neighbour G seed0 choice order g W rate shrink = sample_neighbour G seed0 choice order' g' W rate shrink.
Proof. exact sample_neighbour_reproducible. Qed.
Print Assumptions C34_reproducible_and_reseeds.

Theorem C34_reproducible_csr :
  forall G seed0 (choice : G -> list nat -> nat -> G * list nat) order order' g g' ncols rows rate shrink,
  schedule (length rows) order -> schedule (length rows) order' ->
  sample_neighbour_csr G seed0 choice order g (csr_of_rows ncols rows) rate shrink =
  sample_neighbour_csr G seed0 choice order' g' (csr_of_rows ncols rows) rate shrink.
Proof. exact sample_neighbour_csr_reproducible. Qed.
Print Assumptions C34_reproducible_csr.

(** The caller's generator was in state 41; afterwards it is in state 3. *)
Example C34_example : forall S, sample_neighbour nat 0%nat first_choice [2; 0; 1]%nat 41%nat exV (1 / 2) None = Ok S -> fst S = 3%nat.
Proof. exact (fun S H => f_equal fst (eq_sym (Ok_inj (eq_trans (eq_sym exV_sampled) H)))). Qed.

(** C35: sparse sampling. *)
Theorem C35_sparse_agrees :
  forall G seed0 (choice : G -> list nat -> nat -> G * list nat) order g W c rate shrink n,
  valid_choice choice -> rect W n n -> (0 < n)%nat -> csr_form 0 (fun x => Reqb x 0) W n c ->
  schedule n order -> 0 <= rate -> (forall q, shrink = Some q -> 0 <= q <= 1) ->
  exists g' S cS, sample_neighbour G seed0 choice order g W rate shrink = Ok (g', S) /\
    sample_neighbour_csr G seed0 choice order g c rate shrink = Ok (g', cS) /\ csr_mask S n cS.
Proof. exact sample_sparse_agrees. Qed.
Print Assumptions C35_sparse_agrees.

Example C35_example : valid_choice first_choice /\ rect exV 3 3 /\ exists c, csr_form 0 (fun x => Reqb x 0) exV 3 c.
Proof. exact (conj first_choice_valid (conj exV_rect (ex_intro _ _ eq_refl))). Qed.
