(** Property C167: distance matrices read lazily from the cache file.  [compute moment x]
    evaluates what a call returned; [moment c] is the disk when row block [c] is read. *)
From Coq Require Import Lra Lia Permutation.
From Verif.Model Require Import Base Distance Cache CacheLazy.
From Verif.Spec Require Import DistanceSpec CacheSpec CacheLazySpec.
From Verif.Proofs Require Import CacheExamples CacheLazyProps.
Open Scope string_scope.
Open Scope nat_scope.
Open Scope R_scope.

(** Evaluated while nobody writes: what C25, C117 and C118 describe. *)
Theorem C167_evaluated_at_once :
  forall mkw dask_metric sort_row d source target metric cache_sort (kw : kwargs mkw) sizes order order',
  let '(steps, r) := dask_open mkw dask_metric sort_row d source target metric cache_sort kw sizes order order' in
  dask_run mkw dask_metric sort_row d source target metric cache_sort kw sizes order order' =
    (steps, x <- r ;; compute_result (fun _ => d) x).
Proof. intros mkw dm sr. exact (open_refines dm sr). Qed.
Print Assumptions C167_evaluated_at_once.

(** A call that computes the distances returns an array that later writes cannot change. *)
Theorem C167_computed_distances_are_fixed :
  forall mkw dask_metric sort_row d source t metric f cache_sort (kw : kwargs mkw) sizes order order',
  (kw_filepath kw = None \/ kw_overwrite kw = true \/ (forall p, kw_filepath kw = Some p -> d (zarr_path p) = None)) ->
  ncols source = ncols t -> dask_metric metric = Some f ->
  exists steps r, dask_open mkw dask_metric sort_row d source (Some t) metric cache_sort kw sizes order order' = (steps, Ok r) /\
    forall moment, exists x, compute_result moment r = Ok x /\ result_matrix x = cdist f source t.
Proof. intros mkw dm sr. exact (computed_is_fixed dm sr). Qed.
Print Assumptions C167_computed_distances_are_fixed.

(** A call that reused the file holding [m], while another call overwrites it with the
    distances of other points.  [progress c] effects of that call have happened when
    block [c] is read: before the first the old rows, later zeros, and once the block
    is stored the new rows; never an exception. *)
Theorem C167_lazy_reads_of_a_file_being_overwritten :
  forall mkw dask_metric sort_row d (kw : kwargs mkw) path source target metric cache_sort sizes order order' m sz
    source1 t1 metric1 f1 cache_sort1 (kw1 : kwargs mkw) order1 order1' steps1 r1,
  reuses kw path source target -> holds d (zarr_path path) m sz -> rect m (length source1) (length t1) ->
  kw_filepath kw1 = Some path -> kw_overwrite kw1 = true -> ncols source1 = ncols t1 -> dask_metric metric1 = Some f1 ->
  chunking (length source1) sz order1 ->
  dask_run mkw dask_metric sort_row d source1 (Some t1) metric1 cache_sort1 kw1 sz order1 order1' = (steps1, r1) ->
  exists x, dask_open mkw dask_metric sort_row d source target metric cache_sort kw sizes order order' = ([], Ok (LMatrix x)) /\
    forall progress : nat -> nat, exists M,
      compute (fun c => crash_disk (progress c) d steps1) x = Ok M /\ length M = length source1 /\
      forall c i j, in_chunk sz c i -> (j < length t1)%nat ->
        (progress c = 0%nat -> mget 0 M i j = mget 0 m i j) /\
        (In c (firstn (progress c - 3) order1) -> mget 0 M i j = f1 (nth i source1 []) (nth j t1 [])) /\
        (progress c <> 0%nat -> ~ In c (firstn (progress c - 3) order1) -> mget 0 M i j = 0).
Proof. intros mkw dm sr. exact (lazy_read dm sr). Qed.
Print Assumptions C167_lazy_reads_of_a_file_being_overwritten.

(** "What fit was given does not change afterwards" is false: the same array, evaluated
    before and after the other call, holds the old and then the new distances. *)
Theorem C167_array_keeps_its_values_refuted :
  forall mkw dask_metric sort_row d (kw : kwargs mkw) path source target metric cache_sort sizes order order' m sz
    source1 t1 metric1 f1 cache_sort1 (kw1 : kwargs mkw) order1 order1' steps1 r1,
  reuses kw path source target -> holds d (zarr_path path) m sz -> rect m (length source1) (length t1) ->
  kw_filepath kw1 = Some path -> kw_overwrite kw1 = true -> ncols source1 = ncols t1 -> dask_metric metric1 = Some f1 ->
  chunking (length source1) sz order1 ->
  dask_run mkw dask_metric sort_row d source1 (Some t1) metric1 cache_sort1 kw1 sz order1 order1' = (steps1, r1) ->
  exists x, dask_open mkw dask_metric sort_row d source target metric cache_sort kw sizes order order' = ([], Ok (LMatrix x)) /\
    compute (fun _ => d) x = Ok m /\
    exists M, compute (fun _ => apply_steps d steps1) x = Ok M /\
      forall i j, (i < length source1)%nat -> (j < length t1)%nat -> mget 0 M i j = f1 (nth i source1 []) (nth j t1 []).
Proof. intros mkw dm sr. exact (later_file dm sr). Qed.
Print Assumptions C167_array_keeps_its_values_refuted.

(** Deleting the file makes all distances 0, without an exception. *)
Theorem C167_deleted_file_reads_as_zero : forall moment path width sizes,
  (forall c, (c < length sizes)%nat -> moment c path = None) ->
  compute moment (LFile path width sizes) = Ok (repeat (repeat 0 width) (list_sum sizes)).
Proof. exact deleted_file. Qed.
Print Assumptions C167_deleted_file_reads_as_zero.

(** Distances 5 and 2 in the file, rewritten with 7 and 4: one evaluation gives 5 and
    4, another 0 and 2. *)
Example C167_example :
  reuses (Kwargs (Some "d") false tt) "d" [[5]; [2]] (Some [[0]]) /\ holds lx_old (zarr_path "d") [[5]; [2]] [1; 1]%nat /\
  chunking 2 [1; 1]%nat [1; 0]%nat /\
  exists x, snd (dask_open unit ex_metric (fun r => r) lx_old [[5]; [2]] (Some [[0]]) "euclidean" false
      (Kwargs (Some "d") false tt) [2]%nat [0]%nat [0]%nat) = Ok (LMatrix x) /\
  compute (fun c => crash_disk (nth c [0; 4] 0)%nat lx_old (fst lx_new)) x = Ok [[5]; [4]] /\
  compute (fun c => crash_disk (nth c [3; 0] 0)%nat lx_old (fst lx_new)) x = Ok [[0]; [2]].
Proof.
  split; [split; [reflexivity|split; [reflexivity|intros t E; injection E as <-; reflexivity]]|]. split; [exact lx_holds|].
  split; [split; [reflexivity|apply perm_swap]|exact lx_mixed].
Qed.
