(** Properties C13-C21, C81: weight matrices. *)
From Coq Require Import Lra Psatz.
From Verif.Model Require Import Base Ext Sort Kernel Distance WeightMatrix.
From Verif.Spec Require Import KernelSpec WeightSpec.
From Verif.Proofs Require Import ListFacts KernelFacts SumFacts WeightFacts WeightProps WeightRaises WeightExamples.
Open Scope string_scope.
Open Scope nat_scope.
Open Scope R_scope.

(** C13: entries in [0,1], each row sums to 1 or is zero; a row is zero exactly
    when every target is outside the support in some dimension. *)
Theorem C13_rows_stochastic_or_zero :
  forall Ds kernel_type bandwidth neighbour_count r c W,
  valid_distances Ds r c -> (0 < r)%nat ->
  weight_matrix_from_distance (map A2 Ds) kernel_type RNone bandwidth neighbour_count = Ok W ->
  exists Wr, W = mmap Fin Wr /\ rect Wr r c /\ Forall normalised_row Wr /\
    forall i, (i < r)%nat ->
      (Forall (fun w => w = 0) (nth i Wr []) <->
       forall j, (j < c)%nat -> exists dim k p, (dim < length Ds)%nat /\
         requests kernel_type bandwidth neighbour_count dim k p /\
         raw_weight k p (nth dim Ds []) i j 0).
Proof. exact wm_stochastic. Qed.
Print Assumptions C13_rows_stochastic_or_zero.

Example C13_example_two_dimensions :
  valid_distances ex_Ds 2 2 /\ weight_matrix_from_distance (map A2 ex_Ds) ex_kt RNone ex_bw ex_nc = Ok ex_W.
Proof. exact (conj ex_valid ex_ok). Qed.
Example C13_example_zero_row :
  valid_distances ex_far 2 2 /\
  weight_matrix_from_distance (map A2 ex_far) (DScal "bisquare") RNone (DScal 1) DNone = Ok ex_far_W.
Proof. exact (conj ex_far_valid ex_far_ok). Qed.

(** C14: product over the dimensions divided by the row total; support is the
    intersection of the supports. *)
Theorem C14_product_of_dimensions :
  forall Ds kernel_type bandwidth neighbour_count r c W,
  valid_distances Ds r c -> (0 < r)%nat ->
  weight_matrix_from_distance (map A2 Ds) kernel_type RNone bandwidth neighbour_count = Ok W ->
  rect W r c /\
  exists raw : nat -> nat -> nat -> R,
    (forall dim i j, (dim < length Ds)%nat -> (i < r)%nat -> (j < c)%nat ->
       exists k p, requests kernel_type bandwidth neighbour_count dim k p /\
         raw_weight k p (nth dim Ds []) i j (raw dim i j)) /\
    forall i j, (i < r)%nat -> (j < c)%nat ->
      let product j' := Rprod (tabulate (length Ds) (fun dim => raw dim i j')) in
      let total := Rsum (tabulate c product) in
      mget NaN W i j = Fin (if Req_EM_T total 0 then 0 else product j / total) /\
      (mget NaN W i j <> Fin 0 <-> forall dim, (dim < length Ds)%nat -> raw dim i j <> 0).
Proof. exact wm_product. Qed.
Print Assumptions C14_product_of_dimensions.

Example C14_example : exists Ds r c W kt bw nc, valid_distances Ds r c /\ (0 < r)%nat /\ (length Ds = 2)%nat /\
  weight_matrix_from_distance (map A2 Ds) kt RNone bw nc = Ok W.
Proof. exists ex_Ds, 2%nat, 2%nat, ex_W, ex_kt, ex_bw, ex_nc. split; [exact ex_valid|]. split; [lia|]. split; [reflexivity|exact ex_ok]. Qed.

(** C15: with coinciding sources and targets the own weight is positive and the
    row maximum. *)
Theorem C15_self_is_heaviest :
  forall Ds kernel_type bandwidth neighbour_count n W,
  valid_distances Ds n n -> (0 < n)%nat ->
  (forall D i, In D Ds -> (i < n)%nat -> mget 0 D i i = 0) ->
  (forall dim b, arg_at bandwidth dim = Some b -> 0 <= b) ->
  weight_matrix_from_distance (map A2 Ds) kernel_type RNone bandwidth neighbour_count = Ok W ->
  exists Wr, W = mmap Fin Wr /\ rect Wr n n /\
    forall i j, (i < n)%nat -> (j < n)%nat -> 0 < mget 0 Wr i i /\ mget 0 Wr i j <= mget 0 Wr i i.
Proof. exact wm_self_max. Qed.
Print Assumptions C15_self_is_heaviest.

Example C15_example :
  (forall D i, In D ex_Ds -> (i < 2)%nat -> mget 0 D i i = 0) /\
  (forall dim b, arg_at ex_bw dim = Some b -> 0 <= b) /\
  weight_matrix_from_distance (map A2 ex_Ds) ex_kt RNone ex_bw ex_nc = Ok ex_W.
Proof.
  split; [|split; [|exact ex_ok]].
  - intros D i [<-|[<-|[]]] Hi; apply lt2 in Hi as [-> | ->]; reflexivity.
  - intros [|[|dim]] b; simpl; intros H; try (inversion H; lra); destruct dim; discriminate.
Qed.

(** C16: permuting the targets permutes the columns, permuting the sources
    permutes the rows, and a rejected input stays rejected. *)
Theorem C16_order_of_targets :
  forall perm kernel_type bandwidth neighbour_count Ds r c,
  valid_distances Ds r c -> (0 < r)%nat -> index_permutation perm c ->
  (forall W, weight_matrix_from_distance (map A2 Ds) kernel_type RNone bandwidth neighbour_count = Ok W ->
   weight_matrix_from_distance (map A2 (map (reorder_cols 0 perm) Ds)) kernel_type RNone bandwidth neighbour_count
     = Ok (reorder_cols NaN perm W)) /\
  (raises (weight_matrix_from_distance (map A2 Ds) kernel_type RNone bandwidth neighbour_count) ->
   raises (weight_matrix_from_distance (map A2 (map (reorder_cols 0 perm) Ds)) kernel_type RNone bandwidth neighbour_count)).
Proof. exact wm_order_targets. Qed.
Print Assumptions C16_order_of_targets.

Theorem C16_order_of_sources :
  forall perm kernel_type bandwidth neighbour_count Ds r c,
  valid_distances Ds r c -> (0 < r)%nat -> index_permutation perm r ->
  (forall W, weight_matrix_from_distance (map A2 Ds) kernel_type RNone bandwidth neighbour_count = Ok W ->
   weight_matrix_from_distance (map A2 (map (reorder_rows perm) Ds)) kernel_type RNone bandwidth neighbour_count
     = Ok (reorder_rows perm W)) /\
  (raises (weight_matrix_from_distance (map A2 Ds) kernel_type RNone bandwidth neighbour_count) ->
   raises (weight_matrix_from_distance (map A2 (map (reorder_rows perm) Ds)) kernel_type RNone bandwidth neighbour_count)).
Proof. exact wm_order_sources. Qed.
Print Assumptions C16_order_of_sources.

Example C16_example : index_permutation [1%nat; 0%nat] 2 /\ reorder_cols NaN [1%nat; 0%nat] ex_W <> ex_W.
Proof. split; [apply perm_swap|]. intros H. unfold ex_W in H. simpl in H. inversion H. lra. Qed.

(** C17: with a distance_ratio, no input is ever merged: the call raises. *)
Theorem C17_distance_ratio_refuted :
  forall Ds kernel_type ratio bandwidth neighbour_count,
  ratio <> RNone -> raises (weight_matrix_from_distance Ds kernel_type ratio bandwidth neighbour_count).
Proof. exact ratio_raises. Qed.
Print Assumptions C17_distance_ratio_refuted.

Theorem C17_distance_ratio_dask_refuted :
  forall Ds kernel_type ratio bandwidth neighbour_count sorted,
  ratio <> RNone -> raises (weight_matrix_from_distance_dask Ds kernel_type ratio bandwidth neighbour_count sorted).
Proof. exact ratio_raises_dask. Qed.
Print Assumptions C17_distance_ratio_dask_refuted.

(** The same call without the ratio succeeds. *)
Example C17_example : RScal 3 <> RNone /\ is_ok (weight_matrix_from_distance (map A2 ex_Ds) ex_kt RNone ex_bw ex_nc) = true.
Proof. split; [discriminate|]. rewrite ex_ok. reflexivity. Qed.

(** C18: a dimension with neither or with both is rejected... *)
Theorem C18_exactly_one_rule :
  forall Ds kernel_type ratio bandwidth neighbour_count dim,
  (dim < length Ds)%nat ->
  (arg_at bandwidth dim = None /\ arg_at neighbour_count dim = None \/
   exists b k, arg_at bandwidth dim = Some b /\ arg_at neighbour_count dim = Some k) ->
  raises (weight_matrix_from_distance Ds kernel_type ratio bandwidth neighbour_count).
Proof. exact choice_raises. Qed.
Print Assumptions C18_exactly_one_rule.

(** ... and these are the exact conditions of success. *)
Theorem C18_when_it_succeeds :
  forall Ds kernel_type bandwidth neighbour_count r c,
  valid_distances Ds r c -> (0 < r)%nat ->
  ((exists W, weight_matrix_from_distance (map A2 Ds) kernel_type RNone bandwidth neighbour_count = Ok W) <->
   (~ (bandwidth = DNone /\ neighbour_count = DNone)) /\
   forall dim, (dim < length Ds)%nat ->
     exists k p, requests kernel_type bandwidth neighbour_count dim k p /\
     match p with
     | FixedBandwidth _ => True
     | NearestCount z => (1 <= z <= Z.of_nat c)%Z
     | Fraction q => 0 < q <= 1 /\ (0 < c)%nat
     end).
Proof. exact wm_success. Qed.
Print Assumptions C18_when_it_succeeds.

(** README.md:66-69: bandwidth given together with neighbour_count. *)
Example C18_example_readme :
  (0 < length (map A2 ex_Ds))%nat /\ arg_at (DScal 5) 0 = Some 5 /\
  arg_at (DScal (CFloat (3 / 10))) 0 = Some (CFloat (3 / 10)).
Proof. simpl. repeat split; auto. Qed.

(** C19: without target coordinates every call raises. *)
Theorem C19_targets_required :
  forall f32 mkw no_kw scipy_metric dask_metric sort_row dargs truthy
         fs source metrics kernel_type ratio bandwidth neighbour_count distance_args,
  raises (snd (weight_matrix_from_points f32 mkw no_kw scipy_metric dask_metric sort_row dargs truthy
                 fs source None metrics kernel_type ratio bandwidth neighbour_count distance_args)).
Proof. exact no_target_raises. Qed.
Print Assumptions C19_targets_required.

(** Passing the sources again as targets succeeds. *)
Example C19_example :
  is_ok (snd (weight_matrix_from_points (fun x => x) unit tt (fun _ => None) (fun _ => None) (fun r => r) unit (fun _ => true)
    (fun _ => None) [ [[0]; [1]] ] (Some [ [[0]; [1]] ]) (Scalar "euclidean") (DScal "boxcar") RNone (DScal 5) DNone None)) = true.
Proof. exact ex_points_ok. Qed.

(** C20: only the truthiness of distance_args matters ... *)
Theorem C20_distance_args_only_truthiness :
  forall f32 mkw no_kw scipy_metric dask_metric sort_row dargs (truthy : dargs -> bool)
         fs source target metrics kernel_type ratio bandwidth neighbour_count o o',
  match o with Some a => truthy a | None => false end = match o' with Some a => truthy a | None => false end ->
  weight_matrix_from_points f32 mkw no_kw scipy_metric dask_metric sort_row dargs truthy
     fs source target metrics kernel_type ratio bandwidth neighbour_count o =
  weight_matrix_from_points f32 mkw no_kw scipy_metric dask_metric sort_row dargs truthy
     fs source target metrics kernel_type ratio bandwidth neighbour_count o'.
Proof. exact dargs_truthiness. Qed.
Print Assumptions C20_distance_args_only_truthiness.

(** ... no keyword argument ever reaches a metric ... *)
Theorem C20_metric_keywords_never_used :
  forall f32 mkw no_kw sm sm' dm sort_row dargs truthy fs source target metrics kernel_type ratio bandwidth neighbour_count o,
  (forall name, option_map (fun m => m no_kw) (sm name) = option_map (fun m => m no_kw) (sm' name)) ->
  weight_matrix_from_points f32 mkw no_kw sm dm sort_row dargs truthy fs source target metrics kernel_type ratio bandwidth neighbour_count o =
  weight_matrix_from_points f32 mkw no_kw sm' dm sort_row dargs truthy fs source target metrics kernel_type ratio bandwidth neighbour_count o.
Proof. exact metric_kw_irrelevant. Qed.
Print Assumptions C20_metric_keywords_never_used.

(** ... and a truthy value goes through dask, overwriting the store
    distance_matrix.zarr; otherwise no file is touched. *)
Theorem C20_truthy_switches_to_dask :
  forall f32 mkw no_kw sm dm sort_row dargs truthy fs source target metrics kernel_type ratio bandwidth neighbour_count a W fs',
  truthy a = true ->
  weight_matrix_from_points f32 mkw no_kw sm dm sort_row dargs truthy fs source (Some target) metrics
    kernel_type ratio bandwidth neighbour_count (Some a) = (fs', Ok W) ->
  exists (m : list R -> list R -> R) s t,
    last (map Some source) None = Some s /\ last (map Some target) None = Some t /\
    fs' "distance_matrix.zarr" = Some (map (fun p => map (fun q => m p q) t) s).
Proof. exact truthy_writes. Qed.
Print Assumptions C20_truthy_switches_to_dask.

Theorem C20_falsy_touches_no_file :
  forall f32 mkw no_kw sm dm sort_row dargs (truthy : dargs -> bool) fs source target metrics kernel_type ratio bandwidth neighbour_count o,
  match o with Some a => truthy a | None => false end = false ->
  fst (weight_matrix_from_points f32 mkw no_kw sm dm sort_row dargs truthy
     fs source target metrics kernel_type ratio bandwidth neighbour_count o) = fs.
Proof. exact falsy_fs. Qed.
Print Assumptions C20_falsy_touches_no_file.

(** A metric that would depend on its keyword argument; two truthy values. *)
Example C20_example :
  let sm := fun _ : string => Some (fun (kw : nat) (_ _ : list R) => INR kw) in
  (exists name, sm name <> Some (fun _ _ _ => INR 0)) /\
  exists W fs', weight_matrix_from_points (fun x => x) nat 0%nat sm ex_dask_metric (fun r => r) nat (fun a => negb (a =? 0)%nat)
    (fun _ => None) [ [[0]; [1]] ] (Some [ [[0]; [1]] ]) (Scalar "euclidean") (DScal "boxcar") RNone (DScal 5) DNone (Some 7%nat)
   = (fs', Ok W).
Proof. exact ex_dargs. Qed.

(** C21: rescaling all distances by s > 0 (and the fixed bandwidths) changes nothing. *)
Theorem C21_unit_free :
  forall s kernel_type bandwidth neighbour_count Ds r c W,
  0 < s -> valid_distances Ds r c -> (0 < r)%nat ->
  weight_matrix_from_distance (map A2 Ds) kernel_type RNone bandwidth neighbour_count = Ok W ->
  weight_matrix_from_distance (map A2 (map (mmap (Rmult s)) Ds)) kernel_type RNone (scale_arg s bandwidth) neighbour_count = Ok W.
Proof. exact wm_scale. Qed.
Print Assumptions C21_unit_free.

Theorem C21_unit_free_adaptive :
  forall s kernel_type neighbour_count Ds r c W,
  0 < s -> valid_distances Ds r c -> (0 < r)%nat ->
  weight_matrix_from_distance (map A2 Ds) kernel_type RNone DNone neighbour_count = Ok W ->
  weight_matrix_from_distance (map A2 (map (mmap (Rmult s)) Ds)) kernel_type RNone DNone neighbour_count = Ok W.
Proof. exact (fun s kt nc => wm_scale s kt DNone nc). Qed.
Print Assumptions C21_unit_free_adaptive.

Example C21_example : 0 < 1000 /\ valid_distances ex_Ds 2 2 /\ map (mmap (Rmult 1000)) ex_Ds <> ex_Ds.
Proof.
  split; [lra|]. split; [exact ex_valid|]. unfold ex_Ds; simpl. intros H. inversion H. lra.
Qed.

(** C81: with a fixed non-negative bandwidth in every dimension the dask variant
    returns the same matrix as the numpy variant. *)
Theorem C81_dask_agrees_fixed_bandwidth :
  forall Ds kernel_type bandwidth r c,
  valid_distances Ds r c -> (0 < r)%nat ->
  (forall dim b, arg_at bandwidth dim = Some b -> 0 <= b) ->
  forall sorted, (forall dim, (dim < length Ds)%nat -> arg_defined sorted dim) ->
  weight_matrix_from_distance_dask Ds kernel_type RNone bandwidth DNone sorted =
  weight_matrix_from_distance (map A2 Ds) kernel_type RNone bandwidth DNone.
Proof. exact dask_fixed_agrees. Qed.
Print Assumptions C81_dask_agrees_fixed_bandwidth.

(** With a fractional neighbour count the two variants differ. *)
Theorem C81_dask_fraction_refuted :
  exists Ds q W W', valid_distances Ds 2 2 /\ 0 < q <= 1 /\
  weight_matrix_from_distance (map A2 Ds) (DScal "boxcar") RNone DNone (DScal (CFloat q)) = Ok W /\
  weight_matrix_from_distance_dask Ds (DScal "boxcar") RNone DNone (DScal (CFloat q)) DNone = Ok W' /\ W <> W'.
Proof. exact dask_fraction_differs. Qed.
Print Assumptions C81_dask_fraction_refuted.

Example C81_example : valid_distances ex_far 2 2 /\ arg_at (DScal 1) 0 = Some 1 /\ arg_defined (@DNone (matrix R)) 0 /\
  weight_matrix_from_distance (map A2 ex_far) (DScal "bisquare") RNone (DScal 1) DNone = Ok ex_far_W.
Proof. split; [exact ex_far_valid|]. split; [reflexivity|]. split; [exact I|exact ex_far_ok]. Qed.
