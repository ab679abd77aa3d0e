From Coq Require Import Lra Psatz.
From Verif.Model Require Import Base Ext Sort Kernel Distance WeightMatrix.
From Verif.Spec Require Import KernelSpec WeightSpec.
From Verif.Proofs Require Import ListFacts KernelFacts SortFacts AdaptiveFacts KernelProps KernelExamples SumFacts WeightFacts WeightProps.
Open Scope string_scope.
Open Scope nat_scope.
Open Scope R_scope.

(** Two points, two dimensions: bisquare with fixed bandwidth 2 in the first,
    boxcar with the 2 nearest in the second. *)
Definition ex_Ds : list (matrix R) := [ [[0; 1]; [1; 0]]; [[0; 3]; [3; 0]] ].
Definition ex_kt : dim_arg string := DList [Some "bisquare"; Some "boxcar"].
Definition ex_bw : dim_arg R := DList [Some 2; None].
Definition ex_nc : dim_arg count_arg := DList [None; Some (CInt 2)].
Definition ex_W : matrix ext := [[Fin (16 / 25); Fin (9 / 25)]; [Fin (9 / 25); Fin (16 / 25)]].

Lemma ex_valid : valid_distances ex_Ds 2 2.
Proof.
  split; [discriminate|]. unfold ex_Ds, entries. repeat (apply Forall_cons || apply Forall_nil || split); simpl; auto; lra.
Qed.

Lemma bisquare_half : kernel_value "bisquare" 2 1 = 9 / 16.
Proof.
  unfold kernel_value; eqbs. destruct (Req_EM_T 2 0); [lra|]. destruct (Rle_dec 1 2); [|lra]. field.
Qed.
Lemma boxcar_at b : 0 < b -> kernel_value "boxcar" b b = 1.
Proof.
  intros H. unfold kernel_value; eqbs. destruct (Req_EM_T b 0); [lra|]. destruct (Rle_dec b b); lra.
Qed.

Definition ex_raw (dim i j : nat) : R :=
  if (i =? j)%nat then 1 else if (dim =? 0)%nat then 9 / 16 else 1.

Lemma lt2 i : (i < 2)%nat -> i = 0%nat \/ i = 1%nat.
Proof. lia. Qed.

Lemma count2 p x y : count p [x; y] = ((if p x then 1 else 0) + (if p y then 1 else 0))%nat.
Proof. unfold count; simpl. destruct (p x), (p y); reflexivity. Qed.

Lemma fin4 a b c d a' b' c' d' : a = a' -> b = b' -> c = c' -> d = d' ->
  [[Fin a; Fin b]; [Fin c; Fin d]] = [[Fin a'; Fin b']; [Fin c'; Fin d']].
Proof. intros; subst; reflexivity. Qed.

Ltac rdec := unfold Rleb, Rltb; repeat (destruct Rle_dec; try lra); repeat (destruct Rlt_dec; try lra).

Lemma ex_ok : weight_matrix_from_distance (map A2 ex_Ds) ex_kt RNone ex_bw ex_nc = Ok ex_W.
Proof.
  apply (wm_complete ex_Ds ex_kt ex_bw ex_nc 2 2 ex_raw ex_W ex_valid); [lia|reflexivity| |].
  - intros dim Hd. simpl in Hd. apply lt2 in Hd as [-> | ->].
    + exists "bisquare", (FixedBandwidth 2), [2; 2]. split; [|split; [reflexivity|split]].
      * repeat split; simpl; auto. unfold known_kernel; tauto.
      * intros i Hi. apply lt2 in Hi as [-> | ->]; reflexivity.
      * intros i j Hi Hj. apply lt2 in Hi as [-> | ->], Hj as [-> | ->]; unfold ex_raw, mget; simpl;
          rewrite ?bisquare_half, ?kernel_value_0; auto; try lra; unfold known_kernel; tauto.
    + exists "boxcar", (NearestCount 2), [3; 3]. split; [|split; [reflexivity|split]].
      * repeat split; simpl; auto. unfold known_kernel; tauto.
      * intros i Hi. apply lt2 in Hi as [-> | ->]; simpl; (split; [lia|]); (split; [simpl; lia|]);
          unfold kth_smallest; rewrite !count2; simpl; rdec; (split; [tauto|]); simpl; lia.
      * intros i j Hi Hj. apply lt2 in Hi as [-> | ->], Hj as [-> | ->]; unfold ex_raw, mget; simpl;
          rewrite ?boxcar_at, ?kernel_value_0; auto; try lra; unfold known_kernel; tauto.
  - unfold ex_W, mmap, mtab, tabulate, ex_raw, Rprod, Rsum; simpl. unfold safe_div.
    destruct Req_EM_T; [exfalso; lra|]. destruct Req_EM_T; [exfalso; lra|].
    apply fin4; field.
Qed.

(** A source without any target in reach: its row is zero. *)
Definition ex_far : list (matrix R) := [ [[1; 2]; [0; 1]] ].
Definition ex_far_W : matrix ext := [[Fin 0; Fin 0]; [Fin 1; Fin 0]].
Lemma ex_far_valid : valid_distances ex_far 2 2.
Proof.
  split; [discriminate|]. unfold ex_far, entries. repeat (apply Forall_cons || apply Forall_nil || split); simpl; auto; lra.
Qed.
Lemma bis1 : kernel_value "bisquare" 1 1 = 0.
Proof. unfold kernel_value; eqbs. destruct Req_EM_T; [lra|]. destruct Rle_dec; [|lra]. field. Qed.
Lemma bis2 : kernel_value "bisquare" 1 2 = 0.
Proof. unfold kernel_value; eqbs. destruct Req_EM_T; [lra|]. destruct Rle_dec; [lra|]. auto. Qed.
Lemma ex_far_ok :
  weight_matrix_from_distance (map A2 ex_far) (DScal "bisquare") RNone (DScal 1) DNone = Ok ex_far_W.
Proof.
  apply (wm_complete ex_far _ _ _ 2 2 (fun _ i j => if (i =? 1)%nat && (j =? 0)%nat then 1 else 0) ex_far_W ex_far_valid); [lia|reflexivity| |].
  - intros dim Hd. simpl in Hd. assert (dim = 0%nat) as -> by lia.
    exists "bisquare", (FixedBandwidth 1), [1; 1]. split; [|split; [reflexivity|split]].
    + repeat split; simpl; auto. unfold known_kernel; tauto.
    + intros i Hi. apply lt2 in Hi as [-> | ->]; reflexivity.
    + intros i j Hi Hj. apply lt2 in Hi as [-> | ->], Hj as [-> | ->]; unfold mget; simpl;
        rewrite ?bis1, ?bis2, ?kernel_value_0; auto; try lra; unfold known_kernel; tauto.
  - unfold ex_far_W, mmap, mtab, tabulate, Rprod, Rsum; simpl. unfold safe_div.
    destruct Req_EM_T; [|exfalso; lra]. destruct Req_EM_T; [exfalso; lra|].
    apply fin4; field.
Qed.

Lemma wm_order_targets : forall perm kernel_type bandwidth neighbour_count Ds r c,
  valid_distances Ds r c -> (0 < r)%nat -> index_permutation perm c ->
  (forall W, weight_matrix_from_distance (map A2 Ds) kernel_type RNone bandwidth neighbour_count = Ok W ->
   weight_matrix_from_distance (map A2 (map (reorder_cols 0 perm) Ds)) kernel_type RNone bandwidth neighbour_count
     = Ok (reorder_cols NaN perm W)) /\
  (raises (weight_matrix_from_distance (map A2 Ds) kernel_type RNone bandwidth neighbour_count) ->
   raises (weight_matrix_from_distance (map A2 (map (reorder_cols 0 perm) Ds)) kernel_type RNone bandwidth neighbour_count)).
Proof.
  intros f kt bw nc Ds r c HV Hr Hf. split.
  - intros W. apply (wm_perm_cols f kt bw nc Ds r c W HV Hr Hf).
  - apply (wm_success_shape Ds _ kt bw nc r c HV); auto; [|rewrite map_length; auto].
    apply valid_map; auto. intros D HR HE. split; [apply reorder_cols_rect; auto|].
    apply (entries_mget _ _ r c); [apply reorder_cols_rect; auto|]. intros i j Hi Hj.
    rewrite (reorder_cols_get 0 f D r c) by auto. apply (entry_nonneg _ r c); auto. apply (index_perm_lt f c); auto.
Qed.

Lemma wm_order_sources : forall perm kernel_type bandwidth neighbour_count Ds r c,
  valid_distances Ds r c -> (0 < r)%nat -> index_permutation perm r ->
  (forall W, weight_matrix_from_distance (map A2 Ds) kernel_type RNone bandwidth neighbour_count = Ok W ->
   weight_matrix_from_distance (map A2 (map (reorder_rows perm) Ds)) kernel_type RNone bandwidth neighbour_count
     = Ok (reorder_rows perm W)) /\
  (raises (weight_matrix_from_distance (map A2 Ds) kernel_type RNone bandwidth neighbour_count) ->
   raises (weight_matrix_from_distance (map A2 (map (reorder_rows perm) Ds)) kernel_type RNone bandwidth neighbour_count)).
Proof.
  intros f kt bw nc Ds r c HV Hr Hf. split.
  - intros W. apply (wm_perm_rows f kt bw nc Ds r c W HV Hr Hf).
  - apply (wm_success_shape Ds _ kt bw nc r c HV); auto; [|rewrite map_length; auto].
    apply valid_map; auto. intros D HR HE. split; [apply reorder_rows_rect; auto|].
    apply (entries_mget _ _ r c); [apply reorder_rows_rect; auto|]. intros i j Hi Hj.
    unfold mget. rewrite (reorder_rows_row f D r) by auto. apply (entry_nonneg _ r c); auto. apply (index_perm_lt f r); auto.
Qed.

(** ** dask *)
Lemma mapM_fmap {A B C} (f : A -> result B) (g : A -> result C) (h : B -> C) l :
  (forall x, In x l -> g x = bind (f x) (fun y => Ok (h y))) ->
  mapM g l = bind (mapM f l) (fun ys => Ok (map h ys)).
Proof.
  induction l as [|x l IH]; intros H; simpl; auto. rewrite (H x) by (left; auto).
  destruct (f x); simpl; auto. rewrite IH by (intros; apply H; right; auto).
  destruct (mapM f l); simpl; auto.
Qed.

Lemma dask_fixed_agrees : forall Ds kernel_type bandwidth r c,
  valid_distances Ds r c -> (0 < r)%nat ->
  (forall dim b, arg_at bandwidth dim = Some b -> 0 <= b) ->
  forall sorted, (forall dim, (dim < length Ds)%nat -> arg_defined sorted dim) ->
  weight_matrix_from_distance_dask Ds kernel_type RNone bandwidth DNone sorted =
  weight_matrix_from_distance (map A2 Ds) kernel_type RNone bandwidth DNone.
Proof.
  intros Ds kt bw r c HV Hr Hb sorted Hs.
  unfold weight_matrix_from_distance_dask, weight_matrix_from_distance.
  destruct (negb (one_shape (map A2 Ds))); auto.
  destruct (is_none bw && is_none DNone); auto.
  cbn [merge_distances bind]. rewrite mapM_map.
  rewrite (mapM_all_ok (fun x : matrix R => Ok x) (fun x => x)), map_id by auto. cbn [bind].
  rewrite map_length. set (n := length Ds) in *.
  match goal with |- bind (mapM ?f _) _ = bind (mapM ?g _) _ =>
    rewrite (mapM_fmap f g (@A2 ext) (seq 0 n)) end.
  - match goal with |- bind ?m _ = _ => destruct m; reflexivity end.
  - intros dim Hd. apply in_seq in Hd.
    rewrite (getitem_lt ([] : matrix R)) by (fold n; lia).
    rewrite (getitem_lt (A2 [])) by (rewrite map_length; fold n; lia).
    rewrite (map_nth (@A2 R)). cbn [bind].
    destruct (getitem (broadcast_arg n kt) dim) as [k|]; auto. cbn [bind].
    destruct (getitem (broadcast_arg n bw) dim) as [b|] eqn:Eb; auto. cbn [bind].
    destruct (getitem (broadcast_arg n DNone) dim) as [cc|] eqn:Ec; auto. cbn [bind].
    assert (Es : getitem (broadcast_arg n sorted) dim = Ok (arg_at sorted dim))
      by (apply getitem_broadcast; [lia|]; split; auto; apply Hs; lia).
    rewrite Es. cbn [bind].
    apply getitem_broadcast in Eb as [_ Eb]; [|lia]. apply getitem_broadcast in Ec as [_ Ec]; [|lia].
    simpl in Ec. subst cc. destruct b as [b|]; auto. simpl.
    destruct (valid_nth _ _ _ dim HV ltac:(fold n; lia)) as [HR HE].
    rewrite kernel_function_dask_agrees; auto. simpl. eapply Hb; eauto.
Qed.

Definition ex_pair : matrix R := [[0; 1]; [1; 0]].
Lemma ex_pair_valid : valid_distances [ex_pair] 2 2.
Proof.
  split; [discriminate|]. unfold ex_pair, entries. repeat (apply Forall_cons || apply Forall_nil || split); simpl; auto; lra.
Qed.

Lemma sort01 : sortR [0; 1] = [0; 1] /\ sortR [1; 0] = [0; 1].
Proof. unfold sortR, insert, Rleb. split; repeat (destruct Rle_dec; try lra); reflexivity. Qed.

Lemma kv_box b d : 0 < b -> kernel_value "boxcar" b d = if Rle_dec d b then 1 else 0.
Proof. intros H. unfold kernel_value; eqbs. destruct Req_EM_T; [lra|]. reflexivity. Qed.

Lemma avi01_lin : at_virtual_index [0; 1] (virtual_linear 2 (3 / 4)) = 3 / 4.
Proof.
  destruct (avi_cases [0; 1] (virtual_linear 2 (3 / 4)) ltac:(discriminate)) as [[H _]|[[_ [H _]]|[i [Hi [Hv ->]]]]];
    unfold virtual_linear in *; simpl in *; try lra.
  assert (i = 0)%nat as -> by lia. simpl. lra.
Qed.

Lemma Rdiv_1 x : x / 1 = x.
Proof. field. Qed.

Lemma dask_fraction_differs :
  exists Ds q W W', valid_distances Ds 2 2 /\ 0 < q <= 1 /\
  weight_matrix_from_distance (map A2 Ds) (DScal "boxcar") RNone DNone (DScal (CFloat q)) = Ok W /\
  weight_matrix_from_distance_dask Ds (DScal "boxcar") RNone DNone (DScal (CFloat q)) DNone = Ok W' /\ W <> W'.
Proof.
  exists [ex_pair], (3 / 4), [[Fin (1 / 2); Fin (1 / 2)]; [Fin (1 / 2); Fin (1 / 2)]], [[Fin 1; Fin 0]; [Fin 0; Fin 1]].
  split; [apply ex_pair_valid|]. split; [lra|].
  assert (Hmax : forall row, (row = [0; 1] \/ row = [1; 0]) -> hyndman_fan_8 row (3 / 4) 1).
  { intros row Hrow. assert (HL : length row = 2%nat) by (destruct Hrow; subst; auto).
    unfold hyndman_fan_8. rewrite HL. simpl INR. split; [|split].
    - intros; lra.
    - intros _. destruct Hrow; subst; unfold kth_smallest; rewrite !count2; simpl; rdec; (split; [tauto|]); simpl; lia.
    - intros j v w Hj Hh. assert (j = 1)%nat as -> by lia. simpl in Hh. lra. }
  assert (Hkn : known_kernel "boxcar") by (unfold known_kernel; tauto).
  split; [|split].
  - apply (wm_complete [ex_pair] _ _ _ 2 2 (fun _ _ _ => 1) _ ex_pair_valid); [lia|reflexivity| |].
    + intros dim Hd. simpl in Hd. assert (dim = 0%nat) as -> by lia.
      exists "boxcar", (Fraction (3 / 4)), [1; 1]. split; [|split; [reflexivity|split]].
      * repeat split; simpl; auto.
      * intros i Hi. apply lt2 in Hi as [-> | ->]; simpl; (split; [lra|]); (split; [discriminate|]); apply Hmax; auto.
      * intros i j Hi Hj. apply lt2 in Hi as [-> | ->], Hj as [-> | ->]; unfold mget; simpl;
          rewrite kv_box by lra; destruct Rle_dec; lra.
    + unfold mmap, mtab, tabulate, Rprod, Rsum; simpl. unfold safe_div.
      destruct Req_EM_T; [exfalso; lra|]. apply fin4; field.
  - unfold weight_matrix_from_distance_dask.
    assert (E1 : one_shape (map A2 [ex_pair]) = true) by reflexivity. rewrite E1. cbn [negb is_none andb].
    cbn [merge_distances map bind mapM length broadcast_arg repeat seq].
    cbn [getitem nth_error bind].
    unfold weight_by_distance_dask, adaptive_kernel_dask, adaptive_bandwidth_dask.
    assert (Eq : forall row, (row = [0; 1] \/ row = [1; 0]) -> quantile_linear row (3 / 4) = Ok (3 / 4)).
    { intros row Hrow. unfold quantile_linear. apply quantile_with_ok. split; [lra|].
      split; [destruct Hrow; subst; discriminate|].
      destruct sort01 as [S1 S2]. destruct Hrow; subst; rewrite ?S1, ?S2; simpl length; symmetry; apply avi01_lin. }
    unfold ex_pair at 1. cbn [mapM]. rewrite !Eq by auto. cbn [bind].
    assert (HE : entries (Rle 0) ex_pair) by apply (valid_nth [ex_pair] 2 2 0 ex_pair_valid ltac:(simpl; lia)).
    rewrite kernel_function_dask_agrees; [|exact HE|repeat (constructor; try lra)].
    cbn [kernel_name]. rewrite (kernel_function_known "boxcar" ex_pair (BColumn [3 / 4; 3 / 4]) [3 / 4; 3 / 4] Hkn eq_refl HE).
    unfold ex_pair; cbn [kernel_name map2 map bind nd_prod fold_left normalise].
    rewrite !kv_box by lra. repeat (destruct Rle_dec; try lra).
    apply (f_equal Ok).
    assert (N : forall x y, x + (y + 0) = 1 -> normalise_row [Fin x; Fin y] = [Fin x; Fin y]).
    { intros x y H. change [Fin x; Fin y] with (map Fin [x; y]) at 1. rewrite normalise_row_Fin.
      unfold Rsum; simpl. rewrite H. unfold safe_div. destruct Req_EM_T; [lra|]. simpl. rewrite !Rdiv_1. reflexivity. }
    rewrite !N by lra. reflexivity.
  - intros H. inversion H. lra.
Qed.

Definition ex_dask_metric (m : string) : option (list R -> list R -> R) :=
  if String.eqb m "euclidean" then Some euclid else None.

Lemma euclid1 a b : euclid [a] [b] = Rabs (a - b).
Proof.
  unfold euclid; simpl. unfold Rsum; simpl. rewrite Rplus_0_r. apply sqrt_Rsqr_abs.
Qed.

Lemma ex_points_ok :
  is_ok (snd (weight_matrix_from_points (fun x => x) unit tt (fun _ => None) (fun _ => None) (fun r => r) unit (fun _ => true)
    (fun _ => None) [ [[0]; [1]] ] (Some [ [[0]; [1]] ]) (Scalar "euclidean") (DScal "boxcar") RNone (DScal 5) DNone None)) = true.
Proof.
  unfold weight_matrix_from_points, distance_matrices. cbn [snd length Nat.eqb bind seq mapM].
  cbn [getitem nth_error bind map metric_list repeat].
  unfold distance_matrix. cbn [ncols hd length Nat.eqb bind].
  change (String.eqb "euclidean" "great-circle") with false. cbv beta iota.
  unfold metric_fn. change (String.eqb "euclidean" "euclidean") with true. cbv beta iota.
  reflexivity.
Qed.

Lemma ex_dargs :
  let sm := fun _ : string => Some (fun (kw : nat) (_ _ : list R) => INR kw) in
  (exists name, sm name <> Some (fun _ _ _ => INR 0)) /\
  exists W fs', weight_matrix_from_points (fun x => x) nat 0%nat sm ex_dask_metric (fun r => r) nat (fun a => negb (a =? 0)%nat)
    (fun _ => None) [ [[0]; [1]] ] (Some [ [[0]; [1]] ]) (Scalar "euclidean") (DScal "boxcar") RNone (DScal 5) DNone (Some 7%nat)
   = (fs', Ok W).
Proof.
  intros sm. split.
  - exists "x". intros H. inversion H as [H1]. apply (f_equal (fun f => f 1%nat [] [])) in H1. simpl in H1. lra.
  - unfold weight_matrix_from_points. cbn [Nat.eqb negb].
    unfold distance_matrices_dask. cbn [length Nat.eqb map seq fold_left].
    cbn [getitem nth_error bind metric_list repeat].
    unfold distance_matrix_dask. cbn [ncols hd length Nat.eqb kw_filepath].
    change (ex_dask_metric "euclidean") with (Some euclid). cbv beta iota.
    eexists. eexists. f_equal; reflexivity.
Qed.
