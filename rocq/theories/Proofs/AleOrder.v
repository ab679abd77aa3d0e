(** C168: scale of the weights, order of the observations. *)
From Coq Require Import Lra Psatz Sorting.Sorted Permutation.
From Verif.Model Require Import Base Ext Sort Csr Neighbour Distance WeightModel Inspect Ale.
From Verif.Spec Require Import KernelSpec InspectSpec AleSpec AleShapeSpec.
From Verif.Proofs Require Import ListFacts SumFacts KernelFacts SortFacts CsrFacts AdaptiveFacts WeightFacts NeighbourFacts WeightModelFacts StackingFacts DistanceFacts EndToEnd InspectProps InspectProps3 AleFacts AleGrid AleProps AleProps2 AleShape.
Open Scope nat_scope.
Open Scope R_scope.

Lemma select_map {A B} (g : A -> B) mask l : select mask (map g l) = map g (select mask l).
Proof. revert l. induction mask as [|[] mask IH]; intros [|x l]; cbn; auto. f_equal. apply IH. Qed.
Lemma select_filter {A} (p : A -> bool) l : select (map p l) l = filter p l.
Proof. induction l as [|x l IH]; cbn; auto. destruct (p x); [f_equal|]; exact IH. Qed.
Lemma mask_map {A B} (g : A -> B) mask l : mask_index mask (map g l) = (v <- mask_index mask l ;; Ok (map g v)).
Proof. unfold mask_index. rewrite map_length. destruct (_ =? _)%nat; [|reflexivity]. cbn [bind]. rewrite select_map. reflexivity. Qed.
Lemma mask_maps {A B} (p : A -> bool) (g : A -> B) l : mask_index (map p l) (map g l) = Ok (map g (filter p l)).
Proof. unfold mask_index. rewrite !map_length, Nat.eqb_refl, select_map, select_filter. reflexivity. Qed.

Lemma average_scale c v u : c <> 0 -> average v (map (Rmult c) u) = average v u.
Proof.
  intros Hc. unfold average. assert (E : Rsum (map (Rmult c) u) = c * Rsum u).
  { rewrite <- (map_id u) at 2. apply (Rsum_map_scale c (fun x => x)). }
  assert (E2 : Rsum (map2 Rmult v (map (Rmult c) u)) = c * Rsum (map2 Rmult v u)).
  { clear E. revert u. induction v as [|x v IH]; intros [|y u]; cbn [map map2]; try (cbn; ring). rewrite !Rsum_cons, IH. ring. }
  rewrite E, E2. unfold Reqb. destruct (Req_EM_T (c * Rsum u) 0) as [Zs|Zs], (Req_EM_T (Rsum u) 0) as [Zs'|Zs']; auto.
  - exfalso. apply Rmult_integral in Zs. tauto.
  - exfalso. apply Zs. rewrite Zs'. ring.
  - f_equal. field. auto.
Qed.

Theorem weights_scale store X f pred w norm m c : c <> 0 ->
  weighted_ale store X f pred (Some (map (Rmult c) w)) norm m = weighted_ale store X f pred (Some w) norm m.
Proof.
  intros Hc. unfold weighted_ale.
  repeat match goal with |- bind ?x _ = bind ?x _ => destruct x as [?|]; [cbn [bind]|reflexivity] end.
  rewrite mask_map. destruct (mask_index _ w) as [bw|]; [cbn [bind]|reflexivity]. rewrite average_scale by exact Hc.
  destruct (average _ bw); [cbn [bind]|reflexivity].
  match goal with |- bind (mapM ?F ?l) _ = bind (mapM ?F' ?l) _ => assert (E : mapM F l = mapM F' l) end.
  { match goal with |- mapM _ ?ks = _ => induction ks as [|k l IH]; [reflexivity|] end. cbn [mapM]. rewrite IH. 
    destruct (mask_index _ _) as [d|]; [cbn [bind]|reflexivity]. rewrite mask_map. destruct (mask_index _ w) as [u|]; [cbn [bind]|reflexivity].
    rewrite average_scale by exact Hc. reflexivity. }
  rewrite E. reflexivity.
Qed.

(** Order. *)
Lemma count_occ_perm l l' k : Permutation l l' -> count_occ Nat.eq_dec l k = count_occ Nat.eq_dec l' k.
Proof. intros H. revert k. apply Permutation_count_occ. exact H. Qed.
Lemma list_max_perm l l' : Permutation l l' -> list_max l = list_max l'.
Proof.
  induction 1; [reflexivity| | |congruence].
  - change (Nat.max x (list_max l) = Nat.max x (list_max l')). congruence.
  - change (Nat.max y (Nat.max x (list_max l)) = Nat.max x (Nat.max y (list_max l))). lia.
Qed.
Lemma bincount_perm l l' : Permutation l l' -> bincount l = bincount l'.
Proof.
  intros H. unfold bincount. destruct l as [|x l].
  - apply Permutation_nil in H. subst. reflexivity.
  - destruct l' as [|y l']; [apply Permutation_sym, Permutation_nil in H; discriminate|]. rewrite (list_max_perm _ _ H).
    unfold tabulate. apply map_ext. intros k. apply count_occ_perm. exact H.
Qed.
Lemma group_keys_perm l l' : Permutation l l' -> group_keys l = group_keys l'.
Proof.
  intros H. unfold group_keys. rewrite (list_max_perm _ _ H). apply filter_ext. intros k. apply eq_true_iff_eq. rewrite !existsb_exists.
  split; intros (x & Hx & E); exists x; split; auto; [apply (Permutation_in _ H Hx)|apply (Permutation_in _ (Permutation_sym H) Hx)].
Qed.
Lemma get_quantiles_perm l l' n : Permutation l l' -> get_quantiles l n = get_quantiles l' n.
Proof.
  intros H. unfold get_quantiles. destruct (n <? 0)%Z; [reflexivity|]. induction (seq 0 (Z.to_nat n)) as [|k ks IH]; [reflexivity|]. cbn [mapM]. rewrite IH.
  replace (quantile_linear l' (percentile (Z.to_nat n) k / 100)) with (quantile_linear l (percentile (Z.to_nat n) k / 100)); [reflexivity|].
  unfold quantile_linear, quantile_with. rewrite (sortR_unique _ _ H), (Permutation_length H). destruct l, l'; try reflexivity; apply Permutation_length in H; discriminate.
Qed.
Lemma grid_perm l l' m : Permutation l l' -> adaptive_grid l m = adaptive_grid l' m.
Proof.
  intros H. unfold adaptive_grid, bisect_fun. rewrite (Permutation_length H).
  rewrite (bisect_loop_inside _ (minimum_not_satisfied l m) (minimum_not_satisfied l' m)).
  - destruct (bisect_loop _ _ _ _ _) as [[v|]|]; try reflexivity. cbn [bind]. rewrite (get_quantiles_perm _ _ _ H). reflexivity.
  - intros n _. unfold minimum_not_satisfied, minimum_satisfied. rewrite (get_quantiles_perm _ _ _ H). destruct (get_quantiles l' n); [cbn [bind]|reflexivity].
    rewrite (bincount_perm (bin_indices (unique a) l) (bin_indices (unique a) l')); [reflexivity|]. apply Permutation_map. exact H.
Qed.

Lemma mapM_getitem_map {A} (g : A -> nat) (q : list R) l :
  mapM (fun i => getitem q i) (map g l) = if forallb (fun x => g x <? length q)%nat l then Ok (map (fun x => nth (g x) q 0) l) else Raise IndexError.
Proof.
  induction l as [|x l IH]; [reflexivity|]. cbn [map mapM forallb]. unfold getitem at 1. destruct (Nat.ltb_spec (g x) (length q)) as [L|G].
  - rewrite (nth_error_nth' q 0 L). cbn [bind andb]. rewrite IH. destruct (forallb _ l); reflexivity.
  - rewrite (proj2 (nth_error_None _ _) G). reflexivity.
Qed.
Lemma forallb_perm {A} (p : A -> bool) l l' : Permutation l l' -> forallb p l = forallb p l'.
Proof. intros H. induction H; cbn; try congruence. destruct (p x), (p y); reflexivity. Qed.

Lemma average_perm {A} (g u : A -> R) l l' : Permutation l l' -> average (map g l) (map u l) = average (map g l') (map u l').
Proof.
  intros H. unfold average. rewrite (Rsum_perm _ _ (Permutation_map u H)). rewrite !wsum_map. 
  rewrite (Rsum_perm _ _ (Permutation_map (fun i => g i * u i) H)). reflexivity.
Qed.

(** The computation in terms of (row, weight) pairs. *)
Section Canonical.
  Variables (store : R -> R) (f : nat) (G : list R -> R).
  Let bin (q : list R) (z : list R * R) := bin_of q (nth f (fst z) 0).
  Let moved_to (q : list R) (s : nat) (z : list R * R) := G (list_set (fst z) f (store (nth (bin q z - s) q 0))).

  Definition canonical (Zs : list (list R * R)) (norm : bool) (m : Z) : result (list R * list R) :=
    grid <- adaptive_grid (map (fun z => nth f (fst z) 0) Zs) m ;;
    let q := fst grid in
    let idx := map (bin q) Zs in
    if negb (forallb (fun z => bin q z - 1 <? length q)%nat Zs) then Raise IndexError
    else if negb (forallb (fun z => bin q z <? length q)%nat Zs) then Raise IndexError
    else
    let first := filter (fun z => (bin q z =? 1)%nat) Zs in
    base <- average (map (moved_to q 1) first) (map snd first) ;;
    avg <- mapM (fun k => let l := filter (fun z => (bin q z =? k)%nat) Zs in
                          average (map (fun z => moved_to q 0 z - moved_to q 1 z) l) (map snd l)) (group_keys idx) ;;
    let accum := 0 :: cumsum avg in
    if norm then ale0 <- trapezoid_mean accum (bincount idx) ;; Ok (q, map (fun a => a - ale0) accum)
    else Ok (q, map (fun a => a + base) accum).

  Lemma set_column_map X (g : list R -> R) : set_column store X f (map g X) = map (fun x => list_set x f (store (g x))) X.
  Proof. unfold set_column. induction X as [|x X IH]; cbn [map map2]; [reflexivity|]. rewrite IH. reflexivity. Qed.

  Lemma to_canonical Zs pred norm m N F : rect (map fst Zs) N F -> (0 < N)%nat -> (f < F)%nat -> rowwise pred G ->
    weighted_ale store (map fst Zs) f pred (Some (map snd Zs)) norm m = canonical Zs norm m.
  Proof.
    intros HX HN Hf HG. unfold weighted_ale, canonical, moved_to.
    assert (Hc : column (map fst Zs) f = Ok (map (fun z => nth f (fst z) 0) Zs)).
    { unfold column. rewrite (ncols_rect _ N F HX HN). rewrite (proj2 (Nat.ltb_lt _ _) Hf). rewrite map_map. reflexivity. }
    rewrite Hc. cbn [bind]. destruct (adaptive_grid _ m) as [[q nq]|]; [cbn [bind fst]|reflexivity].
    assert (EI : bin_indices q (map (fun z => nth f (fst z) 0) Zs) = map (bin q) Zs) by (rewrite bin_indices_map, map_map; reflexivity).
    rewrite EI.
    assert (EL : mapM (fun i => getitem q (i - 1)) (map (bin q) Zs) = mapM (fun i => getitem q i) (map (fun z => (bin q z - 1)%nat) Zs)).
    { clear. induction Zs as [|z Zs IH]; [reflexivity|]. cbn [map mapM]. rewrite IH. reflexivity. }
    rewrite EL, !mapM_getitem_map.
    destruct (forallb (fun z => bin q z - 1 <? length q)%nat Zs); [cbn [bind negb]|reflexivity].
    destruct (forallb (fun z => bin q z <? length q)%nat Zs); [cbn [bind negb]|reflexivity].
    assert (ES : forall s, set_column store (map fst Zs) f (map (fun z => nth (bin q z - s) q 0) Zs) = map (fun z => list_set (fst z) f (store (nth (bin q z - s) q 0))) Zs).
    { intros s. unfold set_column. clear. induction Zs as [|z Zs IH]; cbn [map map2]; [reflexivity|]. rewrite IH. reflexivity. }
    assert (E0 : map (fun z => nth (bin q z) q 0) Zs = map (fun z => nth (bin q z - 0) q 0) Zs) by (apply map_ext; intros; rewrite Nat.sub_0_r; reflexivity).
    rewrite E0, !ES, !HG. cbn [bind]. unfold minus_arrays. rewrite !map_length, Nat.eqb_refl. cbn [bind].
    rewrite !map_map.
    rewrite (mask_maps (fun z => (bin q z =? 1)%nat) (fun z => G (list_set (fst z) f (store (nth (bin q z - 1) q 0)))) Zs). cbn [bind].
    rewrite (mask_maps (fun z => (bin q z =? 1)%nat) snd Zs). cbn [bind].
    destruct (average _ _) as [base|]; [cbn [bind]|reflexivity].
    match goal with |- bind (mapM ?F ?l) _ = bind (mapM ?F' ?l) _ => assert (E : mapM F l = mapM F' l) end.
    { match goal with |- mapM _ ?ks = _ => induction ks as [|k l IH]; [reflexivity|] end. cbn [mapM]. rewrite IH. rewrite !map_map.
      assert (EM : map2 Rminus (map (fun z => G (list_set (fst z) f (store (nth (bin q z - 0) q 0)))) Zs) (map (fun z => G (list_set (fst z) f (store (nth (bin q z - 1) q 0)))) Zs) =
                   map (fun z => G (list_set (fst z) f (store (nth (bin q z - 0) q 0))) - G (list_set (fst z) f (store (nth (bin q z - 1) q 0)))) Zs).
      { clear. induction Zs as [|z Zs IH]; cbn [map map2]; [reflexivity|]. rewrite IH. reflexivity. }
      rewrite EM, (mask_maps (fun z => (bin q z =? k)%nat) _ Zs). cbn [bind]. rewrite (mask_maps (fun z => (bin q z =? k)%nat) snd Zs). cbn [bind]. reflexivity. }
    rewrite E. reflexivity.
  Qed.

  Lemma canonical_perm Zs Zs' norm m : Permutation Zs Zs' -> canonical Zs norm m = canonical Zs' norm m.
  Proof.
    intros H. unfold canonical. rewrite (grid_perm _ _ m (Permutation_map (fun z => nth f (fst z) 0) H)).
    destruct (adaptive_grid _ m) as [[q nq]|]; [cbn [bind fst]|reflexivity].
    rewrite !(forallb_perm _ _ _ H). destruct (negb _); [reflexivity|]. destruct (negb _); [reflexivity|].
    rewrite (average_perm _ _ _ _ (filter_perm (fun z => (bin q z =? 1)%nat) _ _ H)). destruct (average _ _) as [base|]; [cbn [bind]|reflexivity].
    rewrite (group_keys_perm _ _ (Permutation_map (bin q) H)), (bincount_perm _ _ (Permutation_map (bin q) H)).
    match goal with |- bind (mapM ?F ?l) _ = bind (mapM ?F' ?l) _ => assert (E : mapM F l = mapM F' l) end.
    { match goal with |- mapM _ ?ks = _ => induction ks as [|k l IH]; [reflexivity|] end. cbn [mapM]. rewrite IH.
      rewrite (average_perm _ _ _ _ (filter_perm (fun z => (bin q z =? k)%nat) _ _ H)). reflexivity. }
    rewrite E. reflexivity.
  Qed.
End Canonical.

Lemma split_pairs {A B} (X : list A) (w : list B) : length X = length w -> X = map fst (combine X w) /\ w = map snd (combine X w).
Proof. revert w. induction X as [|x X IH]; intros [|y w] H; simpl in H; try discriminate; [auto|]. cbn. destruct (IH w ltac:(lia)) as [A1 A2]. split; f_equal; auto. Qed.

Theorem order_free store X w X' w' N F f G pred norm m : rect X N F -> (0 < N)%nat -> length w = N -> length X' = length w' ->
  rowwise pred G -> Permutation (combine X w) (combine X' w') ->
  weighted_ale store X' f pred (Some w') norm m = weighted_ale store X f pred (Some w) norm m.
Proof.
  intros HX HN Hw HL HG HP. destruct (split_pairs X w) as [E1 E2]; [destruct HX; lia|]. destruct (split_pairs X' w' HL) as [E1' E2'].
  assert (HX' : rect X' N F).
  { rewrite E1 in HX. rewrite E1'. destruct HX as [HXl HXf]. split.
    - rewrite map_length, <- (Permutation_length HP). rewrite map_length in HXl. exact HXl.
    - rewrite <- (Permutation_map fst HP). exact HXf. }
  destruct (Nat.lt_ge_cases f F) as [L|Ge].
  - pose proof (to_canonical store f G (combine X w) pred norm m N F) as T. pose proof (to_canonical store f G (combine X' w') pred norm m N F) as T'.
    rewrite <- E1, <- E2 in T. rewrite <- E1', <- E2' in T'. rewrite T, T' by auto. symmetry. apply canonical_perm. exact HP.
  - unfold weighted_ale, column. rewrite (ncols_rect _ N F HX HN), (ncols_rect _ N F HX' HN). rewrite (proj2 (Nat.ltb_ge _ _) Ge). reflexivity.
Qed.
