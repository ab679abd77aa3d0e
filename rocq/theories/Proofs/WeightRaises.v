From Coq Require Import Lra Psatz.
From Verif.Model Require Import Base Ext Sort Kernel Distance WeightMatrix.
From Verif.Spec Require Import KernelSpec WeightSpec.
From Verif.Proofs Require Import ListFacts KernelFacts SortFacts AdaptiveFacts KernelProps SumFacts WeightFacts WeightProps.
Open Scope string_scope.
Open Scope nat_scope.
Open Scope R_scope.

Lemma raises_raise {A} e : raises (@Raise A e).
Proof. exists e; auto. Qed.

Lemma bind_raises {A B} (m : result A) (f : A -> result B) : raises m -> raises (bind m f).
Proof. intros [e ->]. exists e; auto. Qed.

Lemma bind_raises_all {A B} (m : result A) (f : A -> result B) :
  (forall a, m = Ok a -> raises (f a)) -> raises (bind m f).
Proof. intros H. destruct m; simpl; [apply H; auto|apply raises_raise]. Qed.

(** ** C17 *)
Lemma setitem_loop_raises Ds (rl : list R) n :
  raises (fold_left (fun acc dim =>
     temp <- acc ;; d <- getitem Ds dim ;; r <- getitem rl dim ;; setitem temp dim (nd_scale r d))
     (seq 0 (S n)) (Ok [])).
Proof.
  cbn [seq fold_left bind].
  assert (G : forall l (acc : result (list (ndarray R))), raises acc -> raises (fold_left (fun acc dim =>
     temp <- acc ;; d <- getitem Ds dim ;; r <- getitem rl dim ;; setitem temp dim (nd_scale r d)) l acc)).
  { induction l as [|x l IH]; intros acc Ha; simpl; auto. apply IH. destruct Ha as [e ->]. exists e; auto. }
  apply G. apply bind_raises_all. intros d _. apply bind_raises_all. intros r _. exists IndexError; reflexivity.
Qed.

Lemma merge_raises Ds ratio : Ds <> [] -> ratio <> RNone -> raises (merge_distances Ds ratio).
Proof.
  intros Hne Hr. destruct ratio as [|r|l]; [contradiction| |]; unfold merge_distances;
    apply bind_raises_all; intros rl _; apply bind_raises;
    (destruct Ds as [|D Ds]; [contradiction|]); cbn [length]; apply setitem_loop_raises.
Qed.

Lemma ratio_raises Ds kt ratio bw nc :
  ratio <> RNone -> raises (weight_matrix_from_distance Ds kt ratio bw nc).
Proof.
  intros Hr. unfold weight_matrix_from_distance.
  destruct (negb (one_shape Ds)) eqn:E; [apply raises_raise|].
  destruct (is_none bw && is_none nc); [apply raises_raise|].
  apply bind_raises. apply merge_raises; auto. intros ->. discriminate.
Qed.

Lemma ratio_raises_dask Ds kt ratio bw nc sorted :
  ratio <> RNone -> raises (weight_matrix_from_distance_dask Ds kt ratio bw nc sorted).
Proof.
  intros Hr. unfold weight_matrix_from_distance_dask.
  destruct (negb (one_shape (map A2 Ds))) eqn:E; [apply raises_raise|].
  destruct (is_none bw && is_none nc); [apply raises_raise|].
  apply bind_raises, bind_raises. apply merge_raises; auto. intros H. destruct Ds; discriminate.
Qed.

(** ** C18 *)
Lemma choice_raises Ds kt ratio bw nc dim :
  (dim < length Ds)%nat ->
  (arg_at bw dim = None /\ arg_at nc dim = None \/
   exists b k, arg_at bw dim = Some b /\ arg_at nc dim = Some k) ->
  raises (weight_matrix_from_distance Ds kt ratio bw nc).
Proof.
  intros Hd Hc.
  destruct ratio as [|r|l]; [|apply ratio_raises; discriminate|apply ratio_raises; discriminate].
  unfold weight_matrix_from_distance.
  destruct (negb (one_shape Ds)) eqn:E; [apply raises_raise|].
  destruct (is_none bw && is_none nc); [apply raises_raise|].
  cbn [merge_distances bind]. apply bind_raises. apply mapM_raises_iff.
  exists dim. split; [apply in_seq; lia|].
  apply bind_raises_all. intros d _. apply bind_raises_all. intros k _.
  apply bind_raises_all. intros b Hb. apply bind_raises_all. intros c Hc'.
  apply getitem_broadcast in Hb as [_ Hb]; auto. apply getitem_broadcast in Hc' as [_ Hc']; auto.
  destruct Hc as [[H1 H2]|[b' [k' [H1 H2]]]]; rewrite H1 in Hb; rewrite H2 in Hc'; subst; apply raises_raise.
Qed.

(** ** C19 *)
Definition is_A1 {A} (a : ndarray A) : Prop := match a with A1 _ => True | A2 _ => False end.

Lemma nd_prod_A1 ws : Forall is_A1 ws -> is_A1 (nd_prod ws).
Proof.
  destruct ws as [|w ws]; simpl; auto. intros H. inversion H; subst. clear H.
  revert w H2. induction H3 as [|x l Hx Hl IH]; intros w Hw; simpl; auto.
  apply IH. destruct w, x; simpl in *; auto.
Qed.

Lemma wmfd_A1_raises Ds kt ratio bw nc :
  Forall is_A1 Ds -> raises (weight_matrix_from_distance Ds kt ratio bw nc).
Proof.
  intros HF.
  destruct ratio as [|r|l]; [|apply ratio_raises; discriminate|apply ratio_raises; discriminate].
  unfold weight_matrix_from_distance.
  destruct (negb (one_shape Ds)) eqn:E; [apply raises_raise|].
  destruct (is_none bw && is_none nc); [apply raises_raise|].
  cbn [merge_distances bind]. apply bind_raises_all. intros ws Hws.
  apply mapM_ok_iff in Hws.
  assert (HA : Forall is_A1 ws).
  { clear E. induction Hws as [|x y l l' Hxy Hws IH]; constructor; auto.
    apply bind_ok in Hxy as [d [Hd Hxy]]. apply bind_ok in Hxy as [k [_ Hxy]].
    apply bind_ok in Hxy as [b [_ Hxy]]. apply bind_ok in Hxy as [c [_ Hxy]].
    apply getitem_ok in Hd. apply nth_error_In in Hd. rewrite Forall_forall in HF. specialize (HF _ Hd).
    destruct d; [|destruct HF]. unfold weight_by_distance in Hxy.
    destruct b, c; try discriminate; apply bind_ok in Hxy as [w [_ Hxy]]; inversion Hxy; simpl; auto. }
  apply nd_prod_A1 in HA. destruct (nd_prod ws); [apply raises_raise|destruct HA].
Qed.

Section Points.
  Context (f32 : R -> R) (mkw : Type) (no_kw : mkw)
          (scipy_metric : string -> option (mkw -> list R -> list R -> R))
          (dask_metric : string -> option (list R -> list R -> R))
          (sort_row : list R -> list R) (dargs : Type) (truthy : dargs -> bool).

  Lemma distance_matrices_none source metrics args Ds :
    distance_matrices f32 mkw no_kw scipy_metric source None metrics args = Ok Ds -> Forall is_A1 Ds.
  Proof.
    unfold distance_matrices. cbn [bind]. intros H. apply mapM_ok_iff in H.
    assert (G : forall x y, In x (seq 0 (length source)) ->
       (s <- getitem source x ;; t <- getitem (repeat None (length source)) x ;;
        m <- getitem (metric_list (length source) metrics) x ;;
        a <- getitem (match args with Some a => a | None => repeat no_kw (length source) end) x ;;
        distance_matrix f32 mkw scipy_metric s t m a) = Ok y -> is_A1 y).
    { intros x y Hx Hxy. apply bind_ok in Hxy as [s [_ Hxy]]. apply bind_ok in Hxy as [t [Ht Hxy]].
      apply bind_ok in Hxy as [m [_ Hxy]]. apply bind_ok in Hxy as [a [_ Hxy]].
      assert (t = None).
      { apply getitem_ok in Ht. apply nth_error_In in Ht. apply repeat_spec in Ht. auto. }
      subst t. unfold distance_matrix in Hxy. cbn [bind] in Hxy.
      destruct (String.eqb m "great-circle").
      - destruct (negb (ncols s =? 2)); discriminate.
      - destruct (metric_fn mkw scipy_metric m a); [|discriminate]. inversion Hxy; simpl; auto. }
    clear -H G. revert G. induction H as [|x y l l' Hxy H IH]; intros G; constructor.
    - eapply G; eauto. left; auto.
    - apply IH. intros x' y' Hx'. apply G. right; auto.
  Qed.

  Lemma dask_none_raises fs source metrics :
    source <> [] ->
    raises (snd (distance_matrices_dask mkw no_kw dask_metric sort_row fs source None metrics)).
  Proof.
    intros Hne. unfold distance_matrices_dask.
    destruct source as [|s source]; [contradiction|].
    match goal with |- context[fold_left ?f _ _] => set (step := f) end.
    cbn [length seq fold_left].
    assert (G : forall l acc, raises (snd acc) -> raises (snd (fold_left step l acc))).
    { induction l as [|x l IH]; intros acc Ha; simpl; auto. apply IH.
      destruct acc as [fs' [out|e]]; [destruct Ha; discriminate|]. simpl. apply raises_raise. }
    apply G. unfold step.
    cbn [length]. change (getitem (s :: source) 0) with (@Ok coords s).
    change (getitem (repeat None (S (length source))) 0) with (@Ok (option coords) None). cbn [bind].
    destruct (getitem (metric_list (S (length source)) metrics) 0); cbn [bind snd]; apply raises_raise.
  Qed.

  Lemma no_target_raises fs source metrics kt ratio bw nc dargs_opt :
    raises (snd (weight_matrix_from_points f32 mkw no_kw scipy_metric dask_metric sort_row dargs truthy
                   fs source None metrics kt ratio bw nc dargs_opt)).
  Proof.
    unfold weight_matrix_from_points.
    destruct (match dargs_opt with Some a => truthy a | None => false end).
    - destruct source as [|s source].
      + unfold distance_matrices_dask. simpl. apply raises_raise.
      + pose proof (dask_none_raises fs (s :: source) metrics ltac:(discriminate)) as H.
        destruct (distance_matrices_dask mkw no_kw dask_metric sort_row fs (s :: source) None metrics) as [fs' [Ds|e]].
        * destruct H; discriminate.
        * apply raises_raise.
    - cbn [snd]. apply bind_raises_all. intros Ds HDs. apply wmfd_A1_raises.
      eapply distance_matrices_none; eauto.
  Qed.

  (** ** C20 *)
  Definition is_truthy (o : option dargs) : bool := match o with Some a => truthy a | None => false end.

  Lemma dargs_truthiness fs source target metrics kt ratio bw nc o o' :
    is_truthy o = is_truthy o' ->
    weight_matrix_from_points f32 mkw no_kw scipy_metric dask_metric sort_row dargs truthy
       fs source target metrics kt ratio bw nc o =
    weight_matrix_from_points f32 mkw no_kw scipy_metric dask_metric sort_row dargs truthy
       fs source target metrics kt ratio bw nc o'.
  Proof. unfold is_truthy, weight_matrix_from_points. intros ->. reflexivity. Qed.

  Lemma falsy_fs fs source target metrics kt ratio bw nc o :
    is_truthy o = false ->
    fst (weight_matrix_from_points f32 mkw no_kw scipy_metric dask_metric sort_row dargs truthy
       fs source target metrics kt ratio bw nc o) = fs.
  Proof. unfold is_truthy, weight_matrix_from_points. intros ->. reflexivity. Qed.
End Points.

Lemma metric_kw_irrelevant f32 mkw no_kw sm sm' dm sort_row dargs truthy fs source target metrics kt ratio bw nc o :
  (forall name, option_map (fun m => m no_kw) (sm name) = option_map (fun m => m no_kw) (sm' name)) ->
  weight_matrix_from_points f32 mkw no_kw sm dm sort_row dargs truthy fs source target metrics kt ratio bw nc o =
  weight_matrix_from_points f32 mkw no_kw sm' dm sort_row dargs truthy fs source target metrics kt ratio bw nc o.
Proof.
  intros H. unfold weight_matrix_from_points.
  destruct (match o with Some a => truthy a | None => false end); auto. f_equal. f_equal.
  unfold distance_matrices.
  destruct (match target with Some t => _ | None => _ end) as [tl|e]; auto. cbn [bind].
  apply mapM_ext. intros dim Hd.
  destruct (getitem source dim) as [s|]; auto. cbn [bind].
  destruct (getitem tl dim) as [t|]; auto. cbn [bind].
  destruct (getitem (metric_list (length source) metrics) dim) as [m|]; auto. cbn [bind].
  rewrite (getitem_lt no_kw) by (rewrite repeat_length; apply in_seq in Hd; lia).
  rewrite nth_repeat. cbn [bind]. unfold distance_matrix.
  assert (E : metric_fn mkw sm m no_kw = metric_fn mkw sm' m no_kw).
  { unfold metric_fn. destruct (String.eqb m "euclidean"); auto. specialize (H m).
    destruct (sm m), (sm' m); simpl in H; congruence. }
  rewrite E. reflexivity.
Qed.

(** A truthy [distance_args] computes through dask and writes the default store. *)
Lemma truthy_writes f32 mkw no_kw sm dm sort_row dargs truthy fs source target metrics kt ratio bw nc a W fs' :
  truthy a = true ->
  weight_matrix_from_points f32 mkw no_kw sm dm sort_row dargs truthy fs source (Some target) metrics kt ratio bw nc (Some a)
    = (fs', Ok W) ->
  exists (m : list R -> list R -> R) s t, last (map Some source) None = Some s /\ last (map Some target) None = Some t /\
    fs' "distance_matrix.zarr" = Some (cdist m s t).
Proof.
  intros Ht. unfold weight_matrix_from_points. rewrite Ht. unfold distance_matrices_dask.
  destruct (length source =? length target) eqn:EL; [|discriminate].
  apply Nat.eqb_eq in EL. cbv beta iota.
  match goal with |- context[fold_left ?f _ _] => set (step := f) end.
  destruct (Nat.eq_dec (length source) 0) as [E0|E0].
  { rewrite E0. simpl. discriminate. }
  assert (Es : exists n, length source = S n) by (destruct (length source); [lia|eauto]).
  destruct Es as [n En]. rewrite En. rewrite seq_S, fold_left_app. cbn [fold_left plus].
  destruct (fold_left step (seq 0 n) (fs, Ok [])) as [fs0 [out|e]].
  2:{ unfold step. discriminate. }
  assert (Hs : exists s, nth_error source n = Some s).
  { destruct (nth_error source n) eqn:E; eauto. apply nth_error_None in E. lia. }
  assert (Htt : exists t, nth_error target n = Some t).
  { destruct (nth_error target n) eqn:E; eauto. apply nth_error_None in E. lia. }
  destruct Hs as [s Hs], Htt as [t Htt].
  assert (Lst : forall (l : list coords) x, length l = S n -> nth_error l n = Some x -> last (map Some l) None = Some x).
  { intros l x Hl Hx. rewrite <- (firstn_skipn n l), map_app.
    assert (E2 : skipn n l = [x]).
    { pose proof (skipn_length n l). destruct (skipn n l) as [|y [|]] eqn:E; simpl in *; try lia.
      f_equal. assert (nth_error (skipn n l) 0 = Some x) by (rewrite nth_error_skipn', Nat.add_0_r; auto). rewrite E in H0. simpl in H0. congruence. }
    rewrite E2. apply last_last. }
  unfold step. unfold getitem. rewrite ?En, Hs, nth_error_map, Htt. cbn [option_map bind].
  destruct (nth_error (metric_list (S n) metrics) n) as [m|]; cbn [bind]; [|discriminate].
  unfold distance_matrix_dask.
  destruct (ncols s =? ncols t); [|discriminate]. cbn [kw_filepath].
  destruct (dm m) as [f|]; [|discriminate]. intros H. inversion H; subst fs'.
  exists f, s, t. split; [apply Lst; auto|]. split; [apply Lst; auto; lia|]. reflexivity.
Qed.
