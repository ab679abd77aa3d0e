(** The rounded weight matrix and the exact one: the same program. *)
From Coq Require Import Lra Psatz ZArith.
From Verif.Model Require Import Base Ext Sort Kernel Distance WeightMatrix KernelFloat WeightFloat.
From Verif.Spec Require Import KernelSpec WeightSpec FloatSpec WeightFloatSpec.
From Verif.Proofs Require Import ListFacts KernelFacts SortFacts AdaptiveFacts.
Open Scope string_scope.
Open Scope nat_scope.
Open Scope R_scope.

Lemma so_bind {A B C D} (x : result A) (y : result B) (f : A -> result C) (g : B -> result D) :
  same_outcome x y -> (forall a b, x = Ok a -> y = Ok b -> same_outcome (f a) (g b)) -> same_outcome (bind x f) (bind y g).
Proof. destruct x, y; simpl; try contradiction; intros H K; auto. Qed.
Lemma so_refl {A} (x : result A) : same_outcome x x.
Proof. destruct x; simpl; auto. Qed.
Lemma so_mapM {A B C} (f : A -> result B) (g : A -> result C) l :
  (forall x, In x l -> same_outcome (f x) (g x)) -> same_outcome (mapM f l) (mapM g l).
Proof.
  induction l as [|x l IH]; intros H; [exact I|]. cbn [mapM].
  apply so_bind; [apply H; left; auto|]. intros a b _ _. apply so_bind; [apply IH; intros; apply H; right; auto|]. intros; exact I.
Qed.

Lemma adaptive_bandwidth_len D c bs : adaptive_bandwidth D c = Ok bs -> length bs = length D.
Proof.
  destruct c as [z|q|]; simpl.
  - destruct (z <=? 0)%Z; [discriminate|]. apply mapM_length.
  - destruct (Rleb q 0); [discriminate|]. apply mapM_length.
  - discriminate.
Qed.
Lemma bandwidth_rows_so n b b' :
  match b, b' with
  | BScalar _, BScalar _ => True
  | BColumn x, BColumn y => length x = length y
  | _, _ => False
  end -> same_outcome (bandwidth_rows n b) (bandwidth_rows n b').
Proof.
  destruct b, b'; try contradiction; intros H; [exact I|]. simpl. rewrite H. destruct (_ =? n); simpl; auto.
Qed.

Section Outcome.
  Variable fl fexp fcube : R -> ext.
  Variable rowsum : list ext -> ext.
  Variable quantile : R -> list R -> R.

  Lemma kernel_so D b b' k :
    match b, b' with
    | BScalar _, BScalar _ => True
    | BColumn x, BColumn y => length x = length y
    | _, _ => False
    end -> same_outcome (kernel_function_fl fl fexp fcube D b k) (kernel_function D b' k).
  Proof.
    intros H. unfold kernel_function_fl, kernel_function. apply so_bind; [apply bandwidth_rows_so; exact H|].
    intros bs bs' _ _. unfold kernel_expr_fl, kernel_expr.
    repeat match goal with |- context [String.eqb k ?s] => destruct (String.eqb k s); [exact I|] end. reflexivity.
  Qed.
  Lemma wbd_so D k b c : same_outcome (weight_by_distance_fl fl fexp fcube quantile D k b c) (weight_by_distance (A2 D) k b c).
  Proof.
    unfold weight_by_distance_fl, weight_by_distance. destruct b as [b|], c as [c|]; try reflexivity.
    - pose proof (kernel_so D (BScalar b) (BScalar b) (kernel_name k) I) as H.
      destruct (kernel_function_fl fl fexp fcube D (BScalar b) (kernel_name k)), (kernel_function D (BScalar b) (kernel_name k)); simpl in *; auto.
    - unfold adaptive_kernel_fl, adaptive_kernel, adaptive_bandwidth_fl.
      destruct (adaptive_bandwidth D c) as [bs|e] eqn:E; [|reflexivity]. cbn [bind].
      pose proof (adaptive_bandwidth_len D c bs E) as HL.
      set (bs' := match c with CFloat q => map (quantile q) D | _ => bs end).
      replace (match c with CFloat q => Ok (map (quantile q) D) | _ => Ok bs end) with (Ok bs') by (unfold bs'; destruct c; reflexivity).
      cbn [bind].
      assert (HL' : length bs' = length bs) by (unfold bs'; destruct c; auto; rewrite map_length; auto).
      pose proof (kernel_so D (BColumn bs') (BColumn bs) (kernel_name k) HL') as H.
      destruct (kernel_function_fl fl fexp fcube D (BColumn bs') (kernel_name k)), (kernel_function D (BColumn bs) (kernel_name k)); simpl in *; auto.
  Qed.

  Lemma getitem_so {A B} (f : A -> B) l i : same_outcome (getitem l i) (getitem (map f l) i).
  Proof. unfold getitem. rewrite nth_error_map. destruct (nth_error l i); simpl; auto. Qed.
  Lemma getitem_map_ok {A B} (f : A -> B) l i a b : getitem l i = Ok a -> getitem (map f l) i = Ok b -> b = f a.
  Proof. unfold getitem. rewrite nth_error_map. destruct (nth_error l i); simpl; congruence. Qed.

  Lemma nd_prod_A2 ws : ws <> [] -> Forall (fun w => exists m, w = A2 m) ws -> exists m, nd_prod ws = A2 m.
  Proof.
    intros Hne HF. destruct ws as [|w ws]; [contradiction|]. inversion HF as [|? ? [m ->] HF']; subst. simpl. clear HF Hne.
    revert m. induction HF' as [|w ws [m' ->] HF' IH]; intros m; simpl; [eauto|apply IH].
  Qed.
  Lemma wbd_A2 D k b c w : weight_by_distance (A2 D) k b c = Ok w -> exists m, w = A2 m.
  Proof.
    unfold weight_by_distance. destruct b as [b|], c as [c|]; try discriminate; intros H; apply bind_ok in H as (m & _ & E); injection E as <-; eauto.
  Qed.

  Theorem outcome Ds kt bw nc :
    same_outcome (weight_matrix_from_distance_fl fl fexp fcube rowsum quantile Ds kt bw nc)
                 (weight_matrix_from_distance (map A2 Ds) kt RNone bw nc).
  Proof.
    unfold weight_matrix_from_distance_fl, weight_matrix_from_distance.
    destruct (one_shape (map A2 Ds)) eqn:EO; cbn [negb]; [|reflexivity].
    destruct (is_none bw && is_none nc); [reflexivity|]. cbn [merge_distances bind]. rewrite map_length. cbv zeta.
    apply so_bind.
    - apply so_mapM. intros dim _. apply so_bind; [apply getitem_so|]. intros a d Ha Hd.
      rewrite (getitem_map_ok _ _ _ _ _ Ha Hd).
      apply so_bind; [apply so_refl|]. intros k k' E E'. rewrite E in E'. injection E' as <-.
      apply so_bind; [apply so_refl|]. intros b b' F F'. rewrite F in F'. injection F' as <-.
      apply so_bind; [apply so_refl|]. intros c c' G G'. rewrite G in G'. injection G' as <-. apply wbd_so.
    - intros a ws _ E. destruct (nd_prod_A2 ws) as [m ->].
      + apply mapM_length in E. rewrite seq_length in E. intros ->. destruct Ds; discriminate.
      + apply mapM_ok_iff in E. clear EO. induction E as [|dim w l l' H E IH]; constructor; auto.
        apply bind_ok in H as (d & Hd & H). apply bind_ok in H as (k & _ & H). apply bind_ok in H as (b & _ & H). apply bind_ok in H as (c & _ & H).
        unfold getitem in Hd. rewrite nth_error_map in Hd. destruct (nth_error Ds dim); [|discriminate]. injection Hd as <-.
        eapply wbd_A2; eauto.
      + exact I.
  Qed.
End Outcome.

(** Without rounding the two models coincide. *)
Lemma rounded_Fin x : rounded Fin x = x.
Proof. destruct x; reflexivity. Qed.
Lemma fexp_exact x : fexp_ext exact_exp x = eexp x.
Proof. destruct x; reflexivity. Qed.
Lemma fcube_exact x : fcube_ext exact_cube x = ecube x.
Proof. destruct x; try reflexivity. unfold fcube_ext, exact_cube, ecube, emul. f_equal. ring. Qed.

Lemma kernel_exact D bw k : kernel_function_fl Fin exact_exp exact_cube D bw k = kernel_function D bw k.
Proof.
  unfold kernel_function_fl, kernel_function. destruct (bandwidth_rows (nrows D) bw) as [bs|e]; [|reflexivity]. cbn [bind].
  unfold kernel_expr_fl, kernel_expr.
  repeat match goal with |- context [String.eqb k ?s] => destruct (String.eqb k s) end; try reflexivity;
  apply (f_equal Ok); apply map2_ext_in; intros row b _ _; apply map_ext; intros d;
  unfold kernel_entry_fl, kernel_entry, fsquare, fmul, fsub, fdiv; rewrite ?rounded_Fin, ?fexp_exact, ?fcube_exact; reflexivity.
Qed.
Lemma map2_eta {A B C} (f g : A -> B -> C) l l' : (forall a b, f a b = g a b) -> map2 f l l' = map2 g l l'.
Proof. intros H. apply map2_ext_in. auto. Qed.
Lemma bandwidth_exact D c : adaptive_bandwidth_fl exact_quantile D c = adaptive_bandwidth D c.
Proof.
  unfold adaptive_bandwidth_fl. destruct (adaptive_bandwidth D c) as [bs|e] eqn:E; [|reflexivity]. cbn [bind].
  destruct c as [z|q|]; [reflexivity| |reflexivity]. simpl in E. destruct (Rleb q 0); [discriminate|].
  apply mapM_ok_iff in E. apply (f_equal Ok). induction E as [|row b l l' H E IH]; [reflexivity|]. simpl. f_equal; [|exact IH].
  unfold exact_quantile. rewrite H. reflexivity.
Qed.
Lemma wbd_exact D k b c : weight_by_distance (A2 D) k b c =
  bind (weight_by_distance_fl Fin exact_exp exact_cube exact_quantile D k b c) (fun w => Ok (A2 w)).
Proof.
  unfold weight_by_distance, weight_by_distance_fl. destruct b as [b|], c as [c|]; try reflexivity.
  - rewrite kernel_exact. reflexivity.
  - unfold adaptive_kernel_fl, adaptive_kernel. rewrite bandwidth_exact. destruct (adaptive_bandwidth D c); [|reflexivity]. cbn [bind].
    rewrite kernel_exact. reflexivity.
Qed.
Lemma prod_exact ws : ws <> [] -> nd_prod (map A2 ws) = A2 (prod_fl Fin ws).
Proof.
  destruct ws as [|w ws]; [contradiction|]. intros _. simpl. revert w. induction ws as [|w' ws IH]; intros w; [reflexivity|]. cbn [map fold_left nd_map2].
  rewrite IH. f_equal. f_equal. apply map2_eta. intros a b. apply map2_eta. intros x y. unfold fmul. rewrite rounded_Fin. reflexivity.
Qed.
Lemma mapM_bind {A B C} (f : A -> result B) (g : B -> C) l :
  mapM (fun x => bind (f x) (fun b => Ok (g b))) l = bind (mapM f l) (fun bs => Ok (map g bs)).
Proof.
  induction l as [|x l IH]; [reflexivity|]. cbn [mapM]. rewrite IH. destruct (f x); [|reflexivity]. cbn [bind]. destruct (mapM f l); reflexivity.
Qed.
Lemma mapM_ext' {A B} (f g : A -> result B) l : (forall x, f x = g x) -> mapM f l = mapM g l.
Proof. intros H. induction l as [|x l IH]; [reflexivity|]. cbn [mapM]. rewrite H, IH. reflexivity. Qed.

Theorem same_program Ds kt bw nc :
  weight_matrix_from_distance_fl Fin exact_exp exact_cube esum exact_quantile Ds kt bw nc =
  weight_matrix_from_distance (map A2 Ds) kt RNone bw nc.
Proof.
  unfold weight_matrix_from_distance_fl, weight_matrix_from_distance.
  destruct (one_shape (map A2 Ds)) eqn:EO; cbn [negb]; [|reflexivity].
  destruct (is_none bw && is_none nc); [reflexivity|]. cbn [merge_distances bind]. rewrite map_length. cbv zeta.
  set (step := fun dim => d <- getitem Ds dim ;; k <- getitem (broadcast_arg (length Ds) kt) dim ;;
      b <- getitem (broadcast_arg (length Ds) bw) dim ;; c <- getitem (broadcast_arg (length Ds) nc) dim ;;
      weight_by_distance_fl Fin exact_exp exact_cube exact_quantile d k b c).
  assert (E : forall dim, (d <- getitem (map A2 Ds) dim ;; k <- getitem (broadcast_arg (length Ds) kt) dim ;;
      b <- getitem (broadcast_arg (length Ds) bw) dim ;; c <- getitem (broadcast_arg (length Ds) nc) dim ;;
      weight_by_distance d k b c) = bind (step dim) (fun w => Ok (A2 w))).
  { intros dim. unfold step. unfold getitem at 1 5. rewrite nth_error_map. destruct (nth_error Ds dim); [|reflexivity]. cbn [bind option_map].
    destruct (getitem (broadcast_arg (length Ds) kt) dim); [|reflexivity]. cbn [bind].
    destruct (getitem (broadcast_arg (length Ds) bw) dim); [|reflexivity]. cbn [bind].
    destruct (getitem (broadcast_arg (length Ds) nc) dim); [|reflexivity]. cbn [bind]. apply wbd_exact. }
  rewrite (mapM_ext' _ _ _ E), mapM_bind. destruct (mapM step (seq 0 (length Ds))) as [ws|e] eqn:EM; [|reflexivity]. cbn [bind].
  rewrite prod_exact.
  - cbn [normalise]. apply (f_equal Ok). apply map_ext. intros row. unfold normalise_row_fl, normalise_row. apply map_ext. intros w.
    unfold fdiv. rewrite rounded_Fin. reflexivity.
  - apply mapM_length in EM. rewrite seq_length in EM. intros ->. destruct Ds; discriminate.
Qed.
