(** Proofs of the statements in [Properties/P_Kernel.v]. *)
From Coq Require Import Lra Psatz Sorting.Sorted.
From Verif.Model Require Import Base Ext Sort Kernel.
From Verif.Spec Require Import KernelSpec.
From Verif.Proofs Require Import ListFacts KernelFacts SortFacts AdaptiveFacts.
Open Scope string_scope.
Open Scope nat_scope.
Open Scope R_scope.

Lemma bandwidth_rows_ok n bw :
  match bw with BScalar _ => True | BColumn bs => length bs = n end ->
  exists bs, bandwidth_rows n bw = Ok bs /\ length bs = n.
Proof.
  destruct bw as [b|bs]; intros H; simpl.
  - eexists; split; [reflexivity|]. apply repeat_length.
  - rewrite H, Nat.eqb_refl. eauto.
Qed.

Lemma map2_shape {A B C} (f : A -> B -> C) (D : matrix A) (bs : list B) :
  length bs = length D ->
  map (@length C) (map2 (fun row b => map (fun d => f d b) row) D bs) = map (@length A) D.
Proof.
  revert bs; induction D as [|r D IH]; intros [|b bs] H; simpl in *; try discriminate; auto.
  rewrite map_length, IH; auto.
Qed.

Lemma weighs_total k b d : known_kernel k -> 0 <= d -> exists w, weighs k b d w.
Proof. intros Hk Hd. exists (kernel_value k b d). apply weighs_iff; auto. Qed.

Lemma kernel_bounded k D bw :
  known_kernel k -> entries (Rle 0) D ->
  match bw with BScalar _ => True | BColumn bs => length bs = length D end ->
  exists W, kernel_function D bw k = Ok (mmap Fin W) /\
    map (@length R) W = map (@length R) D /\
    entries (fun w => 0 <= w <= 1) W.
Proof.
  intros Hk HD Hb. destruct (bandwidth_rows_ok (length D) bw Hb) as [bs [E Hl]].
  exists (map2 (fun row b => map (fun d => kernel_value k b d) row) D bs).
  split; [|split].
  - rewrite (kernel_function_known k D bw bs Hk E HD). apply (f_equal Ok). unfold mmap.
    rewrite map_map2. apply map2_ext_in. intros. rewrite map_map. reflexivity.
  - apply (map2_shape (fun d b => kernel_value k b d)). auto.
  - clear E Hb. revert bs Hl. induction D as [|r D IH]; intros [|b bs] Hl; simpl in *; try discriminate; constructor.
    + rewrite Forall_map. inversion HD; subst. revert H1. apply Forall_impl. intros d Hd.
      apply kernel_value_range; auto.
    + apply IH; auto. inversion HD; auto.
Qed.

Lemma kernel_entrywise k D bw W :
  kernel_function D bw k = Ok W ->
  length W = length D /\
  forall i j, (i < length D)%nat -> (j < length (nth i D []))%nat ->
    exists b, match bw with BScalar b' => b = b' | BColumn bs => nth_error bs i = Some b end /\
      kernel_function [[nth j (nth i D []) 0]] (BScalar b) k = Ok [[nth j (nth i W []) NaN]].
Proof.
  unfold kernel_function. destruct (bandwidth_rows (nrows D) bw) as [bs|e] eqn:E; simpl; [|discriminate].
  destruct (kernel_expr k) as [f|] eqn:Ef; [|discriminate]. intros H; inversion H; subst W; clear H.
  assert (Hl : length bs = length D).
  { destruct bw as [b|bs']; simpl in E.
    - inversion E; apply repeat_length.
    - destruct (Nat.eqb_spec (length bs') (nrows D)) as [E'|E']; inversion E; subst; auto. }
  split; [rewrite map2_length; lia|].
  intros i j Hi Hj. exists (nth i bs 0). split.
  - destruct bw as [b|bs']; simpl in E.
    + inversion E; subst bs. destruct (nth_in_or_default i (repeat b (nrows D)) 0) as [Hin|Hd].
      * apply repeat_spec in Hin; auto.
      * unfold nrows. clear -Hi. revert Hi; generalize (length D). intros n; revert i; induction n; intros [|i] H; simpl; try lia; auto. apply IHn; lia.
    + destruct (Nat.eqb (length bs') (nrows D)); inversion E; subst. apply nth_error_nth'. lia.
  - simpl. do 3 f_equal. rewrite (map2_nth _ D bs i [] 0 []) by lia.
    symmetry. rewrite nth_indep with (d' := kernel_entry k f 0 (nth i bs 0)) by (rewrite map_length; auto).
    rewrite (map_nth (fun d => kernel_entry k f d (nth i bs 0))). reflexivity.
Qed.

Lemma kernel_raises_iff k D bw :
  match bw with BScalar _ => True | BColumn bs => length bs = length D end ->
  (raises (kernel_function D bw k) <-> ~ known_kernel k).
Proof.
  intros Hb. destruct (bandwidth_rows_ok (length D) bw Hb) as [bs [E Hl]].
  unfold kernel_function, nrows. rewrite E; simpl.
  destruct (known_kernel_dec k) as [Hk|Hk].
  - destruct (kernel_expr_known k Hk) as [f Hf]. rewrite Hf. split; [intros [e H]; discriminate|contradiction].
  - rewrite (kernel_expr_unknown k Hk). split; auto. intros _; eexists; reflexivity.
Qed.
