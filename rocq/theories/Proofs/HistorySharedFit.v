(** C157: a fit on shared arrays is [fit] on what they hold. *)
From Verif.Model Require Import Base Ext Csr Neighbour Distance WeightModel Inspect History.
From Verif.Spec Require Import KernelSpec NeighbourSpec WeightModelSpec HistorySpec.
From Verif.Proofs Require Import HistoryProps HistoryShared.
Open Scope nat_scope.
Open Scope R_scope.

Section P.
  Variable est : Type.
  Variable fit_est : nat -> matrix R -> list R -> list ext -> result est.
  Variable predict_est : est -> matrix R -> result (list R).
  Variable G : Type.
  Variable choice : G -> list nat -> nat -> G * list nat.
  Variable cpu : nat.
  Variable wm : filesystem -> list coords -> list coords -> filesystem * result weights.
  Notation HAP := (happen est fit_est predict_est G choice cpu wm).
  Notation now := (model_now est G).

  Lemma update_same {A} (f : nat -> A) a v : update f a v a = v.
  Proof. unfold update. rewrite Nat.eqb_refl. reflexivity. Qed.
  Lemma update_other {A} (f : nat -> A) a v b : b <> a -> update f a v b = f b.
  Proof. unfold update. intros H. apply Nat.eqb_neq in H. rewrite H. reflexivity. Qed.
  Lemma update_id {A} (f : nat -> A) a b : update f a (f a) b = f b.
  Proof. unfold update. destruct (Nat.eqb_spec b a); congruence. Qed.

  Ltac fin :=
    repeat split; auto; rewrite ?update_same; auto;
    try (intros a' Ha; apply update_other; congruence);
    try (unfold view, set_W, attr; cbn; unfold attr; repeat match goal with |- context [match ?x with Some _ => _ | None => _ end] => destruct x end;
         rewrite ?update_same, ?update_id; reflexivity).

  Lemma shared_fit w m c order xa ya ca wa :
    let o := fit est fit_est predict_est G choice cpu wm c order (s_gen est G w) (s_files est G w) (now w m) (h_X (s_heap est G w) xa) (h_y (s_heap est G w) ya)
               (option_map (h_C (s_heap est G w)) ca) (option_map (h_W (s_heap est G w)) wa) in
    let w' := HAP w (EFit m c order xa ya ca wa) in
    now w' m = o_state est G o /\ option_map (h_W (s_heap est G w')) wa = o_weights est G o /\
    s_gen est G w' = o_gen est G o /\ s_files est G w' = o_fs est G o /\
    h_X (s_heap est G w') = h_X (s_heap est G w) /\ h_y (s_heap est G w') = h_y (s_heap est G w) /\
    h_C (s_heap est G w') = h_C (s_heap est G w) /\ (forall a, wa <> Some a -> h_W (s_heap est G w') a = h_W (s_heap est G w) a).
  Proof.
    destruct w as [h obs g fs]. cbv zeta. unfold model_now, happen, fit_shared. cbn [s_heap s_gen s_files s_objects].
    set (b := obs m). 
    assert (Eb : obs m = b) by reflexivity. clearbody b.
    destruct h as [hX hy hC hW]. destruct b as [s bX by_ bC bW]. destruct s. cbn [h_X h_y h_C h_W].
    assert (US : forall b', update obs m b' m = b') by (intros; apply update_same).
    destruct wa as [a|]; cbn [option_map]; unfold fit.
    - destruct (check_X_y (hX xa) (hy ya)) as [u|e].
      2:{ destruct ca; cbn; rewrite US; cbn; fin. }
      destruct ca as [v|]; cbn [option_map];
      destruct (cache_data c) eqn:Hc; cbn [andb];
      destruct (sample_locations G choice g (sample_local_rate c) (length (hX xa))) as [[g' locs]|e];
      try (destruct (fit_all est fit_est predict_est cpu order (hX xa) (hy ya) (seq 0 (length (hX xa))) (if leave_local_out c then clear_diagonal (hW a) else hW a)
           (Some locs) (cache_estimator c) None (init_jobs cpu c)) as [[preds es]|e];
      [destruct (p <- squeeze preds;; score <- r2_score (take 0 (hy ya) locs) p;; Ok (p, score)) as [[p score]|e]|]);
      cbn; rewrite US; cbn; fin.
    - destruct (check_X_y (hX xa) (hy ya)) as [u|e].
      2:{ destruct ca; cbn; rewrite US; cbn; fin. }
      destruct ca as [v|]; cbn [option_map].
      + destruct (cache_data c) eqn:Hc; cbn [andb]; destruct (wm fs (hC v) (hC v)) as [fs' [w|e]];
        try (destruct (sample_locations G choice g (sample_local_rate c) (length (hX xa))) as [[g' locs]|e];
        [destruct (fit_all est fit_est predict_est cpu order (hX xa) (hy ya) (seq 0 (length (hX xa))) (if leave_local_out c then clear_diagonal w else w)
           (Some locs) (cache_estimator c) None (init_jobs cpu c)) as [[preds es]|e];
         [destruct (p <- squeeze preds;; score <- r2_score (take 0 (hy ya) locs) p;; Ok (p, score)) as [[p score]|e]|]|]);
        cbn; rewrite US; cbn; fin.
      + cbn. rewrite US. cbn. fin.
  Qed.
End P.
