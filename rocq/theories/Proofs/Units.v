(** WeightModel and the unit of the target. *)
From Coq Require Import Lra Lia Permutation Sorting.Sorted.
From Verif.Model Require Import Base Ext Csr Distance WeightModel.
From Verif.Spec Require Import KernelSpec NeighbourSpec WeightModelSpec UnitsSpec.
From Verif.Proofs Require Import ListFacts SumFacts KernelFacts CsrFacts NeighbourProps WeightModelFacts WeightModelProps FitProps PredictProps.
Open Scope string_scope.
Open Scope nat_scope.
Open Scope R_scope.

Lemma Rsum_units a k l : Rsum (map (in_units a k) l) = a * Rsum l + k * INR (length l).
Proof.
  induction l as [|x l IH]; [unfold Rsum; cbn; lra|].
  change (Rsum (map (in_units a k) (x :: l))) with (in_units a k x + Rsum (map (in_units a k) l)). rewrite IH.
  change (Rsum (x :: l)) with (x + Rsum l). change (length (x :: l)) with (S (length l)). rewrite S_INR. unfold in_units. ring.
Qed.
Lemma mean_units a k l : l <> [] -> mean (map (in_units a k) l) = in_units a k (mean l).
Proof.
  intros H. unfold mean. rewrite Rsum_units, map_length. unfold in_units.
  assert (INR (length l) <> 0) by (apply not_0_INR; destruct l; [congruence|discriminate]). field. auto.
Qed.
Lemma Rsum_scale c l : Rsum (map (Rmult c) l) = c * Rsum l.
Proof. induction l as [|x l IH]; [unfold Rsum; cbn; lra|]. change (c * x + Rsum (map (Rmult c) l) = c * (x + Rsum l)). rewrite IH. ring. Qed.

Lemma r2_two y p : (2 <= length y)%nat -> length y = length p ->
  r2_score y p = let numerator := Rsum (map2 (fun a b => (a - b) * (a - b)) y p) in
    let denominator := Rsum (map (fun a => (a - mean y) * (a - mean y)) y) in
    Ok (Fin (if Reqb denominator 0 then (if Reqb numerator 0 then 1 else 0) else 1 - numerator / denominator)).
Proof. intros H E. unfold r2_score. rewrite E, Nat.eqb_refl. cbn [negb]. destruct y as [|y0 [|y1 y]]; cbn in H; try lia. reflexivity. Qed.
Lemma r2_units a k y p : a <> 0 -> r2_score (map (in_units a k) y) (map (in_units a k) p) = r2_score y p.
Proof.
  intros Ha. destruct (Nat.eq_dec (length y) (length p)) as [El|El].
  2:{ unfold r2_score. rewrite !map_length. rewrite (proj2 (Nat.eqb_neq _ _) El). reflexivity. }
  destruct (Nat.lt_ge_cases (length y) 2) as [Hl|Hl].
  { unfold r2_score. rewrite !map_length. destruct (negb _); auto. destruct y as [|y0 [|y1 y]]; auto. cbn in Hl. lia. }
  rewrite (r2_two y p Hl El), (r2_two (map (in_units a k) y) (map (in_units a k) p)) by (rewrite !map_length; auto). cbv zeta.
  rename y into Y. assert (HY : Y <> []) by (intros ->; cbn in Hl; lia).
  assert (E1 : Rsum (map2 (fun u v => (u - v) * (u - v)) (map (in_units a k) Y) (map (in_units a k) p)) =
               a * a * Rsum (map2 (fun u v => (u - v) * (u - v)) Y p)).
  { clear. revert p. induction Y as [|u Y IH]; intros [|v p]; try (unfold Rsum; cbn; lra).
    change ((in_units a k u - in_units a k v) * (in_units a k u - in_units a k v) +
            Rsum (map2 (fun u v => (u - v) * (u - v)) (map (in_units a k) Y) (map (in_units a k) p)) =
            a * a * ((u - v) * (u - v) + Rsum (map2 (fun u v => (u - v) * (u - v)) Y p))).
    rewrite IH. unfold in_units. ring. }
  assert (E2 : Rsum (map (fun u => (u - mean (map (in_units a k) Y)) * (u - mean (map (in_units a k) Y))) (map (in_units a k) Y)) =
               a * a * Rsum (map (fun u => (u - mean Y) * (u - mean Y)) Y)).
  { rewrite (mean_units a k Y HY). set (m := mean Y). clearbody m. clear. induction Y as [|u Y IH]; [unfold Rsum; cbn; lra|].
    change ((in_units a k u - in_units a k m) * (in_units a k u - in_units a k m) +
            Rsum (map (fun u => (u - in_units a k m) * (u - in_units a k m)) (map (in_units a k) Y)) =
            a * a * ((u - m) * (u - m) + Rsum (map (fun u => (u - m) * (u - m)) Y))).
    rewrite IH. unfold in_units. ring. }
  rewrite E1, E2.
  set (num := Rsum (map2 _ _ _)). set (den := Rsum (map _ _)).
  assert (Haa : a * a <> 0) by (intros E; apply Rmult_integral in E; tauto).
  assert (B : forall z, Reqb (a * a * z) 0 = Reqb z 0).
  { intros z. destruct (Reqb z 0) eqn:Ez.
    - apply Reqb_true in Ez. rewrite Ez. apply Reqb_true. ring.
    - destruct (Reqb (a * a * z) 0) eqn:E; auto. apply Reqb_true in E. apply Rmult_integral in E. destruct E as [E|E]; [tauto|].
      rewrite E in Ez. rewrite (proj2 (Reqb_true 0 0) eq_refl) in Ez. discriminate. }
  rewrite !B. destruct (Reqb den 0) eqn:Ed; auto. apply f_equal, f_equal, f_equal. field. split; auto.
  intros E. rewrite E in Ed. rewrite (proj2 (Reqb_true 0 0) eq_refl) in Ed. discriminate.
Qed.

(** ** Whole fits, task by task *)
Definition later {A B} (P : A -> B -> Prop) (t : result A) (t' : result B) : Prop := forall x, t = Ok x -> exists x', t' = Ok x' /\ P x x'.

Lemma mapM_later {T A B} (P : A -> B -> Prop) (f : T -> result A) (f' : T -> result B) l :
  (forall t, later P (f t) (f' t)) -> later (Forall2 P) (mapM f l) (mapM f' l).
Proof.
  intros H. induction l as [|t l IH]; intros r Hr; cbn in *.
  - injection Hr as <-. exists []. split; auto.
  - destruct (f t) as [x|e] eqn:Ex; cbn in Hr; [|discriminate]. destruct (mapM f l) as [xs|e] eqn:El; cbn in Hr; [|discriminate]. injection Hr as <-.
    destruct (H t x Ex) as (x' & -> & Px). destruct (IH xs eq_refl) as (xs' & -> & Pxs). exists (x' :: xs'). split; [reflexivity|auto].
Qed.

Definition slot_rel {A B} (P : A -> B -> Prop) (s : option A) (s' : option B) : Prop :=
  match s, s' with Some x, Some x' => P x x' | None, None => True | _, _ => False end.
Lemma list_set_rel {A B} (P : option A -> option B -> Prop) l l' k v v' : Forall2 P l l' -> P v v' -> Forall2 P (list_set l k v) (list_set l' k v').
Proof. intros H. revert k. induction H; intros [|k] Hv; cbn; auto. Qed.

Lemma parallel_later {A B} (P : A -> B -> Prop) order tasks tasks' :
  Forall2 (later P) tasks tasks' -> later (Forall2 P) (parallel order tasks) (parallel order tasks').
Proof.
  intros HT r Hr. unfold parallel in *.
  assert (EL : length tasks' = length tasks) by (symmetry; apply (Forall2_len _ _ _ HT)). rewrite EL.
  assert (Hn : forall k, later P (nth k tasks (Raise IndexError)) (nth k tasks' (Raise IndexError))).
  { clear -HT. intros k. revert k. induction HT; intros [|k]; cbn; auto; intros x Hx; discriminate. }
  assert (K : forall order (s : result (list (option A))) (s' : result (list (option B))), later (Forall2 (slot_rel P)) s s' ->
    later (Forall2 (slot_rel P))
      (fold_left (fun acc k => slots <- acc ;; r <- nth k tasks (Raise IndexError) ;; Ok (list_set slots k (Some r))) order s)
      (fold_left (fun acc k => slots <- acc ;; r <- nth k tasks' (Raise IndexError) ;; Ok (list_set slots k (Some r))) order s')).
  { clear -Hn. induction order as [|k order IH]; intros s s' Hs; [exact Hs|]. cbn [fold_left]. apply IH. intros x Hx.
    destruct s as [sl|e]; cbn in Hx; [|discriminate]. destruct (nth k tasks (Raise IndexError)) as [v|e] eqn:Ev; cbn in Hx; [|discriminate]. injection Hx as <-.
    destruct (Hs sl eq_refl) as (sl' & -> & Ps). destruct (Hn k v Ev) as (v' & Ev' & Pv). cbn [bind]. rewrite Ev'. cbn [bind].
    eexists. split; [reflexivity|]. apply list_set_rel; auto. }
  destruct (fold_left _ order (Ok (repeat None (length tasks)))) as [slots|e] eqn:Es in Hr; cbn in Hr; [|discriminate].
  destruct (K order (Ok (repeat None (length tasks))) (Ok (repeat None (length tasks)))) with (x := slots) as (slots' & Es' & Ps); auto.
  { intros x Hx. injection Hx as <-. exists (repeat None (length tasks)). split; [reflexivity|]. generalize (length tasks). induction n; cbn; constructor; cbn; auto. }
  rewrite Es'. cbn [bind]. clear -Ps Hr. revert r Hr. induction Ps as [|s s' sl sl' H Ps IH]; intros r Hr; cbn in *.
  - injection Hr as <-. exists []. split; auto.
  - destruct s as [x|]; cbn in Hr; [|discriminate]. destruct (mapM _ sl) as [xs|e]; cbn in Hr; [|discriminate]. injection Hr as <-.
    destruct s' as [x'|]; [|destruct H]. cbn [bind]. destruct (IH xs eq_refl) as (xs' & -> & Pxs). cbn [bind]. exists (x' :: xs'). split; [reflexivity|auto].
Qed.

Section Tasks.
  Context {est : Type}.
  Variable fit_est : nat -> matrix R -> list R -> list ext -> result est.
  Variable predict_est : est -> matrix R -> result (list R).
  Variables a k : R.
  Hypothesis Hfu : follows_units fit_est predict_est a k.

  (** The second estimator predicts what the first does, in the new unit. *)
  Definition follows (e e' : est) : Prop := forall Z p, predict_est e Z = Ok p -> predict_est e' Z = Ok (map (in_units a k) p).
  Definition task_rel (x x' : list R * option est) : Prop := fst x' = map (in_units a k) (fst x) /\ slot_rel follows (snd x) (snd x').
  Notation dense_task := (dense_task est fit_est predict_est).
  Notation sparse_task := (sparse_task est fit_est predict_est).
  Notation fit_all := (fit_all est fit_est predict_est).

  Lemma local_later c X y w x cache : later task_rel (fit_local_estimator est fit_est predict_est c X y w x cache)
    (fit_local_estimator est fit_est predict_est c X (map (in_units a k) y) w x cache).
  Proof.
    intros r Hr. unfold fit_local_estimator in *. destruct (fit_est c X y w) as [e|] eqn:Ee; cbn in Hr; [|discriminate].
    destruct (predict_est e [x]) as [p|] eqn:Ep; cbn in Hr; [|discriminate]. injection Hr as <-.
    destruct (Hfu c X y w e Ee) as (e' & -> & Hf). cbn [bind]. rewrite (Hf _ _ Ep). cbn [bind]. eexists. split; [reflexivity|]. split; [reflexivity|].
    cbn [snd]. destruct cache; cbn; auto.
  Qed.
  Lemma select_map {A B} (f : A -> B) mask : forall v, select mask (map f v) = map f (select mask v).
  Proof. induction mask as [|[] mask IH]; intros [|x v]; cbn; auto. f_equal. auto. Qed.
  Lemma dense_later X y ests W Xp cache i : later task_rel (dense_task X y ests W Xp cache i) (dense_task X (map (in_units a k) y) ests W Xp cache i).
  Proof.
    intros r Hr. unfold dense_task in *. destruct (getitem ests i) as [c|]; cbn [bind] in *; [|discriminate].
    destruct (getitem W i) as [row|]; cbn [bind] in *; [|discriminate]. destruct (getitem Xp i) as [x|]; cbn [bind] in *; [|discriminate].
    destruct (mask_index (map ext_nonzero row) X) as [Xs|]; cbn [bind] in *; [|discriminate].
    unfold mask_index at 1 in Hr. unfold mask_index at 1. rewrite (map_length (in_units a k)).
    destruct (length (map ext_nonzero row) =? length y)%nat; cbn [bind] in *; [|discriminate].
    destruct (mask_index (map ext_nonzero row) row) as [ws|]; cbn [bind] in *; [|discriminate].
    rewrite select_map. exact (local_later _ _ _ _ _ _ r Hr).
  Qed.
  Lemma take_checked_map {A B} (f : A -> B) v idx : take_checked (map f v) idx = match take_checked v idx with Ok r => Ok (map f r) | Raise e => Raise e end.
  Proof.
    unfold take_checked. induction idx as [|i idx IH]; [reflexivity|]. cbn [mapM]. rewrite IH.
    assert (E : getitem (map f v) i = match getitem v i with Ok r => Ok (f r) | Raise e => Raise e end).
    { unfold getitem. rewrite nth_error_map. destruct (nth_error v i); reflexivity. }
    rewrite E. destruct (getitem v i); cbn; auto. destruct (mapM (getitem v) idx); reflexivity.
  Qed.
  Lemma sparse_later X y ests W Xp cache i : later task_rel (sparse_task X y ests W Xp cache i) (sparse_task X (map (in_units a k) y) ests W Xp cache i).
  Proof.
    intros r Hr. unfold sparse_task in *. destruct (getitem ests i) as [c|]; cbn [bind] in *; [|discriminate].
    destruct (getitem (c_indptr W) (S i)); cbn [bind] in *; [|discriminate]. destruct (getitem Xp i) as [x|]; cbn [bind] in *; [|discriminate].
    destruct (take_checked X _) as [Xs|]; cbn [bind] in *; [|discriminate]. rewrite take_checked_map.
    destruct (take_checked y _) as [ys|]; cbn [bind] in *; [|discriminate]. exact (local_later _ _ _ _ _ _ r Hr).
  Qed.
  Definition all_rel (x x' : list (list R) * list (option est)) : Prop := fst x' = map (map (in_units a k)) (fst x) /\ Forall2 (slot_rel follows) (snd x) (snd x').
  Lemma pairs_rel l l' : Forall2 task_rel l l' -> all_rel (map fst l, map snd l) (map fst l', map snd l').
  Proof. induction 1 as [|x x' l l' [H1 H2] H [I1 I2]]; split; cbn in *; auto; f_equal; auto. Qed.
  Lemma batches_later order locs n task task' : (forall i, later task_rel (task i) (task' i)) ->
    later all_rel (run_batches order locs n task) (run_batches order locs n task').
  Proof.
    intros H r Hr. unfold run_batches in *. destruct (array_split locs n) as [bs|]; cbn [bind] in *; [|discriminate].
    match type of Hr with context[parallel order ?t] => destruct (parallel order t) as [rs|] eqn:Er; cbn [bind] in Hr; [|discriminate] end. injection Hr as <-.
    edestruct (parallel_later all_rel order) as (rs' & Er' & Prs); [|exact Er|].
    2:{ rewrite Er'. cbn [bind]. eexists. split; [reflexivity|]. clear -Prs. induction Prs as [|x x' l l' [H1 H2] H [I1 I2]]; split; cbn in *; auto.
      - rewrite map_app, H1, I1. reflexivity.
      - apply Forall2_app; auto. }
    clear -H. induction bs as [|b bs IH]; cbn [map]; constructor; auto. intros x Hx.
    destruct (mapM task b) as [l|] eqn:El; cbn [bind] in Hx; [|discriminate]. injection Hx as <-.
    destruct (mapM_later task_rel task task' b H l El) as (l' & -> & Pl). cbn [bind]. eexists. split; [reflexivity|]. apply pairs_rel. auto.
  Qed.
  Lemma jobs_later order (l : list nat) task task' : (forall i, later task_rel (task i) (task' i)) ->
    later all_rel (rs <- parallel order (map task l) ;; unzip_jobs rs) (rs <- parallel order (map task' l) ;; unzip_jobs rs).
  Proof.
    intros H r Hr. destruct (parallel order (map task l)) as [rs|] eqn:Er; cbn [bind] in Hr; [|discriminate].
    destruct (parallel_later task_rel order (map task l) (map task' l)) with (x := rs) as (rs' & -> & Prs); auto.
    { clear -H. induction l; cbn; constructor; auto. }
    cbn [bind]. destruct Prs as [|x x' rs rs' Hx Prs]; cbn in Hr; [discriminate|]. injection Hr as <-. cbn [unzip_jobs]. eexists. split; [reflexivity|].
    apply (pairs_rel (x :: rs) (x' :: rs')). constructor; auto.
  Qed.
  Lemma fit_all_later cpu order X y ests W locs cache Xp js :
    later all_rel (fit_all cpu order X y ests W locs cache Xp js) (fit_all cpu order X (map (in_units a k) y) ests W locs cache Xp js).
  Proof.
    unfold fit_all. destruct (j_n_jobs js) as [z|].
    - destruct (j_n_patches js); [intros r Hr; discriminate|]. destruct (z =? 0)%Z; [intros r Hr; discriminate|].
      destruct W as [m|m]; apply jobs_later; intros; [apply dense_later|apply sparse_later].
    - destruct W as [m|m]; apply batches_later; intros; [apply dense_later|apply sparse_later].
  Qed.

  Lemma squeeze_units preds : squeeze (map (map (in_units a k)) preds) = match squeeze preds with Ok v => Ok (map (in_units a k) v) | Raise e => Raise e end.
  Proof.
    unfold squeeze.
    assert (E : mapM (fun p => match p with [x] => Ok x | _ => Raise ValueError end) (map (map (in_units a k)) preds) =
      match mapM (fun p => match p with [x] => Ok x | _ => Raise ValueError end) preds with Ok v => Ok (map (in_units a k) v) | Raise e => Raise e end).
    { induction preds as [|[|x [|z p]] preds IH]; cbn [map mapM bind]; auto. rewrite IH. destruct (mapM _ preds); reflexivity. }
    rewrite E. destruct (mapM _ preds) as [[|x [|z v]]|]; reflexivity.
  Qed.

  Theorem fit_units G choice cpu wm c order g fs s0 s0' X y coords given : a <> 0 -> valid_choice choice ->
    let o := fit est fit_est predict_est G choice cpu wm c order g fs s0 X y coords given in
    let o' := fit est fit_est predict_est G choice cpu wm c order g fs s0' X (map (in_units a k) y) coords given in
    o_result est G o = Ok tt ->
    o_result est G o' = Ok tt /\
    exists ys ps rs es es',
      y_sample_ est (o_state est G o) = Some ys /\ y_sample_ est (o_state est G o') = Some (map (in_units a k) ys) /\
      local_predict_ est (o_state est G o) = Some ps /\ local_predict_ est (o_state est G o') = Some (map (in_units a k) ps) /\
      local_residual_ est (o_state est G o) = Some rs /\ local_residual_ est (o_state est G o') = Some (map (Rmult a) rs) /\
      llocv_score_ est (o_state est G o') = llocv_score_ est (o_state est G o) /\
      local_indices_ est (o_state est G o') = local_indices_ est (o_state est G o) /\
      local_estimators est (o_state est G o) = Some es /\ local_estimators est (o_state est G o') = Some es' /\ Forall2 (slot_rel follows) es es' /\
      (cache_data c = true -> data_X est (o_state est G o') = data_X est (o_state est G o) /\ data_coords est (o_state est G o) = coords /\
         data_coords est (o_state est G o') = coords /\ data_y est (o_state est G o) = Some y /\ data_y est (o_state est G o') = Some (map (in_units a k) y)).
  Proof.
    intros Ha Hch o o' H.
    destruct (fit_inv est fit_est predict_est G choice cpu wm c order g fs s0 X y coords given H)
      as (w & g1 & locs & preds & es & p & sc & V1 & V2 & V3 & V4 & V5 & V6 & E). fold o in E.
    destruct (fit_all_later _ _ _ _ _ _ _ _ _ _ _ V4) as ([preds' es'] & V4' & [P1 P2]). cbn [fst snd] in P1, P2. subst preds'.
    assert (V1' : check_X_y X (map (in_units a k) y) = Ok tt) by (unfold check_X_y in *; rewrite map_length; exact V1).
    assert (V5' : squeeze (map (map (in_units a k)) preds) = Ok (map (in_units a k) p)) by (rewrite squeeze_units, V5; reflexivity).
    assert (Hlocs : Forall (fun i => (i < length y)%nat) locs).
    { assert (Ely : length y = length X).
      { unfold check_X_y in V1. destruct (Nat.eqb_spec (length X) (length y)); [auto|discriminate]. }
      apply Forall_forall. intros i Hi. rewrite Ely. exact (proj1 (proj2 (sample_locations_spec G choice g c _ _ _ Hch V3)) i Hi). }
    assert (Et : take 0 (map (in_units a k) y) locs = map (in_units a k) (take 0 y locs)).
    { unfold take. rewrite map_map. apply map_ext_in. intros i Hi. rewrite Forall_forall in Hlocs. apply nth_map_in. apply Hlocs. auto. }
    assert (V6' : r2_score (take 0 (map (in_units a k) y) locs) (map (in_units a k) p) = Ok sc) by (rewrite Et, r2_units; auto).
    assert (E' : exists fs' Wr, o' = Outcome est G
        (State est (Some true) (Some (ncols X)) (Some (length X))
           (if cache_data c then Some X else data_X est s0') (if cache_data c then Some (map (in_units a k) y) else data_y est s0')
           (if cache_data c then coords else data_coords est s0')
           (Some (if leave_local_out c then clear_diagonal w else w))
           (Some (positive_mask (if leave_local_out c then clear_diagonal w else w)))
           (Some locs) (Some (map (in_units a k) (take 0 y locs))) (Some es') (Some (map (in_units a k) p)) (Some sc)
           (Some (map2 Rminus (map (in_units a k) (take 0 y locs)) (map (in_units a k) p)))
           (permutation_score_decrease_ est s0') (interaction_matrix_ est s0')) Wr g1 fs' (Ok tt)).
    { unfold o', fit. rewrite V1'. unfold in_force in V2.
      destruct given as [w0|].
      - destruct V2 as [V2|[V2 _]]; [injection V2 as ->|discriminate]. destruct coords;
          rewrite V3, V4', V5'; cbn [bind]; rewrite V6', Et; cbn [bind]; eexists _, _; destruct (cache_data c); reflexivity.
      - destruct V2 as [V2|(_ & v & -> & V2)]; [discriminate|]. destruct (wm fs v v) as [fs1 r]. cbn in V2. subst r.
        rewrite V3, V4', V5'. cbn [bind]. rewrite V6', Et. cbn [bind]. eexists _, _. destruct (cache_data c); reflexivity. }
    destruct E' as (fs' & Wr & E'). rewrite E, E'. cbn. split; [reflexivity|].
    exists (take 0 y locs), p, (map2 Rminus (take 0 y locs) p), es, es'.
    repeat split; auto; try (destruct (cache_data c); [reflexivity|discriminate]).
    apply f_equal. clear. generalize (take 0 y locs) as l. induction p as [|x p IH]; intros [|z l]; cbn; auto. f_equal; [unfold in_units; ring|apply IH].
  Qed.

  (** predict_by_fit on an object that differs in the unit of the stored targets. *)
  Theorem pbf_units cpu wm c order fs s s' X coords W ty out :
    data_X est s' = data_X est s -> data_coords est s' = data_coords est s -> data_y est s = Some ty -> data_y est s' = Some (map (in_units a k) ty) ->
    snd (predict_by_fit est fit_est predict_est cpu wm c order fs s X coords W) = Ok out ->
    snd (predict_by_fit est fit_est predict_est cpu wm c order fs s' X coords W) = Ok (map (map (in_units a k)) out).
  Proof.
    intros E1 E2 E3 E4. unfold predict_by_fit. rewrite E1, E2, E3, E4. destruct (negb (cache_data c)); [discriminate|].
    destruct (guard_weights coords W); [|discriminate].
    match goal with |- context[let '(_, _) := ?t in _] => destruct t as [fs' [[w locs]|e]] end; [|discriminate].
    cbn [snd]. destruct (data_X est s) as [tX|]; [|discriminate].
    destruct (fit_all cpu order tX ty _ _ _ _ _ _) as [x|] eqn:Ex; cbn [bind]; [|discriminate]. intros H. injection H as <-.
    destruct (fit_all_later _ _ _ _ _ _ _ _ _ _ _ Ex) as (x' & -> & [P1 _]). cbn [bind]. rewrite P1. reflexivity.
  Qed.

  (** predict_by_weight: the origin is shifted by the sum of the weights. *)
  Theorem pbw_units wm c fs fs' s s' X v t es es' preds W m n :
    cache_data c = true -> cache_estimator c = true ->
    local_estimators est s = Some (map Some es) -> local_estimators est s' = Some es' -> Forall2 (slot_rel follows) (map Some es) es' ->
    data_coords est s = Some t -> data_coords est s' = Some t ->
    wm fs v t = (fs', Ok (WDense (mmap Fin W))) -> rect W m n -> (0 < m)%nat -> (0 < n)%nat -> length es = n ->
    Forall2 (fun e p => predict_est e X = Ok p /\ length p = m) es preds ->
    exists q, length q = m /\
      predict_by_weight est predict_est wm c fs s X (Some v) None = (fs', Ok (map Fin q)) /\
      predict_by_weight est predict_est wm c fs s' X (Some v) None =
        (fs', Ok (map Fin (tabulate m (fun i => a * nth i q 0 + k * Rsum (nth i W []))))).
  Proof.
    intros H1 H2 E1 E2 HF T1 T2 Hw HW Hm Hn Hl Hp.
    assert (K : exists es1, es' = map Some es1 /\ Forall2 (fun e p => predict_est e X = Ok p /\ length p = m) es1 (map (map (in_units a k)) preds)).
    { clear -HF Hp. revert es' HF. induction Hp as [|e p es preds [P1 P2] Hp IH]; intros es' HF; inversion HF as [|x o l l' Ho HF']; subst.
      - exists []. split; [reflexivity|constructor].
      - destruct (IH _ HF') as (es1 & -> & F1). destruct o as [e'|]; [|destruct Ho]. exists (e' :: es1). split; [reflexivity|].
        cbn [map]. constructor; auto. split; [apply Ho; auto|rewrite map_length; auto]. }
    destruct K as (es1 & -> & F1).
    assert (Hl1 : length es1 = n) by (rewrite <- Hl; rewrite (Forall2_len _ _ _ F1), map_length; symmetry; apply (Forall2_len _ _ _ Hp)).
    rewrite (pbw_sum est predict_est wm c fs fs' s X v t es preds W m n) by auto.
    rewrite (pbw_sum est predict_est wm c fs fs' s' X v t es1 (map (map (in_units a k)) preds) W m n) by auto.
    eexists. split; [apply tabulate_length|]. split; [reflexivity|]. do 2 f_equal. apply f_equal. apply tabulate_ext. intros i Hi.
    rewrite tabulate_nth by auto.
    assert (ER : Rsum (nth i W []) = Rsum (tabulate n (fun j => mget 0 W i j))).
    { apply f_equal. apply (list_eq_nth 0); [rewrite tabulate_length; apply (rect_row W m n i HW Hi)|].
      intros j Hj. rewrite (rect_row W m n i HW Hi) in Hj. rewrite tabulate_nth by auto. reflexivity. }
    rewrite ER. unfold tabulate. rewrite <- !Rsum_map_scal, <- Rsum_map_plus. apply Rsum_map_ext. intros j Hj. apply in_seq in Hj.
    assert (Hlp : length preds = n) by (rewrite <- Hl; symmetry; apply (Forall2_len _ _ _ Hp)).
    rewrite (nth_map_in (map (in_units a k)) preds j [] []) by lia.
    assert (Hpj : length (nth j preds []) = m).
    { assert (HH : Forall (fun p => length p = m) preds) by (clear -Hp; induction Hp as [|? ? ? ? [_ ?]]; constructor; auto).
      rewrite Forall_forall in HH. apply HH, nth_In. lia. }
    rewrite (nth_map_in (in_units a k) (nth j preds []) i 0 0) by lia. unfold in_units. ring.
  Qed.
End Tasks.

(** ** The claims *)
Section Claims.
  Context {est : Type}.
  Variable fit_est : nat -> matrix R -> list R -> list ext -> result est.
  Variable predict_est : est -> matrix R -> result (list R).
  Variables a k : R.
  Hypothesis Hfu : follows_units fit_est predict_est a k.
  Hypothesis Ha : a <> 0.
  Context {G : Type}.
  Variable choice : G -> list nat -> nat -> G * list nat.
  Hypothesis Hch : valid_choice choice.
  Variable cpu : nat.
  Variable wm : filesystem -> list coords -> list coords -> filesystem * result weights.
  Notation FIT := (fit est fit_est predict_est G choice cpu wm).

  Theorem units_fit c order g fs s0 s0' X y coords given :
    let o := FIT c order g fs s0 X y coords given in
    let o' := FIT c order g fs s0' X (map (in_units a k) y) coords given in
    o_result est G o = Ok tt ->
    o_result est G o' = Ok tt /\
    exists ps rs,
      local_predict_ est (o_state est G o) = Some ps /\ local_predict_ est (o_state est G o') = Some (map (in_units a k) ps) /\
      local_residual_ est (o_state est G o) = Some rs /\ local_residual_ est (o_state est G o') = Some (map (Rmult a) rs) /\
      llocv_score_ est (o_state est G o') = llocv_score_ est (o_state est G o).
  Proof.
    intros o o' H. destruct (fit_units fit_est predict_est a k Hfu G choice cpu wm c order g fs s0 s0' X y coords given Ha Hch H)
      as (H' & ys & ps & rs & es & es' & _ & _ & A1 & A2 & A3 & A4 & A5 & _). split; [exact H'|]. exists ps, rs. auto.
  Qed.

  Theorem units_pbf c order g fs s0 s0' X y coords given order2 fs2 Z v W out :
    let o := FIT c order g fs s0 X y coords given in
    let o' := FIT c order g fs s0' X (map (in_units a k) y) coords given in
    o_result est G o = Ok tt ->
    snd (predict_by_fit est fit_est predict_est cpu wm c order2 fs2 (o_state est G o) Z v W) = Ok out ->
    snd (predict_by_fit est fit_est predict_est cpu wm c order2 fs2 (o_state est G o') Z v W) = Ok (map (map (in_units a k)) out).
  Proof.
    intros o o' H. destruct (fit_units fit_est predict_est a k Hfu G choice cpu wm c order g fs s0 s0' X y coords given Ha Hch H)
      as (H' & ys & ps & rs & es & es' & _ & _ & _ & _ & _ & _ & _ & _ & _ & _ & _ & Hd).
    destruct (cache_data c) eqn:Ec; [|unfold predict_by_fit; rewrite Ec; discriminate]. destruct (Hd eq_refl) as (D1 & D2 & D3 & D4 & D5).
    apply (pbf_units fit_est predict_est a k Hfu _ _ _ _ _ _ _ _ _ _ y); auto; fold o in D2; fold o' in D3; congruence.
  Qed.

  Theorem units_pbw c order g fs s0 s0' X y t given fs2 fs3 Z v es preds W m n :
    let o := FIT c order g fs s0 X y (Some t) given in
    let o' := FIT c order g fs s0' X (map (in_units a k) y) (Some t) given in
    o_result est G o = Ok tt -> cache_data c = true -> cache_estimator c = true ->
    local_estimators est (o_state est G o) = Some (map Some es) -> length es = n -> (0 < n)%nat -> (0 < m)%nat ->
    Forall2 (fun e p => predict_est e Z = Ok p /\ length p = m) es preds ->
    wm fs2 v t = (fs3, Ok (WDense (mmap Fin W))) -> rect W m n ->
    exists q, length q = m /\
      predict_by_weight est predict_est wm c fs2 (o_state est G o) Z (Some v) None = (fs3, Ok (map Fin q)) /\
      predict_by_weight est predict_est wm c fs2 (o_state est G o') Z (Some v) None =
        (fs3, Ok (map Fin (tabulate m (fun i => a * nth i q 0 + k * Rsum (nth i W []))))).
  Proof.
    intros o o' H Hc1 Hc2 He Hl Hn Hm Hp Hw HW. destruct (fit_units fit_est predict_est a k Hfu G choice cpu wm c order g fs s0 s0' X y (Some t) given Ha Hch H)
      as (H' & ys & ps & rs & es0 & es' & _ & _ & _ & _ & _ & _ & _ & _ & A1 & A2 & A3 & Hd). destruct (Hd Hc1) as (D1 & D2 & D3 & D4 & D5).
    fold o in A1. rewrite He in A1. injection A1 as <-.
    apply (pbw_units predict_est a k wm c fs2 fs3 (o_state est G o) (o_state est G o') Z v t es es' preds W m n); auto.
  Qed.
End Claims.

(** A learner that follows units: the mean of its targets. *)
Definition mean_fit (c : nat) (X : matrix R) (y : list R) (w : list ext) : result R :=
  match y with [] => Raise ValueError | _ => Ok (mean y) end.
Definition mean_predict (e : R) (X : matrix R) : result (list R) := Ok (map (fun _ => e) X).
Lemma mean_follows a k : follows_units mean_fit mean_predict a k.
Proof.
  intros i X [|t y] w e H; [discriminate|]. injection H as <-. exists (in_units a k (mean (t :: y))). split.
  - change (Ok (mean (map (in_units a k) (t :: y))) = Ok (in_units a k (mean (t :: y)))). rewrite mean_units by discriminate. reflexivity.
  - intros Z p Hp. injection Hp as <-. unfold mean_predict. rewrite map_map. reflexivity.
Qed.
