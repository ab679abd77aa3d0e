From Verif.Model Require Import Base Constructor.
From Verif.Spec Require Import ConstructorSpec.
From Coq Require Import Lia.
Open Scope string_scope.
Open Scope nat_scope.
Open Scope list_scope.

Section C.
  Context {obj : Type}.
  Notation val := (pyval obj).
  Notation lookup := (lookup obj).
  Notation params := (list (string * option val)).

  Lemma lookup_in k d (v : val) : lookup k d = Some v -> In (k, v) d.
  Proof.
    induction d as [|[k' v'] d IH]; cbn; [discriminate|].
    destruct (String.eqb_spec k' k) as [->|n]; intros E; [injection E as ->; now left|right; auto].
  Qed.
  Lemma lookup_none k (d : list (string * val)) : lookup k d = None <-> ~ In k (map fst d).
  Proof.
    induction d as [|[k' v'] d IH]; cbn; [tauto|].
    destruct (String.eqb_spec k' k) as [->|n]; [split; [discriminate|intros H; exfalso; apply H; now left]|].
    rewrite IH; tauto.
  Qed.
  Lemma lookup_nodup k d (v : val) : NoDup (map fst d) -> In (k, v) d -> lookup k d = Some v.
  Proof.
    induction d as [|[k' v'] d IH]; cbn; [tauto|]. intros N H. inversion N as [|? ? n N']; subst.
    destruct H as [E|H]; [injection E as -> ->; now rewrite String.eqb_refl|].
    destruct (String.eqb_spec k' k) as [->|]; [|auto].
    exfalso; apply n. apply (in_map fst) in H; exact H.
  Qed.
  Lemma lookup_app k d e : lookup k (d ++ e)%list = match lookup k d with Some v => Some v | None => lookup k e end.
  Proof.
    induction d as [|[k' v'] d IH]; cbn; auto. destruct (String.eqb k' k); auto.
  Qed.
  Lemma lookup_combine names (pos : list val) i k : NoDup names -> nth_error names i = Some k ->
    lookup k (combine names pos) = nth_error pos i.
  Proof.
    revert pos i; induction names as [|n names IH]; intros pos i N H; [now destruct i|].
    inversion N as [|? ? n' N']; subst.
    destruct pos as [|p pos]; [now destruct i|]; cbn.
    destruct i as [|i]; cbn in H.
    - injection H as ->. now rewrite String.eqb_refl.
    - destruct (String.eqb_spec n k) as [->|]; [|cbn; auto].
      exfalso; apply n'. eapply nth_error_In; eauto.
  Qed.
  Lemma lookup_combine_some names (pos : list val) k v : lookup k (combine names pos) = Some v ->
    exists i, nth_error names i = Some k /\ nth_error pos i = Some v.
  Proof.
    revert pos; induction names as [|n names IH]; intros [|p pos] H; cbn in H; try discriminate.
    destruct (String.eqb_spec n k) as [->|].
    - injection H as ->. now exists 0.
    - destruct (IH _ H) as (i & A & B). now exists (S i).
  Qed.

  (* the value of one parameter *)
  Definition pval (s : signature obj) (pos : list val) (kw : list (string * val)) (p : string * option val) : option val :=
    match lookup (fst p) (combine (param_names obj s) pos) with
    | Some v => Some v
    | None => match lookup (fst p) kw with Some v => Some v | None => snd p end
    end.

  Lemma mapM_pval s pos kw l :
    mapM (fun p : string * option val => match lookup (fst p) (combine (param_names obj s) pos) with
                              | Some v => Ok (fst p, v)
                              | None => match lookup (fst p) kw with
                                        | Some v => Ok (fst p, v)
                                        | None => match snd p with Some d => Ok (fst p, d) | None => Raise TypeError end
                                        end
                              end) l
    = if forallb (fun p => match pval s pos kw p with Some _ => true | None => false end) l
      then Ok (map (fun p => (fst p, match pval s pos kw p with Some v => v | None => VNone end)) l) else Raise TypeError.
  Proof.
    induction l as [|p l IH]; [reflexivity|]. cbn [mapM forallb map]. rewrite IH. clear IH.
    assert (E : match lookup (fst p) (combine (param_names obj s) pos) with
                | Some v => Ok (fst p, v)
                | None => match lookup (fst p) kw with
                          | Some v => Ok (fst p, v)
                          | None => match snd p with Some d => Ok (fst p, d) | None => Raise TypeError end
                          end
                end = match pval s pos kw p with Some v => Ok (fst p, v) | None => Raise TypeError end).
    { unfold pval. destruct (lookup (fst p) _); [reflexivity|]. destruct (lookup (fst p) kw); [reflexivity|].
      destruct (snd p); reflexivity. }
    rewrite E. destruct (pval s pos kw p); cbn [bind andb]; [|reflexivity].
    destruct (forallb _ l); reflexivity.
  Qed.

  Lemma lookup_named s pos kw (l : params) k : NoDup (map fst l) -> forall dflt, In (k, dflt) l ->
    lookup k (map (fun p => (fst p, match pval s pos kw p with Some v => v | None => VNone end)) l)
    = Some (match pval s pos kw (k, dflt) with Some v => v | None => VNone end).
  Proof.
    induction l as [|[k' d'] l IH]; intros N dflt H; [destruct H|]. cbn [map fst] in *. cbn [Constructor.lookup].
    inversion N as [|? ? n N']; subst.
    destruct H as [E|H].
    - injection E as -> ->. now rewrite String.eqb_refl.
    - destruct (String.eqb_spec k' k) as [->|]; [|cbn [Constructor.lookup]; auto].
      exfalso; apply n. apply (in_map fst) in H; exact H.
  Qed.

  Definition clashing (s : signature obj) (pos : list val) (kw : list (string * val)) : bool :=
    existsb (fun e => has_key obj (fst e) (combine (param_names obj s) pos)) kw.
  Lemma clashing_spec s pos kw : NoDup (map fst (s_params obj s)) -> clashing s pos kw = true <-> clash (s_params obj s) pos kw.
  Proof.
    intros N. unfold clashing, clash. rewrite existsb_exists. split.
    - intros ([k v] & I & H). cbn in H. unfold has_key in H.
      destruct (lookup k _) as [w|] eqn:E; [|discriminate].
      destruct (lookup_combine_some _ _ _ _ E) as (i & A & B).
      unfold param_names in A. rewrite nth_error_map in A. destruct (nth_error (s_params obj s) i) as [[k' d']|] eqn:F; [|discriminate].
      injection A as ->. exists i, k, d'. repeat split; auto.
      + apply nth_error_Some. rewrite B. discriminate.
      + apply (in_map fst) in I; exact I.
    - intros (i & k & d & A & B & I). apply in_map_iff in I. destruct I as ([k' v] & <- & I).
      exists (k', v). split; auto. unfold has_key. cbn [fst] in *.
      rewrite (lookup_combine _ _ i _ N) by (unfold param_names; rewrite nth_error_map, A; reflexivity).
      destruct (nth_error pos i) eqn:E; auto. apply nth_error_None in E. lia.
  Qed.

  Definition complete (s : signature obj) pos kw : bool :=
    forallb (fun p => match pval s pos kw p with Some _ => true | None => false end) (s_params obj s).
  Lemma complete_spec s pos kw : NoDup (map fst (s_params obj s)) -> complete s pos kw = false <-> missing (s_params obj s) pos kw.
  Proof.
    intros N. unfold complete, missing. split.
    - intros H. assert (E : exists p, In p (s_params obj s) /\ pval s pos kw p = None).
      { induction (s_params obj s) as [|p l IH]; [discriminate|]. cbn in H.
        destruct (pval s pos kw p) eqn:E; [|exists p; split; [now left|auto]].
        inversion N; subst. destruct (IH ltac:(assumption) H) as (q & ? & ?). exists q; split; [now right|auto]. }
      destruct E as ([k d] & I & E). apply In_nth_error in I as (i & I).
      unfold pval in E. cbn [fst snd] in E.
      rewrite (lookup_combine _ _ i _ N) in E by (unfold param_names; rewrite nth_error_map, I; reflexivity).
      destruct (nth_error pos i) eqn:F; [discriminate|]. destruct (lookup k kw) eqn:G; [discriminate|]. subst d.
      exists i, k. repeat split; auto; [now apply nth_error_None|now apply lookup_none].
    - intros (i & k & I & L & K). apply Bool.not_true_is_false. intros H.
      rewrite forallb_forall in H. specialize (H _ (nth_error_In _ _ I)). unfold pval in H. cbn [fst snd] in H.
      rewrite (lookup_combine _ _ i _ N) in H by (unfold param_names; rewrite nth_error_map, I; reflexivity).
      apply nth_error_None in L. rewrite L in H. apply lookup_none in K. rewrite K in H. discriminate.
  Qed.

  Definition unknown (s : signature obj) (kw : list (string * val)) := filter (fun e => negb (is_param obj s (fst e))) kw.

  Lemma bind_call_eq s pos kw : s_var_positional obj s = true -> s_var_keyword obj s = true ->
    bind_call obj s pos kw =
    if clashing s pos kw || negb (complete s pos kw) then Raise TypeError
    else Ok (Bound obj (map (fun p => (fst p, match pval s pos kw p with Some v => v | None => VNone end)) (s_params obj s))
              (skipn (List.length (s_params obj s)) pos) (unknown s kw)).
  Proof.
    intros V K. unfold bind_call. rewrite V, K. cbn [negb andb]. rewrite mapM_pval.
    unfold clashing, complete. destruct (existsb _ kw); [reflexivity|]. cbn [orb].
    destruct (forallb _ _); reflexivity.
  Qed.

  Lemma has_value_pval s pos kw k v : NoDup (map fst (s_params obj s)) -> NoDup (map fst kw) ->
    has_value (s_params obj s) pos kw k v <-> exists dflt, In (k, dflt) (s_params obj s) /\ pval s pos kw (k, dflt) = Some v.
  Proof.
    intros N M. split.
    - intros H. destruct H as [i d A B|i d A B C|i A B C];
        (eexists; split; [eapply nth_error_In; exact A|]); unfold pval; cbn [fst snd];
        rewrite (lookup_combine _ _ i _ N) by (unfold param_names; rewrite nth_error_map, A; reflexivity); rewrite B; auto.
      + now rewrite (lookup_nodup _ _ _ M C).
      + apply lookup_none in C. now rewrite C.
    - intros (d & I & E). apply In_nth_error in I as (i & I). unfold pval in E. cbn [fst snd] in E.
      rewrite (lookup_combine _ _ i _ N) in E by (unfold param_names; rewrite nth_error_map, I; reflexivity).
      destruct (nth_error pos i) eqn:F; [injection E as ->; eapply by_position; eauto|].
      destruct (lookup k kw) eqn:G; [injection E as ->; eapply by_keyword; eauto; now apply lookup_in|].
      subst d. eapply by_default; eauto. now apply lookup_none.
  Qed.

  Lemma arg_value s pos kw b k v : s_var_positional obj s = true -> s_var_keyword obj s = true ->
    NoDup (map fst (s_params obj s)) -> NoDup (map fst kw) -> bind_call obj s pos kw = Ok b ->
    has_value (s_params obj s) pos kw k v -> lookup k (b_named obj b) = Some v /\ arg obj b k = v.
  Proof.
    intros V K N M B H. rewrite bind_call_eq in B by auto.
    destruct (clashing s pos kw || negb (complete s pos kw))%bool; [discriminate|]. injection B as <-.
    apply has_value_pval in H; auto. destruct H as (d & I & E).
    assert (L := lookup_named s pos kw _ k N d I). rewrite E in L. unfold arg. cbn [b_named]. rewrite L. auto.
  Qed.

  Ltac nodup := repeat (constructor; [cbn; intuition discriminate|]); constructor.
  Lemma wm_nodup : NoDup (map fst (s_params obj (weight_model_sig obj))).
  Proof. cbn. nodup. Qed.
  Lemma st_nodup : NoDup (map fst (s_params obj (stacking_sig obj))).
  Proof. cbn. nodup. Qed.
  Lemma wm_params : s_params obj (weight_model_sig obj) = weight_model_parameters.
  Proof. reflexivity. Qed.
  Lemma st_params : s_params obj (stacking_sig obj) = stacking_parameters.
  Proof. reflexivity. Qed.

  (** ** WeightModel *)
  Variable cpu : nat.
  Notation wm_init := (weight_model_init obj cpu).
  Notation st_init := (stacking_init obj cpu).

  Lemma wm_rejects pos kw : clash weight_model_parameters pos kw \/ missing weight_model_parameters pos kw -> wm_init pos kw = Raise TypeError.
  Proof.
    intros H. unfold weight_model_init. rewrite bind_call_eq by reflexivity.
    assert (E : (clashing (weight_model_sig obj) pos kw || negb (complete (weight_model_sig obj) pos kw))%bool = true).
    { destruct H as [H|H].
      - apply (proj2 (clashing_spec (weight_model_sig obj) pos kw wm_nodup)) in H. now rewrite H.
      - apply (proj2 (complete_spec (weight_model_sig obj) pos kw wm_nodup)) in H. rewrite H. apply Bool.orb_true_r. }
    rewrite E. reflexivity.
  Qed.
  Lemma bind_accepts s pos kw : NoDup (map fst (s_params obj s)) -> s_var_positional obj s = true -> s_var_keyword obj s = true ->
    ~ clash (s_params obj s) pos kw -> ~ missing (s_params obj s) pos kw -> exists b, bind_call obj s pos kw = Ok b.
  Proof.
    intros N V K C M. rewrite bind_call_eq by auto.
    destruct (clashing s pos kw) eqn:E; [apply clashing_spec in E; tauto|].
    destruct (complete s pos kw) eqn:F; [|apply complete_spec in F; tauto]. cbn. eexists; reflexivity.
  Qed.
  Lemma wm_accepts pos kw : ~ clash weight_model_parameters pos kw -> ~ missing weight_model_parameters pos kw -> exists d, wm_init pos kw = Ok d.
  Proof.
    intros C M. destruct (bind_accepts (weight_model_sig obj) pos kw wm_nodup eq_refl eq_refl C M) as (b & E).
    unfold weight_model_init. rewrite E. cbn [bind]. eexists; reflexivity.
  Qed.

  Definition wm_shape (f : string -> val) (args : list val) (kwargs : list (string * val)) : list (string * val) :=
    [("local_estimator", f "local_estimator"); ("distance_measure", f "distance_measure"); ("kernel_type", f "kernel_type");
     ("distance_ratio", f "distance_ratio"); ("bandwidth", f "bandwidth"); ("neighbour_count", f "neighbour_count");
     ("distance_args", f "distance_args"); ("leave_local_out", f "leave_local_out");
     ("sample_local_rate", f "sample_local_rate"); ("cache_data", f "cache_data"); ("cache_estimator", f "cache_estimator");
     ("n_jobs", f "n_jobs"); ("n_patches", match f "n_jobs", f "n_patches" with VNone, VNone => VInt (Z.of_nat cpu) | _, p => p end)]
    ++ map (fun a => (a, VNone)) empty_attributes ++ [("args", VTuple args); ("kwargs", VDict kwargs)].
  Definition st_shape (f : string -> val) (kwargs : list (string * val)) : list (string * val) :=
    [("alpha", f "alpha"); ("neighbour_leave_out_rate", f "neighbour_leave_out_rate");
     ("neighbour_leave_out_shrink_rate", f "neighbour_leave_out_shrink_rate"); ("meta_fitting_shrink_rate", f "meta_fitting_shrink_rate");
     ("estimator_sample_rate", f "estimator_sample_rate"); ("use_numba", f "use_numba");
     ("base_estimator_list", VNone); ("meta_estimator_list", VNone); ("stacking_predict_", VNone); ("stacking_scores_", VNone);
     ("llocv_stacking_", VNone)] ++ wm_shape f [] (("midpoint", f "midpoint") :: kwargs).

  Lemma wm_ok pos kw d : wm_init pos kw = Ok d ->
    exists b, bind_call obj (weight_model_sig obj) pos kw = Ok b /\ d = wm_shape (arg obj b) (skipn 13 pos) (extra_keywords weight_model_parameters kw).
  Proof.
    unfold weight_model_init. intros H. destruct (bind_call obj (weight_model_sig obj) pos kw) as [b|] eqn:B; [|discriminate].
    exists b; split; [reflexivity|]. cbn [bind] in H. injection H as <-.
    rewrite bind_call_eq in B by reflexivity. destruct (_ || _)%bool; [discriminate|]. injection B as <-. reflexivity.
  Qed.

  Definition wm_names : list string := map fst (@weight_model_parameters obj).
  Lemma wm_lookup f args kwargs k : In k wm_names -> k <> "n_patches" -> lookup k (wm_shape f args kwargs) = Some (f k).
  Proof.
    unfold wm_names. cbn. intros H n. repeat (destruct H as [<-|H]; [first [reflexivity|now elim n]|]). destruct H.
  Qed.
  Lemma wm_shape_ext f f' args kwargs : (forall k, In k wm_names -> f k = f' k) -> wm_shape f args kwargs = wm_shape f' args kwargs.
  Proof.
    intros H. unfold wm_shape. rewrite !H by (unfold wm_names; cbn; tauto). reflexivity.
  Qed.
  Lemma wm_kwargs_only f args kw args' kw' k : k <> "kwargs" -> k <> "args" -> lookup k (wm_shape f args kw) = lookup k (wm_shape f args' kw').
  Proof.
    intros n m. unfold wm_shape. rewrite !app_assoc, !lookup_app.
    destruct (lookup k _); [reflexivity|]. destruct (lookup k _); [reflexivity|]. cbn [Constructor.lookup].
    destruct (String.eqb_spec "args" k); [congruence|]. destruct (String.eqb_spec "kwargs" k); [congruence|]. reflexivity.
  Qed.

  Lemma has_value_in params pos kw k (v : val) : has_value params pos kw k v -> In k (map fst params).
  Proof.
    intros H; destruct H as [i ? H|i ? H|i H]; apply nth_error_In in H; apply (in_map fst) in H; exact H.
  Qed.
  Lemma has_value_ex s pos kw b k : s_var_positional obj s = true -> s_var_keyword obj s = true ->
    NoDup (map fst (s_params obj s)) -> NoDup (map fst kw) -> bind_call obj s pos kw = Ok b ->
    In k (map fst (s_params obj s)) -> has_value (s_params obj s) pos kw k (arg obj b k).
  Proof.
    intros V K N M B I. assert (B' := B). rewrite bind_call_eq in B by auto.
    destruct (clashing s pos kw) eqn:C; [discriminate|]. destruct (complete s pos kw) eqn:F; [|discriminate].
    apply in_map_iff in I as ([k' dflt] & <- & I). cbn [fst] in *.
    unfold complete in F. rewrite forallb_forall in F. specialize (F _ I).
    destruct (pval s pos kw (k', dflt)) as [v|] eqn:P; [|discriminate].
    assert (H : has_value (s_params obj s) pos kw k' v) by (apply has_value_pval; eauto).
    destruct (arg_value s pos kw b k' v V K N M B' H) as (_ & ->). exact H.
  Qed.

  Theorem wm_stores pos kw d : NoDup (map fst kw) -> wm_init pos kw = Ok d ->
    (forall k v, has_value weight_model_parameters pos kw k v -> k <> "n_patches" -> attribute d k v) /\
    (forall jobs patches, has_value weight_model_parameters pos kw "n_jobs" jobs -> has_value weight_model_parameters pos kw "n_patches" patches ->
       attribute d "n_patches" (match jobs, patches with VNone, VNone => VInt (Z.of_nat cpu) | _, p => p end)) /\
    (forall k, In k results_of_weight_model -> attribute d k VNone) /\
    attribute d "args" (VTuple (skipn 13 pos)) /\
    attribute d "kwargs" (VDict (extra_keywords weight_model_parameters kw)).
  Proof.
    intros M H. destruct (wm_ok _ _ _ H) as (b & B & ->).
    assert (A : forall k v, has_value weight_model_parameters pos kw k v -> arg obj b k = v).
    { intros k v V. exact (proj2 (arg_value (weight_model_sig obj) pos kw b k v eq_refl eq_refl wm_nodup M B V)). }
    repeat split.
    - intros k v V n. unfold attribute. rewrite wm_lookup; [now rewrite (A _ _ V)|exact (has_value_in _ _ _ _ _ V)|exact n].
    - intros j p J P. unfold attribute. apply A in J. apply A in P. subst j p. cbn. now destruct (arg obj b "n_jobs"), (arg obj b "n_patches").
    - intros k I. unfold attribute. cbn in I. repeat (destruct I as [<-|I]; [reflexivity|]). destruct I.
  Qed.

  Lemma wm_determined pos kw d pos' kw' d' : NoDup (map fst kw) -> NoDup (map fst kw') -> wm_init pos kw = Ok d -> wm_init pos' kw' = Ok d' ->
    (forall k v, has_value weight_model_parameters pos kw k v <-> has_value weight_model_parameters pos' kw' k v) ->
    forall a, a <> "args" -> a <> "kwargs" -> lookup a d = lookup a d'.
  Proof.
    intros M M' H H' S a n m. destruct (wm_ok _ _ _ H) as (b & B & ->). destruct (wm_ok _ _ _ H') as (b' & B' & ->).
    rewrite (wm_shape_ext (arg obj b) (arg obj b')); [apply wm_kwargs_only; auto|].
    intros k I. assert (V := has_value_ex (weight_model_sig obj) pos kw b k eq_refl eq_refl wm_nodup M B I).
    apply S in V. symmetry. exact (proj2 (arg_value (weight_model_sig obj) pos' kw' b' k _ eq_refl eq_refl wm_nodup M' B' V)).
  Qed.

  (** ** StackingWeightModel *)
  Definition forwarded : list string := ["distance_measure"; "kernel_type"; "distance_ratio"; "bandwidth"; "neighbour_count"; "midpoint"; "distance_args";
                      "leave_local_out"; "sample_local_rate"; "cache_data"; "cache_estimator"; "n_jobs"; "n_patches"].

  Lemma unknown_out s (kw : list (string * val)) k : In k (map fst (unknown s kw)) -> ~ In k (map fst (s_params obj s)).
  Proof.
    intros H I. apply in_map_iff in H as ([k' v] & <- & H). apply filter_In in H as (_ & H). cbn [fst] in *.
    unfold is_param in H. apply Bool.negb_true_iff in H. apply Bool.not_true_iff_false in H. apply H.
    apply existsb_exists. exists k'. split; [exact I|apply String.eqb_refl].
  Qed.
  Lemma nodup_app {T} (l1 l2 : list T) : NoDup l1 -> NoDup l2 -> (forall x, In x l1 -> ~ In x l2) -> NoDup (l1 ++ l2).
  Proof.
    induction l1 as [|x l1 IH]; cbn; auto. intros N1 N2 D. inversion N1; subst. constructor.
    - rewrite in_app_iff. intros [?|I]; [auto|]. exact (D x (or_introl eq_refl) I).
    - apply IH; auto.
  Qed.
  Lemma nodup_filter {T U} (g : T -> U) f (l : list T) : NoDup (map g l) -> NoDup (map g (filter f l)).
  Proof.
    induction l as [|x l IH]; cbn; auto. intros N. inversion N; subst. destruct (f x); cbn; auto. constructor; auto.
    intros I. apply in_map_iff in I as (y & E & I). apply filter_In in I as (I & _). apply H1. rewrite <- E. now apply in_map.
  Qed.

  (* keyword names that are not parameters of the stacking model *)
  Definition foreign (kw : list (string * val)) : Prop := forall k, In k (map fst kw) -> ~ In k (map fst (@stacking_parameters obj)).

  Lemma extra_foreign kw : foreign kw -> extra_keywords weight_model_parameters kw = kw.
  Proof.
    unfold foreign. intros F. induction kw as [|[k v] kw IH]; [reflexivity|]. unfold extra_keywords in *. cbn [filter].
    rewrite IH by (intros k' I; apply F; now right).
    assert (E : existsb (String.eqb (fst (k, v))) (map fst (@weight_model_parameters obj)) = false).
    { apply Bool.not_true_is_false. intros E. apply existsb_exists in E as (x & I & E). apply String.eqb_eq in E. cbn [fst] in E. subst x.
      apply (F k (or_introl eq_refl)). clear - I. cbn in *. tauto. }
    rewrite E. reflexivity.
  Qed.

  Lemma inner_none f extra kw : extra <> [] -> wm_init (f "local_estimator" :: extra) (map (fun k => (k, f k)) forwarded ++ kw) = Raise TypeError.
  Proof.
    intros n. apply wm_rejects. left. exists 1, "distance_measure", (Some VNone). split; [reflexivity|]. split.
    - destruct extra; [congruence|cbn; lia].
    - rewrite map_app, in_app_iff. left. now left.
  Qed.
  Lemma fwd_names f : map fst (map (fun k => (k, f k)) forwarded : list (string * val)) = forwarded.
  Proof. reflexivity. Qed.
  Lemma inner_ok f kw : foreign kw -> NoDup (map fst kw) ->
    wm_init [f "local_estimator"] (map (fun k => (k, f k)) forwarded ++ kw) = Ok (wm_shape f [] (("midpoint", f "midpoint") :: kw)).
  Proof.
    intros F N.
    assert (NN : NoDup (map fst (map (fun k => (k, f k)) forwarded ++ kw))).
    { rewrite map_app, fwd_names. apply nodup_app; auto; [unfold forwarded; nodup|].
      intros x I J. apply (F x J). clear - I. cbn in *. tauto. }
    assert (C : ~ clash weight_model_parameters [f "local_estimator"] (map (fun k => (k, f k)) forwarded ++ kw)).
    { intros (i & k & dflt & A & B & I). cbn [List.length] in B. assert (i = 0) by lia. subst i. cbn in A. injection A as <- <-.
      rewrite map_app, in_app_iff, fwd_names in I. destruct I as [I|I].
      - cbn in I. intuition discriminate.
      - apply (F _ I). now left. }
    assert (Mi : ~ missing weight_model_parameters [f "local_estimator"] (map (fun k => (k, f k)) forwarded ++ kw)).
    { intros (i & k & A & B & I). cbn [List.length] in B. do 13 (destruct i; [cbn in A; try discriminate; lia|]). destruct i; discriminate. }
    destruct (wm_accepts _ _ C Mi) as (d & E). rewrite E. f_equal.
    destruct (wm_ok _ _ _ E) as (b & B & ->). cbn [skipn].
    assert (X : extra_keywords weight_model_parameters (map (fun k => (k, f k)) forwarded ++ kw) = ("midpoint", f "midpoint") :: kw).
    { unfold extra_keywords at 1. rewrite filter_app. fold (extra_keywords weight_model_parameters kw). rewrite (extra_foreign kw F). reflexivity. }
    rewrite X. apply wm_shape_ext. intros k I.
    apply (arg_value (weight_model_sig obj) _ _ b k (f k) eq_refl eq_refl wm_nodup NN B).
    unfold wm_names in I. cbn in I.
    destruct I as [<-|I]; [apply by_position with (i := 0) (dflt := None); reflexivity|].
    assert (J : In k forwarded) by (cbn; tauto).
    assert (Kw : In (k, f k) (map (fun k => (k, f k)) forwarded ++ kw)).
    { apply in_app_iff. left. apply in_map_iff. exists k. auto. }
    assert (G : exists i dflt, nth_error (s_params obj (weight_model_sig obj)) (S i) = Some (k, dflt)).
    { clear - I. repeat (destruct I as [<-|I]; [now (exists 0 + exists 1 + exists 2 + exists 3 + exists 4 + exists 5 + exists 6 + exists 7 + exists 8 + exists 9 + exists 10 + exists 11); eexists; reflexivity|]). destruct I. }
    destruct G as (i & dflt & G). apply by_keyword with (i := S i) (dflt := dflt); auto. cbn. now destruct i.
  Qed.

  Lemma st_ok pos kw d : NoDup (map fst kw) -> st_init pos kw = Ok d ->
    exists b, bind_call obj (stacking_sig obj) pos kw = Ok b /\ List.length pos <= 20 /\
      d = st_shape (arg obj b) (extra_keywords stacking_parameters kw).
  Proof.
    intros N. unfold stacking_init. intros H. destruct (bind_call obj (stacking_sig obj) pos kw) as [b|] eqn:B; [|discriminate].
    exists b; split; [reflexivity|]. cbn [bind] in H. fold forwarded in H.
    rewrite bind_call_eq in B by reflexivity. destruct (_ || _)%bool; [discriminate|].
    assert (Ea : b_args obj b = skipn 20 pos) by (injection B as <-; reflexivity).
    assert (Ek : b_kwargs obj b = unknown (stacking_sig obj) kw) by (injection B as <-; reflexivity).
    destruct (skipn 20 pos) as [|x l] eqn:S.
    - rewrite Ea in H. rewrite inner_ok in H.
      + cbn [bind] in H. injection H as <-. split; [|rewrite Ek; reflexivity].
        assert (L := skipn_length 20 pos). rewrite S in L. cbn in L. lia.
      + rewrite Ek. intros k I. exact (unknown_out _ _ _ I).
      + rewrite Ek. now apply nodup_filter.
    - rewrite Ea in H. rewrite inner_none in H by discriminate. discriminate.
  Qed.
  Lemma st_rejects pos kw : clash stacking_parameters pos kw \/ missing stacking_parameters pos kw \/ 20 < List.length pos -> st_init pos kw = Raise TypeError.
  Proof.
    intros H. unfold stacking_init. rewrite bind_call_eq by reflexivity.
    destruct (clashing (stacking_sig obj) pos kw || negb (complete (stacking_sig obj) pos kw))%bool eqn:E; [reflexivity|].
    assert (L : 20 < List.length pos).
    { destruct H as [H|[H|H]]; [| |exact H]; exfalso.
      - apply (proj2 (clashing_spec (stacking_sig obj) pos kw st_nodup)) in H. rewrite H in E. discriminate.
      - apply (proj2 (complete_spec (stacking_sig obj) pos kw st_nodup)) in H. rewrite H, Bool.orb_true_r in E. discriminate. }
    cbn [bind b_args b_kwargs]. fold forwarded. rewrite inner_none; [reflexivity|].
    intros S. change (List.length (s_params obj (stacking_sig obj))) with 20 in S.
    assert (K := skipn_length 20 pos). rewrite S in K. cbn in K. lia.
  Qed.
  Lemma st_accepts pos kw : NoDup (map fst kw) -> ~ clash stacking_parameters pos kw -> ~ missing stacking_parameters pos kw ->
    List.length pos <= 20 -> exists d, st_init pos kw = Ok d.
  Proof.
    intros N C M L. destruct (bind_accepts (stacking_sig obj) pos kw st_nodup eq_refl eq_refl C M) as (b & E).
    unfold stacking_init. rewrite E. cbn [bind]. fold forwarded.
    rewrite bind_call_eq in E by reflexivity. destruct (_ || _)%bool; [discriminate|].
    assert (Ea : b_args obj b = skipn 20 pos) by (injection E as <-; reflexivity).
    assert (Ek : b_kwargs obj b = unknown (stacking_sig obj) kw) by (injection E as <-; reflexivity).
    rewrite Ea, skipn_all2 by exact L. rewrite inner_ok; [eexists; reflexivity| |].
    - rewrite Ek. intros k I. exact (unknown_out _ _ _ I).
    - rewrite Ek. now apply nodup_filter.
  Qed.

  Definition st_names : list string := map fst (@stacking_parameters obj).
  Lemma st_lookup f kwargs k : In k st_names -> k <> "n_patches" -> k <> "midpoint" -> lookup k (st_shape f kwargs) = Some (f k).
  Proof.
    unfold st_names. cbn. intros H n m. repeat (destruct H as [<-|H]; [first [reflexivity|now elim n|now elim m]|]). destruct H.
  Qed.
  Theorem st_stores pos kw d : NoDup (map fst kw) -> st_init pos kw = Ok d ->
    (forall k v, has_value stacking_parameters pos kw k v -> k <> "n_patches" -> k <> "midpoint" -> attribute d k v) /\
    (forall jobs patches, has_value stacking_parameters pos kw "n_jobs" jobs -> has_value stacking_parameters pos kw "n_patches" patches ->
       attribute d "n_patches" (match jobs, patches with VNone, VNone => VInt (Z.of_nat cpu) | _, p => p end)) /\
    (forall k, In k results_of_stacking -> attribute d k VNone) /\
    (forall v, has_value stacking_parameters pos kw "midpoint" v ->
       attribute d "kwargs" (VDict (("midpoint", v) :: extra_keywords stacking_parameters kw))) /\
    attribute d "args" (VTuple []).
  Proof.
    intros M H. destruct (st_ok _ _ _ M H) as (b & B & _ & ->).
    assert (A : forall k v, has_value stacking_parameters pos kw k v -> arg obj b k = v).
    { intros k v V. exact (proj2 (arg_value (stacking_sig obj) pos kw b k v eq_refl eq_refl st_nodup M B V)). }
    repeat split.
    - intros k v V n m. unfold attribute. rewrite st_lookup; [now rewrite (A _ _ V)|exact (has_value_in _ _ _ _ _ V)|exact n|exact m].
    - intros j p J P. unfold attribute. apply A in J. apply A in P. subst j p. cbn. now destruct (arg obj b "n_jobs"), (arg obj b "n_patches").
    - intros k I. unfold attribute. cbn in I. repeat (destruct I as [<-|I]; [reflexivity|]). destruct I.
    - intros v V. apply A in V. rewrite <- V. reflexivity.
  Qed.
  Lemma st_midpoint pos kw d pos' kw' d' : NoDup (map fst kw) -> NoDup (map fst kw') -> st_init pos kw = Ok d -> st_init pos' kw' = Ok d' ->
    same_values stacking_parameters "midpoint" pos pos' kw kw' ->
    forall a, a <> "kwargs" -> lookup a d = lookup a d'.
  Proof.
    intros M M' H H' S a n. destruct (st_ok _ _ _ M H) as (b & B & _ & ->). destruct (st_ok _ _ _ M' H') as (b' & B' & _ & ->).
    assert (E : forall k, In k st_names -> k <> "midpoint" -> arg obj b k = arg obj b' k).
    { intros k I m. assert (V := has_value_ex (stacking_sig obj) pos kw b k eq_refl eq_refl st_nodup M B I).
      apply (S _ _ m) in V. symmetry. exact (proj2 (arg_value (stacking_sig obj) pos' kw' b' k _ eq_refl eq_refl st_nodup M' B' V)). }
    unfold st_shape. rewrite !(lookup_app _ (_ :: _)).
    rewrite !E by (solve [unfold st_names; cbn; tauto | discriminate]).
    destruct (lookup a (_ :: _)); [reflexivity|].
    destruct (String.eqb_spec a "args") as [->|m]; [reflexivity|].
    rewrite (wm_shape_ext (arg obj b) (arg obj b')); [apply wm_kwargs_only; auto|].
    intros k I. unfold wm_names in I. cbn in I. apply E; [unfold st_names; cbn; tauto|].
    intros ->. intuition discriminate.
  Qed.

  (** ** Keywords that name no parameter *)
  Lemma extra_value (params : list (string * option val)) pos kw k0 v0 k (v : val) : ~ In k0 (map fst params) -> 
    has_value params pos kw k v <-> has_value params pos (kw ++ [(k0, v0)]) k v.
  Proof.
    intros n.
    assert (D : has_value params pos kw k v \/ has_value params pos (kw ++ [(k0, v0)]) k v -> k <> k0).
    { intros [H|H] ->; apply n; eapply has_value_in; eauto. }
    split; intros H; assert (m := D ltac:(auto)).
    - destruct H as [i d A B|i d A B C|i A B C]; [eapply by_position; eauto|eapply by_keyword; eauto; apply in_app_iff; auto|eapply by_default; eauto].
      rewrite map_app, in_app_iff. cbn. intros [?|[?|[]]]; [auto|congruence].
    - destruct H as [i d A B|i d A B C|i A B C]; [eapply by_position; eauto| |eapply by_default; eauto].
      + apply in_app_iff in C as [C|[C|[]]]; [eapply by_keyword; eauto|congruence].
      + rewrite map_app, in_app_iff in C. tauto.
  Qed.
  Lemma extra_clash (params : list (string * option val)) pos kw k0 (v0 : val) : ~ In k0 (map fst params) ->
    clash params pos (kw ++ [(k0, v0)]) <-> clash params pos kw.
  Proof.
    intros n. unfold clash. split; intros (i & k & d & A & B & C); exists i, k, d; repeat split; auto; rewrite map_app, in_app_iff in *; cbn in *; auto.
    destruct C as [C|[<-|[]]]; auto. exfalso; apply n. apply nth_error_In in A. apply (in_map fst) in A; exact A.
  Qed.
  Lemma extra_missing (params : list (string * option val)) pos kw k0 (v0 : val) : ~ In k0 (map fst params) ->
    missing params pos (kw ++ [(k0, v0)]) <-> missing params pos kw.
  Proof.
    intros n. unfold missing. split; intros (i & k & A & B & C); exists i, k; repeat split; auto; rewrite map_app, in_app_iff in *; cbn in *; auto.
    intros [I|[<-|[]]]; auto. apply n. apply nth_error_In in A. apply (in_map fst) in A; exact A.
  Qed.
  Lemma extra_nodup (kw : list (string * val)) k0 (v0 : val) : NoDup (map fst kw) -> ~ In k0 (map fst kw) -> NoDup (map fst (kw ++ [(k0, v0)])).
  Proof.
    intros N n. rewrite map_app. cbn. apply nodup_app; auto; [repeat constructor; auto|].
    intros x I [<-|[]]. auto.
  Qed.
  Lemma wm_not_rejected pos kw d : wm_init pos kw = Ok d -> ~ clash weight_model_parameters pos kw /\ ~ missing weight_model_parameters pos kw.
  Proof.
    intros H. split; intros C; rewrite (wm_rejects pos kw) in H by auto; discriminate.
  Qed.
  Lemma st_not_rejected pos kw d : st_init pos kw = Ok d -> ~ clash stacking_parameters pos kw /\ ~ missing stacking_parameters pos kw /\ List.length pos <= 20.
  Proof.
    intros H. repeat split; [intros C|intros C|apply Nat.nlt_ge; intros C]; rewrite (st_rejects pos kw) in H by auto; discriminate.
  Qed.
  Theorem wm_extra pos kw d k v : NoDup (map fst kw) -> wm_init pos kw = Ok d ->
    ~ In k (map fst (@weight_model_parameters obj)) -> ~ In k (map fst kw) ->
    exists d', wm_init pos (kw ++ [(k, v)]) = Ok d' /\ forall a, a <> "kwargs" -> lookup a d' = lookup a d.
  Proof.
    intros N H n m. destruct (wm_not_rejected _ _ _ H) as (C & M).
    destruct (wm_accepts pos (kw ++ [(k, v)])) as (d' & H'); [now rewrite extra_clash|now rewrite extra_missing|].
    exists d'; split; [exact H'|]. intros a x.
    destruct (String.eqb_spec a "args") as [->|y].
    - assert (S := wm_stores _ _ _ N H). assert (S' := wm_stores _ _ _ (extra_nodup _ _ _ N m) H').
      unfold attribute in *. destruct S as (_ & _ & _ & -> & _), S' as (_ & _ & _ & -> & _). reflexivity.
    - symmetry. apply (wm_determined pos kw d pos (kw ++ [(k, v)]) d'); auto; [now apply extra_nodup|].
      intros; now apply extra_value.
  Qed.
  Theorem st_extra pos kw d k v : NoDup (map fst kw) -> st_init pos kw = Ok d ->
    ~ In k (map fst (@stacking_parameters obj)) -> ~ In k (map fst kw) ->
    exists d', st_init pos (kw ++ [(k, v)]) = Ok d' /\ forall a, a <> "kwargs" -> lookup a d' = lookup a d.
  Proof.
    intros N H n m. destruct (st_not_rejected _ _ _ H) as (C & M & L).
    destruct (st_accepts pos (kw ++ [(k, v)])) as (d' & H'); [now apply extra_nodup|now rewrite extra_clash|now rewrite extra_missing|exact L|].
    exists d'; split; [exact H'|]. intros a x. symmetry.
    apply (st_midpoint pos kw d pos (kw ++ [(k, v)]) d'); auto; [now apply extra_nodup|].
    intros k' v' _. now apply extra_value.
  Qed.
End C.

Section Sklearn.
  Context {obj : Type}.
  Notation val := (pyval obj).
  Variable cpu : nat.
  Variable clone_value : val -> result val.
  Variable same : val -> val -> bool.

  Lemma no_sklearn c pos kw d : c <> CStackingEstimator -> construct obj cpu c pos kw = Ok d ->
    get_params obj c d = Raise RuntimeError /\
    repr_params obj c d = Raise RuntimeError /\
    clone obj cpu clone_value same c d = Raise RuntimeError /\
    (forall k v more, set_params obj c d ((k, v) :: more) = Raise RuntimeError) /\
    set_params obj c d [] = Ok (Some d) /\
    (forall rest, regressor_score c rest = Raise AttributeError).
  Proof. intros n _. destruct c; [| |now elim n]; repeat split. Qed.

  Lemma stacking_estimator_ok m bs :
    stacking_estimator_init obj [m; bs] [] = Ok [("meta_estimator", m); ("base_estimators", bs)] /\
    stacking_estimator_init obj [] [("meta_estimator", m); ("base_estimators", bs)] = Ok [("meta_estimator", m); ("base_estimators", bs)] /\
    get_params obj CStackingEstimator [("meta_estimator", m); ("base_estimators", bs)] = Ok [("meta_estimator", m); ("base_estimators", bs)].
  Proof. repeat split. Qed.
  Lemma stacking_estimator_clone m bs m' bs' : clone_value m = Ok m' -> clone_value bs = Ok bs' -> same m' m' = true -> same bs' bs' = true ->
    clone obj cpu clone_value same CStackingEstimator [("meta_estimator", m); ("base_estimators", bs)] = Ok [("meta_estimator", m'); ("base_estimators", bs')].
  Proof.
    intros A B C D. unfold clone. cbn. rewrite A. cbn. rewrite B. cbn. rewrite C, D. reflexivity.
  Qed.
  Lemma stacking_estimator_fit_arity (self : val) pos :
    stacking_estimator_fit obj self pos = if (List.length pos =? 1)%nat then Ok VNone else Raise TypeError.
  Proof. destruct pos as [|? [|? pos]]; reflexivity. Qed.
End Sklearn.
