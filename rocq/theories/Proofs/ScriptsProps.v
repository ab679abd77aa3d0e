(** Proofs for C179: two scripts. *)
From Coq Require Import Lia.
From Verif.Model Require Import Base Constructor Scripts.
From Verif.Spec Require Import ConstructorSpec.
Open Scope string_scope.
Open Scope nat_scope.
Open Scope list_scope.

Lemma mapM_raise {A B} (f : A -> result B) l e : mapM f l = Raise e -> exists a, In a l /\ f a = Raise e.
Proof.
  induction l as [|a l IH]; simpl; [discriminate|]. destruct (f a) as [b|e'] eqn:E; simpl.
  - destruct (mapM f l) as [bs|e''] eqn:E2; simpl; [discriminate|]. intros H. injection H as ->. destruct (IH eq_refl) as (x & Hx & Ex). exists x. auto.
  - intros H. injection H as ->. exists a. auto.
Qed.

Lemma bind_call_raise obj s pos kw e : bind_call obj s pos kw = Raise e -> e = TypeError.
Proof.
  unfold bind_call. destruct (_ && _); [congruence|]. destruct (existsb _ kw); [congruence|]. destruct (_ && _); [congruence|].
  destruct (mapM _ _) as [named|e'] eqn:E; simpl; [discriminate|]. intros H. injection H as ->.
  apply mapM_raise in E as (a & _ & E). destruct (lookup obj (fst a) (combine _ pos)); [discriminate|]. destruct (lookup obj (fst a) kw); [discriminate|].
  destruct (snd a); [discriminate|congruence].
Qed.

Lemma weight_model_raise obj cpu pos kw e : weight_model_init obj cpu pos kw = Raise e -> e = TypeError.
Proof.
  unfold weight_model_init. destruct (bind_call obj _ pos kw) as [b|e'] eqn:E; simpl; [discriminate|]. intros H. injection H as ->. eapply bind_call_raise; eauto.
Qed.

Lemma stacking_raise obj cpu pos kw e : stacking_init obj cpu pos kw = Raise e -> e = TypeError.
Proof.
  unfold stacking_init. destruct (bind_call obj _ pos kw) as [b|e'] eqn:E.
  - unfold bind at 1. cbv zeta. destruct (weight_model_init obj cpu _ _) as [d|e''] eqn:E2; simpl; [discriminate|].
    intros H. injection H as ->. eapply weight_model_raise; eauto.
  - simpl. intros H. injection H as ->. eapply bind_call_raise; eauto.
Qed.

Lemma new_model_has_no_score obj cpu pos kw d : stacking_init obj cpu pos kw = Ok d -> lookup obj "llocv_stacking_" d = Some VNone.
Proof.
  unfold stacking_init. destruct (bind_call obj _ pos kw) as [b|e'] eqn:E; [|discriminate].
  unfold bind at 1. cbv zeta. destruct (weight_model_init obj cpu _ _) as [d'|e''] eqn:E2; simpl; [|discriminate]. intros H. injection H as <-. reflexivity.
Qed.

Lemma objective_raises obj cpu neg params : objective obj cpu neg params = Raise TypeError.
Proof.
  unfold objective. destruct (stacking_init obj cpu [] params) as [d|e] eqn:E; simpl.
  - unfold get_attribute. rewrite (new_model_has_no_score obj cpu [] params d E). reflexivity.
  - rewrite (stacking_raise _ _ _ _ _ E). reflexivity.
Qed.

Lemma fmin_raises obj cpu neg suggest n trials : (0 < n)%nat -> fmin obj cpu neg suggest n trials = Raise TypeError.
Proof. destruct n as [|n]; [lia|]. intros _. cbn [fmin]. rewrite objective_raises. reflexivity. Qed.

Lemma lookup_app obj k a b : lookup obj k (a ++ b) = match lookup obj k a with Some v => Some v | None => lookup obj k b end.
Proof. induction a as [|[k' v] a IH]; simpl; auto. destruct (String.eqb k' k); auto. Qed.

Lemma no_stacking_predict obj cpu pos kw d : weight_model_init obj cpu pos kw = Ok d -> lookup obj "stacking_predict_" d = None.
Proof. unfold weight_model_init. destruct (bind_call obj _ pos kw) as [b|e] eqn:E; simpl; [|discriminate]. intros H. injection H as <-. reflexivity. Qed.

Lemma assigned_lookup obj k assigned : (forall a, In a assigned -> fst a <> k) -> forall d, lookup obj k (fold_left (set_attribute obj) assigned d) = lookup obj k d.
Proof.
  induction assigned as [|a l IH]; intros H d; [reflexivity|]. cbn [fold_left]. rewrite IH by (intros; apply H; right; auto).
  unfold set_attribute. destruct a as [k' v]. cbn [lookup]. destruct (String.eqb_spec k' k) as [E|E]; [|reflexivity]. exfalso. exact (H _ (or_introl eq_refl) E).
Qed.

Lemma residual_raises obj cpu pos kw assigned difference :
  incl (map fst assigned) results_of_weight_model -> raises (residual_step obj cpu pos kw assigned difference).
Proof.
  intros HI. unfold residual_step. destruct (weight_model_init obj cpu pos kw) as [d|e] eqn:E; [|eexists; reflexivity]. unfold bind at 1. cbv zeta.
  exists AttributeError. unfold get_attribute at 1. rewrite assigned_lookup.
  - rewrite (no_stacking_predict _ _ _ _ _ E). reflexivity.
  - intros a Ha Ek. apply (in_map fst) in Ha. apply HI in Ha. rewrite Ek in Ha. clear - Ha.
    unfold results_of_weight_model in Ha. cbn [In] in Ha. repeat (destruct Ha as [Ha|Ha]; [discriminate|]). exact Ha.
Qed.
