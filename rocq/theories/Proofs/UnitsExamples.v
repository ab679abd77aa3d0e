(** A concrete fit of a learner that follows units. *)
From Coq Require Import Lra.
From Verif.Model Require Import Base Ext Csr Neighbour Distance WeightModel.
From Verif.Spec Require Import KernelSpec NeighbourSpec WeightModelSpec UnitsSpec.
From Verif.Proofs Require Import ListFacts KernelFacts CsrFacts NeighbourFacts WeightModelFacts WeightModelProps FitProps PredictProps FitExamples NeighbourProps Units.
Open Scope nat_scope.
Open Scope R_scope.

Definition mfit := fit R mean_fit mean_predict nat first_choice 2 no_wm.
Lemma mean_local X y lo W n i : training_set lo W n i <> [] ->
  exists e p, local_model mean_fit X y lo W n i e /\ mean_predict e [nth i X []] = Ok [p].
Proof.
  intros H. unfold local_model, mean_fit, mean_predict. destruct (training_set lo W n i) as [|j T]; [congruence|].
  eexists _, _. split; reflexivity.
Qed.
Lemma mfit_ok y lo order : length y = 3%nat -> schedule 2 order ->
  o_result R nat (mfit (cfg lo None None None) order 0%nat no_fs s_init fX y None (Some (WDense fW))) = Ok tt.
Proof.
  intros Hy HS. apply (fit_succeeds R mean_fit mean_predict nat first_choice 2 no_wm _ _ _ _ _ _ _ _ _ (WDense fW) fW 3 first_choice_valid); auto using fW_holds.
  - left. reflexivity.
  - left. reflexivity.
  - split; [apply fX_data; auto|]. split; [exact I|]. split; [intros r Hr; discriminate Hr|]. split; [cbv [num_locations sample_local_rate cfg]; lia|].
    intros i Hi. cbv [drawn sample_local_rate cfg] in Hi. simpl in Hi. apply mean_local; auto.
    unfold training_set, used_weight, mget, fW, eis_zero.
    destruct Hi as [<-|[<-|[<-|[]]]]; destruct lo; cbn [seq filter Nat.eqb andb nth cfg leave_local_out]; rdec; cbn [negb]; discriminate.
Qed.
