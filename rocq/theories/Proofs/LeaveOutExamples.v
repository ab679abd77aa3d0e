(** A concrete case for C164. *)
From Coq Require Import Lra.
From Verif.Model Require Import Base Ext Csr Neighbour WeightModel.
From Verif.Spec Require Import NeighbourSpec WeightModelSpec ExtensionSpec.
From Verif.Proofs Require Import ListFacts NeighbourProps WeightModelProps FitProps FitExamples EndToEnd Extension LeaveOut.
Open Scope nat_scope.
Open Scope R_scope.

Definition lo_W : matrix ext := [[Fin 1; Fin 1]; [Fin 1; Fin 1]].
Definition lo_fit order := fit_ex (cfg true None None None) order 0%nat no_fs s_init (without 1 fX) (without 1 fy) None (Some (WDense lo_W)).
Lemma lo_ok order : schedule 2 order -> o_result R nat (lo_fit order) = Ok tt.
Proof.
  intros HS. apply (fit_all_locations R wmean_fit wmean_predict nat first_choice 2 no_wm (cfg true None None None) order 0%nat no_fs s_init _ _ None (Some (WDense lo_W)) (WDense lo_W) lo_W 2) with (ps := [4; 1]); auto.
  - apply first_choice_valid.
  - left; reflexivity.
  - split; [split; [reflexivity|repeat constructor]|auto].
  - split; [exists 1%nat; repeat split; simpl; auto; repeat constructor|]. split; [exact I|]. split; [lia|]. split; [reflexivity|].
    assert (T : training_set true lo_W 2 0 = [1%nat] /\ training_set true lo_W 2 1 = [0%nat]).
    { unfold training_set, used_weight, mget, lo_W, eis_zero; cbn [seq filter Nat.eqb andb nth]; rdec; cbn [negb]; split; reflexivity. }
    destruct T as [T0 T1]. intros i Hi. exists (nth i [4; 1] 0). unfold local_model. cbn [cfg leave_local_out].
    assert (i = 0 \/ i = 1)%nat as [-> | ->] by lia; [rewrite T0|rewrite T1]; (split; [|reflexivity]);
      unfold wmean_fit, used_weight, mget, lo_W, fX, fy, without; cbn; apply (f_equal Ok); field.
Qed.
Lemma lo_predicts order : schedule 2 order ->
  snd (predict_by_fit R wmean_fit wmean_predict 2 no_wm (cfg true None None None) order no_fs (o_state R nat (lo_fit order)) [[1]] (Some []) (Some (WDense [[Fin 1; Fin 1]]))) = Ok [[5 / 2]].
Proof.
  intros HS. destruct (fit_keeps_data R wmean_fit wmean_predict 2 nat first_choice no_wm (cfg true None None None) order 0%nat no_fs s_init (without 1 fX) (without 1 fy) None (Some (WDense lo_W)) eq_refl (lo_ok order HS)) as [D1 D2].
  apply (pbf_given R wmean_fit wmean_predict 2 no_wm (cfg true None None None) order no_fs (o_state R nat (lo_fit order)) [[1]] [] (without 1 fX) (without 1 fy) [[Fin 1; Fin 1]] 1 2); auto.
  - split; [reflexivity|repeat constructor].
  - split; [reflexivity|]. intros i Hi. assert (i = 0%nat) as -> by lia. exists (5 / 2). split; [|reflexivity].
    unfold mget, eis_zero; cbn [seq filter nth]; rdec; cbn [negb]. unfold wmean_fit, fX, fy, without. cbn. apply (f_equal Ok); field.
Qed.
