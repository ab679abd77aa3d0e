(** Objects for the examples of P_Robust. *)
From Verif.Model Require Import Base Ext Distance WeightModel Constructor Variation Robust.
From Verif.Spec Require Import RobustSpec.
Open Scope string_scope.
Open Scope nat_scope.

(** Every model gives the same scores each time; the test set has three values. *)
Definition ex_outcome (l : learner) : list ext * R :=
  match l with
  | Stacking | StackingExtra => ([Fin 1; Fin (1 / 2)], 3)%R
  | XGB => ([], 1%R)
  | _ => ([Fin (1 / 4)], 2)%R
  end.
Definition ex_train (l : learner) (w : unit) : unit * result (list ext * R) := (w, Ok (ex_outcome l)).
Definition ex_good (l : learner) (w : unit) : unit * result (list R) := (w, Ok [1; 2; 3]%R).
Definition ex_bad (l : learner) (w : unit) : unit * result (list R) := (w, Ok [3; 2; 1]%R).
Definition ex_refit (l : learner) (w : unit) : unit * result unit := (w, Ok tt).
Definition ex_no_refit (l : learner) (w : unit) : unit * result unit := (w, match l with LR => Raise ValueError | _ => Ok tt end).
Definition ex_y_test : list R := [1; 2; 3]%R.

Lemma ex_r2 : forall p, List.length p = 3 -> exists s, r2_score ex_y_test p = Ok s.
Proof.
  intros p H. destruct p as [|a [|b [|c [|]]]]; try discriminate. unfold r2_score. cbn [List.length ex_y_test Nat.eqb negb].
  eexists. reflexivity.
Qed.
Lemma ex_run : forall predict, (predict = ex_good \/ predict = ex_bad) -> forall file info,
  exists d, robust nat unit ex_train predict ex_refit ex_y_test tt file info = (tt, (file ++ [d])%list, Ok d).
Proof.
  intros predict H file info.
  assert (P : exists p, List.length p = 3 /\ forall l w, predict l w = (w, Ok p)).
  { destruct H as [-> | ->]; eexists; (split; [|reflexivity]); reflexivity. }
  destruct P as [p [Lp P]]. destruct (ex_r2 p Lp) as [s Hs].
  unfold robust.
  assert (A : forall ls d, exists d', all_models nat unit ex_train predict ex_refit ex_y_test ls tt d = (tt, Ok d')).
  { induction ls as [|l ls IH]; intros d; [eexists; reflexivity|].
    cbn [all_models]. unfold one_model, ex_train at 1. destruct (ex_outcome l) as [scores seconds] eqn:E.
    rewrite P, Hs. unfold ex_refit at 1. destruct l; apply IH. }
  destruct (A learners []) as [d' ->]. eexists. reflexivity.
Qed.
