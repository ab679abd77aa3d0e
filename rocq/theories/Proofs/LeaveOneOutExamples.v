(** Examples for C187. *)
From Coq Require Import Lra Lia Permutation.
From Verif.Model Require Import Base Ext Csr Neighbour Distance WeightModel LeaveOneOut.
From Verif.Spec Require Import KernelSpec NeighbourSpec WeightModelSpec LeaveOneOutSpec.
From Verif.Proofs Require Import ListFacts SumFacts NeighbourProps FitExamples LeaveOneOutProps.
Open Scope nat_scope.
Open Scope R_scope.

Definition mean_fit (k : nat) (X : matrix R) (y : list R) : result R :=
  match y with [] => Raise ValueError | _ => Ok (Rsum y / INR (length y)) end.
Lemma mean_alike : counts_alike wmean_fit mean_fit.
Proof.
  intros k X y omega HL Ho. unfold wmean_fit, mean_fit. rewrite repeat_length, HL, Nat.eqb_refl. cbn [negb]. destruct y as [|a y]; [rewrite <- HL; reflexivity|].
  rewrite <- HL. cbn [length Nat.eqb orb]. apply f_equal. set (l := a :: y). change (S (length y)) with (length l).
  assert (E1 : forall l : list R, Rsum (map2 (fun a b => fin a * b) (repeat (Fin omega) (length l)) l) = omega * Rsum l).
  { induction l0 as [|b l0 IH]; [unfold Rsum; simpl; ring|]. unfold Rsum in *. cbn [length repeat map2 fold_right fin]. rewrite IH. ring. }
  assert (E2 : forall n, Rsum (map fin (repeat (Fin omega) n)) = omega * INR n).
  { induction n; [unfold Rsum; simpl; ring|]. rewrite S_INR. unfold Rsum in *. cbn [repeat map fold_right fin]. rewrite IHn. ring. }
  rewrite E1, E2. field. split; [|lra]. apply not_0_INR. discriminate.
Qed.
Lemma mean_knows : knows_the_mean mean_fit wmean_predict.
Proof. intros k X y H. exists (Rsum y / INR (length y)). split; [destruct y; [contradiction|reflexivity]|reflexivity]. Qed.

Definition one_points : coords := [[0; 0]; [1; 0]; [0; 2]].
Definition one_W : matrix ext := repeat (repeat (Fin (1 / 3)) 3) 3.
Lemma one_holds : holds (WDense one_W) one_W 3.
Proof. split; [split; [reflexivity|repeat constructor]|left; reflexivity]. Qed.
Lemma one_entries i j : (i < 3)%nat -> (j < 3)%nat -> mget (Fin 0) one_W i j = Fin (1 / 3).
Proof. intros Hi Hj. apply lt3 in Hi, Hj. destruct Hi as [-> | [-> | ->]], Hj as [-> | [-> | ->]]; reflexivity. Qed.
Lemma one_data : valid_data (map2 (@app R) fX one_points) fy.
Proof. exists 3%nat. split; [split; [reflexivity|repeat constructor]|]. simpl. lia. Qed.
