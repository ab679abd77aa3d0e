(** Two points, one of them moved a little. *)
From Coq Require Import Lra Psatz.
From Verif.Model Require Import Base Ext Sort Kernel Distance WeightMatrix.
From Verif.Spec Require Import KernelSpec WeightSpec DistanceSpec NoiseSpec.
From Verif.Proofs Require Import ListFacts SumFacts SortFacts KernelFacts AdaptiveFacts WeightFacts WeightProps DistanceFacts NoiseProps.
Open Scope string_scope.
Open Scope nat_scope.
Open Scope R_scope.

Lemma two_self x : 0 <= x -> self_distances [ [[0; x]; [x; 0]] ] 2.
Proof.
  intros Hx. split.
  - split; [discriminate|]. constructor; [|constructor]. split; [split; [reflexivity|repeat constructor]|]. unfold entries. repeat (apply Forall_cons || apply Forall_nil); lra.
  - intros dim i Hd Hi. cbn in Hd. assert (dim = 0%nat) as -> by lia. destruct i as [|[|i]]; [reflexivity|reflexivity|lia].
Qed.
Lemma bis_gradual : gradual (DScal "bisquare") (DScal 3) DNone 1 3.
Proof.
  intros dim Hd. exists "bisquare", 3. split; [|split; [discriminate|lra]]. repeat split; simpl; auto. unfold known_kernel; tauto.
Qed.
Lemma two_close : forall dim i j, (dim < 1)%nat -> (i < 2)%nat -> (j < 2)%nat ->
  Rabs (mget 0 (nth dim [ [[0; 2]; [2; 0]] ] []) i j - mget 0 (nth dim [ [[0; 21 / 10]; [21 / 10; 0]] ] []) i j) <= 1 / 10.
Proof.
  intros dim i j Hd Hi Hj. assert (dim = 0%nat) as -> by lia.
  destruct i as [|[|i]]; [| |lia]; (destruct j as [|[|j]]; [| |lia]); unfold mget; cbn; apply Rabs_le; lra.
Qed.
Lemma moved_little : forall i, (i < 2)%nat -> sqrt (sq_dist 1 (nth i [[0]; [2]] []) (nth i [[0]; [21 / 10]] [])) <= 1 / 10.
Proof.
  intros i Hi. rewrite <- (sqrt_pow2 (1 / 10)) by lra. apply sqrt_le_1_alt. unfold sq_dist, tabulate, Rsum.
  destruct i as [|[|i]]; [| |lia]; cbn; lra.
Qed.
Lemma rows_close : close (1 / 10) [0; 1; 2] [0; 11 / 10; 2] /\
  exists b b', row_bandwidth (Fraction (1 / 2)) [0; 1; 2] b /\ row_bandwidth (Fraction (1 / 2)) [0; 11 / 10; 2] b'.
Proof.
  split. { repeat (apply Forall2_cons; [apply Rabs_le; lra|]). apply Forall2_nil. }
  eexists. eexists. split; (split; [lra|]; split; [discriminate|]; apply avi_hf8; [discriminate|lra]).
Qed.
