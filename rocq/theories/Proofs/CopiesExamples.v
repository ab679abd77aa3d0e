(** Two places at distance 1, linear kernel of bandwidth 2, once and twice (C185). *)
From Coq Require Import Lra Lia.
From Verif.Model Require Import Base Ext Kernel Distance WeightMatrix.
From Verif.Spec Require Import KernelSpec WeightSpec CopiesSpec.
From Verif.Proofs Require Import ListFacts SumFacts KernelFacts KernelProps WeightFacts WeightProps WeightExamples Copies.
Open Scope string_scope.
Open Scope nat_scope.
Open Scope R_scope.

Lemma linear_half : kernel_value "linear" 2 1 = 1 / 2.
Proof. unfold kernel_value; simpl. destruct (Req_EM_T 2 0); [lra|]. destruct (Rle_dec 1 2); lra. Qed.

Definition once : matrix R := [[2 / 3; 1 / 3]; [1 / 3; 2 / 3]].
Definition twice : matrix R := [[4 / 5; 1 / 5]; [1 / 5; 4 / 5]].

Lemma linear_copies m : (1 <= m)%nat -> weight_matrix_from_distance (map A2 (repeat ex_pair m)) (DScal "linear") RNone (DScal 2) DNone =
  Ok (mmap Fin (map (sharpened m) once)).
Proof.
  intros Hm.
  assert (H : weight_matrix_from_distance (map A2 [ex_pair]) (DScal "linear") RNone (DScal 2) DNone = Ok (mmap Fin once)).
  { apply (wm_complete [ex_pair] (DScal "linear") (DScal 2) DNone 2 2 (fun _ i j => if (i =? j)%nat then 1 else 1 / 2) (mmap Fin once) ex_pair_valid); [lia|reflexivity| |].
    - intros dim Hd. simpl in Hd. assert (dim = 0%nat) by lia. subst. exists "linear", (FixedBandwidth 2), [2; 2]. split; [|split; [reflexivity|split]].
      + repeat split; simpl; auto. unfold known_kernel; tauto.
      + intros i Hi. apply lt2 in Hi as [-> | ->]; reflexivity.
      + intros i j Hi Hj. apply lt2 in Hi as [-> | ->], Hj as [-> | ->]; unfold ex_pair, mget; simpl;
          rewrite ?linear_half, ?kernel_value_0; auto; try lra; unfold known_kernel; tauto.
    - unfold once, mmap, mtab, tabulate, Rprod, Rsum; simpl. unfold safe_div.
      destruct Req_EM_T; [exfalso; lra|]. destruct Req_EM_T; [exfalso; lra|]. apply fin4; field. }
  destruct (proj1 (success_copies ex_pair (DScal "linear") (DScal 2) DNone 2 2 m ex_pair_valid ltac:(lia) Hm I I I) (ex_intro _ _ H)) as [W' H'].
  rewrite H'. destruct (sharpened_rows ex_pair (DScal "linear") (DScal 2) DNone 2 2 m _ W' ex_pair_valid ltac:(lia) Hm I I I H H') as (Wr & E & _ & _ & ->).
  assert (once = Wr); [|subst; auto].
  unfold once, mmap in *. destruct Wr as [|[|a [|b [|]]] [|[|c [|d [|]]] [|]]]; simpl in E; try discriminate. inversion E. reflexivity.
Qed.
Lemma sharpened_twice : map (sharpened 2) once = twice.
Proof.
  assert (Q : forall a b c d a' b' c' d' : R, a = a' -> b = b' -> c = c' -> d = d' -> [[a; b]; [c; d]] = [[a'; b']; [c'; d']]) by (intros; subst; reflexivity).
  unfold once, twice, sharpened, Rsum; simpl. apply Q; field.
Qed.

Lemma Fin_rows (A B : matrix R) : mmap Fin A = mmap Fin B -> A = B.
Proof.
  revert B. induction A as [|a A IH]; intros [|b B] E; try discriminate; auto.
  simpl in E. inversion E as [[E1 E2]]. rewrite (IH B E2). f_equal. clear -E1. revert b E1. induction a; intros [|y b] E; try discriminate; auto.
  inversion E. f_equal; auto.
Qed.
