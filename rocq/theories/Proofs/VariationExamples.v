(** Example for C186. *)
From Coq Require Import Lra Lia Permutation.
From Verif.Model Require Import Base Ext Csr Neighbour Distance WeightModel NumbaImpl Stacking StackingHistory Variation.
From Verif.Spec Require Import KernelSpec NeighbourSpec StackingSpec StackingHistorySpec VariationSpec.
From Verif.Proofs Require Import ListFacts SampleFacts StackingExamples VariationProps.
Open Scope string_scope.
Open Scope nat_scope.
Open Scope R_scope.

(** Learners without randomness of their own, fitted to three observations whose weights
    are all 1; every other neighbour is left out. *)
Definition va_fit (extra : bool) (k : nat) := ex_fit.
Definition va_wm (s t : list coords) : result swts := Ok (SDense (repeat (repeat 1 3) 3)).
Definition va_points : coords := [[0]; [1]; [2]].
Definition va_X : matrix R := [[0]; [1]; [2]].
Definition va_y : list R := [5; 7; 3].
Definition va_rt (k : nat) : runtime := Runtime [0; 1; 2]%nat [2; 1; 0]%nat [1; 0; 2]%nat (repeat [] 3) [1; 0; 2; 3]%nat 7.
Definition va_seconds (k : nat) : R := INR k.
Definition va_world : script_world R R nat := SW R R nat (fun _ => ex_s0) 41%nat (fun _ => None) 0.
Notation va_fit_once := (script_fit R va_fit ex_predict R ex_fit_meta ex_predict_meta ex_solve nat 0%nat rot_choice 4 va_wm va_rt va_seconds (1 / 2) va_X va_y va_points).
Definition va_info : dict nat := [("f", Info 0%nat); ("coef", Info 1%nat); ("count", Info 3%nat)].

Lemma va_runs extra a : exists base st, snd (va_fit_once extra a) = Ok (Fin base, Fin st, va_seconds (v_fits R R nat a)).
Proof.
  unfold script_fit. cbn [snd]. 
  change (map2 (fun x p => (x ++ p)%list) va_X va_points) with [[0; 0]; [1; 1]; [2; 2]].
  set (o := sfit _ _ _ _ _ _ _ _ _ _ _ _ _ _ _ _ _ _ _ _ _).
  assert (H : so_result R R nat o = Ok tt /\ exists p q, ss_llocv_score R R (so_state R R nat o) = Some (Fin p) /\ ss_llocv_stacking R R (so_state R R nat o) = Some (Fin q)).
  { subst o. unfold sfit. match goal with |- context[check_X_y ?a ?b] => change (check_X_y a b) with (@Ok unit tt) end. cbv beta iota. unfold va_wm. cbv beta iota. cbn [fst snd].
    unfold leave_out_sample; cbn [script_config sc_leave_out_rate sc_leave_out_shrink]. change (repeat (repeat 1 3) 3) with ex_W. rewrite ex_sampled. cbn [bind fst snd].
    unfold sample_locations; cbn [sc_sample_local_rate shrink_w sc_meta_shrink]. unfold va_y. cbn -[Rplus Rmult Rminus Rdiv Rinv Rsum r2_score]. ex_finish. unfold r2_score.
    split; [reflexivity|]. eexists _, _. split; reflexivity. }
  destruct H as (E1 & p & q & E2 & E3). exists p, q. rewrite E1, E2, E3. reflexivity.
Qed.
Lemma va_times extra n : forall a, exists a' fits, fit_times (script_world R R nat) va_fit_once extra n a = (a', Ok fits).
Proof.
  induction n; intros a; cbn [fit_times]; [eauto|]. destruct (va_runs extra a) as (p & q & E). destruct (va_fit_once extra a) as [a1 r]. cbn in E. subst r.
  destruct (IHn a1) as (a2 & fits & E). rewrite E. cbn. eauto.
Qed.
Lemma va_finished : exists w' file' d, variation nat (script_world R R nat) va_fit_once va_world [] va_info = (w', file', Ok d).
Proof.
  unfold variation. destruct (va_times false repeats va_world) as (w1 & fits & E1). rewrite E1. destruct (va_times true repeats w1) as (w2 & fits' & E2). rewrite E2. eauto.
Qed.
Lemma va_script_info : script_info va_info.
Proof. split; [repeat constructor; cbn; intuition discriminate|]. cbn. tauto. Qed.
Lemma va_runtime k : valid_runtime (va_rt k) 3 (Some 4%nat).
Proof.
  unfold valid_runtime, schedule. cbn. repeat split.
  - apply Permutation_refl.
  - exact (Permutation_rev [2; 1; 0]%nat).
  - apply perm_swap.
  - intros k' H. injection H as <-. apply perm_swap.
Qed.
Lemma va_holds : holds_real (SDense (repeat (repeat 1 3) 3)) (repeat (repeat 1 3) 3) 3.
Proof. split; [split; [reflexivity|repeat constructor]|left; reflexivity]. Qed.

(** Ten scores that differ, and a fit that fails. *)
Definition vb_fit (extra : bool) (k : nat) : nat * result (ext * ext * R) := (S k, Ok (Fin (INR k), Fin (INR k / 10), 1)).
Definition vc_fit (extra : bool) (k : nat) : nat * result (ext * ext * R) := (S k, if (k =? 13)%nat then Raise ValueError else Ok (Fin (INR k), Fin (INR k / 10), 1)).
