(** Exact solvers exist: elimination over the reals. *)
From Coq Require Import Lra Psatz.
From Verif.Model Require Import Base Ext NumbaImpl.
From Verif.Spec Require Import RidgeSpec.
From Verif.Proofs Require Import ListFacts SumFacts KernelFacts CsrFacts RidgeProps.
Open Scope nat_scope.
Open Scope R_scope.

Lemma find_pivot (g : nat -> R) n : {k | (k < n)%nat /\ g k <> 0} + {forall k, (k < n)%nat -> g k = 0}.
Proof.
  induction n as [|n IH]; [right; intros; lia|]. destruct IH as [(k & Hk & Hg)|H]; [left; exists k; split; auto|].
  destruct (Req_EM_T (g n) 0) as [E|E]; [right|left; exists n; auto].
  intros k Hk. destruct (Nat.eq_dec k n) as [->|]; auto. apply H. lia.
Qed.

Definition skip (k0 k : nat) : nat := if (k <? k0)%nat then k else S k.

Lemma Sg_S n f : Sg (S n) f = f 0%nat + Sg n (fun k => f (S k)).
Proof. unfold Sg. rewrite tabulate_S. reflexivity. Qed.
Lemma Sg_skip n k0 h : (k0 < S n)%nat -> Sg (S n) h = h k0 + Sg n (fun k => h (skip k0 k)).
Proof.
  revert k0 h. induction n as [|n IH]; intros k0 h Hk.
  - assert (k0 = 0)%nat by lia. subst. unfold Sg. simpl. reflexivity.
  - destruct k0 as [|k0].
    + rewrite Sg_S. reflexivity.
    + rewrite Sg_S, (IH k0 (fun k => h (S k))) by lia. rewrite (Sg_S n). unfold skip at 2. cbn [Nat.ltb Nat.leb].
      rewrite (Sg_ext n (fun k => h (skip (S k0) (S k))) (fun k => h (S (skip k0 k)))); [ring|].
      intros k _. unfold skip. change (S k <? S k0)%nat with (k <? k0)%nat. destruct (k <? k0)%nat; reflexivity.
Qed.

Definition is_kernel m n (f : nat -> nat -> R) (v : nat -> R) : Prop :=
  (exists k, (k < n)%nat /\ v k <> 0) /\ forall i, (i < m)%nat -> Sg n (fun k => f i k * v k) = 0.

Definition unskip (k0 k : nat) : nat := if (k <? k0)%nat then k else (k - 1)%nat.
Lemma unskip_skip k0 k : unskip k0 (skip k0 k) = k.
Proof. unfold skip, unskip. destruct (Nat.ltb_spec k k0); [destruct (Nat.ltb_spec k k0); lia|destruct (Nat.ltb_spec (S k) k0); lia]. Qed.
Lemma skip_neq k0 k : (skip k0 k =? k0)%nat = false.
Proof. unfold skip. destruct (Nat.ltb_spec k k0); apply Nat.eqb_neq; lia. Qed.

Lemma wide_kernel : forall m n (f : nat -> nat -> R), (m < n)%nat -> {v | is_kernel m n f v}.
Proof.
  induction m as [|m IH]; intros n f Hlt.
  - exists (fun _ => 1). split; [exists 0%nat; split; [lia|lra]|intros; lia].
  - destruct (find_pivot (f m) n) as [(k0 & Hk0 & Hp)|Hz].
    + destruct n as [|n]; [lia|].
      destruct (IH n (fun i k => f i (skip k0 k) - f i k0 * (f m (skip k0 k) / f m k0)) ltac:(lia)) as (v & Hnz & H).
      exists (fun k => if (k =? k0)%nat then - Sg n (fun k => f m (skip k0 k) * v k) / f m k0 else v (unskip k0 k)). split.
      * destruct Hnz as (k & Hk & Hv). exists (skip k0 k). split; [unfold skip; destruct (k <? k0)%nat; lia|]. cbv beta. rewrite skip_neq, unskip_skip. exact Hv.
      * intros i Hi. rewrite (Sg_skip n k0) by lia. rewrite Nat.eqb_refl.
        rewrite (Sg_ext n (fun k => f i (skip k0 k) * (if (skip k0 k =? k0)%nat then _ else _)) (fun k => f i (skip k0 k) * v k)) by (intros; rewrite skip_neq, unskip_skip; reflexivity).
        destruct (Nat.eq_dec i m) as [->|Hne]; [field; exact Hp|].
        specialize (H i ltac:(lia)). cbn beta in H.
        rewrite (Sg_ext n _ (fun k => f i (skip k0 k) * v k - (f i k0 / f m k0) * (f m (skip k0 k) * v k))) in H by (intros; field; exact Hp).
        rewrite Sg_minus, Sg_scal in H.
        transitivity (Sg n (fun k => f i (skip k0 k) * v k) - f i k0 / f m k0 * Sg n (fun k => f m (skip k0 k) * v k)); [field; exact Hp|exact H].
    + destruct (IH n f ltac:(lia)) as (v & Hv & H). exists v. split; auto. intros i Hi.
      destruct (Nat.eq_dec i m) as [->|]; [apply Sg_all0; intros; rewrite Hz by auto; ring|apply H; lia].
Qed.

Lemma Sg_last n f : Sg (S n) f = Sg n f + f n.
Proof.
  revert f. induction n as [|n IH]; intros f; [unfold Sg; simpl; lra|]. rewrite Sg_S, IH, (Sg_S n). ring.
Qed.

Definition solve_exact (A : matrix R) (b : list R) : result (list R) :=
  let p := length b in
  let '(exist _ v _) := wide_kernel p (S p) (fun i k => if (k <? p)%nat then mget 0 A i k else - nth i b 0) (Nat.lt_succ_diag_r p) in
  if Req_EM_T (v p) 0 then Raise LinAlgError else Ok (tabulate p (fun k => v k / v p)).

Lemma solve_exact_exact : exact_solver solve_exact.
Proof.
  intros p A b HA Hb. unfold solve_exact. rewrite Hb. destruct (wide_kernel p (S p) _ _) as (v & Hnz & H).
  assert (E : forall i, (i < p)%nat -> Sg p (fun k => mget 0 A i k * v k) = nth i b 0 * v p).
  { intros i Hi. specialize (H i Hi). rewrite Sg_last, Nat.ltb_irrefl in H.
    rewrite (Sg_ext p _ (fun k => mget 0 A i k * v k)) in H by (intros k Hk; rewrite (proj2 (Nat.ltb_lt k p) Hk); reflexivity). lra. }
  destruct (Req_EM_T (v p) 0) as [E0|E0]; split.
  - discriminate.
  - intros _. exists (tabulate p v). rewrite tabulate_length. split; auto. split.
    + destruct Hnz as (k & Hk & Hv). exists k. assert (k <> p) by (intros ->; contradiction). split; [lia|]. rewrite tabulate_nth by lia. exact Hv.
    + intros a Ha. transitivity (Sg p (fun k => mget 0 A a k * v k)); [apply (Sg_ext p); intros; rewrite tabulate_nth by auto; reflexivity|].
      rewrite E, E0 by auto. ring.
  - intros c Hc. injection Hc as <-. rewrite tabulate_length. split; auto. intros a Ha.
    transitivity (Sg p (fun k => mget 0 A a k * v k) / v p).
    + unfold Rdiv. rewrite <- Sg_scal_r. apply (Sg_ext p). intros; rewrite tabulate_nth by auto. unfold Rdiv. ring.
    + rewrite E by auto. field. exact E0.
  - intros [e He]. discriminate.
Qed.
