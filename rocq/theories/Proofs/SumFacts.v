From Coq Require Import Lra Psatz.
From Verif.Model Require Import Base.
From Verif.Proofs Require Import ListFacts.
Open Scope R_scope.

Lemma Rsum_app l l' : Rsum (l ++ l') = Rsum l + Rsum l'.
Proof. unfold Rsum. induction l; simpl; lra. Qed.
Lemma Rsum_cons x l : Rsum (x :: l) = x + Rsum l.
Proof. reflexivity. Qed.
Lemma Rsum_nil : Rsum [] = 0.
Proof. reflexivity. Qed.

Lemma Rsum_perm l l' : Permutation l l' -> Rsum l = Rsum l'.
Proof. induction 1; rewrite ?Rsum_cons in *; simpl; try lra. Qed.

Lemma Rsum_nonneg l : (forall x, In x l -> 0 <= x) -> 0 <= Rsum l.
Proof.
  induction l as [|x xs IH]; intros H; [unfold Rsum; simpl; lra|].
  rewrite Rsum_cons. specialize (H x (or_introl eq_refl)) as Hx.
  assert (0 <= Rsum xs) by (apply IH; intros; apply H; right; auto). lra.
Qed.

Lemma Rsum_ge_elem l x : (forall y, In y l -> 0 <= y) -> In x l -> x <= Rsum l.
Proof.
  induction l as [|y ys IH]; intros H Hx; [destruct Hx|].
  rewrite Rsum_cons.
  assert (H0 : 0 <= Rsum ys) by (apply Rsum_nonneg; intros; apply H; right; auto).
  destruct Hx as [->|Hx]; [lra|].
  assert (x <= Rsum ys) by (apply IH; auto; intros; apply H; right; auto).
  specialize (H y (or_introl eq_refl)). lra.
Qed.

Lemma Rsum_zero_elem l x : (forall y, In y l -> 0 <= y) -> Rsum l = 0 -> In x l -> x = 0.
Proof.
  intros H H0 Hx. pose proof (Rsum_ge_elem l x H Hx). specialize (H x Hx). lra.
Qed.

Lemma Rsum_map_scale (f : R -> R) c l :
  (forall x, In x l -> f x = c * x) -> Rsum (map f l) = c * Rsum l.
Proof.
  induction l as [|x xs IH]; intros H; cbn [map]; [unfold Rsum; simpl; lra|].
  rewrite !Rsum_cons, IH by (intros; apply H; right; auto).
  rewrite (H x) by (left; auto). lra.
Qed.

Lemma Rsum_map_scal {A} c (f : A -> R) l : Rsum (map (fun x => c * f x) l) = c * Rsum (map f l).
Proof. induction l; cbn [map]; [unfold Rsum; simpl; lra|]. rewrite !Rsum_cons, IHl. lra. Qed.
Lemma Rsum_map_scal_r {A} c (f : A -> R) l : Rsum (map (fun x => f x * c) l) = Rsum (map f l) * c.
Proof. induction l; cbn [map]; [unfold Rsum; simpl; lra|]. rewrite !Rsum_cons, IHl. lra. Qed.
Lemma Rsum_map_plus {A} (f g : A -> R) l :
  Rsum (map (fun x => f x + g x) l) = Rsum (map f l) + Rsum (map g l).
Proof. induction l; cbn [map]; [unfold Rsum; simpl; lra|]. rewrite !Rsum_cons, IHl. lra. Qed.
Lemma Rsum_map_minus {A} (f g : A -> R) l :
  Rsum (map (fun x => f x - g x) l) = Rsum (map f l) - Rsum (map g l).
Proof. induction l; cbn [map]; [unfold Rsum; simpl; lra|]. rewrite !Rsum_cons, IHl. lra. Qed.
Lemma Rsum_map_const {A} c (l : list A) : Rsum (map (fun _ => c) l) = INR (length l) * c.
Proof. induction l; [unfold Rsum; simpl; lra|]. cbn [map length]. rewrite Rsum_cons, IHl, S_INR. lra. Qed.
Lemma Rsum_map_ext {A} (f g : A -> R) l :
  (forall x, In x l -> f x = g x) -> Rsum (map f l) = Rsum (map g l).
Proof. intros H. f_equal. apply map_ext_in; auto. Qed.
Lemma Rsum_map_le {A} (f g : A -> R) l :
  (forall x, In x l -> f x <= g x) -> Rsum (map f l) <= Rsum (map g l).
Proof.
  induction l as [|x xs IH]; intros H; cbn [map]; [lra|]. rewrite !Rsum_cons.
  specialize (H x (or_introl eq_refl)) as Hx.
  assert (Rsum (map f xs) <= Rsum (map g xs)) by (apply IH; intros; apply H; right; auto). lra.
Qed.
Lemma Rsum_zero l : (forall x, In x l -> x = 0) -> Rsum l = 0.
Proof.
  induction l as [|x xs IH]; intros H; [reflexivity|]. rewrite Rsum_cons, IH by (intros; apply H; right; auto).
  rewrite (H x (or_introl eq_refl)); lra.
Qed.

Lemma Rsum_swap {A B} (f : A -> B -> R) l l' :
  Rsum (map (fun a => Rsum (map (fun b => f a b) l')) l) =
  Rsum (map (fun b => Rsum (map (fun a => f a b) l)) l').
Proof.
  induction l as [|a l IH]; cbn [map].
  - rewrite Rsum_nil. symmetry. apply Rsum_zero. intros x Hx. apply in_map_iff in Hx as [b [<- _]]. reflexivity.
  - rewrite Rsum_cons, IH. rewrite <- Rsum_map_plus. apply Rsum_map_ext. intros; rewrite Rsum_cons; auto.
Qed.

Lemma Rprod_fold_left l x : fold_left Rmult l x = x * Rprod l.
Proof.
  revert x; induction l as [|y ys IH]; intros x; simpl; [lra|]. rewrite IH. unfold Rprod; simpl. ring.
Qed.

Lemma Rprod_nonneg l : (forall x, In x l -> 0 <= x) -> 0 <= Rprod l.
Proof.
  induction l as [|x xs IH]; intros H; unfold Rprod in *; simpl; [lra|].
  apply Rmult_le_pos; [apply H; left; auto|apply IH; intros; apply H; right; auto].
Qed.

Lemma Rprod_zero_iff l : Rprod l = 0 <-> In 0 l.
Proof.
  induction l as [|x xs IH]; unfold Rprod in *; simpl; [split; [lra|intros []]|].
  split.
  - intros H. apply Rmult_integral in H as [H|H]; [left; auto|right; apply IH; auto].
  - intros [H|H]; [subst; lra|]. apply IH in H. rewrite H; lra.
Qed.

Lemma Rprod_le l l' : Forall2 (fun x y => 0 <= x <= y) l l' -> Rprod l <= Rprod l'.
Proof.
  intros H. assert (0 <= Rprod l <= Rprod l'); [|lra].
  induction H as [|x y l l' Hxy H IH]; unfold Rprod in *; simpl; [lra|]. split; [nra|].
  apply Rmult_le_compat; lra.
Qed.

Lemma Rprod_ones l : (forall x, In x l -> x = 1) -> Rprod l = 1.
Proof.
  induction l as [|x xs IH]; intros H; unfold Rprod in *; simpl; auto.
  rewrite (H x (or_introl eq_refl)), IH; [lra|intros; apply H; right; auto].
Qed.

Lemma Rprod_bounds l : (forall x, In x l -> 0 <= x <= 1) -> 0 <= Rprod l <= 1.
Proof.
  induction l as [|x xs IH]; intros H; unfold Rprod in *; simpl; [lra|].
  specialize (H x (or_introl eq_refl)) as Hx.
  assert (0 <= fold_right Rmult 1 xs <= 1) by (apply IH; intros; apply H; right; auto). nra.
Qed.
