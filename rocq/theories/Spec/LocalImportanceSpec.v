(** Specification vocabulary for local permutation importance (C172). *)
From Verif.Model Require Import Base Ext.
From Verif.Spec Require Import InspectSpec.
Open Scope nat_scope.
Open Scope R_scope.

(** [s] is the weighted coefficient of determination of predictions [p] for [y]. *)
Definition is_weighted_r2 (y p w : list R) (s : R) : Prop :=
  exists m, m * Rsum w = Rsum (map2 Rmult w y) /\
  let sse := Rsum (map2 Rmult w (map2 (fun a b => (a - b) * (a - b)) y p)) in
  let sst := Rsum (map2 Rmult w (map (fun a => (a - m) * (a - m)) y)) in
  (sst <> 0 -> s = 1 - sse / sst) /\ (sst = 0 -> sse = 0 -> s = 1) /\ (sst = 0 -> sse <> 0 -> s = 0).

(** [X'] is [X] with the values of feature [f] rearranged: row [i] has that of row
    [p i]. *)
Definition rearranged (X : matrix R) (f : nat) (p : nat -> nat) (X' : matrix R) : Prop :=
  List.length X' = List.length X /\
  forall i, (i < List.length X)%nat -> with_feature (nth i X []) f (nth f (nth (p i) X []) 0) (nth i X' []).

Section Spec.
  Context {est : Type}.
  Variable predict_est : est -> matrix R -> result (list R).

  (** The predictions of [e], where it predicts, are [h] of the rows. *)
  Definition answers (e : est) (h : list R -> R) : Prop := forall rows p, predict_est e rows = Ok p -> p = map h rows.

  (** [d] is by how much the score of [e] falls when feature [f] is rearranged by
      [p]. *)
  Definition score_drop (e : est) (X : matrix R) (y w : list R) (f : nat) (p : nat -> nat) (d : R) : Prop :=
    exists q s X' q' s', predict_est e X = Ok q /\ is_weighted_r2 y q w s /\
      rearranged X f p X' /\ predict_est e X' = Ok q' /\ is_weighted_r2 y q' w s' /\ d = s - s'.

  (** [imp] holds, for each of [F] features, the mean drop over [r] rearrangements,
      which are the same for every feature. *)
  Definition mean_drops (e : est) (X : matrix R) (y w : list R) (F r : nat) (imp : list ext) : Prop :=
    List.length imp = F /\
    exists ps, List.length ps = r /\ Forall (bijection (List.length X)) ps /\
      forall f, (f < F)%nat -> exists ds, Forall2 (score_drop e X y w f) ps ds /\ is_mean ds (nth f imp NaN).
End Spec.

(** Weighted sum of the squared changes of feature [f] when rearranged by [p]. *)
Definition displaced (X : matrix R) (w : list R) (f : nat) (p : nat -> nat) : R :=
  let x i := nth f (nth i X []) 0 in
  Rsum (map2 Rmult w (map (fun i => (x i - x (p i)) * (x i - x (p i))) (seq 0 (List.length X)))).
