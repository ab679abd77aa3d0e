(** Specification vocabulary for the order of the features (C184). *)
From Verif.Model Require Import Base.
Open Scope nat_scope.
Open Scope R_scope.

(** Entry [k] of the reordered list is entry [nth k perm 0] of the list. *)
Definition reordered {A} (d : A) (perm : list nat) (l : list A) : list A := map (fun f => nth f l d) perm.

(** [perm] names each of [F] features once. *)
Definition ordering (F : nat) (perm : list nat) : Prop := Permutation perm (seq 0 F).
