(** Specification vocabulary for rounded arithmetic (properties C120-C122). *)
From Verif.Model Require Import Base Ext Kernel KernelFloat.
From Verif.Spec Require Import KernelSpec.
Open Scope string_scope.
Open Scope nat_scope.
Open Scope R_scope.

(** Order of the extended numbers other than NaN. *)
Definition ele (x y : ext) : Prop :=
  match x, y with
  | NaN, _ | _, NaN => False
  | NInf, _ | _, PInf => True
  | Fin a, Fin b => a <= b
  | _, _ => False
  end.

(** A number of the format. *)
Definition representable (fl : R -> ext) (r : R) : Prop := fl r = Fin r.

(** A rounding: order preserving, onto the format, never NaN; 0 and 1 are in the format,
    which is symmetric. *)
Definition rounding (fl : R -> ext) : Prop :=
  (forall a b, a <= b -> ele (fl a) (fl b)) /\
  (forall a r, fl a = Fin r -> representable fl r) /\
  representable fl 0 /\ representable fl 1 /\ (forall a, representable fl a -> representable fl (- a)).

(** [g] evaluates [f] at [x] faithfully: the result is in the format and no other
    number of the format lies between it and the exact value. *)
Definition faithful (fl : R -> ext) (f : R -> R) (g : R -> ext) (x : R) : Prop :=
  exists r, g x = Fin r /\ representable fl r /\
    forall a, representable fl a -> (a <= f x -> a <= r) /\ (f x <= a -> r <= a).

(** The elementary functions the kernels call. *)
Definition faithful_exp (fl fexp : R -> ext) : Prop := forall x, x <= 0 -> faithful fl exp fexp x.
Definition faithful_cube (fl fcube : R -> ext) : Prop := forall x, 0 <= x <= 1 -> faithful fl (fun t => t ^ 3) fcube x.
Definition increasing_on (P : R -> Prop) (g : R -> ext) : Prop :=
  forall a b, P a -> P b -> a <= b -> ele (g a) (g b).

(** What a caller observes for one pair, as [weighs]. *)
Definition weighs_fl (fl fexp fcube : R -> ext) (k : string) (b d w : R) : Prop :=
  kernel_function_fl fl fexp fcube [[d]] (BScalar b) k = Ok [[Fin w]].

(** [s] is a rounded sum of [l]: some way of adding the numbers two at a time, in
    any order and with any grouping, gives [s]. *)
Inductive float_sum (fl : R -> ext) : list R -> R -> Prop :=
| fs_nil : float_sum fl [] 0
| fs_one x : float_sum fl [x] x
| fs_add l l1 l2 a b s :
    Permutation l (l1 ++ l2) -> float_sum fl l1 a -> float_sum fl l2 b -> fl (a + b) = Fin s ->
    float_sum fl l s.

(** Accuracy: sums of numbers of the format have relative error at most [u]; any
    other result has relative error [u] and, by underflow, absolute error [eta]. *)
Definition accurate (fl : R -> ext) (u eta : R) : Prop :=
  0 <= u < 1 /\ 0 <= eta /\
  (forall a b s, representable fl a -> representable fl b -> fl (a + b) = Fin s -> Rabs (s - (a + b)) <= u * Rabs (a + b)) /\
  (forall a s, fl a = Fin s -> Rabs (s - a) <= u * Rabs a + eta).

(** [rowsum] adds the [n] weights of a row in some order, without overflow. *)
Definition sums_rows (fl : R -> ext) (rowsum : list ext -> ext) (n : nat) : Prop :=
  forall ws, List.length ws = n -> Forall (fun w => 0 <= w <= 1 /\ representable fl w) ws ->
    exists s, rowsum (map Fin ws) = Fin s /\ float_sum fl ws s.
