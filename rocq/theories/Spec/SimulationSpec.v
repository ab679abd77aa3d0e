(** What the simulated-data properties mean, independently of the model. *)
From Coq Require Import String.
From Verif.Model Require Import Base.
From Verif.Model Require Simulation.
Open Scope string_scope.
Open Scope nat_scope.
Open Scope R_scope.

(** Inner product and length of vectors with d coordinates. *)
Definition inner (d : nat) (p q : list R) : R := Rsum (map (fun i => nth i p 0 * nth i q 0) (seq 0 d)).
Definition len (d : nat) (p : list R) : R := sqrt (inner d p p).
Definition nonzero (p : list R) : Prop := exists i, nth i p 0 <> 0.
Definition scale (k : R) (p : list R) : list R := map (Rmult k) p.
Definition plus (p q : list R) : list R := map2 Rplus p q.
Definition minus (p q : list R) : list R := map2 Rminus p q.

(** Generators that deliver what NumPy documents. *)
Definition valid_uniform {G} (uniform : G -> R -> R -> nat -> G * list R) : Prop :=
  forall g lo hi n, List.length (snd (uniform g lo hi n)) = n /\
    forall x, In x (snd (uniform g lo hi n)) -> Rmin lo hi <= x <= Rmax lo hi.
Definition valid_choice_with {G} (choice : G -> list R -> nat -> G * list R) : Prop :=
  forall g l n, (l <> [] \/ n = O) -> List.length (snd (choice g l n)) = n /\
    forall x, In x (snd (choice g l n)) -> In x l.
Definition valid_normal {G} (normal : G -> nat -> G * list R) : Prop :=
  forall g n, List.length (snd (normal g n)) = n.
Definition valid_exponential {G} (exponential : G -> nat -> G * list R) : Prop :=
  forall g n, List.length (snd (exponential g n)) = n /\ forall x, In x (snd (exponential g n)) -> 0 <= x.

(** Sample mean and (population) variance. *)
Definition sample_mean (l : list R) : R := Rsum l / INR (List.length l).
Definition sample_variance (l : list R) : R := Rsum (map (fun x => (x - sample_mean l) ^ 2) l) / INR (List.length l).

(** A 2x2 symmetric matrix [[a, b], [b, c]]. *)
Definition semidefinite2 (a b c : R) : Prop := forall x y, 0 <= a * x ^ 2 + 2 * b * x * y + c * y ^ 2.
Definition definite2 (a b c : R) : Prop := forall x y, (x <> 0 \/ y <> 0) -> 0 < a * x ^ 2 + 2 * b * x * y + c * y ^ 2.

(** Which type and which bounds sample_points uses for dimension d: a list gives one
    entry per dimension, anything else serves all dimensions. *)
Definition type_for (T : Simulation.type_arg) (d : nat) (t : string) : Prop :=
  match T with Simulation.TOne u => t = u | Simulation.TList l => nth_error l d = Some t end.
Definition bound_for (B : Simulation.bounds_arg) (d : nat) (b : Simulation.bound) : Prop :=
  match B with Simulation.BOne c => b = c | Simulation.BList l => nth_error l d = Some b end.

(** x is an admissible value in dimension d. *)
Definition admissible (B : Simulation.bounds_arg) (T : Simulation.type_arg) (d : nat) (x : R) : Prop :=
  (type_for T d "continuous" -> exists lo hi rest, bound_for B d (Simulation.Seq (lo :: hi :: rest)) /\ Rmin lo hi <= x <= Rmax lo hi) /\
  (type_for T d "discrete" -> (exists l, bound_for B d (Simulation.Seq l) /\ In x l) \/
                              (exists k m, bound_for B d (Simulation.Num k) /\ x = INR m /\ (Z.of_nat m < k)%Z)) /\
  (forall t, type_for T d t -> t <> "continuous"%string -> t <> "discrete"%string -> x = 0).
(** The arguments make sense for dimension d. *)
Definition usable_dimension (B : Simulation.bounds_arg) (T : Simulation.type_arg) (d : nat) : Prop :=
  exists t, type_for T d t /\
    ((t = "continuous"%string /\ exists lo hi rest, bound_for B d (Simulation.Seq (lo :: hi :: rest))) \/
     (t = "discrete"%string /\ exists x rest, bound_for B d (Simulation.Seq (x :: rest))) \/
     (t <> "continuous"%string /\ t <> "discrete"%string)).

(** The entry of a number or array at a point. *)
Definition entry (v : Simulation.value) (i : nat) : R := match v with Simulation.Sc r => r | Simulation.Ar l => nth i l 0 end.
Definition one_per_point (n : nat) (v : Simulation.value) : Prop := match v with Simulation.Sc _ => True | Simulation.Ar l => List.length l = n end.
(** The value of a distribution parameter at the given points. *)
Definition at_points {P} (points : P) (p : Simulation.param P) : Simulation.value :=
  match p with Simulation.Val v => v | Simulation.Fun f => f points end.
