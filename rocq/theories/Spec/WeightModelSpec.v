(** Specification vocabulary for WeightModel (C36-C48). *)
From Coq Require Import Sorting.Sorted.
From Verif.Model Require Import Base Ext Csr Distance WeightModel.
From Verif.Spec Require Import NeighbourSpec.
Open Scope nat_scope.
Open Scope R_scope.

(** The weight matrix object [w] holds the square matrix [W]: as an array, or as
    a CSR matrix without stored zeros. *)
Definition holds (w : weights) (W : matrix ext) (n : nat) : Prop :=
  rect W n n /\
  (w = WDense W \/ exists c, w = WSparse c /\ csr_form (Fin 0) eis_zero W n c).

(** Weight of observation [j] in the local model of [i]. *)
Definition used_weight (leave_out : bool) (W : matrix ext) (i j : nat) : ext :=
  if leave_out && (i =? j)%nat then Fin 0 else mget (Fin 0) W i j.

(** The observations the local model of [i] is trained on, in order. *)
Definition training_set (leave_out : bool) (W : matrix ext) (n i : nat) : list nat :=
  filter (fun j => negb (eis_zero (used_weight leave_out W i j))) (seq 0 n).

Section Spec.
  Context {est : Type}.
  Variable fit_est : nat -> matrix R -> list R -> list ext -> result est.
  Variable predict_est : est -> matrix R -> result (list R).

  (** [e] is the estimator of location [i], trained on its training set. *)
  Definition local_model (X : matrix R) (y : list R) (leave_out : bool) (W : matrix ext) (n i : nat) (e : est) : Prop :=
    let T := training_set leave_out W n i in
    fit_est i (map (fun j => nth j X []) T) (map (fun j => nth j y 0) T)
            (map (used_weight leave_out W i) T) = Ok e.
End Spec.

(** The weight matrix object fit works with. *)
Definition in_force (wm : filesystem -> list coords -> list coords -> filesystem * result weights)
           (fs : filesystem) (coords : option (list coords)) (given : option weights) (w : weights) : Prop :=
  given = Some w \/ (given = None /\ exists v, coords = Some v /\ snd (wm fs v v) = Ok w).

(** Number of locations fitted: all, or [int(rate * N)]. *)
Definition num_locations (c : config) (n : nat) : nat :=
  match sample_local_rate c with
  | Some r => Z.to_nat (trunc (r * INR n))
  | None => n
  end.

(** Number of parallel tasks of a fit. *)
Definition num_tasks (cpu : nat) (c : config) (locations : nat) : nat :=
  match n_jobs c, n_patches c with
  | Some _, _ => locations
  | None, Some k => k
  | None, None => cpu
  end.

(** Not the combination of n_jobs, sampled locations and a NumPy weight matrix. *)
Definition aligned (c : config) (w : weights) : Prop :=
  n_jobs c = None \/ sample_local_rate c = None \/ exists m, w = WSparse m.

(** A parallelism setting the code accepts: not both, n_jobs not 0, n_patches not 0. *)
Definition valid_jobs (c : config) : Prop :=
  match n_jobs c, n_patches c with
  | Some _, Some _ => False
  | Some z, None => z <> 0%Z
  | None, Some k => (0 < k)%nat
  | None, None => True
  end.

(** The locations a fit draws from the generator state [g]. *)
Definition drawn {G} (choice : G -> list nat -> nat -> G * list nat) (g : G) (c : config) (n : nat) : list nat :=
  match sample_local_rate c with
  | Some _ => snd (choice g (seq 0 n) (num_locations c n))
  | None => seq 0 n
  end.

(** Number of locations asked for can be drawn without replacement. *)
Definition drawable (c : config) (n : nat) : Prop :=
  forall r, sample_local_rate c = Some r -> (0 <= trunc (r * INR n) <= Z.of_nat n)%Z.

(** Data accepted by sklearn's check_X_y. *)
Definition valid_data (X : matrix R) (y : list R) : Prop :=
  exists p, rect X (List.length y) p /\ (0 < List.length y)%nat /\ (0 < p)%nat.

(** The same model with another n_jobs and n_patches. *)
Definition with_jobs (c : config) (nj : option Z) (np : option nat) : config :=
  Config (leave_local_out c) (sample_local_rate c) (cache_data c) (cache_estimator c) nj np.

(** The same model with another leave_local_out. *)
Definition with_leave_out (c : config) (lo : bool) : config :=
  Config lo (sample_local_rate c) (cache_data c) (cache_estimator c) (n_jobs c) (n_patches c).
