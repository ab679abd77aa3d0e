(** Common vocabulary of the model: Python exceptions as values, arrays as
    lists, and the few list operations NumPy code needs.  Nothing here models
    a particular /repo function; the files that do cite file and lines. *)
From Coq Require Export String Reals Arith ZArith Lia Bool List Permutation.
Export ListNotations.
Open Scope list_scope.

(** Exceptions raised by the code or by the NumPy/SciPy/sklearn calls it makes. *)
Inductive exn : Type :=
| PyException (msg : string)   (* [raise Exception("...")] in /repo *)
| ValueError
| IndexError
| TypeError
| AttributeError
| NameError
| AxisError
| ZeroDivisionError
| LinAlgError
| RuntimeError
| EstimatorError.              (* whatever the user's estimator raised *)

Inductive result (A : Type) : Type :=
| Ok (a : A)
| Raise (e : exn).
Arguments Ok {A} a.
Arguments Raise {A} e.

Definition bind {A B} (m : result A) (f : A -> result B) : result B :=
  match m with Ok a => f a | Raise e => Raise e end.

Declare Scope py_scope.
Notation "x <- m ;; k" := (bind m (fun x => k))
  (at level 61, m at next level, right associativity) : py_scope.
Notation "m ;;; k" := (bind m (fun _ => k))
  (at level 61, right associativity) : py_scope.
Open Scope py_scope.

Definition is_ok {A} (m : result A) : bool :=
  match m with Ok _ => true | Raise _ => false end.

Definition raises {A} (m : result A) : Prop := exists e, m = Raise e.

(** [for x in l: acc.append(f(x))], stopping at the first exception. *)
Fixpoint mapM {A B} (f : A -> result B) (l : list A) : result (list B) :=
  match l with
  | [] => Ok []
  | x :: xs => y <- f x ;; ys <- mapM f xs ;; Ok (y :: ys)
  end.

(** Python/NumPy [l[i]] for a non-negative index. *)
Definition getitem {A} (l : list A) (i : nat) : result A :=
  match nth_error l i with Some a => Ok a | None => Raise IndexError end.

(** Python [l[i] = v] on a list. *)
Fixpoint list_set {A} (l : list A) (i : nat) (v : A) : list A :=
  match l, i with
  | [], _ => []
  | _ :: xs, O => v :: xs
  | x :: xs, S i' => x :: list_set xs i' v
  end.

Definition setitem {A} (l : list A) (i : nat) (v : A) : result (list A) :=
  if i <? List.length l then Ok (list_set l i v) else Raise IndexError.

(** Element-wise operation on two arrays of equal length. *)
Fixpoint map2 {A B C} (f : A -> B -> C) (l : list A) (l' : list B) : list C :=
  match l, l' with
  | x :: xs, y :: ys => f x y :: map2 f xs ys
  | _, _ => []
  end.

(** [enumerate]-style map. *)
Fixpoint mapi_from {A B} (k : nat) (f : nat -> A -> B) (l : list A) : list B :=
  match l with
  | [] => []
  | x :: xs => f k x :: mapi_from (S k) f xs
  end.
Definition mapi {A B} (f : nat -> A -> B) (l : list A) : list B := mapi_from 0 f l.

(** Array given by its entries. *)
Definition tabulate {A} (n : nat) (f : nat -> A) : list A := map f (seq 0 n).

(** 2-D arrays: list of rows. *)
Definition matrix (A : Type) : Type := list (list A).
Definition nrows {A} (m : matrix A) : nat := List.length m.
Definition ncols {A} (m : matrix A) : nat := List.length (hd [] m).
(** An [r] x [c] array. *)
Definition rect {A} (m : matrix A) (r c : nat) : Prop :=
  List.length m = r /\ Forall (fun row => List.length row = c) m.
Definition mmap {A B} (f : A -> B) (m : matrix A) : matrix B := map (map f) m.
Definition mget {A} (d : A) (m : matrix A) (i j : nat) : A := nth j (nth i m []) d.
Definition mtab {A} (r c : nat) (f : nat -> nat -> A) : matrix A :=
  tabulate r (fun i => tabulate c (fun j => f i j)).
(** [m.T] for an array with [c] columns. *)
Definition transpose {A} (d : A) (c : nat) (m : matrix A) : matrix A :=
  tabulate c (fun j => map (fun row => nth j row d) m).

(** Boolean-mask selection [v[mask]]. *)
Fixpoint select {A} (mask : list bool) (l : list A) : list A :=
  match mask, l with
  | b :: bs, x :: xs => if b then x :: select bs xs else select bs xs
  | _, _ => []
  end.

(** [np.nonzero(mask)[0]]. *)
Fixpoint nonzero_from (k : nat) (mask : list bool) : list nat :=
  match mask with
  | [] => []
  | b :: bs => if b then k :: nonzero_from (S k) bs else nonzero_from (S k) bs
  end.
Definition nonzero (mask : list bool) : list nat := nonzero_from 0 mask.

(** Fancy indexing [v[idx]] with in-range indices; [take_checked] raises otherwise. *)
Definition take {A} (d : A) (l : list A) (idx : list nat) : list A :=
  map (fun i => nth i l d) idx.
Definition take_checked {A} (l : list A) (idx : list nat) : result (list A) :=
  mapM (getitem l) idx.

Definition count_true (mask : list bool) : nat := List.length (filter (fun b : bool => b) mask).

(** Real comparisons used as Python booleans. *)
Definition Rleb (x y : R) : bool := if Rle_dec x y then true else false.
Definition Rltb (x y : R) : bool := if Rlt_dec x y then true else false.
Definition Reqb (x y : R) : bool := if Req_EM_T x y then true else false.

(** Sums and products over lists of reals. *)
Definition Rsum (l : list R) : R := fold_right Rplus 0%R l.
Definition Rprod (l : list R) : R := fold_right Rmult 1%R l.

(** Integer part and ceiling ([math.floor], [math.ceil], [int()] on non-negative floats). *)
Definition Rfloor (x : R) : Z := Int_part x.
Definition Rceil (x : R) : Z := (- Int_part (- x))%Z.
