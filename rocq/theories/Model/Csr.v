(** SciPy's [csr_array], as far as /repo uses it: the three arrays and the
    number of columns.  Nothing here models a /repo function. *)
From Verif.Model Require Import Base.
Open Scope string_scope.
Open Scope nat_scope.

Record csr (A : Type) : Type := Csr {
  c_data : list A;
  c_indices : list nat;
  c_indptr : list nat;
  c_ncols : nat
}.
Arguments Csr {A}.
Arguments c_data {A}.
Arguments c_indices {A}.
Arguments c_indptr {A}.
Arguments c_ncols {A}.

(** [l[a:b]]. *)
Definition slice {A} (l : list A) (a b : nat) : list A := firstn (b - a) (skipn a l).

(** [indices[indptr[i]:indptr[i+1]]] and the same for the data. *)
Definition c_nrows {A} (m : csr A) : nat := List.length (c_indptr m) - 1.
Definition row_slice {A B} (m : csr A) (l : list B) (i : nat) : list B :=
  slice l (nth i (c_indptr m) 0) (nth (S i) (c_indptr m) 0).
Definition row_indices {A} (m : csr A) (i : nat) : list nat := row_slice m (c_indices m) i.
Definition row_data {A} (m : csr A) (i : nat) : list A := row_slice m (c_data m) i.

(** [indptr[0] = 0; indptr[i+1] = indptr[i] + len(rows[i])]. *)
Fixpoint indptr_from {A} (start : nat) (rows : list (list A)) : list nat :=
  match rows with
  | [] => [start]
  | r :: rs => start :: indptr_from (start + List.length r) rs
  end.

(** A CSR matrix from its rows of (column, value) pairs. *)
Definition csr_of_rows {A} (ncols : nat) (rows : list (list (nat * A))) : csr A :=
  Csr (map snd (List.concat rows)) (map fst (List.concat rows)) (indptr_from 0 rows) ncols.

(** Rows of (column, value) pairs of a CSR matrix. *)
Definition csr_rows {A} (m : csr A) : list (list (nat * A)) :=
  tabulate (c_nrows m) (fun i => combine (row_indices m i) (row_data m i)).

(** [csr_array((data, indices, indptr))] without a shape: the number of columns
    is the largest index plus one; without any index it raises ValueError. *)
Definition csr_infer {A} (data : list A) (indices indptr : list nat) : result (csr A) :=
  match indices with
  | [] => Raise ValueError
  | _ => Ok (Csr data indices indptr (S (list_max indices)))
  end.

(** [eliminate_zeros]. *)
Definition eliminate_zeros {A} (is_zero : A -> bool) (m : csr A) : csr A :=
  csr_of_rows (c_ncols m) (map (filter (fun e => negb (is_zero (snd e)))) (csr_rows m)).

(** Element-wise comparison with a scalar that is false on 0 ([m > 0]): stored
    entries that satisfy it, as booleans. *)
Definition csr_where {A} (p : A -> bool) (m : csr A) : csr bool :=
  csr_of_rows (c_ncols m)
    (map (fun r => map (fun e => (fst e, true)) (filter (fun e => p (snd e)) r)) (csr_rows m)).
