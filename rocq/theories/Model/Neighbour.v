(** Model of /repo/georegression/neighbour_utils.py. *)
From Verif.Model Require Import Base Sort Csr.
Open Scope string_scope.
Open Scope nat_scope.
Open Scope R_scope.

(** A numba [prange] loop over the rows of an array: the iterations are executed
    in the given order; iteration [i] reads and replaces row [i] only. *)
Definition prange_rows {A} (order : list nat) (body : nat -> A -> A) (d : A) (buffer : list A) : list A :=
  fold_left (fun out i => list_set out i (body i (nth i out d))) order buffer.

Definition b2n (b : bool) : nat := if b then 1%nat else 0%nat.

(** neighbour_utils.py:71-74, one iteration: [np.sum(N[L[i]], axis=0)] stored in
    a boolean row. *)
Definition second_order_row (neighbour : matrix bool) (leave_out_row : list bool) : list bool :=
  tabulate (ncols neighbour) (fun j =>
    negb (fold_right Nat.add 0%nat (map (fun row => b2n (nth j row false)) (select leave_out_row neighbour)) =? 0)%nat).

(** neighbour_utils.py:68-75 [_second_order_neighbour_dense].  [buffer] is what
    [np.empty] returned, [order] the order of the parallel iterations. *)
Definition second_order_dense (order : list nat) (buffer : matrix bool)
           (neighbour leave_out : matrix bool) : matrix bool :=
  prange_rows order (fun i _ => second_order_row neighbour (nth i leave_out [])) [] buffer.

(** neighbour_utils.py:50-63, one iteration: mark the neighbours of the
    neighbours in an array of length N, then list the marked positions. *)
Definition second_order_indices {A B} (n : nat) (neighbour : csr A) (leave_out : csr B) (row : nat) : list nat :=
  let marks :=
    fold_left (fun marks k => fold_left (fun marks j => list_set marks j true) (row_indices neighbour k) marks)
              (row_indices leave_out row) (repeat false n) in
  nonzero marks.

(** neighbour_utils.py:43-65 [_second_order_neighbour_sparse]. *)
Definition second_order_sparse {A B} (order : list nat) (neighbour : csr A) (leave_out : csr B) : list (list nat) :=
  let n := c_nrows neighbour in
  prange_rows order (fun i _ => second_order_indices n neighbour leave_out i) [] (repeat [] n).

(** neighbour_utils.py:21-38 [second_order_neighbour], CSR branch: assemble the
    result; the stored values are integer ones. *)
Definition second_order_neighbour_csr {A B} (order : list nat) (neighbour : csr A) (leave_out : csr B)
  : result (csr nat) :=
  let indices_list := second_order_sparse order neighbour leave_out in
  let indices := List.concat indices_list in
  match indices_list with
  | [] => Raise ValueError                        (* np.hstack of an empty list *)
  | _ => csr_infer (map (fun _ => 1%nat) indices) indices (indptr_from 0 indices_list)
  end.

(** neighbour_utils.py:7-20 [second_order_neighbour], dense branch, with the
    default [neighbour_leave_out]. *)
Definition second_order_neighbour (order : list nat) (buffer : matrix bool)
           (neighbour : matrix bool) (leave_out : option (matrix bool)) : matrix bool :=
  second_order_dense order buffer neighbour (match leave_out with Some l => l | None => neighbour end).

(** ** Shrinking *)

Definition Rnonzero (x : R) : bool := negb (Reqb x 0).

(** numba's [np.quantile(values, q)] for [q] in [0,1] (linear method); on an
    empty array it gives NaN, and [x < NaN] is false for every [x]. *)
Definition below_quantile (values : list R) (q : R) (x : R) : bool :=
  match values with
  | [] => false
  | _ => Rltb x (at_virtual_index (sortR values) (virtual_linear (List.length values) q))
  end.

(** Write [vals] at the positions [idx] ([row[idx[j]] = vals[j]] for each j). *)
Definition put {A} (row : list A) (idx : list nat) (vals : list A) : list A :=
  fold_left (fun row e => list_set row (fst e) (snd e)) (combine idx vals) row.

(** neighbour_utils.py:100-107, one iteration. *)
Definition shrink_row (rate : R) (row : list R) : list R :=
  let neighbour_indices := nonzero (map Rnonzero row) in
  let positive_value := take 0 row neighbour_indices in
  let positive_value := map (fun x => if below_quantile positive_value rate x then 0 else x) positive_value in
  put row neighbour_indices positive_value.

(** The same iteration in single steps, as a thread executes it: first the reads
    that determine the writes, then one element write per step
    (neighbour_utils.py:100-103 and 105-106). *)
Definition shrink_step (rate : R) (s : list R * option (list (nat * R))) : list R * option (list (nat * R)) :=
  match s with
  | (row, None) =>
    let idx := nonzero (map Rnonzero row) in
    let vals := take 0 row idx in
    (row, Some (combine idx (map (fun x => if below_quantile vals rate x then 0 else x) vals)))
  | (row, Some []) => (row, Some [])
  | (row, Some ((j, v) :: rest)) => (list_set row j v, Some rest)
  end.

(** All threads: [interleaving] names the row that makes the next step. *)
Definition shrink_interleaved (rate : R) (interleaving : list nat) (w : matrix R)
  : list (list R * option (list (nat * R))) :=
  prange_rows interleaving (fun _ s => shrink_step rate s) ([], None) (map (fun row => (row, None)) w).

Definition rate_ok (rate : R) : bool := Rleb 0 rate && Rleb rate 1.

(** neighbour_utils.py:97-108 [_neighbour_shrink]: the array after the call and
    the outcome (a rate outside [0,1] is rejected inside the first iteration). *)
Definition shrink_dense (order : list nat) (rate : R) (w : matrix R) : matrix R * result (matrix R) :=
  match w with
  | [] => (w, Ok w)
  | _ =>
    if rate_ok rate then
      let w' := prange_rows order (fun _ row => shrink_row rate row) [] w in (w', Ok w')
    else (w, Raise ValueError)
  end.

(** neighbour_utils.py:110-121, one iteration on the stored values of a row. *)
Definition shrink_values (rate : R) (values : list R) : list R :=
  map (fun x => if below_quantile values rate x then 0 else x) values.

(** Replace [l[a:b]] by [v]. *)
Definition put_slice {A} (l : list A) (a b : nat) (v : list A) : list A :=
  (firstn a l ++ v ++ skipn b l)%list.

(** neighbour_utils.py:110-121 [_neighbour_shrink_sparse] on the data array. *)
Definition shrink_sparse_data (order : list nat) (rate : R) (m : csr R) : list R :=
  fold_left (fun data i =>
    let a := nth i (c_indptr m) 0%nat in
    let b := nth (S i) (c_indptr m) 0%nat in
    put_slice data a b (shrink_values rate (slice data a b))) order (c_data m).

(** neighbour_utils.py:89-91: the CSR matrix after shrinking and dropping the zeros. *)
Definition shrink_csr (order : list nat) (rate : R) (m : csr R) : csr R * result (csr R) :=
  if (c_nrows m =? 0)%nat then (m, Ok m)
  else if rate_ok rate then
    let m' := eliminate_zeros (fun x => Reqb x 0)
                (Csr (shrink_sparse_data order rate m) (c_indices m) (c_indptr m) (c_ncols m)) in
    (m', Ok m')
  else (m, Raise ValueError).

(** What [neighbour_shrink] returns. *)
Inductive shrunk (W B : Type) : Type :=
| ShrunkWeights (w : W)
| ShrunkMask (b : B).
Arguments ShrunkWeights {W B}.
Arguments ShrunkMask {W B}.

Definition positive (x : R) : bool := Rltb 0 x.

(** neighbour_utils.py:78-95 [neighbour_shrink] on a NumPy array: the caller's
    array afterwards, and the result. *)
Definition neighbour_shrink (order : list nat) (w : matrix R) (rate : R)
           (return_weight_matrix inplace : bool) : matrix R * result (shrunk (matrix R) (matrix bool)) :=
  let '(w', r) := shrink_dense order rate w in
  (if inplace then w' else w,
   s <- r ;; Ok (if return_weight_matrix then ShrunkWeights s else ShrunkMask (mmap positive s))).

(** neighbour_utils.py:78-95 [neighbour_shrink] on a CSR matrix. *)
Definition neighbour_shrink_csr (order : list nat) (w : csr R) (rate : R)
           (return_weight_matrix inplace : bool) : csr R * result (shrunk (csr R) (csr bool)) :=
  let '(w', r) := shrink_csr order rate w in
  (if inplace then w' else w,
   s <- r ;; Ok (if return_weight_matrix then ShrunkWeights s else ShrunkMask (csr_where positive s))).

(** ** Sampling *)

Definition fill_diagonal {A} (v : A) (m : matrix A) : matrix A :=
  mapi (fun i row => list_set row i v) m.

(** [setdiag(False)] followed by [eliminate_zeros()]: the diagonal is removed. *)
Definition remove_diagonal {A} (m : csr A) : csr A :=
  csr_of_rows (c_ncols m) (mapi (fun i r => filter (fun e => negb (fst e =? i)%nat) r) (csr_rows m)).

(** Sorting of indices ([np.sort]). *)
Fixpoint insert_nat (x : nat) (l : list nat) : list nat :=
  match l with
  | [] => [x]
  | y :: ys => if (x <=? y)%nat then x :: l else y :: insert_nat x ys
  end.
Fixpoint sort_nat (l : list nat) : list nat :=
  match l with
  | [] => []
  | x :: xs => insert_nat x (sort_nat xs)
  end.

(** neighbour_utils.py:155-160: number of neighbours to draw out of [n]. *)
Definition sample_count (rate : R) (n : nat) : Z :=
  let c := Rceil (INR n * rate) in
  let c := if (c =? 0)%Z then 1%Z else c in
  if (Z.of_nat n <? c)%Z then Z.of_nat n else c.

Section Sampling.
  (** NumPy's global generator: its state, [np.random.seed(0)], and
      [np.random.choice(a, size, replace=False)] for [size <= len(a)]. *)
  Variable G : Type.
  Variable seed0 : G.
  Variable choice : G -> list nat -> nat -> G * list nat.

  (** [np.random.choice]: negative sizes and sizes above the population raise. *)
  Definition draw (g : G) (population : list nat) (size : Z) : result (G * list nat) :=
    if (size <? 0)%Z || (Z.of_nat (List.length population) <? size)%Z then Raise ValueError
    else Ok (choice g population (Z.to_nat size)).

  (** The loop over the rows (neighbour_utils.py:168-178 and 181-200): draws are
      made in row order from the one generator. *)
  Fixpoint draw_rows (g : G) (rows : list (list nat)) (counts : list Z) : result (G * list (list nat)) :=
    match rows, counts with
    | r :: rs, c :: cs =>
      x <- draw g r c ;; y <- draw_rows (fst x) rs cs ;; Ok (fst y, snd x :: snd y)
    | _, _ => Ok (g, [])
    end.

  (** neighbour_utils.py:124-214 [sample_neighbour] on a NumPy array.  [g] is the
      state of the global generator before the call; the state afterwards is
      returned.  Exceptions: no state is reported. *)
  Definition sample_neighbour (order : list nat) (g : G) (w : matrix R) (rate : R) (shrink_rate : option R)
    : result (G * matrix bool) :=
    neighbour <- match shrink_rate with
                 | Some q =>
                   r <- snd (neighbour_shrink order w q false false) ;;
                   Ok (match r with ShrunkMask b => b | ShrunkWeights s => mmap positive s end)
                 | None => Ok (mmap positive w)
                 end ;;
    let neighbour := fill_diagonal false neighbour in
    let counts := map (fun row => sample_count rate (count_true row)) neighbour in
    d <- draw_rows seed0 (map nonzero neighbour) counts ;;
    let sampled := map2 (fun row idx => put (map (fun _ => false) row) idx (map (fun _ => true) idx))
                        neighbour (snd d) in
    Ok (fst d, fill_diagonal true sampled).

  (** neighbour_utils.py:124-214 [sample_neighbour] on a CSR matrix. *)
  Definition sample_neighbour_csr (order : list nat) (g : G) (w : csr R) (rate : R) (shrink_rate : option R)
    : result (G * csr bool) :=
    neighbour <- match shrink_rate with
                 | Some q =>
                   r <- snd (neighbour_shrink_csr order w q false false) ;;
                   Ok (match r with ShrunkMask b => b | ShrunkWeights s => csr_where positive s end)
                 | None => Ok (csr_where positive w)
                 end ;;
    let neighbour := remove_diagonal neighbour in
    let rows := tabulate (c_nrows neighbour) (row_indices neighbour) in
    let counts := map (fun r => sample_count rate (List.length r)) rows in
    d <- draw_rows seed0 rows counts ;;
    let indices_list := mapi (fun i idx => sort_nat (idx ++ [i])%list) (snd d) in
    let indices := List.concat indices_list in
    match indices_list with
    | [] => Raise ValueError
    | _ => m <- csr_infer (map (fun _ => true) indices) indices (indptr_from 0 indices_list) ;; Ok (fst d, m)
    end.
End Sampling.
