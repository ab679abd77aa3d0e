(** Spatio-temporal Moran statistics: /repo/georegression/spatial_temporal_moran.py.
    [y] is a finite float vector, [w] a NumPy array.  Scalars are extended reals:
    NumPy divides by zero with a warning, Python integers raise.
    Only square [w] of the size of [y] is modelled; NumPy's broadcasting of other
    shapes is replaced by an exception. *)
From Coq Require Import Rpower.
From Verif.Model Require Import Base Ext.
Open Scope nat_scope.
Open Scope R_scope.

Definition square_of (n : nat) {A} (m : matrix A) : bool :=
  (List.length m =? n)%nat && forallb (fun row => (List.length row =? n)%nat) m.

(** [w / np.sum(w, axis=1)], lines 22, 45, 67: the vector of row sums is broadcast
    along the rows, so column [j] is divided by the sum of row [j]. *)
Definition standardise (w : matrix R) : matrix ext :=
  let sums := map Rsum w in
  map (fun row => map2 (fun x s => ediv (Fin x) (Fin s)) row sums) w.

(** [np.mean], [np.std] of a float vector (not called with an empty one where the
    result is used). *)
Definition np_mean (y : list R) : R := Rsum y / INR (List.length y).
Definition np_std (y : list R) : R :=
  let m := np_mean y in sqrt (Rsum (map (fun v => (v - m) * (v - m)) y) / INR (List.length y)).

(** [np.matmul] of a matrix and a vector, and of two vectors. *)
Definition matvec (w : matrix ext) (z : list ext) : list ext := map (fun row => esum (map2 emul row z)) w.
Definition vecdot (a b : list ext) : ext := esum (map2 emul a b).

Definition efour (x : ext) : ext := esquare (esquare x).

(** [w + w.T]. *)
Definition plus_transpose (n : nat) (w : matrix ext) : matrix ext := map2 (map2 eadd) w (transpose NaN n w).

(** [np.sum] of a matrix. *)
Definition total (w : matrix ext) : ext := esum (map esum w).

(** [S1], [S2]: lines 30-31, 57-58. *)
Definition moran_S1 (n : nat) (w : matrix ext) : ext :=
  emul (Fin (1 / 2)) (total (map (map esquare) (plus_transpose n w))).
Definition moran_S2 (n : nat) (w : matrix ext) : ext :=
  esum (map esquare (map esum (plus_transpose n w))).

(** spatial_temporal_moran.py:10-41 [spatiotemporal_MI]. *)
Definition spatiotemporal_MI (y : list R) (w0 : matrix R) : result (ext * ext * ext) :=
  let n := List.length y in
  if negb (square_of n w0) then Raise ValueError else
  let w := standardise w0 in
  let rn := INR n in
  let m := np_mean y in
  let sd := np_std y in
  let z := map (fun v => ediv (Fin (v - m)) (Fin sd)) y in
  let S0 := total w in
  let sz2 := esum (map esquare z) in
  let I := ediv (emul (ediv (Fin rn) S0) (vecdot (matvec w z) z)) sz2 in
  let S1 := moran_S1 n w in
  let S2 := moran_S2 n w in
  let D := ediv (esum (map efour z)) (esquare sz2) in
  let A := emul (Fin rn) (eadd (esub (emul (Fin (rn * rn - 3 * rn + 3)) S1) (emul (Fin rn) S2)) (emul (Fin 3) (esquare S0))) in
  let B := emul D (eadd (esub (emul (Fin (rn * rn - rn)) S1) (emul (Fin (2 * rn)) S2)) (emul (Fin 6) (esquare S0))) in
  let C := emul (Fin ((rn - 1) * (rn - 2) * (rn - 3))) (esquare S0) in
  if (n =? 1)%nat then Raise ZeroDivisionError              (* -1 / (n - 1) *)
  else
    let EI := Fin (-1 / (rn - 1)) in
    let EI2 := ediv (esub A B) C in
    let VI := esub EI2 (esquare EI) in
    Ok (I, EI, VI).

(** [np.sqrt]. *)
Definition esqrt (x : ext) : ext :=
  match x with
  | Fin r => if Rlt_dec r 0 then NaN else Fin (sqrt r)
  | PInf => PInf
  | _ => NaN
  end.

Section STMI.
  (** [scipy.stats.norm.cdf]: arbitrary. *)
  Variable cdf : ext -> ext.

  (** spatial_temporal_moran.py:44-63 [STMI]. *)
  Definition STMI (y : list R) (w0 : matrix R) : result (ext * ext * ext * ext) :=
    let N := List.length y in
    if negb (square_of N w0) then Raise ValueError else
    let w := standardise w0 in
    let rn := INR N in
    let m := np_mean y in
    let u := map (fun v => Fin (v - m)) y in
    let numerator := emul (Fin rn) (vecdot u (matvec w u)) in
    let W := total w in
    let su2 := esum (map esquare u) in
    let denominator := emul W su2 in
    let I := ediv numerator denominator in
    if (N =? 1)%nat then Raise ZeroDivisionError            (* -1 / (N - 1) *)
    else
      let expectation := Fin (-1 / (rn - 1)) in
      let S1 := moran_S1 N w in
      let S2 := moran_S2 N w in
      if (N =? 0)%nat then Raise ZeroDivisionError          (* N ** (-1) *)
      else
        let S3 := ediv (emul (Fin (/ rn)) (esum (map efour u))) (esquare (emul (Fin (/ rn)) su2)) in
        let S4 := eadd (esub (emul (Fin (rn * rn - 3 * rn + 3)) S1) (emul (Fin rn) S2)) (emul (Fin 3) (esquare W)) in
        let S5 := eadd (esub (emul (Fin (rn * rn - rn)) S1) (emul (Fin (2 * rn)) S2)) (emul (Fin 6) (esquare W)) in
        let C := emul (Fin ((rn - 1) * (rn - 2) * (rn - 3))) (esquare W) in
        let variance := esub (ediv (esub (emul (Fin rn) S4) (emul S3 S5)) C) (esquare expectation) in
        let p := cdf (ediv (esub I expectation) (esqrt variance)) in
        Ok (I, expectation, variance, p).
End STMI.

(** spatial_temporal_moran.py:66-73 [spatiotemporal_LMI]. *)
Definition spatiotemporal_LMI (y : list R) (w0 : matrix R) : result (list ext) :=
  let N := List.length y in
  if negb (square_of N w0) then Raise ValueError else
  let w := standardise w0 in
  let m := np_mean y in
  let u := map (fun v => Fin (v - m)) y in
  let m2 := ediv (esum (map esquare u)) (Fin (INR N)) in
  Ok (map2 (fun a b => emul (ediv a m2) b) u (matvec w u)).

Section Diagram.
  (** [LinearRegression(fit_intercept=False).fit] on one feature: the slope. *)
  Variable slope_of : list R -> list R -> R.

  (** spatial_temporal_moran.py:76-94 [plot_moran_diagram]: the points drawn and the
      two end points of the dashed line (min and max of the centred values). *)
  Definition plot_moran_diagram (y : list R) (w : matrix R)
    : result (list (R * R) * ((R * R) * (R * R))) :=
    let n := List.length y in
    if negb (square_of n w) then Raise ValueError else
    let m := np_mean y in
    let y_center := map (fun v => v - m) y in
    let y_neighbour := map (fun row => Rsum (map2 Rmult row y_center)) w in
    match y_center with
    | [] => Raise ValueError
    | c :: cs =>
      let lo := fold_left Rmin cs c in
      let hi := fold_left Rmax cs c in
      let b := slope_of y_center y_neighbour in
      Ok (map2 pair y_center y_neighbour, ((lo, b * lo), (hi, b * hi)))
    end.
End Diagram.
