(** The coefficient surfaces written out. *)
From Verif.Model Require Import Base Ext.
From Verif.Model Require Simulation.
Open Scope R_scope.

(** SciPy's factor of the precision matrix of [[a, b], [b, c]]: the squared products
    with its columns add up to the quadratic form of the inverse matrix. *)
Definition quadratic_form (a b c x y : R) : R := (c * x ^ 2 - 2 * b * x * y + a * y ^ 2) / (a * c - b ^ 2).
Definition valid_precision (precision : R * R * R -> list (list R)) : Prop :=
  forall a b c, 0 < a -> b ^ 2 < a * c -> 
    (forall u, In u (precision (a, b, c)) -> exists u1 u2, u = [u1; u2]) /\
    forall x y, Rsum (map (fun u => (x * nth 0 u 0 + y * nth 1 u 0) ^ 2) (precision (a, b, c))) = quadratic_form a b c x y.

(** A gaussian bump of height [h] at ([mx], [my]). *)
Definition bump_at (mx my a b c h x y : R) : R := h * exp (- quadratic_form a b c (x - mx) (y - my) / 2).
Definition round_bump (mx my v h x y : R) : R := h * exp (- ((x - mx) ^ 2 + (y - my) ^ 2) / (2 * v)).

(** Distance from the centre relative to the corner (10, 10), and the cosine of the
    angle with the diagonal. *)
Definition distance_part (x y : R) : R := sqrt (x ^ 2 + y ^ 2) / sqrt 200.
Definition direction_part (x y : R) : R := (x + y) / (sqrt 2 * sqrt (x ^ 2 + y ^ 2)).

Definition strong_surface (x y : R) : R :=
  distance_part x y + direction_part x y + (sin (y - x) + sin (x + y)) + (round_bump (-5) 5 3 1 x y + round_bump (-5) (-5) 3 2 x y).

Definition manual_surface (x y : R) : R :=
  distance_part x y +
  (bump_at (-5) 5 3 4 8 (-1) x y + round_bump (-2) (-5) 5 2 x y + round_bump 8 3 10 (- (3 / 2)) x y +
   bump_at 2 8 3 0 15 (8 / 10) x y + round_bump 5 (-10) 1 1 x y + round_bump (-11) 0 5 2 x y).

(** (x, y) lies in the square of the simulated data. *)
Definition in_square (x y : R) : Prop := -10 <= x <= 10 /\ -10 <= y <= 10.

(** A random bump: its value at (x, y), and whether its covariance matrix is singular. *)
Definition bump_value (b : Simulation.bump) (x y : R) : R :=
  bump_at (nth 0 (Simulation.b_center b) 0) (nth 1 (Simulation.b_center b) 0)
          (Simulation.b_sigma1 b) (Simulation.b_cov b) (Simulation.b_sigma2 b) (Simulation.b_amplitude b) x y.
Definition singular (b : Simulation.bump) : Prop := Rabs (Simulation.b_cov b) = sqrt (Simulation.b_sigma1 b * Simulation.b_sigma2 b).

(** n observations of k features and n locations, everything between -10 and 10. *)
Definition in_bounds (n k : nat) (X pts : matrix R) : Prop :=
  rect X n k /\ rect pts n 2 /\
  (forall i j, (i < n)%nat -> (j < k)%nat -> -10 <= mget 0 X i j <= 10) /\
  (forall i d, (i < n)%nat -> (d < 2)%nat -> -10 <= mget 0 pts i d <= 10).
