(** Simulated data: /repo/georegression/simulation/simulation_utils.py and
    [generate_sample] of simulation.py.  Plotting and the scripts fitting models to the
    simulated data are not modelled. *)
From Verif.Model Require Import Base Ext.
Open Scope string_scope.
Open Scope nat_scope.
Open Scope R_scope.

Definition norm (p : list R) : R := sqrt (Rsum (map (fun x => x * x) p)).
Definition dot (p q : list R) : R := Rsum (map2 Rmult p q).

(** ** coefficients at one point *)
Section Gaussian.
  (** SciPy's [multivariate_normal.pdf]: [U] lists the columns of its factor of the
      precision matrix, [c] is rank * log(2 pi) + log(pseudo-determinant).  Both are
      computed from [cov] and arbitrary here; a [cov] SciPy rejects is not modelled. *)
  Variable U : list (list R).
  Variable c : R.
  Definition pdf (mean x : list R) : R :=
    exp (- (1 / 2) * (c + Rsum (map (fun u => dot (map2 Rminus x mean) u * dot (map2 Rminus x mean) u) U))).

  (** simulation_utils.py:4-17 [gaussian_coefficient]. *)
  Definition gaussian_coefficient (mean : list R) (amplitude : R) (point : list R) : R :=
    pdf mean point * amplitude / pdf mean mean.
End Gaussian.

(** simulation_utils.py:20-28 [radial_coefficient]; point and origin have the same
    number of coordinates (no broadcasting). *)
Definition radial_coefficient (origin : list R) (amplitude : R) (point : list R) : R :=
  norm (map2 Rminus point origin) * amplitude.

(** simulation_utils.py:31-42 [directional_coefficient]; 0/0 is NaN. *)
Definition directional_coefficient (direction : list R) (amplitude : R) (point : list R) : ext :=
  if Reqb (norm direction) 0 then NaN
  else
    let unit := map (fun x => x / norm direction) direction in
    emul (ediv (Fin (dot point unit)) (Fin (norm point))) (Fin amplitude).

(** simulation_utils.py:45-53 [sine_coefficient]. *)
Definition sine_coefficient (frequency : R) (direction : list R) (amplitude : R) (point : list R) : R :=
  sin (dot point direction * frequency) * amplitude.

(** ** simulation_utils.py:56-72 [coefficient_wrapper], on an array of points *)
Inductive operator : Type :=
| Reduction (f : list R -> R)          (* np.sum, np.prod, ...: f of all entries, or of each row with axis=-1 *)
| Elementwise (f : R -> R).            (* partial(np.multiply, 3), ...: no axis argument for one-argument use *)
Inductive value : Type := Sc (r : R) | Ar (l : list R).

Definition column_stack (cols : list (list R)) : list (list R) :=
  match cols with
  | [] => []
  | col :: _ => tabulate (List.length col) (fun i => map (fun c => nth i c 0) cols)
  end.

Definition coefficient_wrapper {P} (op : operator) (coefs : list (P -> list R)) (points : P) : result value :=
  match coefs, op with
  | [], _ => Raise ValueError                              (* np.column_stack([]) *)
  | [c], Reduction f => Ok (Sc (f (c points)))
  | [c], Elementwise f => Ok (Ar (map f (c points)))
  | _, Reduction f => Ok (Ar (map f (column_stack (map (fun c => c points) coefs))))
  | _, Elementwise _ => Raise TypeError                    (* axis=-1 *)
  end.

(** ** simulation_utils.py:75-121, responses at one point with coefficient [c] *)
Definition polynomial_function (c : R) (degree : nat) (x : R) : R := c * x ^ degree.
Definition square_function (c x : R) : R := polynomial_function c 2 x.
Definition linear_function (c x : R) : R := polynomial_function c 1 x.
Definition interaction_function (c x1 x2 : R) : R := c * x1 * x2.
Definition tanh_ (x : R) : R := (exp x - exp (- x)) / (exp x + exp (- x)).
Definition sigmoid_function (c x : R) : R := c * tanh_ x.
Definition relu_function (c x : R) : R := c * Rmax 0 x.
Definition exponential_function (c x : R) : R := c * exp x.

(** ** sampling *)
Section Sampling.
  (** NumPy's global generator; [choice_with] draws with replacement. *)
  Variable G : Type.
  Variable uniform : G -> R -> R -> nat -> G * list R.
  Variable choice_with : G -> list R -> nat -> G * list R.
  Variable normal exponential : G -> nat -> G * list R.

  (** An entry of a list of bounds: an int, or a sequence of numbers. *)
  Inductive bound : Type := Num (k : Z) | Seq (l : list R).
  (** [bounds]: not a list (one sequence for all dimensions), or a list. *)
  Inductive bounds_arg : Type := BOne (b : bound) | BList (l : list bound).
  Inductive type_arg : Type := TOne (t : string) | TList (l : list string).

  (** simulation_utils.py:139-142, one coordinate. *)
  Definition sample_coordinate (g : G) (n : nat) (t : string) (b : bound) : result (G * list R) :=
    if String.eqb t "continuous" then
      match b with
      | Num _ => Raise TypeError                             (* int is not subscriptable *)
      | Seq (lo :: hi :: _) => Ok (uniform g lo hi n)
      | Seq _ => Raise IndexError
      end
    else if String.eqb t "discrete" then
      match b with
      | Num k => if (k <=? 0)%Z && negb (n =? 0)%nat then Raise ValueError
                 else Ok (choice_with g (map INR (seq 0 (Z.to_nat k))) n)
      | Seq l => match l with [] => if (n =? 0)%nat then Ok (g, []) else Raise ValueError | _ => Ok (choice_with g l n) end
      end
    else Ok (g, repeat 0 n).                                 (* left at zero *)

  Fixpoint sample_columns (g : G) (n : nat) (dims : list nat) (bounds : bounds_arg) (types : type_arg) : result (G * list (list R)) :=
    match dims with
    | [] => Ok (g, [])
    | d :: ds =>
      t <- match types with TOne t => Ok t | TList l => getitem l d end ;;
      (* the bound is looked up only when the type is known *)
      x <- (if String.eqb t "continuous" || String.eqb t "discrete" then
              b <- match bounds with BOne b => Ok b | BList l => getitem l d end ;; sample_coordinate g n t b
            else Ok (g, repeat 0 n)) ;;
      r <- sample_columns (fst x) n ds bounds types ;;
      Ok (fst r, snd x :: snd r)
    end.

  (** simulation_utils.py:124-144 [sample_points]: n rows, dim columns. *)
  Definition sample_points (g : G) (n dim : nat) (bounds : bounds_arg) (types : type_arg) : result (G * matrix R) :=
    c <- sample_columns g n (seq 0 dim) bounds types ;;
    Ok (fst c, tabulate n (fun i => map (fun col => nth i col 0) (snd c))).

  (** A distribution parameter: a number or array, or a function of the points. *)
  Inductive param (P : Type) : Type := Val (v : value) | Fun (f : P -> value).
  Arguments Val {P}. Arguments Fun {P}.
  Definition evalp {P} (points : P) (p : param P) : value := match p with Val v => v | Fun f => f points end.
  Definition vget (v : value) (i : nat) : R := match v with Sc r => r | Ar l => nth i l 0 end.
  (** Shapes that combine with an array of length n (length-1 arrays are not modelled). *)
  Definition vfits (n : nat) (v : value) : bool := match v with Sc _ => true | Ar l => (List.length l =? n)%nat end.

  Definition affine (n : nat) (base : list R) (f : nat -> R -> R) : list R := map (fun i => f i (nth i base 0)) (seq 0 n).

  (** simulation_utils.py:147-177 [sample_x].  [is_list]: whether [bounds] is a list
      (else a tuple).  The first component of the result is what the caller's bounds
      hold afterwards. *)
  Definition sample_x {P} (g : G) (n : nat) (type : string) (is_list : bool) (b0 b1 mean variance scale : param P) (points : P)
      : (param P * param P) * result (G * option (list R)) :=
    match b0, is_list with
    | Fun _, false => ((b0, b1), Raise TypeError)            (* tuple item assignment *)
    | _, _ =>
      let b0' := Val (evalp points b0) in
      match b1, is_list with
      | Fun _, false => ((b0', b1), Raise TypeError)
      | _, _ =>
        let b1' := Val (evalp points b1) in
        let lo := evalp points b0 in
        let hi := evalp points b1 in
        let m := evalp points mean in
        let v := evalp points variance in
        let s := evalp points scale in
        ((b0', b1'),
         if String.eqb type "uniform" then
           let (g', base) := uniform g 0 1 n in
           if vfits n lo && vfits n hi && vfits n m then
             Ok (g', Some (affine n base (fun i u => u * (vget hi i - vget lo i) + vget lo i + vget m i)))
           else Raise ValueError
         else if String.eqb type "normal" then
           let (g', base) := normal g n in
           if vfits n v && vfits n m then Ok (g', Some (affine n base (fun i u => u * vget v i + vget m i)))
           else Raise ValueError
         else if String.eqb type "exponential" then
           let (g', base) := exponential g n in
           if vfits n s then Ok (g', Some (affine n base (fun i u => u * vget s i))) else Raise ValueError
         else Ok (g, None))
      end
    end.

  (** ** simulation.py:75-122 [coef_auto_gau_weak] ([lo], [hi] = 0.5, 5) and
      [coef_auto_gau_strong] (0.2, 1): the random parameters of the bumps.  1000 rounds
      there, [rounds] here. *)
  Record bump : Type := Bump { b_center : list R; b_amplitude : R; b_sigma1 : R; b_sigma2 : R; b_cov : R }.
  Definition draw1 (r : G * list R) : G * R := (fst r, hd 0 (snd r)).
  Definition auto_bump (g : G) (lo hi : R) : G * bump :=
    let (g1, center) := uniform g (-10) 10 2 in
    let (g2, amplitude) := draw1 (uniform g1 1 2 1) in
    let (g3, sign) := draw1 (choice_with g2 [-1; 1] 1) in
    let (g4, sigma1) := draw1 (uniform g3 lo hi 1) in
    let (g5, sigma2) := draw1 (uniform g4 lo hi 1) in
    let (g6, cov) := draw1 (uniform g5 (- sqrt (sigma1 * sigma2)) (sqrt (sigma1 * sigma2)) 1) in
    (g6, Bump center (amplitude * sign) sigma1 sigma2 cov).
  Fixpoint auto_bumps (rounds : nat) (g : G) (lo hi : R) : G * list bump :=
    match rounds with
    | O => (g, [])
    | S k => let (g', b) := auto_bump g lo hi in let (g'', bs) := auto_bumps k g' lo hi in (g'', b :: bs)
    end.

  (** ** simulation.py:130-151 [generate_sample] *)
  Definition points_t := matrix R.
  (** [coef_func]: a function making a coefficient (possibly drawing random numbers),
      or a list of such functions. *)
  Inductive coef_arg : Type := COne (mk : G -> G * (points_t -> list R)) | CMany (l : list (G -> G * (points_t -> list R))).

  Definition generate_sample (seeded : G) (g0 : G) (n : nat)
      (f : matrix R -> list (points_t -> list R) -> points_t -> result (list R)) (coef : coef_arg)
      : result (G * (matrix R * list R * points_t)) :=
    let g := seeded in                                       (* np.random.seed *)
    p <- sample_points g n 2 (BList [Seq [-10; 10]; Seq [-10; 10]]) (TOne "continuous") ;;
    match coef with
    | CMany _ => Raise TypeError                             (* coef_func(): list is not callable *)
    | COne mk =>
      let (g1, c1) := mk (fst p) in
      x1 <- snd (sample_x g1 n "uniform" false (Val (Sc (-1))) (Val (Sc 1)) (Fun (fun q => Ar (c1 q))) (Val (Sc 1)) (Val (Sc 1)) (snd p)) ;;
      let (g2, c2) := mk (fst x1) in
      x2 <- snd (sample_x g2 n "uniform" false (Val (Sc (-2))) (Val (Sc 2)) (Fun (fun q => Ar (map (Rmult 3) (c2 q)))) (Val (Sc 1)) (Val (Sc 1)) (snd p)) ;;
      let (g3, c3) := mk (fst x2) in
      match snd x1, snd x2 with
      | Some a, Some b =>
        let X := map2 (fun u v => [u; v]) a b in
        y <- f X [c3] (snd p) ;;
        Ok (g3, (X, y, snd p))
      | _, _ => Raise TypeError
      end
    end.

  (** simulation.py:24-33 [f_interact], [f_square_2]. *)
  Definition column (X : matrix R) (j : nat) : list R := map (fun r => nth j r 0) X.
  Definition f_interact (X : matrix R) (C : list (points_t -> list R)) (points : points_t) : result (list R) :=
    c <- getitem C 0 ;; Ok (map2 (fun c x => interaction_function c (fst x) (snd x)) (c points) (combine (column X 0) (column X 1))).
  Definition f_square_2 (X : matrix R) (C : list (points_t -> list R)) (points : points_t) : result (list R) :=
    c0 <- getitem C 0 ;; c1 <- getitem C 1 ;;
    Ok (map2 Rplus (map2 (fun c x => polynomial_function c 2 x) (c0 points) (column X 0))
                   (map2 (fun c x => polynomial_function c 2 x) (c1 points) (column X 1))).
End Sampling.
Arguments Val {P}.
Arguments Fun {P}.
Arguments COne {G}.
Arguments CMany {G}.
