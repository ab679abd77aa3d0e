(** The coefficient surfaces and sample generators of the experiments:
    /repo/georegression/simulation/simulation_for_fitting.py (README quick start),
    simulation_for_importance.py and [coef_manual_gau] of simulation.py.
    [coef_strong], [coef_auto_gau_weak], [coef_auto_gau_strong], [f_square], ... and
    [generate_sample] of simulation_for_robust.py, simulation_for_data_size.py and
    simulation_for_STST_variation.py are the same text.  Plotting is not modelled. *)
From Verif.Model Require Import Base Ext Simulation.
Open Scope string_scope.
Open Scope nat_scope.
Open Scope R_scope.

(** A coefficient at one point (NaN is possible); on an array of points it is applied
    to each row. *)
Definition coefficient : Type := list R -> ext.
(** A covariance matrix [[a, b], [b, c]] as (a, b, c). *)
Definition covariance : Type := (R * R * R)%type.
(** SciPy turns a number into that multiple of the identity. *)
Definition scalar (v : R) : covariance := (v, 0, v).

(** [coefficient_wrapper(np.sum, ...)] with two or more coefficients, at one point
    (simulation_utils.py:66-70; see C110 for the array version). *)
Definition add_up (cs : list coefficient) : coefficient := fun p => esum (map (fun c => c p) cs).

Section Surfaces.
  (** What SciPy computes from a covariance matrix, see [gaussian_coefficient]. *)
  Variable precision : covariance -> list (list R).
  Variable lognorm : covariance -> R.

  (** simulation_utils.py:4-17 [gaussian_coefficient] in the plane; SciPy raises
      LinAlgError (a ValueError) for a singular or indefinite matrix.  Its tolerance
      for rounding is not modelled. *)
  Definition gaussian (mean : list R) (k : covariance) (amplitude : R) : result coefficient :=
    let '(a, b, c) := k in
    if Rltb 0 a && Rltb 0 (a * c - b * b)
    then Ok (fun p => Fin (gaussian_coefficient (precision k) (lognorm k) mean amplitude p))
    else Raise ValueError.

  Definition coef_radial : coefficient := fun p => Fin (radial_coefficient [0; 0] (1 / sqrt 200) p).
  Definition coef_dir : coefficient := directional_coefficient [1; 1] 1.

  (** simulation_for_fitting.py:208-220 (= simulation.py:36-48) [coef_strong]. *)
  Definition coef_strong : result coefficient :=
    let coef_sin_1 : coefficient := fun p => Fin (sine_coefficient 1 [-1; 1] 1 p) in
    let coef_sin_2 : coefficient := fun p => Fin (sine_coefficient 1 [1; 1] 1 p) in
    let coef_sin := add_up [coef_sin_1; coef_sin_2] in
    coef_gau_1 <- gaussian [-5; 5] (scalar 3) 1 ;;
    coef_gau_2 <- gaussian [-5; -5] (scalar 3) 2 ;;
    let coef_gau := add_up [coef_gau_1; coef_gau_2] in
    Ok (add_up [coef_radial; coef_dir; coef_sin; coef_gau]).

  (** simulation.py:51-72 (= simulation_for_importance.py:18-39, simulation_for_ale.py:20-40)
      [coef_manual_gau]; [coef_gau_6] is assigned three times. *)
  Definition coef_manual_gau : result coefficient :=
    coef_gau_1 <- gaussian [-5; 5] (3, 4, 8) (-1) ;;
    coef_gau_2 <- gaussian [-2; -5] (scalar 5) 2 ;;
    coef_gau_3 <- gaussian [8; 3] (scalar 10) (- (3 / 2)) ;;
    coef_gau_4 <- gaussian [2; 8] (3, 0, 15) (8 / 10) ;;
    coef_gau_5 <- gaussian [5; -10] (scalar 1) 1 ;;
    _ <- gaussian [-10; -10] (scalar 15) (3 / 2) ;;
    _ <- gaussian [-11; 0] (scalar 5) 2 ;;
    coef_gau_6 <- gaussian [-11; 0] (scalar 5) 2 ;;
    let coef_gau := add_up [coef_gau_1; coef_gau_2; coef_gau_3; coef_gau_4; coef_gau_5; coef_gau_6] in
    Ok (add_up [coef_radial; coef_gau]).

  Section Sampled.
    Variable G : Type.
    Variable uniform : G -> R -> R -> nat -> G * list R.
    Variable choice_with : G -> list R -> nat -> G * list R.
    Variable normal exponential : G -> nat -> G * list R.

    (** simulation_for_fitting.py:158-180 [coef_auto_gau_weak] ([lo], [hi] = 0.5, 5) and
        183-205 [coef_auto_gau_strong] (0.2, 1).  1000 rounds there, [rounds] >= 2 here.
        All parameters are drawn first here; there each bump is made when its own are
        drawn, which only matters for the generator after an exception. *)
    Definition coef_auto_gau (rounds : nat) (lo hi : R) (g : G) : result (G * coefficient) :=
      let (g', bumps) := auto_bumps G uniform choice_with rounds g lo hi in
      gau_coef_list <- mapM (fun b => gaussian (b_center b) (b_sigma1 b, b_cov b, b_sigma2 b) (b_amplitude b)) bumps ;;
      let coef_gau := add_up gau_coef_list in
      Ok (g', add_up [coef_radial; coef_dir; coef_gau]).

    (** A feature matrix; [width] is X.shape[1]. *)
    Record features : Type := Features { width : nat; rows : matrix R }.
    (** [X[:, j]] *)
    Definition feature (X : features) (j : nat) : result (list R) :=
      if (j <? width X)%nat then Ok (column (rows X) j) else Raise IndexError.

    Definition response_function : Type := features -> list coefficient -> matrix R -> result (list ext).

    (** simulation_for_fitting.py:223-224 [f_square] (adding 0 changes nothing). *)
    Definition f_square : response_function := fun X C points =>
      c <- getitem C 0 ;; x <- feature X 0 ;;
      Ok (map2 (fun v x => emul v (Fin (x ^ 2))) (map c points) x).
    (** 227-232 [f_square_2]. *)
    Definition f_square_two : response_function := fun X C points =>
      c0 <- getitem C 0 ;; x0 <- feature X 0 ;;
      c1 <- getitem C 1 ;; x1 <- feature X 1 ;;
      Ok (map2 eadd (map2 (fun v x => emul v (Fin (x ^ 2))) (map c0 points) x0)
                    (map2 (fun v x => emul v (Fin (x ^ 2))) (map c1 points) x1)).
    (** 235-236 [f_square_const]. *)
    Definition f_square_const : response_function := fun X C points =>
      c <- getitem C 0 ;; x <- feature X 0 ;;
      Ok (map2 eadd (map2 (fun v x => emul v (Fin (x ^ 2))) (map c points) x) (map (fun p => emul (c p) (Fin 10)) points)).
    (** 239-240 [f_sigmoid]. *)
    Definition f_sigmoid : response_function := fun X C points =>
      c <- getitem C 0 ;; x <- feature X 0 ;;
      Ok (map2 (fun v x => emul v (Fin (tanh_ x))) (map c points) x).
    (** 243-244 [f_interact]. *)
    Definition f_interaction : response_function := fun X C points =>
      c <- getitem C 0 ;; x0 <- feature X 0 ;; x1 <- feature X 1 ;;
      Ok (map2 (fun v x => emul (emul v (Fin (fst x))) (Fin (snd x))) (map c points) (combine x0 x1)).

    Definition sample_feature (g : G) (n : nat) : result (G * list R) :=
      r <- snd (sample_x G uniform normal exponential g n "uniform" false (Val (Sc (-10))) (Val (Sc 10)) (Val (Sc 0)) (Val (Sc 1)) (Val (Sc 1)) tt) ;;
      match snd r with Some x => Ok (fst r, x) | None => Raise TypeError end.

    (** simulation_for_fitting.py:247-262 [generate_sample], plot=False.  [seeded] is the
        state np.random.seed(random_seed) sets, [g0] the one before the call. *)
    Definition generate_one (seeded g0 : G) (n : nat) (f : response_function) (coef_func : G -> result (G * coefficient))
        : result (G * (features * list ext * matrix R)) :=
      let g := seeded in
      p <- sample_points G uniform choice_with g n 2 (BOne (Seq [-10; 10])) (TOne "continuous") ;;
      x1 <- sample_feature (fst p) n ;;
      c <- coef_func (fst x1) ;;
      let X := Features 1 (map (fun v => [v]) (snd x1)) in
      y <- f X [snd c] (snd p) ;;
      Ok (fst c, (X, y, snd p)).

    (** [coef_func] of simulation_for_importance.py: a function or a list of functions. *)
    Inductive coef_funcs : Type := OneFunc (f : G -> result (G * coefficient)) | FuncList (l : list (G -> result (G * coefficient))).
    Fixpoint make_all (l : list (G -> result (G * coefficient))) (g : G) : result (G * list coefficient) :=
      match l with
      | [] => Ok (g, [])
      | f :: fs => c <- f g ;; r <- make_all fs (fst c) ;; Ok (fst r, snd c :: snd r)
      end.

    (** simulation_for_importance.py:102-119 [generate_sample], plot=False. *)
    Definition generate_two (seeded g0 : G) (n : nat) (f : response_function) (coef_func : coef_funcs)
        : result (G * (features * list ext * matrix R)) :=
      let g := seeded in
      p <- sample_points G uniform choice_with g n 2 (BOne (Seq [-10; 10])) (TOne "continuous") ;;
      x1 <- sample_feature (fst p) n ;;
      x2 <- sample_feature (fst x1) n ;;
      c <- match coef_func with
           | FuncList l => make_all l (fst x2)
           | OneFunc f => make_all [f] (fst x2)
           end ;;
      let X := Features 2 (map2 (fun u v => [u; v]) (snd x1) (snd x2)) in
      y <- f X (snd c) (snd p) ;;
      Ok (fst c, (X, y, snd p)).
  End Sampled.
End Surfaces.
Arguments OneFunc {G}.
Arguments FuncList {G}.
