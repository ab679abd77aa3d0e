(** Properties C132, C133: the samples and coefficient surfaces of the experiments. *)
From Coq Require Import Lra Lia.
From Verif.Model Require Import Base Ext Simulation Surfaces.
From Verif.Spec Require Import SimulationSpec SurfaceSpec.
From Verif.Proofs Require Import ListFacts SimulationProps SimulationProps3 SurfaceProps.
Open Scope string_scope.
Open Scope nat_scope.
Open Scope R_scope.

(** C132.  The surface of the README's quick start. *)
Theorem C132_strong_surface :
  forall precision lognorm, valid_precision precision ->
  exists c, coef_strong precision lognorm = Ok c /\
    (forall x y, x <> 0 \/ y <> 0 -> c [x; y] = Fin (strong_surface x y)) /\ c [0; 0] = NaN /\
    (forall x y, in_square x y -> x <> 0 \/ y <> 0 -> -3 < strong_surface x y <= 7).
Proof.
  intros precision lognorm VP. destruct (strong_ok precision lognorm VP) as [c [E [V N]]]. exists c.
  split; [exact E|]. split; [exact V|]. split; [exact N|]. exact (strong_bounds).
Qed.
Print Assumptions C132_strong_surface.

(** The README's sample: for every seed and every size the response is the same
    surface times the squared feature; it is finite and between -300 and 700, except at
    a location that is exactly the centre, where it is NaN. *)
Theorem C132_readme_sample :
  forall G uniform choice_with normal exponential, valid_uniform uniform -> valid_choice_with choice_with ->
  forall precision lognorm, valid_precision precision ->
  forall (seeded g0 : G) n,
  exists gs X y pts,
    generate_one G uniform choice_with normal exponential seeded g0 n f_square
      (fun g => c <- coef_strong precision lognorm ;; Ok (g, c)) = Ok (gs, (Features 1 X, y, pts)) /\
    in_bounds n 1 X pts /\ List.length y = n /\
    forall i, (i < n)%nat ->
      let px := mget 0 pts i 0 in let py := mget 0 pts i 1 in let x := mget 0 X i 0 in
      (px = 0 /\ py = 0 -> nth i y NaN = NaN) /\
      (px <> 0 \/ py <> 0 -> exists v, nth i y NaN = Fin v /\ v = strong_surface px py * x ^ 2 /\ -300 <= v <= 700).
Proof. exact readme_sample. Qed.
Print Assumptions C132_readme_sample.

(** Any coefficient function and the other responses of one feature. *)
Theorem C132_responses :
  forall G uniform choice_with normal exponential, valid_uniform uniform -> valid_choice_with choice_with ->
  forall (seeded g0 : G) n coef_func, (forall g, exists r, coef_func g = Ok r) ->
  forall f r, (f = f_square /\ r = (fun v x => emul v (Fin (x ^ 2)))) \/
              (f = f_square_const /\ r = (fun v x => eadd (emul v (Fin (x ^ 2))) (emul v (Fin 10)))) \/
              (f = f_sigmoid /\ r = (fun v x => emul v (Fin ((exp x - exp (- x)) / (exp x + exp (- x)))))) ->
  exists g g' c X y pts, coef_func g = Ok (g', c) /\
    generate_one G uniform choice_with normal exponential seeded g0 n f coef_func = Ok (g', (Features 1 X, y, pts)) /\
    in_bounds n 1 X pts /\ List.length y = n /\
    forall i, (i < n)%nat -> nth i y NaN = r (c (nth i pts [])) (mget 0 X i 0).
Proof.
  intros G uniform choice_with normal exponential VU VC seeded g0 n mk M f r H.
  destruct H as [[-> ->] | [[-> ->] | [-> ->]]].
  - exact (gen1_square G uniform choice_with normal exponential VU VC seeded g0 n mk M).
  - exact (gen1_const G uniform choice_with normal exponential VU VC seeded g0 n mk M).
  - exact (gen1_sigmoid G uniform choice_with normal exponential VU VC seeded g0 n mk M).
Qed.
Print Assumptions C132_responses.

(** The responses of two features never work with this generator; the state of the
    generator before the call does not matter. *)
Theorem C132_two_features_raise :
  forall G uniform choice_with normal exponential, valid_uniform uniform -> valid_choice_with choice_with ->
  forall (seeded g0 g0' : G) n coef_func, (forall g, exists r, coef_func g = Ok r) ->
  generate_one G uniform choice_with normal exponential seeded g0 n f_square_two coef_func = Raise IndexError /\
  generate_one G uniform choice_with normal exponential seeded g0 n f_interaction coef_func = Raise IndexError /\
  forall f, generate_one G uniform choice_with normal exponential seeded g0 n f coef_func =
            generate_one G uniform choice_with normal exponential seeded g0' n f coef_func.
Proof.
  intros G uniform choice_with normal exponential VU VC seeded g0 g0' n mk M.
  destruct (gen1_two_features G uniform choice_with normal exponential VU VC seeded g0 n mk M) as [A B]. repeat split; auto.
Qed.
Print Assumptions C132_two_features_raise.

(** Relied on: with the same seed, samples of different sizes come from the same
    surface.  False for random coefficient functions: the surface is drawn after the
    points and the features, so it depends on the size of the sample. *)
Theorem C132_same_seed_same_surface_refuted :
  exists coef_func, (forall g, exists r, coef_func g = Ok r) /\
  exists g1 X1 y1 pts1 g2 X2 y2 pts2,
    generate_one nat counting_uniform zero_choice ramp_normal ramp_normal O O 1 f_square coef_func = Ok (g1, (Features 1 X1, y1, pts1)) /\
    generate_one nat counting_uniform zero_choice ramp_normal ramp_normal O O 2 f_square coef_func = Ok (g2, (Features 1 X2, y2, pts2)) /\
    nth 0 pts1 [] = nth 0 pts2 [] /\ mget 0 X1 0 0 = mget 0 X2 0 0 /\ nth 0 y1 NaN <> nth 0 y2 NaN.
Proof. exact surface_depends_on_count. Qed.
Print Assumptions C132_same_seed_same_surface_refuted.

Example C132_example : valid_uniform counting_uniform /\ valid_choice_with zero_choice /\ valid_precision cholesky /\
  (forall g, exists r, drawn_level g = Ok r) /\ in_square 3 (-4) /\ (3 <> 0 \/ -4 <> 0).
Proof.
  split; [exact counting_uniform_ok|]. split; [exact zero_choice_ok|]. split; [exact cholesky_ok|].
  split; [intros g; eexists; reflexivity|]. unfold in_square. lra.
Qed.

(** C133.  The fixed surface of the importance and ALE experiments: six bumps on a cone. *)
Theorem C133_manual_surface :
  forall precision lognorm, valid_precision precision ->
  exists c, coef_manual_gau precision lognorm = Ok c /\
    (forall x y, c [x; y] = Fin (manual_surface x y)) /\
    (forall x y, in_square x y -> - (5 / 2) < manual_surface x y <= 68 / 10).
Proof.
  intros precision lognorm VP. destruct (manual_ok precision lognorm VP) as [c [E V]]. exists c.
  split; [exact E|]. split; [exact V|]. exact manual_bounds.
Qed.
Print Assumptions C133_manual_surface.

(** The random surfaces: making one raises exactly when a drawn covariance matrix is
    singular; else it is finite except at the centre and at most 2 (rounds + 1) in size. *)
Theorem C133_random_surface :
  forall precision lognorm, valid_precision precision ->
  forall G uniform choice_with, valid_uniform uniform -> valid_choice_with choice_with ->
  forall rounds lo hi (g : G), 0 < lo <= hi ->
  let bumps := snd (auto_bumps G uniform choice_with rounds g lo hi) in
  (Exists singular bumps /\ coef_auto_gau precision lognorm G uniform choice_with rounds lo hi g = Raise ValueError) \/
  (~ Exists singular bumps /\ exists g' c, coef_auto_gau precision lognorm G uniform choice_with rounds lo hi g = Ok (g', c) /\
     c [0; 0] = NaN /\
     forall x y, x <> 0 \/ y <> 0 ->
       let v := distance_part x y + direction_part x y + Rsum (map (fun b => bump_value b x y) bumps) in
       c [x; y] = Fin v /\ (in_square x y -> Rabs v <= 2 * (INR rounds + 1))).
Proof. exact auto_ok. Qed.
Print Assumptions C133_random_surface.

(** The generator of the importance experiments: with two coefficient functions each
    drives its own feature. *)
Theorem C133_two_features :
  forall G uniform choice_with normal exponential, valid_uniform uniform -> valid_choice_with choice_with ->
  forall (seeded g0 : G) n k1 k2, (forall g, exists r, k1 g = Ok r) -> (forall g, exists r, k2 g = Ok r) ->
  exists g1 g2 g3 c1 c2 X y pts, k1 g1 = Ok (g2, c1) /\ k2 g2 = Ok (g3, c2) /\
    generate_two G uniform choice_with normal exponential seeded g0 n f_square_two (FuncList [k1; k2]) = Ok (g3, (Features 2 X, y, pts)) /\
    in_bounds n 2 X pts /\ List.length y = n /\
    forall i, (i < n)%nat ->
      nth i y NaN = eadd (emul (c1 (nth i pts [])) (Fin (mget 0 X i 0 ^ 2))) (emul (c2 (nth i pts [])) (Fin (mget 0 X i 1 ^ 2))).
Proof. intros G uniform choice_with normal exponential VU VC. exact (gen2_square G uniform choice_with normal exponential VU VC). Qed.
Print Assumptions C133_two_features.

Theorem C133_interaction :
  forall G uniform choice_with normal exponential, valid_uniform uniform -> valid_choice_with choice_with ->
  forall (seeded g0 : G) n k, (forall g, exists r, k g = Ok r) ->
  exists g g' c X y pts, k g = Ok (g', c) /\
    generate_two G uniform choice_with normal exponential seeded g0 n f_interaction (OneFunc k) = Ok (g', (Features 2 X, y, pts)) /\
    in_bounds n 2 X pts /\ List.length y = n /\
    forall i, (i < n)%nat -> nth i y NaN = emul (emul (c (nth i pts [])) (Fin (mget 0 X i 0))) (Fin (mget 0 X i 1)).
Proof. intros G uniform choice_with normal exponential VU VC. exact (gen2_interact G uniform choice_with normal exponential VU VC). Qed.
Print Assumptions C133_interaction.

(** One coefficient function for [f_square_2], or an empty list for any response, raises. *)
Theorem C133_too_few_coefficients_raise :
  forall G uniform choice_with normal exponential, valid_uniform uniform -> valid_choice_with choice_with ->
  forall (seeded g0 : G) n k, (forall g, exists r, k g = Ok r) ->
  generate_two G uniform choice_with normal exponential seeded g0 n f_square_two (OneFunc k) = Raise IndexError /\
  (forall f, (f = f_square \/ f = f_square_two \/ f = f_square_const \/ f = f_sigmoid \/ f = f_interaction) ->
     generate_two G uniform choice_with normal exponential seeded g0 n f (FuncList []) = Raise IndexError).
Proof. intros G uniform choice_with normal exponential VU VC. exact (gen2_single_raises G uniform choice_with normal exponential VU VC). Qed.
Print Assumptions C133_too_few_coefficients_raise.

Example C133_example : valid_precision cholesky /\ valid_uniform low_uniform /\ valid_choice_with zero_choice /\ 0 < 1 / 2 <= 5 /\
  singular (Bump [0; 0] 1 1 1 1) /\ ~ singular (Bump [0; 0] 1 1 1 0).
Proof.
  split; [exact cholesky_ok|]. split; [exact low_uniform_ok|]. split; [exact zero_choice_ok|]. split; [lra|].
  unfold singular. cbn [b_cov b_sigma1 b_sigma2]. rewrite Rmult_1_r, sqrt_1, Rabs_R1, Rabs_R0. lra.
Qed.
