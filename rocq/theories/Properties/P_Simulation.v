(** Properties C79, C110-C116: simulated data. *)
From Coq Require Import Lra Lia.
From Verif.Model Require Import Base Ext Simulation.
From Verif.Spec Require Import DistanceSpec SimulationSpec.
From Verif.Proofs Require Import SimulationProps SimulationProps2 SimulationProps3.
Open Scope string_scope.
Open Scope nat_scope.
Open Scope R_scope.

(** C79.  [U] and [c] stand for what SciPy computes from the covariance. *)
Theorem C79_gaussian :
  forall U c mean a p,
  gaussian_coefficient U c mean a mean = a /\
  gaussian_coefficient U c mean a p = a * exp (- (1 / 2) * Rsum (map (fun u => (dot (minus p mean) u) ^ 2) U)) /\
  Rabs (gaussian_coefficient U c mean a p) <= Rabs a /\
  (0 < a -> 0 < gaussian_coefficient U c mean a p <= gaussian_coefficient U c mean a mean) /\
  (a < 0 -> gaussian_coefficient U c mean a mean <= gaussian_coefficient U c mean a p < 0) /\
  (forall h, List.length h = List.length mean ->
     gaussian_coefficient U c mean a (plus mean h) = gaussian_coefficient U c mean a (minus mean h)).
Proof. exact gaussian_props. Qed.
Print Assumptions C79_gaussian.

Theorem C79_radial :
  forall d o a p, List.length o = d -> List.length p = d ->
  radial_coefficient o a p = a * sqrt (sq_dist d p o) /\
  (0 <= a -> 0 <= radial_coefficient o a p) /\
  (a <> 0 -> (radial_coefficient o a p = 0 <-> p = o)) /\
  (forall q, List.length q = d -> Rabs (radial_coefficient o a p - radial_coefficient o a q) <= Rabs a * sqrt (sq_dist d p q)).
Proof. exact radial_props. Qed.
Print Assumptions C79_radial.

Theorem C79_directional :
  forall d dir a p, List.length dir = d -> List.length p = d -> nonzero dir -> nonzero p ->
  (exists v, directional_coefficient dir a p = Fin v /\ v = a * (inner d p dir / (len d p * len d dir)) /\ Rabs v <= Rabs a) /\
  (forall k, 0 < k -> directional_coefficient dir a (scale k p) = directional_coefficient dir a p) /\
  (forall k, 0 < k -> directional_coefficient (scale k dir) a p = directional_coefficient dir a p) /\
  (forall k, 0 < k -> directional_coefficient dir a (scale k dir) = Fin a) /\
  (forall k, k < 0 -> directional_coefficient dir a (scale k dir) = Fin (- a)).
Proof. exact directional_props. Qed.
Print Assumptions C79_directional.

(** At the origin, or with a zero direction, the directional coefficient is NaN. *)
Theorem C79_directional_nan :
  forall dir a p, (forall i, nth i dir 0 = 0) \/ (forall i, nth i p 0 = 0) -> directional_coefficient dir a p = NaN.
Proof. exact directional_zero. Qed.
Print Assumptions C79_directional_nan.

Theorem C79_sine :
  forall d f dir a p, List.length dir = d -> List.length p = d ->
  Rabs (sine_coefficient f dir a p) <= Rabs a /\
  (forall h (k : Z), List.length h = d -> inner d h dir * f = 2 * IZR k * PI -> sine_coefficient f dir a (plus p h) = sine_coefficient f dir a p).
Proof. exact sine_props. Qed.
Print Assumptions C79_sine.

Example C79_example : List.length [1; 2] = 2%nat /\ List.length [3; -4] = 2%nat /\ nonzero [1; 2] /\ nonzero [3; -4] /\
  directional_coefficient [3; -4] 2 (scale 7 [3; -4]) = Fin 2.
Proof.
  assert (N : nonzero [3; -4]) by (exists O; simpl; lra). assert (M : nonzero [1; 2]) by (exists O; simpl; lra).
  repeat (split; [first [reflexivity|assumption]|]).
  destruct (directional_props 2 [3; -4] 2 [1; 2] eq_refl eq_refl N M) as [_ [_ [_ [H _]]]]. apply H. lra.
Qed.

Theorem C79_uniform_in_bounds :
  forall G uniform normal exponential, valid_uniform uniform ->
  forall P (g : G) n is_list (b0 b1 m v s : param P) pts,
  (is_list = true \/ ((forall f, b0 <> Fun f) /\ forall f, b1 <> Fun f)) ->
  one_per_point n (at_points pts b0) -> one_per_point n (at_points pts b1) -> one_per_point n (at_points pts m) ->
  exists g' xs, snd (sample_x G uniform normal exponential g n "uniform" is_list b0 b1 m v s pts) = Ok (g', Some xs) /\ List.length xs = n /\
    forall i, (i < n)%nat -> entry (at_points pts b0) i <= entry (at_points pts b1) i ->
      entry (at_points pts b0) i + entry (at_points pts m) i <= nth i xs 0 <= entry (at_points pts b1) i + entry (at_points pts m) i.
Proof. exact sx_uniform. Qed.
Print Assumptions C79_uniform_in_bounds.

Example C79_example_uniform : valid_uniform low_uniform /\
  one_per_point 2 (at_points [[1]; [2]] (Fun (fun q : matrix R => Ar (column q 0)))) /\
  entry (at_points [[1]; [2]] (Fun (fun q : matrix R => Ar (column q 0)))) 1 <= entry (at_points [[1]; [2]] (Val (Sc 5))) 1.
Proof. split; [exact low_uniform_ok|]. split; [reflexivity|]. simpl. lra. Qed.

(** C110 *)
Theorem C110_wrapper_combines_per_point :
  forall P f (c1 c2 : P -> list R) cs pts n, (forall c, In c (c1 :: c2 :: cs) -> List.length (c pts) = n) ->
  exists l, coefficient_wrapper (Reduction f) (c1 :: c2 :: cs) pts = Ok (Ar l) /\ List.length l = n /\
    forall i, (i < n)%nat -> nth i l 0 = f (map (fun c => nth i (c pts) 0) (c1 :: c2 :: cs)).
Proof. exact (@wrapper_many). Qed.
Print Assumptions C110_wrapper_combines_per_point.

(** It works for one or more coefficients with a reduction, and for exactly one with
    an elementwise operator, which is then applied point by point. *)
Theorem C110_wrapper_other_counts :
  forall P op (cs : list (P -> list R)) pts n, (forall c, In c cs -> List.length (c pts) = n) ->
  ((exists v, coefficient_wrapper op cs pts = Ok v) <-> cs <> [] /\ ((exists f, op = Reduction f) \/ List.length cs = 1%nat)) /\
  forall f c, op = Elementwise f -> cs = [c] ->
    exists l, coefficient_wrapper op cs pts = Ok (Ar l) /\ List.length l = n /\ forall i, (i < n)%nat -> nth i l 0 = f (nth i (c pts) 0).
Proof. exact (@wrapper_succeeds). Qed.
Print Assumptions C110_wrapper_other_counts.

(** Summing a single coefficient is not that coefficient. *)
Theorem C110_sum_of_one_refuted :
  ~ (forall (c : list (list R) -> list R) pts, coefficient_wrapper (Reduction Rsum) [c] pts = Ok (Ar (c pts))) /\
  (forall (c : list (list R) -> list R) pts, coefficient_wrapper (Reduction Rsum) [c] pts = Ok (Sc (Rsum (c pts)))).
Proof. split; [intros H; specialize (H (fun _ => []) []); discriminate|reflexivity]. Qed.
Print Assumptions C110_sum_of_one_refuted.

Example C110_example :
  coefficient_wrapper (Reduction Rsum) [fun q : list R => map (Rmult 2) q; fun q => map (Rplus 1) q] [3; 5] = Ok (Ar [2 * 3 + (1 + 3 + 0); 2 * 5 + (1 + 5 + 0)]).
Proof. reflexivity. Qed.

(** C111 *)
Theorem C111_sampled_points :
  forall G uniform choice_with, valid_uniform uniform -> valid_choice_with choice_with ->
  forall (g : G) n dim B T g' pts, sample_points G uniform choice_with g n dim B T = Ok (g', pts) ->
    rect pts n dim /\ forall i d, (i < n)%nat -> (d < dim)%nat -> admissible B T d (mget 0 pts i d).
Proof. exact points_spec. Qed.
Print Assumptions C111_sampled_points.

Theorem C111_sampling_succeeds :
  forall G uniform choice_with (g : G) n dim B T, (forall d, (d < dim)%nat -> usable_dimension B T d) ->
  exists r, sample_points G uniform choice_with g n dim B T = Ok r.
Proof. exact points_ok. Qed.
Print Assumptions C111_sampling_succeeds.

(** bounds=[-1, 1] is not bounds=(-1, 1): the list is read as one entry per dimension. *)
Theorem C111_flat_list_raises :
  forall G uniform choice_with (g : G) n dim a l, (0 < dim)%nat ->
  sample_points G uniform choice_with g n dim (BList (Num a :: l)) (TOne "continuous") = Raise TypeError.
Proof. exact points_flat_list. Qed.
Print Assumptions C111_flat_list_raises.

Example C111_example : valid_uniform low_uniform /\ valid_choice_with zero_choice /\
  (forall d, (d < 2)%nat -> usable_dimension (BList [Seq [0; 1]; Seq [3; 4; 5]]) (TList ["continuous"; "discrete"]) d) /\
  sample_points nat low_uniform zero_choice O 2 2 (BList [Seq [0; 1]; Seq [3; 4; 5]]) (TList ["continuous"; "discrete"]) = Ok (2%nat, [[0; 3]; [0; 3]]).
Proof.
  split; [exact low_uniform_ok|]. split; [exact zero_choice_ok|]. split; [|reflexivity].
  intros [|[|d]] Hd; [| |lia].
  - exists "continuous". split; [reflexivity|]. left. split; [reflexivity|]. exists 0, 1, []. reflexivity.
  - exists "discrete". split; [reflexivity|]. right; left. split; [reflexivity|]. exists 3, [4; 5]. reflexivity.
Qed.

(** C112 *)
Theorem C112_normal :
  forall G uniform normal exponential P (g : G) n is_list (b0 b1 m v s : param P) pts,
  (is_list = true \/ ((forall f, b0 <> Fun f) /\ forall f, b1 <> Fun f)) -> one_per_point n (at_points pts v) -> one_per_point n (at_points pts m) ->
  exists xs, snd (sample_x G uniform normal exponential g n "normal" is_list b0 b1 m v s pts) = Ok (fst (normal g n), Some xs) /\ List.length xs = n /\
    forall i, (i < n)%nat -> nth i xs 0 = nth i (snd (normal g n)) 0 * entry (at_points pts v) i + entry (at_points pts m) i.
Proof. exact sx_normal. Qed.
Print Assumptions C112_normal.

(** Relied on: [variance] is the variance.  It multiplies the standard deviation. *)
Theorem C112_variance_refuted :
  forall G uniform normal exponential, valid_normal normal ->
  forall P (g : G) n is_list (b0 b1 s : param P) pts m v, (0 < n)%nat ->
  (is_list = true \/ ((forall f, b0 <> Fun f) /\ forall f, b1 <> Fun f)) ->
  exists xs, snd (sample_x G uniform normal exponential g n "normal" is_list b0 b1 (Val (Sc m)) (Val (Sc v)) s pts) = Ok (fst (normal g n), Some xs) /\
    sample_mean xs = v * sample_mean (snd (normal g n)) + m /\
    sample_variance xs = v ^ 2 * sample_variance (snd (normal g n)) /\
    (0 < v -> v <> 1 -> sample_variance (snd (normal g n)) <> 0 -> sample_variance xs <> v * sample_variance (snd (normal g n))).
Proof.
  intros G uniform normal exponential VN P g n il b0 b1 s pts m v Hn A.
  destruct (sx_normal G uniform normal exponential P g n il b0 b1 (Val (Sc m)) (Val (Sc v)) s pts A I I) as [xs [E [L H]]].
  exists xs. split; [exact E|]. destruct (affine_moments n (snd (normal g n)) xs v m Hn (VN g n) L H) as [E1 E2].
  split; [exact E1|]. split; [exact E2|]. intros Hv N1 N0 E3. rewrite E2 in E3. apply N1.
  apply (Rmult_eq_reg_r (v * sample_variance (snd (normal g n)))); [lra|]. apply Rmult_integral_contrapositive. split; lra.
Qed.
Print Assumptions C112_variance_refuted.

Theorem C112_exponential :
  forall G uniform normal exponential, valid_exponential exponential ->
  forall P (g : G) n is_list (b0 b1 m v s : param P) pts,
  (is_list = true \/ ((forall f, b0 <> Fun f) /\ forall f, b1 <> Fun f)) -> one_per_point n (at_points pts s) ->
  exists xs, snd (sample_x G uniform normal exponential g n "exponential" is_list b0 b1 m v s pts) = Ok (fst (exponential g n), Some xs) /\ List.length xs = n /\
    (forall i, (i < n)%nat -> nth i xs 0 = nth i (snd (exponential g n)) 0 * entry (at_points pts s) i) /\
    (forall i, (i < n)%nat -> 0 <= entry (at_points pts s) i -> 0 <= nth i xs 0).
Proof. exact sx_exponential. Qed.
Print Assumptions C112_exponential.

(** An unknown distribution name gives None, not an error. *)
Theorem C112_unknown_distribution :
  forall G uniform normal exponential P (g : G) n t is_list (b0 b1 m v s : param P) pts,
  (is_list = true \/ ((forall f, b0 <> Fun f) /\ forall f, b1 <> Fun f)) -> t <> "uniform" -> t <> "normal" -> t <> "exponential" ->
  snd (sample_x G uniform normal exponential g n t is_list b0 b1 m v s pts) = Ok (g, None).
Proof. exact sx_unknown. Qed.
Print Assumptions C112_unknown_distribution.

Example C112_example : valid_normal ramp_normal /\ valid_exponential ramp_normal /\ sample_variance (snd (ramp_normal 0 2)) = 1 / 4.
Proof.
  split; [exact ramp_normal_ok|]. split; [exact ramp_exponential_ok|].
  unfold sample_variance, sample_mean, ramp_normal, Rsum. cbn [snd map seq fold_right List.length]. simpl INR. field.
Qed.

(** C113 *)
Theorem C113_bounds_overwritten :
  forall G uniform normal exponential P (g : G) n t (b0 b1 m v s : param P) pts,
  fst (sample_x G uniform normal exponential g n t true b0 b1 m v s pts) = (Val (at_points pts b0), Val (at_points pts b1)).
Proof. exact sx_bounds. Qed.
Print Assumptions C113_bounds_overwritten.

(** Relied on: a second call with other points uses the bound functions at those points. *)
Theorem C113_second_call_refuted :
  exists (f0 f1 : matrix R -> value) pts1 pts2,
  let first := sample_x nat low_uniform ramp_normal ramp_normal O 2 "uniform" true (Fun f0) (Fun f1) (Val (Sc 0)) (Val (Sc 1)) (Val (Sc 1)) pts1 in
  (forall i, (i < 2)%nat -> entry (f0 pts2) i <= entry (f1 pts2) i) /\ one_per_point 2 (f0 pts2) /\ one_per_point 2 (f1 pts2) /\
  exists g' xs, snd (sample_x nat low_uniform ramp_normal ramp_normal O 2 "uniform" true (fst (fst first)) (snd (fst first)) (Val (Sc 0)) (Val (Sc 1)) (Val (Sc 1)) pts2) = Ok (g', Some xs) /\
    nth 0 xs 0 < entry (f0 pts2) 0.
Proof.
  exists (fun q => Ar (column q 0)), (fun q => Ar (map (Rplus 1) (column q 0))), [[1]; [2]], [[5]; [6]].
  cbv zeta. split; [intros [|[|i]] Hi; simpl; lra || lia|]. split; [reflexivity|]. split; [reflexivity|].
  eexists _, _. split; [reflexivity|]. simpl. lra.
Qed.
Print Assumptions C113_second_call_refuted.

Theorem C113_tuple_raises :
  forall G uniform normal exponential P (g : G) n t (b0 b1 m v s : param P) pts, (exists f, b0 = Fun f \/ b1 = Fun f) ->
  snd (sample_x G uniform normal exponential g n t false b0 b1 m v s pts) = Raise TypeError.
Proof. exact sx_tuple. Qed.
Print Assumptions C113_tuple_raises.

Example C113_example : exists f, @Fun (matrix R) (fun q => Ar (column q 0)) = Fun f \/ @Val (matrix R) (Sc 1) = Fun f.
Proof. eexists. left. reflexivity. Qed.

(** C114 *)
Theorem C114_generated_sample :
  forall G uniform choice_with normal exponential, valid_uniform uniform -> valid_choice_with choice_with ->
  forall (seeded g0 : G) n mk, (forall g pts, List.length pts = n -> List.length (snd (mk g) pts) = n) ->
  exists gs X y pts g1 g2 g3, generate_sample G uniform choice_with normal exponential seeded g0 n f_interact (COne mk) = Ok (gs, (X, y, pts)) /\
    rect pts n 2 /\ (forall i d, (i < n)%nat -> (d < 2)%nat -> -10 <= mget 0 pts i d <= 10) /\
    rect X n 2 /\ List.length y = n /\
    forall i, (i < n)%nat ->
      Rabs (mget 0 X i 0 - nth i (snd (mk g1) pts) 0) <= 1 /\
      Rabs (mget 0 X i 1 - 3 * nth i (snd (mk g2) pts) 0) <= 2 /\
      nth i y 0 = nth i (snd (mk g3) pts) 0 * mget 0 X i 0 * mget 0 X i 1.
Proof. exact gen_interact. Qed.
Print Assumptions C114_generated_sample.

(** Relied on: one coefficient surface drives both the features and the response. *)
Theorem C114_same_coefficient_refuted :
  exists gs X y pts, generate_sample nat low_uniform zero_choice ramp_normal ramp_normal O O 1 f_interact (COne random_level) = Ok (gs, (X, y, pts)) /\
    ~ exists g, Rabs (mget 0 X 0 0 - nth 0 (snd (random_level g) pts) 0) <= 1 /\
                nth 0 y 0 = nth 0 (snd (random_level g) pts) 0 * mget 0 X 0 0 * mget 0 X 0 1.
Proof. exact coefficient_mismatch. Qed.
Print Assumptions C114_same_coefficient_refuted.

(** It does when the coefficient function ignores the random state. *)
Theorem C114_same_coefficient_deterministic :
  forall G uniform choice_with normal exponential, valid_uniform uniform -> valid_choice_with choice_with ->
  forall (seeded g0 : G) n mk (c : matrix R -> list R), (forall g, snd (mk g) = c) -> (forall pts, List.length pts = n -> List.length (c pts) = n) ->
  exists gs X y pts, generate_sample G uniform choice_with normal exponential seeded g0 n f_interact (COne mk) = Ok (gs, (X, y, pts)) /\
    forall i, (i < n)%nat ->
      Rabs (mget 0 X i 0 - nth i (c pts) 0) <= 1 /\ Rabs (mget 0 X i 1 - 3 * nth i (c pts) 0) <= 2 /\
      nth i y 0 = nth i (c pts) 0 * mget 0 X i 0 * mget 0 X i 1.
Proof.
  intros G uniform choice_with normal exponential VU VC seeded g0 n mk c Hc HL.
  destruct (gen_interact G uniform choice_with normal exponential VU VC seeded g0 n mk) as [gs [X [y [pts [g1 [g2 [g3 [E [_ [_ [_ [_ H]]]]]]]]]]]].
  { intros g pts Hp. rewrite Hc. auto. }
  exists gs, X, y, pts. split; [exact E|]. intros i Hi. specialize (H i Hi). rewrite !Hc in H. exact H.
Qed.
Print Assumptions C114_same_coefficient_deterministic.

(** The result does not depend on the random state before the call; a list of
    coefficient functions and [f_square_2] never work. *)
Theorem C114_reproducible_and_unusable_arguments :
  forall G uniform choice_with normal exponential, valid_uniform uniform -> valid_choice_with choice_with ->
  forall (seeded g0 g0' : G) n f c,
  generate_sample G uniform choice_with normal exponential seeded g0 n f c = generate_sample G uniform choice_with normal exponential seeded g0' n f c /\
  (forall l, generate_sample G uniform choice_with normal exponential seeded g0 n f (CMany l) = Raise TypeError) /\
  (forall mk, (forall g pts, List.length pts = n -> List.length (snd (mk g) pts) = n) ->
     generate_sample G uniform choice_with normal exponential seeded g0 n f_square_2 (COne mk) = Raise IndexError).
Proof.
  intros G uniform choice_with normal exponential VU VC seeded g0 g0' n f c. split; [reflexivity|]. split.
  - intros l. apply gen_list; auto.
  - intros mk M. apply gen_square; auto.
Qed.
Print Assumptions C114_reproducible_and_unusable_arguments.

Example C114_example : valid_uniform low_uniform /\ valid_choice_with zero_choice /\
  (forall g pts, List.length pts = 3%nat -> List.length (snd (random_level g) pts) = 3%nat).
Proof. split; [exact low_uniform_ok|]. split; [exact zero_choice_ok|]. exact (random_level_ok 3). Qed.

(** C115 *)
Theorem C115_responses :
  forall c x y,
  (c <> 0 -> Rabs (sigmoid_function c x) < Rabs c) /\
  sigmoid_function c (- x) = - sigmoid_function c x /\
  (0 < c -> x < y -> sigmoid_function c x < sigmoid_function c y) /\
  (x <= 0 -> relu_function c x = 0) /\ (0 <= x -> relu_function c x = linear_function c x) /\
  square_function c x = c * (x * x) /\ linear_function c x = c * x /\
  interaction_function c x y = interaction_function c y x /\
  (0 < c -> x < y -> 0 < exponential_function c x < exponential_function c y).
Proof. exact response_props. Qed.
Print Assumptions C115_responses.

Example C115_example : 3 <> 0 /\ 0 < 3 /\ -1 < 2 /\ relu_function 3 2 = 6.
Proof. repeat split; try lra. unfold relu_function. rewrite Rmax_right; lra. Qed.

(** C116.  [bump_ok] is spelled out. *)
Theorem C116_random_bumps :
  forall G uniform choice_with, valid_uniform uniform -> valid_choice_with choice_with ->
  forall rounds (g : G) lo hi, 0 < lo <= hi ->
  List.length (snd (auto_bumps G uniform choice_with rounds g lo hi)) = rounds /\
  Forall (fun b => List.length (b_center b) = 2%nat /\ (forall x, In x (b_center b) -> -10 <= x <= 10) /\
    1 <= Rabs (b_amplitude b) <= 2 /\ lo <= b_sigma1 b <= hi /\ lo <= b_sigma2 b <= hi /\
    semidefinite2 (b_sigma1 b) (b_cov b) (b_sigma2 b) /\
    (definite2 (b_sigma1 b) (b_cov b) (b_sigma2 b) <-> Rabs (b_cov b) <> sqrt (b_sigma1 b * b_sigma2 b)))
   (snd (auto_bumps G uniform choice_with rounds g lo hi)).
Proof. exact auto_bumps_ok. Qed.
Print Assumptions C116_random_bumps.

(** NumPy's uniform may return its lower end, so a singular covariance (rejected by
    SciPy) can be drawn. *)
Theorem C116_always_definite_refuted :
  ~ (forall rounds g lo hi, 0 < lo <= hi ->
     Forall (fun b => definite2 (b_sigma1 b) (b_cov b) (b_sigma2 b)) (snd (auto_bumps nat low_uniform zero_choice rounds g lo hi))).
Proof.
  intros H. specialize (H 1%nat O 1 2 ltac:(lra)). inversion H as [|b l Hb _]; subst. cbn in Hb.
  specialize (Hb 1 1 ltac:(left; lra)). replace (sqrt (1 * 1)) with 1 in Hb by (rewrite Rmult_1_r, sqrt_1; reflexivity). lra.
Qed.
Print Assumptions C116_always_definite_refuted.

Example C116_example : 0 < 1 / 2 <= 5 /\ valid_uniform low_uniform /\ valid_choice_with zero_choice.
Proof. split; [lra|]. split; [exact low_uniform_ok|exact zero_choice_ok]. Qed.
