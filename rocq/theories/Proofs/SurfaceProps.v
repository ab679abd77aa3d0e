From Coq Require Import Lra Lia Psatz.
From Verif.Model Require Import Base Ext Simulation Surfaces.
From Verif.Spec Require Import DistanceSpec SimulationSpec SurfaceSpec.
From Verif.Proofs Require Import ListFacts SumFacts KernelFacts CsrFacts SimulationProps SimulationProps2 SimulationProps3.
Open Scope string_scope.
Open Scope nat_scope.
Open Scope R_scope.

(** ** pieces *)
Lemma radial_value x y : coef_radial [x; y] = Fin (distance_part x y).
Proof.
  unfold coef_radial, radial_coefficient, norm, distance_part. cbn [map2 map]. rewrite !Rsum_cons, Rsum_nil. f_equal.
  replace ((x - 0) * (x - 0) + ((y - 0) * (y - 0) + 0)) with (x ^ 2 + y ^ 2) by ring. unfold Rdiv. ring.
Qed.
Lemma nonzero2 x y : x <> 0 \/ y <> 0 -> nonzero [x; y].
Proof. intros [H|H]; [exists O|exists 1%nat]; exact H. Qed.
Lemma norm2_pos x y : x <> 0 \/ y <> 0 -> 0 < x ^ 2 + y ^ 2.
Proof. intros [H|H]; [assert (0 < x ^ 2) by nra|assert (0 < y ^ 2) by nra]; nra. Qed.
Lemma dir_value x y : x <> 0 \/ y <> 0 -> coef_dir [x; y] = Fin (direction_part x y).
Proof.
  intros H. unfold coef_dir.
  destruct (directional_props 2 [1; 1] 1 [x; y] eq_refl eq_refl ltac:(apply nonzero2; lra) (nonzero2 x y H)) as [[v [E [V _]]] _].
  rewrite E, V. f_equal. unfold direction_part, len, inner. cbn [map seq nth]. rewrite !Rsum_cons, Rsum_nil.
  replace (x * x + (y * y + 0)) with (x ^ 2 + y ^ 2) by ring. replace (1 * 1 + (1 * 1 + 0)) with 2 by ring.
  replace (x * 1 + (y * 1 + 0)) with (x + y) by ring. rewrite (Rmult_comm (sqrt (x ^ 2 + y ^ 2))). ring.
Qed.
Lemma dir_origin : coef_dir [0; 0] = NaN.
Proof. apply directional_zero. right. intros [|[|[|i]]]; reflexivity. Qed.
Lemma dir_bound x y : x <> 0 \/ y <> 0 -> -1 <= direction_part x y <= 1.
Proof.
  intros H.
  destruct (directional_props 2 [1; 1] 1 [x; y] eq_refl eq_refl ltac:(apply nonzero2; lra) (nonzero2 x y H)) as [[v [E [V B]]] _].
  pose proof (dir_value x y H) as E'. unfold coef_dir in E'. rewrite E in E'. injection E' as <-.
  rewrite Rabs_R1 in B. pose proof (Rle_abs v). pose proof (Rle_abs (- v)). rewrite Rabs_Ropp in *. lra.
Qed.
Lemma distance_bound x y : in_square x y -> 0 <= distance_part x y <= 1.
Proof.
  intros [[H1 H2] [H3 H4]]. unfold distance_part.
  assert (P : 0 < sqrt 200) by (apply sqrt_lt_R0; lra).
  assert (Q : sqrt (x ^ 2 + y ^ 2) <= sqrt 200) by (apply sqrt_le_1_alt; nra).
  pose proof (sqrt_pos (x ^ 2 + y ^ 2)). split.
  - apply Rmult_le_pos; [auto|]. left. apply Rinv_0_lt_compat. auto.
  - apply (Rmult_le_reg_r (sqrt 200)); auto. unfold Rdiv. rewrite Rmult_assoc, Rinv_l by lra. lra.
Qed.

Section Gauss.
  Variable precision : covariance -> list (list R).
  Variable lognorm : covariance -> R.
  Hypothesis VP : valid_precision precision.
  Notation gaussian := (gaussian precision lognorm).

  Lemma gaussian_value mx my a b c h : 0 < a -> b ^ 2 < a * c ->
    exists k, gaussian [mx; my] (a, b, c) h = Ok k /\ forall x y, k [x; y] = Fin (bump_at mx my a b c h x y).
  Proof.
    intros Ha Hb. unfold Surfaces.gaussian. rewrite (proj2 (Rltb_true 0 a)) by auto.
    rewrite (proj2 (Rltb_true 0 (a * c - b * b))) by nra. eexists. split; [reflexivity|]. intros x y. cbv beta. f_equal.
    rewrite gaussian_eq. unfold bump_at. f_equal. f_equal. destruct (VP a b c Ha Hb) as [Sh Q].
    rewrite <- (Q (x - mx) (y - my)). unfold quad. 
    replace (map (fun u => dot (map2 Rminus [x; y] [mx; my]) u * dot (map2 Rminus [x; y] [mx; my]) u) (precision (a, b, c)))
      with (map (fun u => ((x - mx) * nth 0 u 0 + (y - my) * nth 1 u 0) ^ 2) (precision (a, b, c))); [lra|].
    apply map_ext_in. intros u Hu. destruct (Sh u Hu) as [u1 [u2 ->]]. unfold dot. cbn [map2 nth]. rewrite !Rsum_cons, Rsum_nil. ring.
  Qed.
  Lemma bump_round mx my v h x y : 0 < v -> bump_at mx my v 0 v h x y = round_bump mx my v h x y.
  Proof. intros. unfold bump_at, round_bump, quadratic_form. do 2 f_equal. field. lra. Qed.
  Lemma scalar_value mx my v h : 0 < v ->
    exists k, gaussian [mx; my] (scalar v) h = Ok k /\ forall x y, k [x; y] = Fin (round_bump mx my v h x y).
  Proof.
    intros H. destruct (gaussian_value mx my v 0 v h) as [k [E K]]; [auto|nra|]. exists k. split; [exact E|].
    intros x y. rewrite K, bump_round; auto.
  Qed.

  Lemma quadratic_form_nonneg a b c x y : 0 < a -> b ^ 2 < a * c -> 0 <= quadratic_form a b c x y.
  Proof.
    intros Ha Hb. unfold quadratic_form. apply Rmult_le_pos; [|left; apply Rinv_0_lt_compat; lra].
    assert (Hc : 0 < c) by nra. 
    assert (0 <= a * (c * x ^ 2 - 2 * b * x * y + a * y ^ 2)).
    { replace (a * (c * x ^ 2 - 2 * b * x * y + a * y ^ 2)) with ((a * y - b * x) ^ 2 + (a * c - b ^ 2) * x ^ 2) by ring.
      pose proof (pow2_ge_0 (a * y - b * x)). pose proof (pow2_ge_0 x). nra. }
    nra.
  Qed.
  Lemma bump_bound mx my a b c h x y : 0 < a -> b ^ 2 < a * c ->
    (0 < h -> 0 < bump_at mx my a b c h x y <= h) /\ (h < 0 -> h <= bump_at mx my a b c h x y < 0) /\ Rabs (bump_at mx my a b c h x y) <= Rabs h.
  Proof.
    intros Ha Hb. unfold bump_at. pose proof (quadratic_form_nonneg a b c (x - mx) (y - my) Ha Hb).
    set (e := exp _). assert (0 < e) by apply exp_pos. assert (e <= 1) by (apply exp_le_1; lra).
    split; [intros; nra|]. split; [intros; nra|]. rewrite Rabs_mult, (Rabs_right e) by lra. pose proof (Rabs_pos h). nra.
  Qed.
  Lemma round_bound mx my v h x y : 0 < v ->
    (0 < h -> 0 < round_bump mx my v h x y <= h) /\ (h < 0 -> h <= round_bump mx my v h x y < 0).
  Proof. intros Hv. rewrite <- bump_round by auto. pose proof (bump_bound mx my v 0 v h x y Hv ltac:(nra)). tauto. Qed.

  (** ** coef_strong *)
  Lemma strong_ok : exists c, coef_strong precision lognorm = Ok c /\
    (forall x y, x <> 0 \/ y <> 0 -> c [x; y] = Fin (strong_surface x y)) /\ c [0; 0] = NaN.
  Proof.
    unfold coef_strong.
    destruct (scalar_value (-5) 5 3 1 ltac:(lra)) as [k1 [E1 K1]]. rewrite E1. cbn [bind].
    destruct (scalar_value (-5) (-5) 3 2 ltac:(lra)) as [k2 [E2 K2]]. rewrite E2. cbn [bind].
    eexists. split; [reflexivity|]. split.
    - intros x y H. unfold add_up. cbn [map]. rewrite radial_value, dir_value, K1, K2 by auto. unfold esum. cbn [fold_right eadd].
      f_equal. unfold strong_surface, sine_coefficient, dot. cbn [map2]. rewrite !Rsum_cons, Rsum_nil.
      replace ((x * -1 + (y * 1 + 0)) * 1) with (y - x) by ring. replace ((x * 1 + (y * 1 + 0)) * 1) with (x + y) by ring. ring.
    - unfold add_up. cbn [map]. rewrite radial_value, dir_origin. reflexivity.
  Qed.
  Lemma strong_bounds x y : in_square x y -> x <> 0 \/ y <> 0 -> -3 < strong_surface x y <= 7.
  Proof.
    intros S N. unfold strong_surface. pose proof (distance_bound x y S). pose proof (dir_bound x y N).
    pose proof (SIN_bound (y - x)). pose proof (SIN_bound (x + y)).
    destruct (round_bound (-5) 5 3 1 x y ltac:(lra)) as [B1 _]. destruct (round_bound (-5) (-5) 3 2 x y ltac:(lra)) as [B2 _].
    specialize (B1 ltac:(lra)). specialize (B2 ltac:(lra)). lra.
  Qed.

  (** ** coef_manual_gau *)
  Lemma manual_ok : exists c, coef_manual_gau precision lognorm = Ok c /\ forall x y, c [x; y] = Fin (manual_surface x y).
  Proof.
    unfold coef_manual_gau.
    destruct (gaussian_value (-5) 5 3 4 8 (-1) ltac:(lra) ltac:(lra)) as [k1 [E1 K1]]. rewrite E1. cbn [bind].
    destruct (scalar_value (-2) (-5) 5 2 ltac:(lra)) as [k2 [E2 K2]]. rewrite E2. cbn [bind].
    destruct (scalar_value 8 3 10 (- (3 / 2)) ltac:(lra)) as [k3 [E3 K3]]. rewrite E3. cbn [bind].
    destruct (gaussian_value 2 8 3 0 15 (8 / 10) ltac:(lra) ltac:(lra)) as [k4 [E4 K4]]. rewrite E4. cbn [bind].
    destruct (scalar_value 5 (-10) 1 1 ltac:(lra)) as [k5 [E5 K5]]. rewrite E5. cbn [bind].
    destruct (scalar_value (-10) (-10) 15 (3 / 2) ltac:(lra)) as [k6 [E6 K6]]. rewrite E6. cbn [bind].
    destruct (scalar_value (-11) 0 5 2 ltac:(lra)) as [k7 [E7 K7]]. rewrite E7. cbn [bind].
    eexists. split; [reflexivity|]. intros x y. unfold add_up. cbn [map].
    rewrite radial_value, K1, K2, K3, K4, K5, K7. unfold esum. cbn [fold_right eadd]. f_equal. unfold manual_surface. ring.
  Qed.
  Lemma manual_bounds x y : in_square x y -> - (5 / 2) < manual_surface x y <= 68 / 10.
  Proof.
    intros S. unfold manual_surface. pose proof (distance_bound x y S).
    destruct (bump_bound (-5) 5 3 4 8 (-1) x y ltac:(lra) ltac:(lra)) as [_ [B1 _]].
    destruct (round_bound (-2) (-5) 5 2 x y ltac:(lra)) as [B2 _].
    destruct (round_bound 8 3 10 (- (3 / 2)) x y ltac:(lra)) as [_ B3].
    destruct (bump_bound 2 8 3 0 15 (8 / 10) x y ltac:(lra) ltac:(lra)) as [B4 _].
    destruct (round_bound 5 (-10) 1 1 x y ltac:(lra)) as [B5 _].
    destruct (round_bound (-11) 0 5 2 x y ltac:(lra)) as [B6 _].
    specialize (B1 ltac:(lra)). specialize (B2 ltac:(lra)). specialize (B3 ltac:(lra)). specialize (B4 ltac:(lra)). specialize (B5 ltac:(lra)). specialize (B6 ltac:(lra)). lra.
  Qed.
End Gauss.

(** ** coef_auto_gau *)
Section Auto.
  Variable precision : covariance -> list (list R).
  Variable lognorm : covariance -> R.
  Hypothesis VP : valid_precision precision.
  Variable G : Type.
  Variable uniform : G -> R -> R -> nat -> G * list R.
  Variable choice_with : G -> list R -> nat -> G * list R.
  Hypothesis VU : valid_uniform uniform.
  Hypothesis VC : valid_choice_with choice_with.

  Notation mk := (fun b => gaussian precision lognorm (b_center b) (b_sigma1 b, b_cov b, b_sigma2 b) (b_amplitude b)).
  Lemma bump_cases lo hi b : 0 < lo -> bump_ok lo hi b ->
    (singular b /\ mk b = Raise ValueError) \/
    (~ singular b /\ 0 < b_sigma1 b /\ b_cov b ^ 2 < b_sigma1 b * b_sigma2 b /\
     exists k, mk b = Ok k /\ forall x y, k [x; y] = Fin (bump_value b x y)).
  Proof.
    intros Hlo [L [_ [_ [S1 [S2 [_ D]]]]]]. rewrite pd2 in D by lra. unfold singular.
    destruct (Req_dec (Rabs (b_cov b)) (sqrt (b_sigma1 b * b_sigma2 b))) as [E|N].
    - left. split; [auto|]. unfold gaussian. rewrite (proj2 (Rltb_true 0 (b_sigma1 b))) by lra.
      assert (~ b_cov b * b_cov b < b_sigma1 b * b_sigma2 b) by tauto.
      replace (Rltb 0 (b_sigma1 b * b_sigma2 b - b_cov b * b_cov b)) with false; [reflexivity|].
      symmetry. apply Rltb_false. lra.
    - right. apply D in N as N'. assert (Q : b_cov b ^ 2 < b_sigma1 b * b_sigma2 b) by (simpl; lra).
      split; [auto|]. split; [lra|]. split; [auto|]. destruct (b_center b) as [|mx [|my [|z l]]] eqn:EC; try discriminate.
      destruct (gaussian_value precision lognorm VP mx my (b_sigma1 b) (b_cov b) (b_sigma2 b) (b_amplitude b) ltac:(lra) Q) as [k [E K]].
      exists k. split; [exact E|]. intros x y. rewrite K. unfold bump_value. rewrite EC. reflexivity.
  Qed.
  Lemma bumps_cases lo hi bs : 0 < lo -> Forall (bump_ok lo hi) bs ->
    (Exists singular bs /\ mapM mk bs = Raise ValueError) \/
    (Forall (fun b => ~ singular b) bs /\ exists ks, mapM mk bs = Ok ks /\
      (forall x y, esum (map (fun k => k [x; y]) ks) = Fin (Rsum (map (fun b => bump_value b x y) bs))) /\
      forall x y, Rabs (Rsum (map (fun b => bump_value b x y) bs)) <= 2 * INR (List.length bs)).
  Proof.
    intros Hlo F. induction F as [|b bs Hb _ IH]; cbn [mapM].
    { right. split; [constructor|]. exists []. split; [reflexivity|]. split; [reflexivity|]. intros. cbn [map List.length INR]. rewrite Rsum_nil, Rabs_R0. lra. }
    destruct (bump_cases lo hi b Hlo Hb) as [[S E]|[S [P1 [P2 [k [E K]]]]]]; rewrite E; cbn [bind].
    { left. split; [constructor; auto|reflexivity]. }
    destruct IH as [[S' E']|[S' [ks [E' [K' B']]]]]; rewrite E'; cbn [bind].
    { left. split; [apply Exists_cons_tl; auto|reflexivity]. }
    right. split; [constructor; auto|]. eexists. split; [reflexivity|]. split.
    - intros x y. cbn [map]. unfold esum in *. cbn [fold_right]. rewrite K', K, Rsum_cons. reflexivity.
    - intros x y. cbn [map]. rewrite Rsum_cons. cbn [List.length]. rewrite S_INR. specialize (B' x y).
      pose proof (bump_bound (nth 0 (b_center b) 0) (nth 1 (b_center b) 0) _ _ _ (b_amplitude b) x y P1 P2) as [_ [_ B]].
      destruct Hb as [_ [_ [HA _]]]. eapply Rle_trans; [apply Rabs_triang|]. unfold bump_value at 1. lra.
  Qed.

  Lemma auto_ok rounds lo hi g : 0 < lo <= hi ->
    let bs := snd (auto_bumps G uniform choice_with rounds g lo hi) in
    (Exists singular bs /\ coef_auto_gau precision lognorm G uniform choice_with rounds lo hi g = Raise ValueError) \/
    (~ Exists singular bs /\ exists g' c, coef_auto_gau precision lognorm G uniform choice_with rounds lo hi g = Ok (g', c) /\
       c [0; 0] = NaN /\
       forall x y, x <> 0 \/ y <> 0 ->
         let v := distance_part x y + direction_part x y + Rsum (map (fun b => bump_value b x y) bs) in
         c [x; y] = Fin v /\ (in_square x y -> Rabs v <= 2 * (INR rounds + 1))).
  Proof.
    intros H bs. unfold coef_auto_gau. destruct (auto_bumps_ok G uniform choice_with VU VC rounds g lo hi H) as [L F]. subst bs.
    destruct (auto_bumps G uniform choice_with rounds g lo hi) as [g' bs]. cbn [snd] in *.
    destruct (bumps_cases lo hi bs (proj1 H) F) as [[S E]|[S [ks [E [K B]]]]]; rewrite E; cbn [bind]; [left; auto|].
    right. split; [rewrite <- Forall_Exists_neg; auto|]. eexists _, _. split; [reflexivity|]. split.
    - unfold add_up. cbn [map]. rewrite radial_value, dir_origin. reflexivity.
    - intros x y N. cbv zeta. unfold add_up at 1. cbn [map]. rewrite radial_value, dir_value by auto.
      unfold add_up at 1. rewrite K. unfold esum. cbn [fold_right eadd]. split; [f_equal; ring|].
      intros S'. pose proof (distance_bound x y S'). pose proof (dir_bound x y N). specialize (B x y). rewrite L in B.
      set (s := Rsum _) in *. pose proof (Rle_abs s). pose proof (Rle_abs (- s)). rewrite Rabs_Ropp in *. apply Rabs_le. lra.
  Qed.
End Auto.

(** ** generators *)
Section Generators.
  Variable G : Type.
  Variable uniform : G -> R -> R -> nat -> G * list R.
  Variable choice_with : G -> list R -> nat -> G * list R.
  Variable normal exponential : G -> nat -> G * list R.
  Hypothesis VU : valid_uniform uniform.
  Hypothesis VC : valid_choice_with choice_with.

  Notation gen1 := (generate_one G uniform choice_with normal exponential).
  Notation gen2 := (generate_two G uniform choice_with normal exponential).

  Lemma one_square g n : exists g' pts, sample_points G uniform choice_with g n 2 (BOne (Seq [-10; 10])) (TOne "continuous") = Ok (g', pts) /\
    rect pts n 2 /\ forall i d, (i < n)%nat -> (d < 2)%nat -> -10 <= mget 0 pts i d <= 10.
  Proof.
    destruct (points_ok G uniform choice_with g n 2 (BOne (Seq [-10; 10])) (TOne "continuous")) as [[g' pts] E].
    { intros d Hd. exists "continuous". split; [reflexivity|]. left. split; [reflexivity|]. exists (-10), 10, []. reflexivity. }
    exists g', pts. split; [exact E|]. apply (points_spec G uniform choice_with VU VC) in E as [HR HA]. split; [exact HR|].
    intros i d Hi Hd. destruct (HA i d Hi Hd) as [HC _]. destruct (HC eq_refl) as [lo [hi [rest [Hb Hx]]]].
    assert (lo = -10 /\ hi = 10) as [-> ->] by (unfold bound_for in Hb; split; congruence).
    rewrite Rmin_left, Rmax_right in Hx by lra. exact Hx.
  Qed.
  Lemma feature_ok g n : exists g' x, sample_feature G uniform normal exponential g n = Ok (g', x) /\ List.length x = n /\
    forall i, (i < n)%nat -> -10 <= nth i x 0 <= 10.
  Proof.
    unfold sample_feature.
    destruct (sx_uniform G uniform normal exponential VU unit g n false (Val (Sc (-10))) (Val (Sc 10)) (Val (Sc 0)) (Val (Sc 1)) (Val (Sc 1)) tt)
      as [g2 [a [Ea [La Ha]]]]; [right; split; intros; discriminate|exact I|exact I|exact I|].
    rewrite Ea. cbn [bind fst snd]. exists g2, a. split; [reflexivity|]. split; [exact La|].
    intros i Hi. specialize (Ha i Hi). cbn [at_points entry] in Ha. lra.
  Qed.

  Lemma gen1_ok seeded g0 n f mk : exists g x pts, List.length x = n /\ in_bounds n 1 (map (fun v => [v]) x) pts /\
    gen1 seeded g0 n f mk = (c <- mk g ;; y <- f (Features 1 (map (fun v => [v]) x)) [snd c] pts ;;
                             Ok (fst c, (Features 1 (map (fun v => [v]) x), y, pts))).
  Proof.
    unfold generate_one. destruct (one_square seeded n) as [g1 [pts [EP [HR HB]]]]. rewrite EP. cbn [bind fst snd].
    destruct (feature_ok g1 n) as [g2 [x [EX [LX HX]]]]. rewrite EX. cbn [bind fst snd].
    exists g2, x, pts. split; [auto|]. split; [|reflexivity]. split; [|split; [auto|split; [|auto]]].
    - split; [rewrite map_length; auto|]. apply Forall_forall. intros r Hr. apply in_map_iff in Hr as [v [<- _]]. reflexivity.
    - intros i j Hi Hj. unfold mget. rewrite (nth_map_in (fun v => [v]) x i 0 []) by lia. destruct j; [|lia]. apply HX. auto.
  Qed.
  Lemma column_single x : column (map (fun v : R => [v]) x) 0 = x.
  Proof. unfold column. rewrite map_map. cbn [nth]. apply map_id. Qed.
  Lemma single_get x i : (i < List.length x)%nat -> mget 0 (map (fun v : R => [v]) x) i 0 = nth i x 0.
  Proof. intros. unfold mget. rewrite (nth_map_in (fun v => [v]) x i 0 []) by lia. reflexivity. Qed.

  (** The three response functions of one feature, as functions of coefficient and value. *)
  Lemma gen1_square seeded g0 n mk : (forall g, exists r, mk g = Ok r) ->
    exists g g' c X y pts, mk g = Ok (g', c) /\ gen1 seeded g0 n f_square mk = Ok (g', (Features 1 X, y, pts)) /\
      in_bounds n 1 X pts /\ List.length y = n /\
      forall i, (i < n)%nat -> nth i y NaN = emul (c (nth i pts [])) (Fin (mget 0 X i 0 ^ 2)).
  Proof.
    intros M. destruct (gen1_ok seeded g0 n f_square mk) as [g [x [pts [LX [IB E]]]]]. destruct (M g) as [[g' c] EM].
    exists g, g', c. rewrite E, EM. cbn [bind fst snd]. unfold f_square. cbn [getitem nth_error bind]. unfold feature. cbn [width rows].
    change (0 <? 1)%nat with true. cbv iota. cbn [bind]. rewrite column_single.
    assert (LP : List.length pts = n) by apply IB.
    eexists _, _, _. split; [reflexivity|]. split; [reflexivity|]. split; [exact IB|]. split.
    - rewrite map2_length, map_length. lia.
    - intros i Hi. rewrite (map2_nth _ _ _ i NaN 0 NaN) by (rewrite ?map_length; lia).
      rewrite (nth_map_in c pts i [] NaN) by lia. rewrite single_get by lia. reflexivity.
  Qed.
  Lemma gen1_const seeded g0 n mk : (forall g, exists r, mk g = Ok r) ->
    exists g g' c X y pts, mk g = Ok (g', c) /\ gen1 seeded g0 n f_square_const mk = Ok (g', (Features 1 X, y, pts)) /\
      in_bounds n 1 X pts /\ List.length y = n /\
      forall i, (i < n)%nat -> nth i y NaN = eadd (emul (c (nth i pts [])) (Fin (mget 0 X i 0 ^ 2))) (emul (c (nth i pts [])) (Fin 10)).
  Proof.
    intros M. destruct (gen1_ok seeded g0 n f_square_const mk) as [g [x [pts [LX [IB E]]]]]. destruct (M g) as [[g' c] EM].
    exists g, g', c. rewrite E, EM. cbn [bind fst snd]. unfold f_square_const. cbn [getitem nth_error bind]. unfold feature. cbn [width rows].
    change (0 <? 1)%nat with true. cbv iota. cbn [bind]. rewrite column_single.
    assert (LP : List.length pts = n) by apply IB.
    eexists _, _, _. split; [reflexivity|]. split; [reflexivity|]. split; [exact IB|]. split.
    - rewrite map2_length, map2_length, !map_length. lia.
    - intros i Hi. rewrite (map2_nth _ _ _ i NaN NaN NaN) by (rewrite ?map2_length, ?map_length; lia).
      rewrite (map2_nth _ _ _ i NaN 0 NaN) by (rewrite ?map_length; lia).
      rewrite (nth_map_in c pts i [] NaN) by lia. rewrite (nth_map_in (fun p => emul (c p) (Fin 10)) pts i [] NaN) by lia.
      rewrite single_get by lia. reflexivity.
  Qed.
  Lemma gen1_sigmoid seeded g0 n mk : (forall g, exists r, mk g = Ok r) ->
    exists g g' c X y pts, mk g = Ok (g', c) /\ gen1 seeded g0 n f_sigmoid mk = Ok (g', (Features 1 X, y, pts)) /\
      in_bounds n 1 X pts /\ List.length y = n /\
      forall i, (i < n)%nat -> nth i y NaN = emul (c (nth i pts [])) (Fin (tanh_ (mget 0 X i 0))).
  Proof.
    intros M. destruct (gen1_ok seeded g0 n f_sigmoid mk) as [g [x [pts [LX [IB E]]]]]. destruct (M g) as [[g' c] EM].
    exists g, g', c. rewrite E, EM. cbn [bind fst snd]. unfold f_sigmoid. cbn [getitem nth_error bind]. unfold feature. cbn [width rows].
    change (0 <? 1)%nat with true. cbv iota. cbn [bind]. rewrite column_single.
    assert (LP : List.length pts = n) by apply IB.
    eexists _, _, _. split; [reflexivity|]. split; [reflexivity|]. split; [exact IB|]. split.
    - rewrite map2_length, map_length. lia.
    - intros i Hi. rewrite (map2_nth _ _ _ i NaN 0 NaN) by (rewrite ?map_length; lia).
      rewrite (nth_map_in c pts i [] NaN) by lia. rewrite single_get by lia. reflexivity.
  Qed.
  Lemma gen1_two_features seeded g0 n mk : (forall g, exists r, mk g = Ok r) ->
    gen1 seeded g0 n f_square_two mk = Raise IndexError /\ gen1 seeded g0 n f_interaction mk = Raise IndexError.
  Proof.
    intros M. split.
    - destruct (gen1_ok seeded g0 n f_square_two mk) as [g [x [pts [LX [IB E]]]]]. destruct (M g) as [[g' c] EM]. rewrite E, EM. reflexivity.
    - destruct (gen1_ok seeded g0 n f_interaction mk) as [g [x [pts [LX [IB E]]]]]. destruct (M g) as [[g' c] EM]. rewrite E, EM. reflexivity.
  Qed.

  Lemma gen2_ok seeded g0 n f cf : exists g a b pts, List.length a = n /\ List.length b = n /\ in_bounds n 2 (map2 (fun u v => [u; v]) a b) pts /\
    gen2 seeded g0 n f cf = (c <- match cf with FuncList l => make_all G l g | OneFunc k => make_all G [k] g end ;;
                             y <- f (Features 2 (map2 (fun u v => [u; v]) a b)) (snd c) pts ;;
                             Ok (fst c, (Features 2 (map2 (fun u v => [u; v]) a b), y, pts))).
  Proof.
    unfold generate_two. destruct (one_square seeded n) as [g1 [pts [EP [HR HB]]]]. rewrite EP. cbn [bind fst snd].
    destruct (feature_ok g1 n) as [g2 [a [EA [LA HA]]]]. rewrite EA. cbn [bind fst snd].
    destruct (feature_ok g2 n) as [g3 [b [EB [LB HBb]]]]. rewrite EB. cbn [bind fst snd].
    exists g3, a, b, pts. split; [auto|]. split; [auto|]. split; [|reflexivity].
    split; [apply pair_rect; auto|split; [auto|split; [|auto]]].
    intros i j Hi Hj. destruct (pair_get a b n i LA LB Hi) as [E0 E1]. destruct j as [|[|j]]; [rewrite E0; auto|rewrite E1; auto|lia].
  Qed.

  Lemma gen2_square seeded g0 n k1 k2 : (forall g, exists r, k1 g = Ok r) -> (forall g, exists r, k2 g = Ok r) ->
    exists g1 g2 g3 c1 c2 X y pts, k1 g1 = Ok (g2, c1) /\ k2 g2 = Ok (g3, c2) /\
      gen2 seeded g0 n f_square_two (FuncList [k1; k2]) = Ok (g3, (Features 2 X, y, pts)) /\
      in_bounds n 2 X pts /\ List.length y = n /\
      forall i, (i < n)%nat -> nth i y NaN = eadd (emul (c1 (nth i pts [])) (Fin (mget 0 X i 0 ^ 2))) (emul (c2 (nth i pts [])) (Fin (mget 0 X i 1 ^ 2))).
  Proof.
    intros M1 M2. destruct (gen2_ok seeded g0 n f_square_two (FuncList [k1; k2])) as [g [a [b [pts [LA [LB [IB E]]]]]]].
    destruct (M1 g) as [[g2 c1] E1]. destruct (M2 g2) as [[g3 c2] E2].
    exists g, g2, g3, c1, c2. rewrite E. cbn [make_all]. rewrite E1. cbn [bind fst snd]. rewrite E2. cbn [bind fst snd].
    unfold f_square_two. cbn [getitem nth_error bind]. unfold feature. cbn [width rows].
    change (0 <? 2)%nat with true. change (1 <? 2)%nat with true. cbv iota. cbn [bind getitem nth_error].
    set (X := map2 (fun u v => [u; v]) a b).
    assert (LP : List.length pts = n) by apply IB. assert (LX : List.length X = n) by apply IB.
    exists X. eexists _, pts. split; [reflexivity|]. split; [reflexivity|]. split; [reflexivity|]. split; [exact IB|]. split.
    - unfold column. rewrite !map2_length, !map_length. lia.
    - intros i Hi. unfold column. rewrite (map2_nth _ _ _ i NaN NaN NaN) by (rewrite ?map2_length, ?map_length; lia).
      rewrite !(map2_nth _ _ _ i NaN 0 NaN) by (rewrite ?map_length; lia).
      rewrite (nth_map_in c1 pts i [] NaN), (nth_map_in c2 pts i [] NaN) by lia.
      rewrite (nth_map_in (fun r => nth 0 r 0) X i [] 0), (nth_map_in (fun r => nth 1 r 0) X i [] 0) by lia. reflexivity.
  Qed.
  Lemma gen2_interact seeded g0 n k : (forall g, exists r, k g = Ok r) ->
    exists g g' c X y pts, k g = Ok (g', c) /\
      gen2 seeded g0 n f_interaction (OneFunc k) = Ok (g', (Features 2 X, y, pts)) /\
      in_bounds n 2 X pts /\ List.length y = n /\
      forall i, (i < n)%nat -> nth i y NaN = emul (emul (c (nth i pts [])) (Fin (mget 0 X i 0))) (Fin (mget 0 X i 1)).
  Proof.
    intros M. destruct (gen2_ok seeded g0 n f_interaction (OneFunc k)) as [g [a [b [pts [LA [LB [IB E]]]]]]].
    destruct (M g) as [[g' c] EM]. exists g, g', c. rewrite E. cbn [make_all]. rewrite EM. cbn [bind fst snd].
    unfold f_interaction. cbn [getitem nth_error bind]. unfold feature. cbn [width rows].
    change (0 <? 2)%nat with true. change (1 <? 2)%nat with true. cbv iota. cbn [bind getitem nth_error].
    set (X := map2 (fun u v => [u; v]) a b).
    assert (LP : List.length pts = n) by apply IB. assert (LX : List.length X = n) by apply IB.
    exists X. eexists _, pts. split; [reflexivity|]. split; [reflexivity|]. split; [exact IB|]. split.
    - unfold column. rewrite map2_length, combine_length, !map_length. lia.
    - intros i Hi. unfold column. rewrite (map2_nth _ _ _ i NaN (0, 0) NaN) by (rewrite ?combine_length, ?map_length; lia).
      rewrite combine_nth by (rewrite !map_length; auto). rewrite (nth_map_in c pts i [] NaN) by lia.
      rewrite (nth_map_in (fun r => nth 0 r 0) X i [] 0), (nth_map_in (fun r => nth 1 r 0) X i [] 0) by lia. reflexivity.
  Qed.
  Lemma gen2_single_raises seeded g0 n k : (forall g, exists r, k g = Ok r) ->
    gen2 seeded g0 n f_square_two (OneFunc k) = Raise IndexError /\
    (forall f, (f = f_square \/ f = f_square_two \/ f = f_square_const \/ f = f_sigmoid \/ f = f_interaction) -> gen2 seeded g0 n f (FuncList []) = Raise IndexError).
  Proof.
    intros M. split.
    - destruct (gen2_ok seeded g0 n f_square_two (OneFunc k)) as [g [a [b [pts [LA [LB [IB E]]]]]]].
      destruct (M g) as [[g' c] EM]. rewrite E. cbn [make_all]. rewrite EM. reflexivity.
    - intros f Hf. destruct (gen2_ok seeded g0 n f (FuncList [])) as [g [a [b [pts [LA [LB [IB E]]]]]]]. rewrite E.
      destruct Hf as [ -> | [ -> | [ -> | [ -> | -> ]]]]; reflexivity.
  Qed.
End Generators.

(** ** instances *)
Definition counting_uniform (g : nat) (lo hi : R) (n : nat) : nat * list R := ((g + n)%nat, repeat lo n).
Lemma counting_uniform_ok : valid_uniform counting_uniform.
Proof. intros g lo hi n. cbn. split; [apply repeat_length|]. intros x Hx. apply repeat_spec in Hx. subst. split; [apply Rmin_l|apply Rmax_l]. Qed.
Definition drawn_level (g : nat) : result (nat * coefficient) := Ok (g, fun _ => Fin (INR g)).

(** a precision factor: columns of the Cholesky factor of the inverse *)
Definition cholesky (k : covariance) : list (list R) :=
  let '(a, b, c) := k in
  [[1 / sqrt a; 0]; [- b / a / sqrt ((a * c - b ^ 2) / a); 1 / sqrt ((a * c - b ^ 2) / a)]].
Lemma cholesky_ok : valid_precision cholesky.
Proof.
  intros a b c Ha Hb. split.
  - intros u [<-|[<-|[]]]; eauto.
  - intros x y. unfold cholesky. cbn [map nth]. rewrite !Rsum_cons, Rsum_nil. unfold quadratic_form.
    set (d := (a * c - b ^ 2) / a). assert (Hd : 0 < d) by (apply Rdiv_lt_0_compat; lra).
    pose proof (sqrt_lt_R0 a Ha) as Sa. pose proof (sqrt_lt_R0 d Hd) as Sd.
    pose proof (pow2_sqrt a ltac:(lra)) as Qa. pose proof (pow2_sqrt d ltac:(lra)) as Qd.
    replace ((x * (1 / sqrt a) + y * 0) ^ 2) with (x ^ 2 / sqrt a ^ 2) by (field; lra).
    replace ((x * (- b / a / sqrt d) + y * (1 / sqrt d)) ^ 2) with ((y - b / a * x) ^ 2 / sqrt d ^ 2) by (field; lra).
    rewrite Qa, Qd. unfold d. field. lra.
Qed.

Lemma two_rows (p : list R) : List.length p = 2%nat -> p = [nth 0 p 0; nth 1 p 0].
Proof. destruct p as [|a [|b [|c p]]]; try discriminate. reflexivity. Qed.

Lemma readme_sample G uniform choice_with normal exponential : valid_uniform uniform -> valid_choice_with choice_with ->
  forall precision lognorm, valid_precision precision ->
  forall (seeded g0 : G) n,
  exists gs X y pts,
    generate_one G uniform choice_with normal exponential seeded g0 n f_square
      (fun g => c <- coef_strong precision lognorm ;; Ok (g, c)) = Ok (gs, (Features 1 X, y, pts)) /\
    in_bounds n 1 X pts /\ List.length y = n /\
    forall i, (i < n)%nat ->
      let px := mget 0 pts i 0 in let py := mget 0 pts i 1 in let x := mget 0 X i 0 in
      (px = 0 /\ py = 0 -> nth i y NaN = NaN) /\
      (px <> 0 \/ py <> 0 -> exists v, nth i y NaN = Fin v /\ v = strong_surface px py * x ^ 2 /\ -300 <= v <= 700).
Proof.
  intros VU VC precision lognorm VP seeded g0 n. destruct (strong_ok precision lognorm VP) as [c [E [V N]]]. rewrite E. cbn [bind].
  destruct (gen1_square G uniform choice_with normal exponential VU VC seeded g0 n (fun g => Ok (g, c))) as [g [g' [c' [X [y [pts [EM [EG [IB [LY H]]]]]]]]]].
  { intros g. eexists. reflexivity. }
  injection EM as <- <-. exists g, X, y, pts. split; [exact EG|]. split; [exact IB|]. split; [exact LY|].
  intros i Hi. rewrite (H i Hi). set (px := mget 0 pts i 0). set (py := mget 0 pts i 1). set (x := mget 0 X i 0). destruct IB as [[LX RX] [[LP RP] [BX BP]]].
  assert (EP : nth i pts [] = [px; py]).
  { apply two_rows. rewrite Forall_forall in RP. apply RP. apply nth_In. rewrite LP. auto. }
  rewrite EP. split.
  - intros [-> ->]. rewrite N. reflexivity.
  - intros NZ. rewrite V by auto. cbn [emul]. eexists. split; [reflexivity|]. split; [reflexivity|].
    pose proof (strong_bounds px py) as SB. specialize (BX i 0%nat Hi ltac:(lia)). fold x in BX.
    pose proof (BP i 0%nat Hi ltac:(lia)) as B0. pose proof (BP i 1%nat Hi ltac:(lia)) as B1. fold px in B0. fold py in B1.
    specialize (SB (conj B0 B1) NZ). assert (0 <= x ^ 2 <= 100) by nra. nra.
Qed.

Lemma surface_depends_on_count :
  exists coef_func, (forall g, exists r, coef_func g = Ok r) /\
  exists g1 X1 y1 pts1 g2 X2 y2 pts2,
    generate_one nat counting_uniform zero_choice ramp_normal ramp_normal O O 1 f_square coef_func = Ok (g1, (Features 1 X1, y1, pts1)) /\
    generate_one nat counting_uniform zero_choice ramp_normal ramp_normal O O 2 f_square coef_func = Ok (g2, (Features 1 X2, y2, pts2)) /\
    nth 0 pts1 [] = nth 0 pts2 [] /\ mget 0 X1 0 0 = mget 0 X2 0 0 /\ nth 0 y1 NaN <> nth 0 y2 NaN.
Proof.
  exists drawn_level. split; [intros g; eexists; reflexivity|].
  eexists _, _, _, _, _, _, _, _. split; [reflexivity|]. split; [reflexivity|]. split; [reflexivity|]. split; [reflexivity|].
  cbn [nth map2 map]. cbn -[INR pow]. intros E. injection E as E. lra.
Qed.
