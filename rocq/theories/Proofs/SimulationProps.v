From Coq Require Import Lra Lia Psatz.
From Verif.Model Require Import Base Ext Distance Simulation.
From Verif.Spec Require Import DistanceSpec SimulationSpec.
From Verif.Proofs Require Import ListFacts SumFacts KernelFacts CsrFacts DistanceFacts MoranFacts.
Open Scope string_scope.
Open Scope nat_scope.
Open Scope R_scope.

(** ** vectors *)
Lemma dot_inner d p q : List.length p = d -> List.length q = d -> dot p q = inner d p q.
Proof.
  intros H1 H2. unfold dot, inner. f_equal. subst d.
  revert q H2; induction p as [|a p IH]; intros [|b q] H2; simpl in *; try lia; auto.
  f_equal. rewrite IH by lia. rewrite <- seq_shift, map_map. reflexivity.
Qed.
Lemma ssq_inner d p : List.length p = d -> ssq p = inner d p p.
Proof.
  intros H. rewrite <- (dot_inner d p p H H). unfold ssq, dot. f_equal. clear. induction p; simpl; congruence.
Qed.
Lemma norm_len d p : List.length p = d -> norm p = len d p.
Proof. intros H. unfold norm, len. rewrite <- (ssq_inner d p H). reflexivity. Qed.
Lemma norm_pos p : nonzero p -> 0 < norm p.
Proof.
  intros [i Hi]. unfold norm. apply sqrt_lt_R0. fold (ssq p).
  destruct (ssq_nonneg p) as [H|H]; auto. exfalso. apply Hi.
  destruct (Nat.lt_ge_cases i (List.length p)); [|apply nth_overflow; lia].
  apply (ssq_zero p (eq_sym H)). apply nth_In; auto.
Qed.
Lemma norm_sq p : norm p * norm p = ssq p.
Proof. apply sqrt_sqrt, ssq_nonneg. Qed.
Lemma norm_zero p : (forall i, nth i p 0 = 0) -> norm p = 0.
Proof.
  intros H. unfold norm. rewrite Rsum_zero; [apply sqrt_0|]. intros x Hx. apply in_map_iff in Hx as [y [<- Hy]].
  apply (In_nth _ _ 0) in Hy as [i [_ <-]]. rewrite H. ring.
Qed.
Lemma ssq_scale k p : ssq (scale k p) = k * k * ssq p.
Proof. induction p as [|a p IH]; [unfold ssq, scale; simpl; unfold Rsum; simpl; ring|]. cbn [scale map]. rewrite !ssq_cons. fold (scale k p). rewrite IH. ring. Qed.
Lemma norm_scale k p : norm (scale k p) = Rabs k * norm p.
Proof.
  unfold norm. fold (ssq p) (ssq (scale k p)). rewrite ssq_scale, sqrt_mult by (try nra; apply ssq_nonneg).
  f_equal. apply sqrt_Rsqr_abs.
Qed.
Lemma dot_scale_l k p q : dot (scale k p) q = k * dot p q.
Proof. unfold dot, scale. revert q; induction p as [|a p IH]; intros [|b q]; cbn [map map2]; rewrite ?Rsum_cons, ?Rsum_nil, ?IH; ring. Qed.
Lemma dot_scale_r k p q : dot p (map (fun x => x * k) q) = k * dot p q.
Proof. unfold dot. revert q; induction p as [|a p IH]; intros [|b q]; cbn [map map2]; rewrite ?Rsum_cons, ?Rsum_nil, ?IH; ring. Qed.
Lemma dot_plus_l p q r : List.length p = List.length q -> dot (plus p q) r = dot p r + dot q r.
Proof.
  unfold dot, plus. revert q r; induction p as [|a p IH]; intros [|b q] [|c r] H; simpl in H; try lia; cbn [map2]; rewrite ?Rsum_cons, ?Rsum_nil; try ring.
  rewrite IH by lia. ring.
Qed.
Lemma dot_self p : dot p p = ssq p.
Proof. unfold ssq, dot. f_equal. induction p; simpl; congruence. Qed.
Lemma abs_dot p q : List.length p = List.length q -> Rabs (dot p q) <= norm p * norm q.
Proof.
  intros H. apply Rsqr_incr_0_var; [|apply Rmult_le_pos; apply sqrt_pos].
  rewrite <- Rsqr_abs. unfold Rsqr.
  replace (norm p * norm q * (norm p * norm q)) with ((norm p * norm p) * (norm q * norm q)) by ring.
  rewrite !norm_sq. apply (cauchy_schwarz p q H).
Qed.

(** ** gaussian *)
Definition quad (U : list (list R)) (v : list R) : R := Rsum (map (fun u => dot v u * dot v u) U).
Lemma quad_nonneg U v : 0 <= quad U v.
Proof. apply Rsum_nonneg. intros x Hx. apply in_map_iff in Hx as [u [<- _]]. nra. Qed.
Lemma minus_self_dot p u : dot (map2 Rminus p p) u = 0.
Proof.
  unfold dot. revert u; induction p as [|a p IH]; intros [|b u]; cbn [map2]; rewrite ?Rsum_cons, ?Rsum_nil, ?IH; try ring.
Qed.
Lemma quad_self U p : quad U (map2 Rminus p p) = 0.
Proof. unfold quad. apply Rsum_zero. intros x Hx. apply in_map_iff in Hx as [u [<- _]]. rewrite minus_self_dot. ring. Qed.
Lemma gaussian_eq U c mean a p : gaussian_coefficient U c mean a p = a * exp (- (1 / 2) * quad U (map2 Rminus p mean)).
Proof.
  unfold gaussian_coefficient, pdf. fold (quad U (map2 Rminus p mean)) (quad U (map2 Rminus mean mean)). rewrite quad_self.
  set (q := quad U _).
  replace (- (1 / 2) * (c + q)) with (- (1 / 2) * (c + 0) + - (1 / 2) * q) by ring.
  rewrite exp_plus. field. pose proof (exp_pos (- (1 / 2) * (c + 0))). lra.
Qed.
Lemma exp_le_1 x : x <= 0 -> exp x <= 1.
Proof. intros [H| ->]; [rewrite <- exp_0; left; apply exp_increasing; auto|rewrite exp_0; lra]. Qed.
Lemma dot_opp v u : dot (map Ropp v) u = - dot v u.
Proof. unfold dot. revert u; induction v as [|a v IH]; intros [|b u]; cbn [map map2]; rewrite ?Rsum_cons, ?Rsum_nil, ?IH; ring. Qed.

Lemma gaussian_props U c mean a p :
  gaussian_coefficient U c mean a mean = a /\
  gaussian_coefficient U c mean a p = a * exp (- (1 / 2) * Rsum (map (fun u => (dot (minus p mean) u) ^ 2) U)) /\
  Rabs (gaussian_coefficient U c mean a p) <= Rabs a /\
  (0 < a -> 0 < gaussian_coefficient U c mean a p <= gaussian_coefficient U c mean a mean) /\
  (a < 0 -> gaussian_coefficient U c mean a mean <= gaussian_coefficient U c mean a p < 0) /\
  (forall h, List.length h = List.length mean ->
     gaussian_coefficient U c mean a (plus mean h) = gaussian_coefficient U c mean a (minus mean h)).
Proof.
  assert (E0 : gaussian_coefficient U c mean a mean = a).
  { rewrite gaussian_eq, quad_self, Rmult_0_r, exp_0. ring. }
  assert (B : 0 < exp (- (1 / 2) * quad U (map2 Rminus p mean)) <= 1).
  { split; [apply exp_pos|]. apply exp_le_1. pose proof (quad_nonneg U (map2 Rminus p mean)). lra. }
  split; [exact E0|]. rewrite E0, gaussian_eq.
  split.
  { unfold quad, minus. do 4 f_equal. apply map_ext. intros u. ring. }
  split.
  { rewrite Rabs_mult, (Rabs_right (exp _)) by lra. pose proof (Rabs_pos a). nra. }
  split; [intros; nra|]. split; [intros; nra|].
  intros h Hh. rewrite !gaussian_eq. do 3 f_equal. unfold quad. f_equal. apply map_ext. intros u.
  replace (map2 Rminus (minus mean h) mean) with (map Ropp (map2 Rminus (plus mean h) mean)).
  - rewrite dot_opp. ring.
  - unfold plus, minus. clear -Hh. revert h Hh; induction mean as [|m mean IH]; intros [|x h] H; simpl in *; try lia; auto.
    f_equal; [ring|apply IH; lia].
Qed.

(** ** radial *)
Lemma radial_euclid o a p : radial_coefficient o a p = euclid p o * a.
Proof. unfold radial_coefficient. rewrite euclid_ssq. reflexivity. Qed.
Lemma radial_props d o a p : List.length o = d -> List.length p = d ->
  radial_coefficient o a p = a * sqrt (sq_dist d p o) /\
  (0 <= a -> 0 <= radial_coefficient o a p) /\
  (a <> 0 -> (radial_coefficient o a p = 0 <-> p = o)) /\
  (forall q, List.length q = d -> Rabs (radial_coefficient o a p - radial_coefficient o a q) <= Rabs a * sqrt (sq_dist d p q)).
Proof.
  intros Ho Hp. rewrite radial_euclid. split; [rewrite (euclid_sq_dist d) by auto; ring|].
  pose proof (euclid_nonneg p o) as Hn. split; [intros; nra|]. split.
  - intros Ha. split; intros H.
    + apply euclid_zero; [congruence|]. nra.
    + subst. rewrite euclid_refl. ring.
  - intros q Hq. rewrite radial_euclid, <- (euclid_sq_dist d) by auto.
    replace (euclid p o * a - euclid q o * a) with (a * (euclid p o - euclid q o)) by ring.
    rewrite Rabs_mult. apply Rmult_le_compat_l; [apply Rabs_pos|].
    pose proof (euclid_triangle p q o ltac:(congruence) ltac:(congruence)).
    pose proof (euclid_triangle q p o ltac:(congruence) ltac:(congruence)). rewrite (euclid_sym q p) in *.
    apply Rabs_le. lra.
Qed.

(** ** directional *)
Lemma nonzero_dec p : nonzero p \/ forall i, nth i p 0 = 0.
Proof.
  induction p as [|a p IH].
  - right. intros [|i]; reflexivity.
  - destruct (Req_dec a 0) as [->|H].
    + destruct IH as [[i Hi]|H]; [left; exists (S i); auto|right; intros [|i]; simpl; auto].
    + left. exists O. auto.
Qed.
Lemma directional_ok d a p : nonzero d -> nonzero p ->
  directional_coefficient d a p = Fin (dot p d / (norm d * norm p) * a).
Proof.
  intros Hd Hp. pose proof (norm_pos d Hd). pose proof (norm_pos p Hp). unfold directional_coefficient.
  destruct (Reqb (norm d) 0) eqn:E; [apply Reqb_true in E; lra|].
  rewrite ediv_fin by lra. cbn [emul]. f_equal.
  replace (map (fun x => x / norm d) d) with (map (fun x => x * / norm d) d) by reflexivity.
  rewrite dot_scale_r. field. lra.
Qed.
Lemma directional_props d dir a p : List.length dir = d -> List.length p = d -> nonzero dir -> nonzero p ->
  (exists v, directional_coefficient dir a p = Fin v /\ v = a * (inner d p dir / (len d p * len d dir)) /\ Rabs v <= Rabs a) /\
  (forall k, 0 < k -> directional_coefficient dir a (scale k p) = directional_coefficient dir a p) /\
  (forall k, 0 < k -> directional_coefficient (scale k dir) a p = directional_coefficient dir a p) /\
  (forall k, 0 < k -> directional_coefficient dir a (scale k dir) = Fin a) /\
  (forall k, k < 0 -> directional_coefficient dir a (scale k dir) = Fin (- a)).
Proof.
  intros Hd Hp Nd Np. pose proof (norm_pos dir Nd) as Pd. pose proof (norm_pos p Np) as Pp.
  assert (NS : forall k q, k <> 0 -> nonzero q -> nonzero (scale k q)).
  { intros k q Hk [i Hi]. exists i. unfold scale. destruct (Nat.lt_ge_cases i (List.length q)) as [L|L].
    - rewrite (nth_map_in _ _ _ 0) by auto. nra.
    - rewrite nth_overflow in Hi by lia. congruence. }
  split.
  { eexists. split; [apply directional_ok; auto|]. rewrite <- (dot_inner d), <- !(norm_len d) by auto.
    split; [field; lra|]. pose proof (abs_dot p dir ltac:(congruence)).
    rewrite Rabs_mult. unfold Rdiv. rewrite Rabs_mult, (Rabs_right (/ _)) by (apply Rle_ge, Rlt_le, Rinv_0_lt_compat; nra).
    rewrite <- (Rmult_1_l (Rabs a)) at 2. apply Rmult_le_compat_r; [apply Rabs_pos|].
    apply (Rmult_le_reg_r (norm dir * norm p)); [nra|]. rewrite Rmult_assoc, Rinv_l by nra. lra. }
  split.
  { intros k Hk. rewrite !directional_ok by (auto; apply NS; auto; lra). f_equal. rewrite dot_scale_l, norm_scale, Rabs_right by lra. field. lra. }
  split.
  { intros k Hk. rewrite !directional_ok by (auto; apply NS; auto; lra). f_equal.
    replace (scale k dir) with (map (fun x => x * k) dir) at 1 by (unfold scale; apply map_ext; intros; ring).
    rewrite dot_scale_r, norm_scale, Rabs_right by lra. field. lra. }
  split; intros k Hk; rewrite directional_ok by (auto; apply NS; auto; lra); f_equal; rewrite dot_scale_l, norm_scale, dot_self, <- norm_sq.
  - rewrite Rabs_right by lra. field. lra.
  - rewrite Rabs_left by lra. field. lra.
Qed.
Lemma directional_zero dir a p : (forall i, nth i dir 0 = 0) \/ (forall i, nth i p 0 = 0) -> directional_coefficient dir a p = NaN.
Proof.
  unfold directional_coefficient. intros [H|H].
  - rewrite norm_zero by auto. destruct (Reqb 0 0) eqn:E; [reflexivity|apply Reqb_false in E; lra].
  - destruct (Reqb (norm dir) 0); auto. cbv zeta. rewrite (norm_zero p) by auto. unfold ediv.
    assert (E : forall q, dot p q = 0).
    { clear -H. unfold dot. induction p as [|a p IH]; intros [|b q]; cbn [map2]; rewrite ?Rsum_cons, ?Rsum_nil; auto.
      rewrite IH; [|intros i; apply (H (S i))]. specialize (H O). simpl in H. rewrite H. ring. }
    rewrite E. destruct (Req_EM_T 0 0); [|lra]. destruct (Rlt_dec 0 0); [lra|]. reflexivity.
Qed.

(** ** sine *)
Lemma sine_props d f dir a p : List.length dir = d -> List.length p = d ->
  Rabs (sine_coefficient f dir a p) <= Rabs a /\
  (forall h (k : Z), List.length h = d -> inner d h dir * f = 2 * IZR k * PI -> sine_coefficient f dir a (plus p h) = sine_coefficient f dir a p).
Proof.
  intros Hd Hp. unfold sine_coefficient. split.
  - rewrite Rabs_mult. pose proof (SIN_bound (dot p dir * f)). assert (Rabs (sin (dot p dir * f)) <= 1) by (apply Rabs_le; lra).
    pose proof (Rabs_pos a). nra.
  - intros h k Hh E. rewrite dot_plus_l by congruence. rewrite (dot_inner d h) by auto. f_equal.
    rewrite Rmult_plus_distr_r, E.
    assert (Per : forall (n : nat) x, sin (x + 2 * INR n * PI) = sin x) by (intros n x; apply sin_period).
    destruct (Z.le_ge_cases 0 k) as [Hk|Hk].
    + rewrite <- (Z2Nat.id k) by lia. rewrite <- INR_IZR_INZ. apply Per.
    + transitivity (sin (dot p dir * f + 2 * IZR k * PI + 2 * INR (Z.to_nat (- k)) * PI)); [symmetry; apply Per|].
      f_equal. rewrite INR_IZR_INZ, Z2Nat.id by lia. rewrite opp_IZR. ring.
Qed.

(** ** wrapper *)
Lemma wrapper_many {P} f (c1 c2 : P -> list R) cs pts n :
  (forall c, In c (c1 :: c2 :: cs) -> List.length (c pts) = n) ->
  exists l, coefficient_wrapper (Reduction f) (c1 :: c2 :: cs) pts = Ok (Ar l) /\ List.length l = n /\
    forall i, (i < n)%nat -> nth i l 0 = f (map (fun c => nth i (c pts) 0) (c1 :: c2 :: cs)).
Proof.
  intros H. eexists. split; [reflexivity|]. unfold column_stack. cbn [map].
  rewrite map_length. unfold tabulate. rewrite map_length, seq_length. split; [apply H; left; auto|].
  intros i Hi. rewrite (H c1 (or_introl eq_refl)). rewrite (nth_map_in _ _ _ []) by (rewrite map_length, seq_length; auto).
  rewrite (nth_map_in _ _ _ O) by (rewrite seq_length; auto). rewrite seq_nth by auto. cbn [map]. rewrite map_map. reflexivity.
Qed.

(** ** responses *)
Lemma tanh_bounds x : -1 < tanh_ x < 1.
Proof.
  unfold tanh_. pose proof (exp_pos x). pose proof (exp_pos (- x)).
  split; apply (Rmult_lt_reg_r (exp x + exp (- x))); try lra; unfold Rdiv; rewrite Rmult_assoc, Rinv_l by lra; lra.
Qed.
Lemma tanh_incr x y : x < y -> tanh_ x < tanh_ y.
Proof.
  intros H. unfold tanh_. pose proof (exp_pos x) as A. pose proof (exp_pos (- x)) as B. pose proof (exp_pos y) as C. pose proof (exp_pos (- y)) as D.
  assert (E1 : exp x < exp y) by (apply exp_increasing; auto). assert (E2 : exp (- y) < exp (- x)) by (apply exp_increasing; lra).
  apply (Rmult_lt_reg_r ((exp x + exp (- x)) * (exp y + exp (- y)))); [nra|].
  replace ((exp x - exp (- x)) / (exp x + exp (- x)) * ((exp x + exp (- x)) * (exp y + exp (- y)))) with ((exp x - exp (- x)) * (exp y + exp (- y))) by (field; lra).
  replace ((exp y - exp (- y)) / (exp y + exp (- y)) * ((exp x + exp (- x)) * (exp y + exp (- y)))) with ((exp y - exp (- y)) * (exp x + exp (- x))) by (field; lra).
  nra.
Qed.
Lemma response_props c x y :
  (c <> 0 -> Rabs (sigmoid_function c x) < Rabs c) /\
  sigmoid_function c (- x) = - sigmoid_function c x /\
  (0 < c -> x < y -> sigmoid_function c x < sigmoid_function c y) /\
  (x <= 0 -> relu_function c x = 0) /\ (0 <= x -> relu_function c x = linear_function c x) /\
  square_function c x = c * (x * x) /\ linear_function c x = c * x /\
  interaction_function c x y = interaction_function c y x /\
  (0 < c -> x < y -> 0 < exponential_function c x < exponential_function c y).
Proof.
  split.
  { intros Hc. unfold sigmoid_function. rewrite Rabs_mult. pose proof (tanh_bounds x).
    assert (Rabs (tanh_ x) < 1) by (apply Rabs_def1; lra). pose proof (Rabs_pos_lt c Hc). nra. }
  split.
  { unfold sigmoid_function, tanh_. rewrite Ropp_involutive. pose proof (exp_pos x). pose proof (exp_pos (- x)). field. lra. }
  split.
  { intros Hc H. pose proof (tanh_incr x y H). unfold sigmoid_function. nra. }
  split; [intros; unfold relu_function; rewrite Rmax_left by lra; ring|].
  split; [intros; unfold relu_function, linear_function, polynomial_function; rewrite Rmax_right by lra; ring|].
  split; [unfold square_function, polynomial_function; ring|].
  split; [unfold linear_function, polynomial_function; ring|].
  split; [unfold interaction_function; ring|].
  intros Hc H. unfold exponential_function. pose proof (exp_pos x). pose proof (exp_increasing x y H). nra.
Qed.

Lemma wrapper_succeeds P op (cs : list (P -> list R)) pts n : (forall c, In c cs -> length (c pts) = n) ->
  ((exists v, coefficient_wrapper op cs pts = Ok v) <-> cs <> [] /\ ((exists f, op = Reduction f) \/ length cs = 1%nat)) /\
  forall f c, op = Elementwise f -> cs = [c] ->
    exists l, coefficient_wrapper op cs pts = Ok (Ar l) /\ length l = n /\ forall i, (i < n)%nat -> nth i l 0 = f (nth i (c pts) 0).
Proof.
  intros H. split.
  - destruct cs as [|c [|c' cs]]; destruct op as [f|f]; cbn; (split; [intros [v Hv]|intros [H1 H2]]); try discriminate; try congruence;
      try (eexists; reflexivity); try (split; [discriminate|]; first [left; eexists; reflexivity|right; reflexivity]).
    destruct H2 as [[g E]|E]; discriminate.
  - intros f c -> ->. exists (map f (c pts)). assert (HL : length (c pts) = n) by (apply H; left; auto). split; [reflexivity|]. split; [rewrite map_length; auto|].
    intros i Hi. rewrite (nth_indep _ 0 (f 0)) by (rewrite map_length; lia). apply map_nth.
Qed.
