From Coq Require Import Lra Psatz.
From Verif.Model Require Import Base Distance.
From Verif.Spec Require Import DistanceSpec.
From Verif.Proofs Require Import ListFacts SumFacts.
Open Scope string_scope.
Open Scope nat_scope.
Open Scope R_scope.

(** ** Euclidean *)
Definition ssq (l : list R) : R := Rsum (map (fun x => x * x) l).
Definition dotl (l m : list R) : R := Rsum (map2 Rmult l m).

Lemma ssq_nonneg l : 0 <= ssq l.
Proof. apply Rsum_nonneg. intros x Hx. apply in_map_iff in Hx as [y [<- _]]. nra. Qed.
Lemma ssq_cons x l : ssq (x :: l) = x * x + ssq l.
Proof. reflexivity. Qed.
Lemma ssq_zero l : ssq l = 0 -> forall x, In x l -> x = 0.
Proof.
  induction l as [|y l IH]; intros H x Hx; [destruct Hx|]. rewrite ssq_cons in H. pose proof (ssq_nonneg l).
  assert (y * y = 0) by nra. assert (ssq l = 0) by nra. destruct Hx as [<-|Hx]; [nra|auto].
Qed.

Lemma cauchy_schwarz l m : length l = length m -> dotl l m * dotl l m <= ssq l * ssq m.
Proof.
  revert m; induction l as [|a l IH]; intros [|b m] HL; simpl in HL; try lia.
  - unfold dotl, ssq, Rsum; simpl; lra.
  - rewrite !ssq_cons. unfold dotl; cbn [map2]. rewrite Rsum_cons. fold (dotl l m).
    specialize (IH m ltac:(lia)). pose proof (ssq_nonneg l) as HA. pose proof (ssq_nonneg m) as HB.
    set (S := dotl l m) in *. set (A := ssq l) in *. set (B := ssq m) in *.
    assert (H : 2 * (a * b * S) <= a * a * B + b * b * A).
    { apply Rsqr_incr_0_var; [|nra]. unfold Rsqr.
      assert (4 * (a * a * (b * b)) * (S * S) <= 4 * (a * a * (b * b)) * (A * B)) by (apply Rmult_le_compat_l; nra).
      assert (0 <= (a * a * B - b * b * A) * (a * a * B - b * b * A)) by apply Rle_0_sqr. nra. }
    nra.
Qed.

Lemma minkowski l m : length l = length m -> sqrt (ssq (map2 Rplus l m)) <= sqrt (ssq l) + sqrt (ssq m).
Proof.
  intros HL.
  assert (E : ssq (map2 Rplus l m) = ssq l + 2 * dotl l m + ssq m).
  { revert m HL; induction l as [|a l IH]; intros [|b m] HL; simpl in HL; try lia.
    - unfold ssq, dotl, Rsum; simpl; lra.
    - cbn [map2]. rewrite !ssq_cons. unfold dotl; cbn [map2]; rewrite Rsum_cons. fold (dotl l m).
      rewrite IH by lia. ring. }
  pose proof (ssq_nonneg l) as HA. pose proof (ssq_nonneg m) as HB.
  pose proof (sqrt_pos (ssq l)). pose proof (sqrt_pos (ssq m)).
  apply Rsqr_incr_0_var; [|lra]. rewrite Rsqr_sqrt by apply ssq_nonneg.
  unfold Rsqr. pose proof (sqrt_sqrt _ HA). pose proof (sqrt_sqrt _ HB).
  rewrite E.
  assert (dotl l m <= sqrt (ssq l) * sqrt (ssq m)).
  { apply Rsqr_incr_0_var; [|nra]. unfold Rsqr. pose proof (cauchy_schwarz l m HL).
    replace (sqrt (ssq l) * sqrt (ssq m) * (sqrt (ssq l) * sqrt (ssq m)))
      with ((sqrt (ssq l) * sqrt (ssq l)) * (sqrt (ssq m) * sqrt (ssq m))) by ring.
    rewrite H1, H2. auto. }
  nra.
Qed.

Lemma euclid_ssq p q : euclid p q = sqrt (ssq (map2 Rminus p q)).
Proof. unfold euclid, ssq. rewrite map_map2. reflexivity. Qed.

Lemma euclid_nonneg p q : 0 <= euclid p q.
Proof. apply sqrt_pos. Qed.

Lemma euclid_sym p q : euclid p q = euclid q p.
Proof.
  unfold euclid. do 2 f_equal. revert q; induction p as [|a p IH]; intros [|b q]; simpl; auto.
  f_equal; [ring|apply IH].
Qed.

Lemma euclid_refl p : euclid p p = 0.
Proof.
  unfold euclid. rewrite Rsum_zero; [apply sqrt_0|]. induction p as [|a p IH]; simpl; [tauto|].
  intros x [<-|Hx]; [ring|auto].
Qed.

Lemma euclid_zero p q : length p = length q -> euclid p q = 0 -> p = q.
Proof.
  rewrite euclid_ssq. intros HL H. apply sqrt_eq_0 in H; [|apply ssq_nonneg].
  pose proof (ssq_zero _ H) as Hz. clear H.
  revert q HL Hz; induction p as [|a p IH]; intros [|b q] HL Hz; simpl in *; try lia; auto.
  f_equal; [specialize (Hz (a - b) (or_introl eq_refl)); lra|]. apply IH; [lia|]. intros; apply Hz; auto.
Qed.

Lemma euclid_triangle p q s : length p = length q -> length q = length s -> euclid p s <= euclid p q + euclid q s.
Proof.
  intros H1 H2. rewrite !euclid_ssq.
  replace (map2 Rminus p s) with (map2 Rplus (map2 Rminus p q) (map2 Rminus q s)).
  - apply minkowski. rewrite !map2_length. lia.
  - revert q s H1 H2; induction p as [|a p IH]; intros [|b q] [|c s] H1 H2; simpl in *; try lia; auto.
    f_equal; [ring|apply IH; lia].
Qed.

Lemma euclid_shift t p q : length t = length p -> length t = length q -> euclid (shift t p) (shift t q) = euclid p q.
Proof.
  intros H1 H2. unfold euclid, shift. do 2 f_equal.
  revert p q H1 H2; induction t as [|a t IH]; intros [|b p] [|c q] H1 H2; simpl in *; try lia; auto.
  f_equal; [ring|apply IH; lia].
Qed.

Lemma euclid_sq_dist d p q : length p = d -> length q = d -> euclid p q = sqrt (sq_dist d p q).
Proof.
  intros H1 H2. unfold euclid, sq_dist. do 2 f_equal. subst d.
  revert q H2; induction p as [|a p IH]; intros [|b q] H2; simpl in *; try lia; auto.
  rewrite tabulate_S. simpl. f_equal; [ring|]. apply IH. lia.
Qed.

Lemma cdist_rect m src tgt : rect (cdist m src tgt) (length src) (length tgt).
Proof.
  split; [apply map_length|]. unfold cdist. apply Forall_forall. intros x Hx.
  apply in_map_iff in Hx as [p [<- _]]. apply map_length.
Qed.
Lemma cdist_get m src tgt i j : (i < length src)%nat -> (j < length tgt)%nat ->
  mget 0 (cdist m src tgt) i j = m (nth i src []) (nth j tgt []).
Proof.
  intros Hi Hj. unfold mget, cdist.
  rewrite (nth_indep _ [] (map (fun q => m [] q) tgt)) by (rewrite map_length; auto).
  rewrite (map_nth (fun p => map (fun q => m p q) tgt)).
  rewrite (nth_indep _ 0 (m (nth i src []) [])) by (rewrite map_length; auto).
  apply (map_nth (fun q => m (nth i src []) q)).
Qed.

Lemma mmap_id {A} (m : matrix A) : mmap (fun x => x) m = m.
Proof. unfold mmap. rewrite <- (map_id m) at 2. apply map_ext. intros; apply map_id. Qed.

Lemma ncols_rect {A} (m : matrix A) r c : rect m r c -> (0 < r)%nat -> ncols m = c.
Proof.
  intros [H1 H2] Hr. destruct m as [|x m]; simpl in H1; [lia|]. inversion H2; auto.
Qed.

Lemma distance_matrix_euclid f32 mkw sm src tgt kw d :
  rect src (length src) d -> rect tgt (length tgt) d -> (0 < length src)%nat -> (0 < length tgt)%nat ->
  distance_matrix f32 mkw sm src (Some tgt) "euclidean" kw =
  Ok (A2 (mmap f32 (cdist euclid (mmap f32 src) (mmap f32 tgt)))).
Proof.
  intros H1 H2 H3 H4. unfold distance_matrix.
  rewrite (ncols_rect src _ d H1 H3), (ncols_rect tgt _ d H2 H4), Nat.eqb_refl. reflexivity.
Qed.

Lemma euclid_matrix_metric mkw sm kw pts n d :
  rect pts n d -> (0 < n)%nat ->
  exists D, distance_matrix (fun x => x) mkw sm pts (Some pts) "euclidean" kw = Ok (A2 D) /\
    (forall i j, (i < n)%nat -> (j < n)%nat -> mget 0 D i j = sqrt (sq_dist d (nth i pts []) (nth j pts []))) /\
    metric_table n (fun i j => nth i pts [] = nth j pts []) D.
Proof.
  intros HR Hn. assert (HL : length pts = n) by apply HR.
  exists (cdist euclid pts pts). split.
  { rewrite (distance_matrix_euclid _ mkw sm pts pts kw d); [|rewrite HL; auto|rewrite HL; auto|lia|lia].
    rewrite !mmap_id. reflexivity. }
  assert (Hrow : forall i, (i < n)%nat -> length (nth i pts []) = d) by (intros; apply (rect_row pts n d); auto).
  assert (Hg : forall i j, (i < n)%nat -> (j < n)%nat -> mget 0 (cdist euclid pts pts) i j = euclid (nth i pts []) (nth j pts []))
    by (intros; apply cdist_get; lia).
  split.
  - intros i j Hi Hj. rewrite Hg by auto. apply euclid_sq_dist; auto.
  - constructor.
    + pose proof (cdist_rect euclid pts pts) as H. rewrite HL in H; auto.
    + intros; rewrite !Hg by auto. apply euclid_sym.
    + intros; rewrite !Hg by auto. apply euclid_nonneg.
    + intros; rewrite !Hg by auto. split; [apply euclid_zero; rewrite !Hrow; auto|intros ->; apply euclid_refl].
    + intros; rewrite !Hg by auto. apply euclid_triangle; rewrite !Hrow; auto.
Qed.

Lemma euclid_matrix_translation mkw sm kw src tgt t n m d :
  rect src n d -> rect tgt m d -> (0 < n)%nat -> (0 < m)%nat -> length t = d ->
  distance_matrix (fun x => x) mkw sm (map (shift t) src) (Some (map (shift t) tgt)) "euclidean" kw =
  distance_matrix (fun x => x) mkw sm src (Some tgt) "euclidean" kw.
Proof.
  intros H1 H2 Hn Hm Ht.
  assert (Hs : forall l k, rect l k d -> rect (map (shift t) l) k d).
  { intros l k [A B]. split; [rewrite map_length; auto|]. rewrite Forall_forall in *. intros x Hx.
    apply in_map_iff in Hx as [y [<- Hy]]. unfold shift. rewrite map2_length, (B y Hy). lia. }
  destruct H1 as [L1 F1] eqn:E1. destruct H2 as [L2 F2] eqn:E2. clear E1 E2.
  rewrite !(distance_matrix_euclid _ mkw sm _ _ kw d); rewrite ?map_length, ?L1, ?L2; auto; try (split; auto);
    try (apply (Hs src n); auto); try (apply (Hs tgt m); auto).
  rewrite !mmap_id. do 2 f_equal. unfold cdist. rewrite map_map. apply map_ext_in. intros p Hp.
  rewrite map_map. apply map_ext_in. intros q Hq. rewrite Forall_forall in F1, F2.
  apply euclid_shift; [rewrite (F1 p Hp)|rewrite (F2 q Hq)]; auto.
Qed.

(** What survives rounding to float32. *)
Lemma euclid_matrix_rounded f32 mkw sm kw pts n d :
  rect pts n d -> (0 < n)%nat -> f32 0 = 0 -> (forall x y, x <= y -> f32 x <= f32 y) ->
  exists D, distance_matrix f32 mkw sm pts (Some pts) "euclidean" kw = Ok (A2 D) /\ rect D n n /\
    forall i j, (i < n)%nat -> (j < n)%nat ->
      mget 0 D i j = mget 0 D j i /\ 0 <= mget 0 D i j /\ mget 0 D i i = 0.
Proof.
  intros HR Hn H0 Hm. assert (HL : length pts = n) by apply HR.
  exists (mmap f32 (cdist euclid (mmap f32 pts) (mmap f32 pts))). split.
  { apply (distance_matrix_euclid f32 mkw sm pts pts kw d); rewrite ?HL; auto. }
  assert (HL' : length (mmap f32 pts) = n) by (unfold mmap; rewrite map_length; auto).
  assert (HRc : rect (cdist euclid (mmap f32 pts) (mmap f32 pts)) n n).
  { pose proof (cdist_rect euclid (mmap f32 pts) (mmap f32 pts)) as H. rewrite HL' in H; auto. }
  split; [apply rect_mmap; auto|]. intros i j Hi Hj.
  rewrite !(mmap_get f32 _ 0 0 n n) by auto. rewrite !cdist_get by lia. split; [|split].
  - rewrite euclid_sym. reflexivity.
  - rewrite <- H0. apply Hm, euclid_nonneg.
  - rewrite euclid_refl. auto.
Qed.

(** ** Great circle *)
Definition hav (p q : R * R) : R :=
  Rsqr (sin (radians (snd q - snd p) / 2)) +
  cos (radians (snd q)) * cos (radians (snd p)) * Rsqr (sin (radians (fst q - fst p) / 2)).

Lemma gc_hav p q : great_circle p q = 6371 * (2 * asin (sqrt (hav p q))).
Proof. reflexivity. Qed.

Lemma radians_degrees x : radians x = degrees x.
Proof. unfold radians, degrees. field. Qed.

Lemma cos_half x : cos x = 1 - 2 * Rsqr (sin (x / 2)).
Proof. replace x with (2 * (x / 2)) at 1 by field. rewrite cos_2a_sin. unfold Rsqr. ring. Qed.

Lemma hav_dot p q : 1 - 2 * hav p q = dot3 (sphere p) (sphere q).
Proof.
  unfold hav, dot3, sphere. rewrite <- !radians_degrees.
  assert (E1 : Rsqr (sin (radians (snd q - snd p) / 2)) = (1 - cos (radians (snd q) - radians (snd p))) / 2).
  { rewrite (cos_half (radians (snd q) - radians (snd p))).
    replace (radians (snd q) - radians (snd p)) with (radians (snd q - snd p)) by (unfold radians; field). field. }
  assert (E2 : Rsqr (sin (radians (fst q - fst p) / 2)) = (1 - cos (radians (fst q) - radians (fst p))) / 2).
  { rewrite (cos_half (radians (fst q) - radians (fst p))).
    replace (radians (fst q) - radians (fst p)) with (radians (fst q - fst p)) by (unfold radians; field). field. }
  rewrite E1, E2. rewrite !cos_minus. field.
Qed.

Lemma sphere_unit p : dot3 (sphere p) (sphere p) = 1.
Proof.
  unfold dot3, sphere. pose proof (sin2_cos2 (degrees (fst p))) as H1. pose proof (sin2_cos2 (degrees (snd p))) as H2.
  unfold Rsqr in *.
  set (a := sin (degrees (fst p))) in *. set (b := cos (degrees (fst p))) in *.
  set (c := sin (degrees (snd p))) in *. set (d := cos (degrees (snd p))) in *.
  replace (d * b * (d * b) + d * a * (d * a) + c * c) with (d * d * (a * a + b * b) + c * c) by ring.
  rewrite H1. lra.
Qed.

Lemma cs3 u v : dot3 u v * dot3 u v <= dot3 u u * dot3 v v.
Proof.
  destruct u as [[a b] c], v as [[x y] z]. unfold dot3.
  assert (0 <= (a * y - b * x) * (a * y - b * x) + (a * z - c * x) * (a * z - c * x) + (b * z - c * y) * (b * z - c * y))
    by (pose proof (Rle_0_sqr (a * y - b * x)); pose proof (Rle_0_sqr (a * z - c * x)); pose proof (Rle_0_sqr (b * z - c * y)); unfold Rsqr in *; lra).
  lra.
Qed.

Lemma dot_unit_range p q : -1 <= dot3 (sphere p) (sphere q) <= 1.
Proof.
  pose proof (cs3 (sphere p) (sphere q)) as H. rewrite !sphere_unit in H. nra.
Qed.

Lemma hav_range p q : 0 <= hav p q <= 1.
Proof. pose proof (hav_dot p q). pose proof (dot_unit_range p q). lra. Qed.

Definition angle (p q : R * R) : R := 2 * asin (sqrt (hav p q)).

Lemma sqrt_hav_range p q : 0 <= sqrt (hav p q) <= 1.
Proof.
  pose proof (hav_range p q). split; [apply sqrt_pos|]. rewrite <- sqrt_1. apply sqrt_le_1; lra.
Qed.

Lemma angle_range p q : 0 <= angle p q <= PI.
Proof.
  unfold angle. pose proof (sqrt_hav_range p q) as H. pose proof (asin_bound (sqrt (hav p q))).
  assert (0 <= asin (sqrt (hav p q))); [|lra].
  destruct (Rle_lt_dec 0 (asin (sqrt (hav p q)))) as [|Hneg]; auto. exfalso.
  assert (sin (asin (sqrt (hav p q))) < 0) by (apply sin_lt_0_var; pose proof PI_RGT_0; lra).
  rewrite sin_asin in H1 by lra. lra.
Qed.

Lemma cos_angle p q : cos (angle p q) = dot3 (sphere p) (sphere q).
Proof.
  rewrite cos_half. unfold angle. replace (2 * asin (sqrt (hav p q)) / 2) with (asin (sqrt (hav p q))) by field.
  pose proof (sqrt_hav_range p q). rewrite sin_asin by lra. unfold Rsqr. rewrite sqrt_sqrt by apply hav_range.
  apply hav_dot.
Qed.

Lemma dot3_sym u v : dot3 u v = dot3 v u.
Proof. destruct u as [[a b] c], v as [[x y] z]. unfold dot3. ring. Qed.

Lemma angle_unique x y : 0 <= x <= PI -> 0 <= y <= PI -> cos x = cos y -> x = y.
Proof.
  intros Hx Hy H. rewrite <- (acos_cos x), <- (acos_cos y) by auto. congruence.
Qed.

Lemma angle_sym p q : angle p q = angle q p.
Proof. apply angle_unique; try apply angle_range. rewrite !cos_angle. apply dot3_sym. Qed.

Lemma angle_zero p q : angle p q = 0 <-> sphere p = sphere q.
Proof.
  split.
  - intros H. pose proof (cos_angle p q) as Hc. rewrite H, cos_0 in Hc.
    pose proof (sphere_unit p). pose proof (sphere_unit q).
    destruct (sphere p) as [[a b] c], (sphere q) as [[x y] z]. unfold dot3 in *.
    assert (E : (a - x) * (a - x) + (b - y) * (b - y) + (c - z) * (c - z) = 0) by nra.
    pose proof (Rle_0_sqr (a - x)). pose proof (Rle_0_sqr (b - y)). pose proof (Rle_0_sqr (c - z)). unfold Rsqr in *.
    assert (a - x = 0) by nra. assert (b - y = 0) by nra. assert (c - z = 0) by nra.
    repeat f_equal; lra.
  - intros H. apply angle_unique; [apply angle_range|pose proof PI_RGT_0; lra|].
    rewrite cos_angle, H, sphere_unit, cos_0. reflexivity.
Qed.

Lemma gram u v w : dot3 u u = 1 -> dot3 v v = 1 -> dot3 w w = 1 ->
  (dot3 u w - dot3 u v * dot3 v w) * (dot3 u w - dot3 u v * dot3 v w)
  <= (1 - dot3 u v * dot3 u v) * (1 - dot3 v w * dot3 v w).
Proof.
  intros Hu Hv Hw.
  set (s := dot3 u v). set (t := dot3 v w).
  set (u' := let '(a, b, c) := u in let '(x, y, z) := v in (a - s * x, b - s * y, c - s * z)).
  set (w' := let '(a, b, c) := w in let '(x, y, z) := v in (a - t * x, b - t * y, c - t * z)).
  assert (E1 : dot3 u' w' = dot3 u w - s * t).
  { unfold u', w', s, t. destruct u as [[a b] c], v as [[x y] z], w as [[d e] f]. unfold dot3 in *. 
    replace (dot3 (a, b, c) (d, e, f)) with (a * d + b * e + c * f) by reflexivity.
    transitivity (a * d + b * e + c * f - 2 * ((a * x + b * y + c * z) * (x * d + y * e + z * f))
       + (a * x + b * y + c * z) * (x * d + y * e + z * f) * (x * x + y * y + z * z)); [ring|].
    rewrite Hv. ring. }
  assert (E2 : dot3 u' u' = 1 - s * s).
  { unfold u', s. destruct u as [[a b] c], v as [[x y] z]. unfold dot3 in *.
    transitivity (a * a + b * b + c * c - 2 * ((a * x + b * y + c * z) * (a * x + b * y + c * z))
       + (a * x + b * y + c * z) * (a * x + b * y + c * z) * (x * x + y * y + z * z)); [ring|].
    rewrite Hv, Hu. ring. }
  assert (E3 : dot3 w' w' = 1 - t * t).
  { unfold w', t. destruct v as [[x y] z], w as [[d e] f]. unfold dot3 in *.
    transitivity (d * d + e * e + f * f - 2 * ((x * d + y * e + z * f) * (x * d + y * e + z * f))
       + (x * d + y * e + z * f) * (x * d + y * e + z * f) * (x * x + y * y + z * z)); [ring|].
    rewrite Hv, Hw. ring. }
  rewrite <- E1, <- E2, <- E3. apply cs3.
Qed.

Lemma angle_triangle p q r : angle p r <= angle p q + angle q r.
Proof.
  pose proof (angle_range p q) as Ha. pose proof (angle_range q r) as Hb. pose proof (angle_range p r) as Hc.
  destruct (Rle_lt_dec PI (angle p q + angle q r)) as [H|H]; [lra|].
  destruct (Rle_lt_dec (angle p r) (angle p q + angle q r)) as [|Hlt]; auto. exfalso.
  assert (Hcos : cos (angle p r) < cos (angle p q + angle q r)) by (apply cos_decreasing_1; lra).
  rewrite cos_plus, !cos_angle in Hcos.
  pose proof (gram (sphere p) (sphere q) (sphere r) (sphere_unit p) (sphere_unit q) (sphere_unit r)) as G.
  set (x := dot3 (sphere p) (sphere r)) in *. set (s := dot3 (sphere p) (sphere q)) in *. set (t := dot3 (sphere q) (sphere r)) in *.
  assert (S1 : 0 <= sin (angle p q)) by (apply sin_ge_0; lra).
  assert (S2 : 0 <= sin (angle q r)) by (apply sin_ge_0; lra).
  assert (E1 : 1 - s * s = sin (angle p q) * sin (angle p q)).
  { pose proof (sin2_cos2 (angle p q)) as E. rewrite cos_angle in E. unfold Rsqr in E. fold s in E. lra. }
  assert (E2 : 1 - t * t = sin (angle q r) * sin (angle q r)).
  { pose proof (sin2_cos2 (angle q r)) as E. rewrite cos_angle in E. unfold Rsqr in E. fold t in E. lra. }
  rewrite E1, E2 in G.
  set (A := sin (angle p q)) in *. set (B := sin (angle q r)) in *.
  assert (0 <= A * B) by nra.
  assert (x - s * t < - (A * B)) by lra. nra.
Qed.

Lemma sin_period_Z x k : sin (x + 2 * IZR k * PI) = sin x.
Proof.
  destruct (Z_le_gt_dec 0 k) as [H|H].
  - rewrite <- (Z2Nat.id k H), <- INR_IZR_INZ. apply sin_period.
  - rewrite <- (sin_period (x + 2 * IZR k * PI) (Z.to_nat (- k))). f_equal.
    rewrite INR_IZR_INZ, Z2Nat.id by lia. rewrite opp_IZR. ring.
Qed.
Lemma cos_period_Z x k : cos (x + 2 * IZR k * PI) = cos x.
Proof.
  destruct (Z_le_gt_dec 0 k) as [H|H].
  - rewrite <- (Z2Nat.id k H), <- INR_IZR_INZ. apply cos_period.
  - rewrite <- (cos_period (x + 2 * IZR k * PI) (Z.to_nat (- k))). f_equal.
    rewrite INR_IZR_INZ, Z2Nat.id by lia. rewrite opp_IZR. ring.
Qed.

Lemma sphere_period p k : sphere (fst p + 360 * IZR k, snd p) = sphere p.
Proof.
  unfold sphere; cbn [fst snd].
  replace (degrees (fst p + 360 * IZR k)) with (degrees (fst p) + 2 * IZR k * PI) by (unfold degrees; field).
  rewrite sin_period_Z, cos_period_Z. reflexivity.
Qed.

Lemma gc_angle p q : great_circle p q = 6371 * angle p q.
Proof. rewrite gc_hav. reflexivity. Qed.

Lemma great_circle_metric p q r :
  great_circle p q = great_circle q p /\
  0 <= great_circle p q <= 6371 * PI /\
  (great_circle p q = 0 <-> sphere p = sphere q) /\
  cos (great_circle p q / 6371) = dot3 (sphere p) (sphere q) /\
  great_circle p r <= great_circle p q + great_circle q r.
Proof.
  rewrite !gc_angle. pose proof (angle_range p q). pose proof (angle_triangle p q r).
  split; [rewrite angle_sym; reflexivity|]. split; [lra|]. split.
  { rewrite <- angle_zero. split; intros; lra. }
  split; [|lra]. replace (6371 * angle p q / 6371) with (angle p q) by field. apply cos_angle.
Qed.

Lemma great_circle_periodic p q k : great_circle (fst p + 360 * IZR k, snd p) q = great_circle p q.
Proof.
  rewrite !gc_angle. f_equal. apply angle_unique; try apply angle_range. rewrite !cos_angle, sphere_period. reflexivity.
Qed.

Lemma great_circle_acos p q : great_circle p q = 6371 * acos (dot3 (sphere p) (sphere q)).
Proof. rewrite gc_angle. f_equal. rewrite <- cos_angle. symmetry. apply acos_cos, angle_range. Qed.

Lemma great_circle_matrix f32 mkw sm src tgt kw :
  rect src (length src) 2 -> rect tgt (length tgt) 2 -> (0 < length src)%nat -> (0 < length tgt)%nat ->
  exists D, distance_matrix f32 mkw sm src (Some tgt) "great-circle" kw = Ok (A2 D) /\
    rect D (length src) (length tgt) /\
    forall i j, (i < length src)%nat -> (j < length tgt)%nat ->
      mget 0 D i j = f32 (great_circle (mget 0 src i 0, mget 0 src i 1) (mget 0 tgt j 0, mget 0 tgt j 1)).
Proof.
  intros H1 H2 H3 H4.
  exists (mmap f32 (cdist (fun p q => great_circle (lonlat p) (lonlat q)) src tgt)).
  split; [|split].
  - unfold distance_matrix. rewrite (ncols_rect src _ 2 H1 H3), (ncols_rect tgt _ 2 H2 H4). reflexivity.
  - apply rect_mmap, cdist_rect.
  - intros i j Hi Hj. rewrite (mmap_get f32 _ 0 0 (length src) (length tgt)) by (auto; apply cdist_rect).
    rewrite cdist_get by auto. reflexivity.
Qed.

(** ** Lists of distance matrices *)
Section Lists.
  Variable f32 : R -> R.
  Variable mkw : Type.
  Variable no_kw : mkw.
  Variable sm : string -> option (mkw -> list R -> list R -> R).
  Let dms := distance_matrices f32 mkw no_kw sm.

  Lemma dms_length source target metrics args :
    length source <> length target -> raises (dms source (Some target) metrics args).
  Proof.
    intros H. unfold dms, distance_matrices.
    destruct (Nat.eqb_spec (length source) (length target)); [lia|]. simpl. eexists; reflexivity.
  Qed.

  Lemma dm_bad_dim s t m a : ncols s <> ncols t -> raises (distance_matrix f32 mkw sm s (Some t) m a).
  Proof.
    intros H. unfold distance_matrix. destruct (Nat.eqb_spec (ncols s) (ncols t)); [lia|]. eexists; reflexivity.
  Qed.
  Lemma dm_bad_gc s t a : ncols s <> 2%nat -> raises (distance_matrix f32 mkw sm s t "great-circle" a).
  Proof.
    intros H. unfold distance_matrix.
    destruct t as [t|].
    - destruct (Nat.eqb_spec (ncols s) (ncols t)); simpl; [|eexists; reflexivity].
      destruct (Nat.eqb_spec (ncols s) 2); [lia|]. eexists; reflexivity.
    - simpl. destruct (Nat.eqb_spec (ncols s) 2); [lia|]. eexists; reflexivity.
  Qed.

  Lemma dms_one_raises source target metrics args dim :
    (dim < length source)%nat ->
    (forall s t m a, nth_error source dim = Some s ->
        match target with Some ts => nth_error ts dim = t | None => t = None end ->
        nth_error (metric_list (length source) metrics) dim = Some m ->
        (match target with Some _ => t <> None | None => True end) ->
        raises (distance_matrix f32 mkw sm s t m a)) ->
    raises (dms source target metrics args).
  Proof.
    intros Hd H. apply raises_not_ok. intros Ds E. unfold dms, distance_matrices in E.
    apply bind_ok in E as [tl [Et E]]. apply mapM_ok_iff in E.
    assert (Hseq : In dim (seq 0 (length source))) by (apply in_seq; lia).
    assert (exists D, (s <- getitem source dim ;; t <- getitem tl dim ;;
       m <- getitem (metric_list (length source) metrics) dim ;;
       a <- getitem (match args with Some a => a | None => repeat no_kw (length source) end) dim ;;
       distance_matrix f32 mkw sm s t m a) = Ok D) as [D HD].
    { clear H. induction E as [|x y l l' Hxy _ IH]; [destruct Hseq|].
      destruct Hseq as [->|Hin]; [exists y; exact Hxy|auto]. }
    apply bind_ok in HD as [s [Es HD]]. apply bind_ok in HD as [t [Ett HD]].
    apply bind_ok in HD as [m [Em HD]]. apply bind_ok in HD as [a [_ HD]].
    apply getitem_ok in Es. apply getitem_ok in Ett. apply getitem_ok in Em.
    assert (raises (distance_matrix f32 mkw sm s t m a)) as [e He]; [|congruence].
    destruct target as [ts|].
    - destruct (Nat.eqb_spec (length source) (length ts)); [|discriminate]. inversion Et; subst tl.
      rewrite nth_error_map in Ett. destruct (nth_error ts dim) as [t'|] eqn:E'; [|discriminate].
      inversion Ett; subst. eapply H; eauto. discriminate.
    - inversion Et; subst tl. assert (t = None).
      { apply nth_error_In in Ett. eapply repeat_spec; eauto. }
      subst. eapply H; eauto.
  Qed.

  Lemma dms_dimension (source target : list coords) metrics args dim (s t : coords) :
    nth_error source dim = Some s -> nth_error target dim = Some t -> ncols s <> ncols t ->
    raises (dms source (Some target) metrics args).
  Proof.
    intros Hs Ht Hne. apply (dms_one_raises _ _ _ _ dim).
    - apply nth_error_Some. unfold coords, matrix in *. congruence.
    - intros s' t' m a H1 H2 H3 H4. rewrite Hs in H1. inversion H1; subst s'. rewrite Ht in H2. subst t'.
      apply dm_bad_dim; auto.
  Qed.

  Lemma dms_great_circle (source : list coords) target metrics args dim (s : coords) :
    nth_error source dim = Some s -> ncols s <> 2%nat ->
    nth_error (metric_list (length source) metrics) dim = Some "great-circle" ->
    raises (dms source target metrics args).
  Proof.
    intros Hs Hne Hm. apply (dms_one_raises _ _ _ _ dim).
    - apply nth_error_Some. unfold coords, matrix in *. congruence.
    - intros s' t' m a H1 H2 H3 H4. rewrite Hs in H1. inversion H1; subst s'. rewrite Hm in H3. inversion H3; subst m.
      apply dm_bad_gc; auto.
  Qed.

  Lemma dm_shape s t m a D :
    distance_matrix f32 mkw sm s (Some t) m a = Ok D ->
    exists M, D = A2 M /\ rect M (length s) (length t).
  Proof.
    unfold distance_matrix. destruct (ncols s =? ncols t); simpl; [|discriminate].
    destruct (String.eqb m "great-circle").
    - destruct (negb _); [discriminate|]. intros H; inversion H. eexists; split; [reflexivity|].
      apply rect_mmap. apply (cdist_rect (fun p q => great_circle (lonlat p) (lonlat q)) s t).
    - destruct (metric_fn mkw sm m a) as [mf|]; [|discriminate]. intros H; inversion H. eexists; split; [reflexivity|].
      apply rect_mmap. pose proof (cdist_rect mf (astype32 f32 s) (astype32 f32 t)) as HR.
      unfold astype32, mmap in *. rewrite !map_length in HR. exact HR.
  Qed.

  Lemma dms_shape (source target : list coords) metrics args Ds :
    dms source (Some target) metrics args = Ok Ds ->
    length Ds = length source /\ length target = length source /\
    forall dim (s t : coords), nth_error source dim = Some s -> nth_error target dim = Some t ->
      exists M, nth_error Ds dim = Some (A2 M) /\ rect M (length s) (length t).
  Proof.
    intros E. unfold dms, distance_matrices in E. apply bind_ok in E as [tl [Et E]].
    destruct (Nat.eqb_spec (length source) (length target)) as [HL|]; [|discriminate]. inversion Et; subst tl.
    split; [rewrite (mapM_length _ _ _ E), seq_length; reflexivity|]. split; [auto|].
    intros dim s t Hs Ht. apply mapM_ok_iff in E.
    assert (Hd : (dim < length source)%nat) by (apply nth_error_Some; unfold coords, matrix in *; congruence).
    assert (exists D, nth_error Ds dim = Some D /\ (s <- getitem source dim ;; t <- getitem (map Some target) dim ;;
       m <- getitem (metric_list (length source) metrics) dim ;;
       a <- getitem (match args with Some a => a | None => repeat no_kw (length source) end) dim ;;
       distance_matrix f32 mkw sm s t m a) = Ok D) as [D [HD HE]].
    { assert (Hq : nth_error (seq 0 (length source)) dim = Some dim).
      { rewrite (nth_error_nth' _ 0%nat) by (rewrite seq_length; auto). rewrite seq_nth; auto. }
      clear - E Hq. remember dim as k in Hq at 1. 
      assert (G : exists D, nth_error Ds k = Some D /\ (s <- getitem source dim ;; t <- getitem (map Some target) dim ;;
       m <- getitem (metric_list (length source) metrics) dim ;;
       a <- getitem (match args with Some a => a | None => repeat no_kw (length source) end) dim ;;
       distance_matrix f32 mkw sm s t m a) = Ok D).
      { clear Heqk. revert k Hq. induction E as [|x y l l' Hxy _ IH]; intros [|k] Hq; simpl in Hq; try discriminate.
        - inversion Hq; subst. exists y; auto.
        - simpl. auto. }
      subst k. exact G. }
    rewrite (proj2 (getitem_ok source dim s) Hs) in HE. cbn [bind] in HE.
    apply bind_ok in HE as [t' [Ht' HE]]. apply getitem_ok in Ht'. rewrite nth_error_map, Ht in Ht'.
    inversion Ht'; subst t'. apply bind_ok in HE as [m [_ HE]]. apply bind_ok in HE as [a [_ HE]].
    destruct (dm_shape _ _ _ _ _ HE) as [M [-> HM]]. eauto.
  Qed.

  Lemma dms_ok (source target : list coords) metric args :
    length source = length target ->
    (match args with Some a => (length source <= length a)%nat | None => True end) ->
    (forall dim (s t : coords), nth_error source dim = Some s -> nth_error target dim = Some t -> ncols s = ncols t) ->
    (metric = "euclidean" \/ sm metric <> None /\ metric <> "great-circle" \/
     metric = "great-circle" /\ forall s, In s source -> ncols s = 2%nat) ->
    exists Ds, dms source (Some target) (Scalar metric) args = Ok Ds.
  Proof.
    intros HL Ha Hdim Hm. unfold dms, distance_matrices. rewrite HL, Nat.eqb_refl. simpl bind.
    match goal with |- exists Ds, mapM ?f ?l = Ok Ds => assert (HH : ~ raises (mapM f l)) end.
    { rewrite mapM_raises_iff. intros (dim & Hin & Hr). apply in_seq in Hin.
      destruct (nth_error source dim) as [s|] eqn:Es; [|apply nth_error_None in Es; lia].
      destruct (nth_error target dim) as [t|] eqn:Et; [|apply nth_error_None in Et; lia].
      rewrite (proj2 (getitem_ok source dim s) Es) in Hr. cbn [bind] in Hr.
      assert (E2 : getitem (map Some target) dim = Ok (Some t)) by (apply getitem_ok; rewrite nth_error_map, Et; reflexivity).
      rewrite E2 in Hr. cbn [bind] in Hr.
      rewrite (getitem_lt metric (repeat metric (length target))) in Hr by (rewrite repeat_length; lia).
      cbn [bind] in Hr. rewrite nth_repeat in Hr.
      assert (exists a, getitem (match args with Some a => a | None => repeat no_kw (length target) end) dim = Ok a) as [a Eg].
      { destruct args as [al|]; eexists; apply (getitem_lt no_kw); [lia|rewrite repeat_length; lia]. }
      rewrite Eg in Hr. cbn [bind] in Hr. unfold distance_matrix in Hr.
      rewrite (Hdim dim s t Es Et), Nat.eqb_refl in Hr. cbn [bind] in Hr.
      destruct Hr as [e Hr].
      destruct Hm as [->|[[H1 H2]|[-> H]]].
      - simpl in Hr. discriminate.
      - destruct (String.eqb_spec metric "great-circle"); [congruence|]. unfold metric_fn in Hr.
        destruct (String.eqb metric "euclidean"); [discriminate|]. destruct (sm metric); congruence.
      - rewrite String.eqb_refl in Hr. rewrite <- (Hdim dim s t Es Et), (H s) in Hr by (eapply nth_error_In; eauto).
        discriminate. }
    match type of HH with ~ raises ?m => destruct m as [Ds|e] eqn:E end; [eauto|].
    exfalso. apply HH. exists e. reflexivity.
  Qed.
End Lists.

(** Condensed result. *)
Lemma pdist_flat m src :
  pdist m src = flat_map (fun i => map (fun j => m (nth i src []) (nth j src [])) (seq (S i) (length src - S i)))
                         (seq 0 (length src)).
Proof.
  induction src as [|p ps IH]; [reflexivity|].
  cbn [pdist length]. rewrite IH. cbn [seq flat_map]. f_equal.
  - replace (S (length ps) - 1)%nat with (length ps) by lia. rewrite <- seq_shift, map_map. cbn [nth].
    etransitivity; [|apply (map_map (fun j => nth j ps []) (m p))]. f_equal. apply (tabulate_of_list [] ps).
  - rewrite <- (seq_shift (length ps) 0), !flat_map_concat_map, map_map. f_equal. apply map_ext. intros i. 
    rewrite Nat.sub_succ, <- (seq_shift _ (S i)), map_map. reflexivity.
Qed.

(** ** Cache *)
Section Cache.
  Context (mkw : Type) (dmet : string -> option (list R -> list R -> R)) (sr : list R -> list R).

  Lemma perform_cached fs c path m :
    cacheable mkw c path -> fs (zarr_path path) = Some m ->
    perform mkw dmet sr fs c = (fs, Ok (DaskMatrix m)).
  Proof.
    intros (H1 & H2 & H3) Hf. unfold perform, distance_matrix_dask. rewrite H1, H2. cbn [negb]. rewrite Hf.
    destruct (dc_target c) as [t|]; [|reflexivity]. rewrite (H3 t eq_refl), Nat.eqb_refl. reflexivity.
  Qed.

  Lemma perform_all_cached cs fs path m :
    Forall (fun c => cacheable mkw c path) cs -> fs (zarr_path path) = Some m ->
    perform_all mkw dmet sr fs cs = (fs, repeat (Ok (DaskMatrix m)) (length cs)).
  Proof.
    intros H Hf. induction H as [|c cs Hc _ IH]; [reflexivity|].
    cbn [perform_all]. rewrite (perform_cached fs c path m Hc Hf), IH. reflexivity.
  Qed.

  Lemma perform_fresh fs c path t f :
    kw_filepath (dc_kw c) = Some path -> dc_target c = Some t -> ncols (dc_source c) = ncols t ->
    dmet (dc_metric c) = Some f -> sorted_path (zarr_path path) <> zarr_path path ->
    (kw_overwrite (dc_kw c) = true \/ fs (zarr_path path) = None) ->
    exists fs' r, perform mkw dmet sr fs c = (fs', Ok r) /\
      result_matrix r = cdist f (dc_source c) t /\ fs' (zarr_path path) = Some (cdist f (dc_source c) t).
  Proof.
    intros H1 H2 H3 H4 Hs H5. unfold perform, distance_matrix_dask. rewrite H1, H2, H3, H4, Nat.eqb_refl.
    assert (E : (if negb (kw_overwrite (dc_kw c)) then fs (zarr_path path) else None) = None)
      by (destruct H5 as [->| ->]; [reflexivity|destruct (negb _); reflexivity]).
    rewrite E. destruct (dc_cache_sort c).
    - do 2 eexists. split; [reflexivity|]. split; [reflexivity|]. unfold fs_write.
      destruct (String.eqb_spec (zarr_path path) (sorted_path (zarr_path path))); [congruence|].
      rewrite String.eqb_refl. reflexivity.
    - do 2 eexists. split; [reflexivity|]. split; [reflexivity|]. unfold fs_write. rewrite String.eqb_refl. reflexivity.
  Qed.

  (** Appending to the name never gives the name back, so the sorted companion
      does not overwrite the matrix. *)
  Lemma replace_length fuel p : (String.length p <= String.length (replace_zarr_fuel fuel p))%nat.
  Proof.
    revert p; induction fuel as [|fuel IH]; intros p; [simpl; lia|].
    cbn [replace_zarr_fuel]. destruct (String.prefix ".zarr" p) eqn:E.
    - assert (HA : forall a b : string, String.length (a ++ b) = (String.length a + String.length b)%nat)
        by (induction a; simpl; intros; auto).
      rewrite HA. specialize (IH (substring 5 (String.length p - 5) p)).
      assert (HS : forall n k s, (n + k <= String.length s)%nat -> String.length (substring n k s) = k).
      { clear. intros n k s; revert n k. induction s as [|c s IHs]; intros n k H; simpl in H.
        - destruct n; [|lia]. destruct k; [reflexivity|lia].
        - destruct n; [destruct k; simpl; [reflexivity|rewrite IHs; lia]|simpl; rewrite IHs; lia]. }
      destruct (Nat.le_gt_cases 5 (String.length p)) as [H|H].
      + rewrite HS in IH by lia. simpl. lia.
      + simpl. lia.
    - destruct p as [|c p]; simpl; [lia|]. specialize (IH p). lia.
  Qed.
  Lemma prefix_zarr_len p : String.prefix ".zarr" p = true -> (5 <= String.length p)%nat.
  Proof.
    do 5 (destruct p as [|? p];
      [intros H; exfalso; cbn [String.prefix] in H;
       repeat (match type of H with context [Ascii.ascii_dec ?a ?b] => destruct (Ascii.ascii_dec a b) end); discriminate|]).
    simpl; lia.
  Qed.
  Lemma replace_suffix_longer p : is_suffix_zarr p = true ->
    forall fuel, (String.length p < fuel)%nat -> (String.length p < String.length (replace_zarr_fuel fuel p))%nat.
  Proof.
    induction p as [|c p IH]; intros H fuel Hf; [simpl in H; discriminate|].
    destruct fuel as [|fuel]; [lia|]. cbn [replace_zarr_fuel].
    assert (HA : forall a b : string, String.length (a ++ b) = (String.length a + String.length b)%nat)
        by (induction a; simpl; intros; auto).
    destruct (String.prefix ".zarr" (String c p)) eqn:E.
    - rewrite HA. pose proof (prefix_zarr_len _ E) as H5. pose proof (replace_length fuel (substring 5 (String.length (String c p) - 5) (String c p))) as HR.
      assert (HS : forall n k s, (n + k <= String.length s)%nat -> String.length (substring n k s) = k).
      { clear. intros n k s; revert n k. induction s as [|c s IHs]; intros n k H; simpl in H.
        - destruct n; [|lia]. destruct k; [reflexivity|lia].
        - destruct n; [destruct k; simpl; [reflexivity|rewrite IHs; lia]|simpl; rewrite IHs; lia]. }
      rewrite HS in HR by lia.
      change (String.length "_sorted.zarr") with 12%nat. lia.
    - cbn [is_suffix_zarr] in H.
      destruct (String.eqb (String c p) ".zarr") eqn:Eq.
      + apply String.eqb_eq in Eq. rewrite Eq in E. discriminate.
      + cbn [String.length]. simpl in Hf. specialize (IH H fuel ltac:(lia)). lia.
  Qed.
  Lemma suffix_app p : is_suffix_zarr (p ++ ".zarr") = true.
  Proof.
    induction p as [|c p IH]; [reflexivity|]. cbn [append is_suffix_zarr].
    destruct (String.eqb _ _); auto.
  Qed.
  Lemma zarr_path_suffix p : is_suffix_zarr (zarr_path p) = true.
  Proof. unfold zarr_path. destruct (is_suffix_zarr p) eqn:E; auto. apply suffix_app. Qed.
  Lemma sorted_path_differs p : sorted_path (zarr_path p) <> zarr_path p.
  Proof.
    intros E. pose proof (replace_suffix_longer _ (zarr_path_suffix p) (S (String.length (zarr_path p))) ltac:(lia)) as H.
    unfold sorted_path in E. rewrite E in H. lia.
  Qed.

  Lemma stale_history fs c0 cs path t f :
    fs (zarr_path path) = None ->
    cacheable mkw c0 path -> dc_target c0 = Some t -> dmet (dc_metric c0) = Some f ->
    Forall (fun c => cacheable mkw c path) cs ->
    exists fs' r, perform_all mkw dmet sr fs (c0 :: cs) =
        (fs', Ok r :: repeat (Ok (DaskMatrix (cdist f (dc_source c0) t))) (length cs)) /\
      result_matrix r = cdist f (dc_source c0) t.
  Proof.
    intros Hf (H1 & H2 & H3) Ht Hm Hcs.
    destruct (perform_fresh fs c0 path t f H1 Ht (H3 t Ht) Hm (sorted_path_differs path) (or_intror Hf))
      as (fs' & r & E & Er & Ef).
    exists fs', r. cbn [perform_all]. rewrite E, (perform_all_cached cs fs' path _ Hcs Ef). auto.
  Qed.
End Cache.
