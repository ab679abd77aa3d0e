From Coq Require Import Lra Psatz.
From Verif.Model Require Import Base Ext Sort Kernel.
From Verif.Spec Require Import KernelSpec.
From Verif.Proofs Require Import ListFacts.
Open Scope string_scope.
Open Scope nat_scope.
Open Scope R_scope.

(** ** boolean comparisons *)
Lemma Rleb_true x y : Rleb x y = true <-> x <= y.
Proof. unfold Rleb; destruct (Rle_dec x y); split; intros; auto; try discriminate; contradiction. Qed.
Lemma Rltb_true x y : Rltb x y = true <-> x < y.
Proof. unfold Rltb; destruct (Rlt_dec x y); split; intros; auto; try discriminate; contradiction. Qed.
Lemma Reqb_true x y : Reqb x y = true <-> x = y.
Proof. unfold Reqb; destruct (Req_EM_T x y); split; intros; auto; try discriminate; contradiction. Qed.
Lemma Rleb_false x y : Rleb x y = false <-> y < x.
Proof. unfold Rleb; destruct (Rle_dec x y); split; intros; try discriminate; auto; lra. Qed.
Lemma Rltb_false x y : Rltb x y = false <-> y <= x.
Proof. unfold Rltb; destruct (Rlt_dec x y); split; intros; try discriminate; auto; lra. Qed.
Lemma Reqb_false x y : Reqb x y = false <-> x <> y.
Proof. unfold Reqb; destruct (Req_EM_T x y); split; intros; try discriminate; auto; contradiction. Qed.

(** ** kernel names *)
Ltac kcases H := destruct H as [->|[->|[->|[->|[->|[->| ->]]]]]].

Lemma known_kernel_dec k : {known_kernel k} + {~ known_kernel k}.
Proof.
  unfold known_kernel.
  destruct (string_dec k "linear"); [left; auto|].
  destruct (string_dec k "uniform"); [left; auto|].
  destruct (string_dec k "gaussian"); [left; auto|].
  destruct (string_dec k "exponential"); [left; auto 7|].
  destruct (string_dec k "boxcar"); [left; auto 7|].
  destruct (string_dec k "bisquare"); [left; auto 8|].
  destruct (string_dec k "tricube"); [left; auto 9|].
  right; intuition.
Defined.

Lemma kernel_expr_known k : known_kernel k -> exists f, kernel_expr k = Some f.
Proof. intros H; kcases H; eexists; reflexivity. Qed.

Lemma kernel_expr_unknown k : ~ known_kernel k -> kernel_expr k = None.
Proof.
  intros H. unfold kernel_expr, known_kernel in *.
  repeat match goal with
  | |- context [String.eqb k ?s] =>
    destruct (String.eqb_spec k s) as [->|?]; [exfalso; apply H; auto 8|]
  end. reflexivity.
Qed.

(** ** closed form for all d >= 0 and all b *)
Definition kernel_value (k : string) (b d : R) : R :=
  if String.eqb k "uniform" then 1
  else if Req_EM_T b 0 then (if Req_EM_T d 0 then 1 else 0)
  else
    let u := d / b in
    if String.eqb k "gaussian" then exp (- u ^ 2 / 2)
    else if String.eqb k "exponential" then exp (- Rabs u / 2)
    else if Rle_dec d b then
      (if String.eqb k "boxcar" then 1
       else if String.eqb k "linear" then 1 - u
       else if String.eqb k "bisquare" then (1 - u ^ 2) ^ 2
       else (1 - u ^ 3) ^ 3)
    else 0.

Lemma kernel_entry_value k f d b :
  known_kernel k -> kernel_expr k = Some f -> 0 <= d ->
  kernel_entry k f d b = Fin (kernel_value k b d).
Proof.
  intros Hk Hf Hd.
  assert (Hdiv : forall x y, y <> 0 -> ediv (Fin x) (Fin y) = Fin (x / y)).
  { intros x y Hy. simpl. destruct (Req_EM_T y 0); [contradiction|reflexivity]. }
  assert (Hhalf : -0.5 = - / 2) by lra.
  unfold kernel_entry, kernel_value.
  destruct (Req_EM_T b 0) as [->|Hb].
  - (* zero bandwidth *)
    destruct (Req_EM_T d 0) as [->|Hd0].
    + assert (E : ediv (Fin 0) (Fin 0) = NaN).
      { simpl. destruct (Req_EM_T 0 0); [|congruence].
        destruct (Rlt_dec 0 0); [lra|]. destruct (Rlt_dec 0 0); [lra|reflexivity]. }
      rewrite E.
      assert (E2 : Rltb 0 0 = false) by (apply Rltb_false; lra). rewrite E2, andb_false_r.
      kcases Hk; inversion Hf; subst f; cbn -[Rmult Rplus Ropp Rabs exp]; f_equal; try rewrite Rabs_R0;
        first [ring | rewrite <- exp_0; f_equal; lra].
    + assert (E : ediv (Fin d) (Fin 0) = PInf).
      { simpl. destruct (Req_EM_T 0 0); [|congruence].
        destruct (Rlt_dec 0 d); [reflexivity|lra]. }
      rewrite E.
      assert (E2 : Rltb 0 d = true) by (apply Rltb_true; lra). rewrite E2, andb_true_r.
      kcases Hk; inversion Hf; subst f; try reflexivity;
        cbn -[Rmult Rplus Ropp Rabs exp];
        (destruct (Rlt_dec 0 (-0.5)); [lra|]); (destruct (Rlt_dec (-0.5) 0); [reflexivity|lra]).
  - rewrite (Hdiv d b Hb). cbn [nan_to_num].
    destruct (Rle_dec d b) as [Hle|Hgt].
    + assert (E2 : Rltb b d = false) by (apply Rltb_false; lra). rewrite E2, andb_false_r.
      assert (0 <= d / b).
      { apply Rmult_le_pos; auto. apply Rlt_le, Rinv_0_lt_compat. lra. }
      kcases Hk; inversion Hf; subst f; cbn -[Rmult Rplus Ropp Rabs exp Rdiv pow]; f_equal;
        rewrite ?Hhalf; first [ring | f_equal; field; auto | rewrite Rabs_pos_eq by auto; ring].
    + assert (E2 : Rltb b d = true) by (apply Rltb_true; lra). rewrite E2, andb_true_r.
      kcases Hk; inversion Hf; subst f; try reflexivity; cbn -[Rmult Rplus Ropp Rabs exp Rdiv pow]; f_equal;
        rewrite ?Hhalf; f_equal; field; auto.
Qed.

Lemma kernel_function_known k D bw bs :
  known_kernel k -> bandwidth_rows (nrows D) bw = Ok bs -> entries (Rle 0) D ->
  kernel_function D bw k = Ok (map2 (fun row b => map (fun d => Fin (kernel_value k b d)) row) D bs).
Proof.
  intros Hk Hb HD. unfold kernel_function. rewrite Hb; simpl.
  destruct (kernel_expr_known k Hk) as [f Hf]. rewrite Hf. f_equal.
  apply map2_ext_in. intros row b Hrow _. apply map_ext_in. intros d Hd.
  apply kernel_entry_value; auto.
  unfold entries in HD. rewrite Forall_forall in HD. specialize (HD row Hrow).
  rewrite Forall_forall in HD. auto.
Qed.

Lemma weighs_iff k b d w : known_kernel k -> 0 <= d -> (weighs k b d w <-> w = kernel_value k b d).
Proof.
  intros Hk Hd. unfold weighs.
  rewrite (kernel_function_known k [[d]] (BScalar b) [b]); [|auto|reflexivity|].
  - simpl. split; intros H; [inversion H; auto | subst; auto].
  - unfold entries. constructor; [constructor; [exact Hd|constructor]|constructor].
Qed.

Lemma div_range d b : 0 <= d -> d <= b -> b <> 0 -> 0 <= d / b <= 1.
Proof.
  intros H1 H2 H3. assert (0 < b) by lra. split.
  - apply Rmult_le_pos; auto. apply Rlt_le, Rinv_0_lt_compat; auto.
  - apply Rmult_le_reg_r with b; auto. unfold Rdiv. rewrite Rmult_assoc, Rinv_l; lra.
Qed.

Lemma exp_le_1 x : x <= 0 -> 0 < exp x <= 1.
Proof.
  intros H. split; [apply exp_pos|]. rewrite <- exp_0.
  destruct H as [H| ->]; [left; apply exp_increasing; auto | right; auto].
Qed.

Ltac eqbs := cbn [String.eqb Ascii.eqb Bool.eqb].

Lemma cube_bound u : 0 <= u <= 1 -> 0 <= u ^ 3 <= 1.
Proof. intros [H1 H2]. split; [apply pow_le; auto|]. simpl. rewrite Rmult_1_r. assert (0 <= u * u <= 1) by nra. nra. Qed.

Lemma kernel_value_range k b d : known_kernel k -> 0 <= d -> 0 <= kernel_value k b d <= 1.
Proof.
  intros Hk Hd. unfold kernel_value.
  destruct (Req_EM_T b 0) as [->|Hb].
  { kcases Hk; eqbs; try lra; destruct (Req_EM_T d 0); lra. }
  destruct (Rle_dec d b) as [Hle|Hgt].
  - pose proof (div_range d b Hd Hle Hb) as Hu. set (u := d / b) in *.
    kcases Hk; eqbs; try lra.
    + assert (- u ^ 2 / 2 <= 0) by nra. pose proof (exp_le_1 _ H); lra.
    + assert (- Rabs u / 2 <= 0) by (pose proof (Rabs_pos u); lra). pose proof (exp_le_1 _ H); lra.
    + assert (0 <= u ^ 2 <= 1) by nra. nra.
    + pose proof (cube_bound u Hu). apply cube_bound. lra.
  - kcases Hk; eqbs; try lra.
    + set (u := d / b). assert (- u ^ 2 / 2 <= 0) by nra. pose proof (exp_le_1 _ H); lra.
    + set (u := d / b). assert (- Rabs u / 2 <= 0) by (pose proof (Rabs_pos u); lra). pose proof (exp_le_1 _ H); lra.
Qed.

Lemma kernel_value_0 k b : known_kernel k -> 0 <= b -> kernel_value k b 0 = 1.
Proof.
  intros Hk Hb. unfold kernel_value.
  destruct (Req_EM_T b 0) as [->|Hb0].
  { kcases Hk; eqbs; auto; destruct (Req_EM_T 0 0); auto; contradiction. }
  assert (E : 0 / b = 0) by (unfold Rdiv; ring). rewrite E.
  destruct (Rle_dec 0 b); [|lra].
  kcases Hk; eqbs; try rewrite Rabs_R0; try ring.
  - rewrite <- exp_0; f_equal; field.
  - rewrite <- exp_0; f_equal; field.
Qed.

Lemma div_le d1 d2 b : 0 < b -> d1 <= d2 -> d1 / b <= d2 / b.
Proof. intros. apply Rmult_le_compat_r; auto. apply Rlt_le, Rinv_0_lt_compat; auto. Qed.
Lemma div_lt d1 d2 b : 0 < b -> d1 < d2 -> d1 / b < d2 / b.
Proof. intros. apply Rmult_lt_compat_r; auto. apply Rinv_0_lt_compat; auto. Qed.
Lemma div_nonneg d b : 0 < b -> 0 <= d -> 0 <= d / b.
Proof. intros. apply Rmult_le_pos; auto. apply Rlt_le, Rinv_0_lt_compat; auto. Qed.
Lemma exp_mono x y : x <= y -> exp x <= exp y.
Proof. intros [H| ->]; [left; apply exp_increasing; auto|right; auto]. Qed.

Lemma cube_mono u v : 0 <= u -> u <= v -> u ^ 3 <= v ^ 3.
Proof. intros. apply pow_incr; lra. Qed.
Lemma cube_strict u v : 0 <= u -> u < v -> u ^ 3 < v ^ 3.
Proof.
  intros Hu Huv.
  assert (E : v ^ 3 - u ^ 3 = (v - u) * (v * v + v * u + u * u)) by ring.
  assert (0 < (v - u) * (v * v + v * u + u * u)) by (apply Rmult_lt_0_compat; nra). lra.
Qed.

Lemma kernel_value_mono k b d1 d2 :
  known_kernel k -> 0 <= b -> 0 <= d1 -> d1 <= d2 -> kernel_value k b d2 <= kernel_value k b d1.
Proof.
  intros Hk Hb Hd1 Hd. pose proof (kernel_value_range k b d1 Hk Hd1) as HR.
  unfold kernel_value in *.
  destruct (Req_EM_T b 0) as [->|Hb0].
  { kcases Hk; cbn [String.eqb Ascii.eqb Bool.eqb] in *; try lra;
    destruct (Req_EM_T d1 0); destruct (Req_EM_T d2 0); lra. }
  assert (Hbp : 0 < b) by lra.
  pose proof (div_le d1 d2 b Hbp Hd) as Hu. pose proof (div_nonneg d1 b Hbp Hd1) as Hu1.
  destruct (Rle_dec d2 b) as [H2|H2].
  - destruct (Rle_dec d1 b) as [H1|H1]; [|lra].
    pose proof (div_range d2 b ltac:(lra) H2 Hb0) as Hu2.
    set (u := d1 / b) in *; set (v := d2 / b) in *.
    kcases Hk; eqbs; try lra.
    + apply exp_mono. nra.
    + apply exp_mono. rewrite !Rabs_pos_eq; lra.
    + assert (u ^ 2 <= v ^ 2 <= 1) by (split; nra). assert (0 <= u ^ 2) by nra. nra.
    + pose proof (cube_mono u v Hu1 Hu). pose proof (cube_bound v Hu2). apply cube_mono; lra.
  - set (u := d1 / b) in *; set (v := d2 / b) in *.
    destruct (Rle_dec d1 b) as [H1|H1]; kcases Hk; cbn [String.eqb Ascii.eqb Bool.eqb] in *; try lra.
    + apply exp_mono. nra.
    + apply exp_mono. rewrite !Rabs_pos_eq; lra.
    + apply exp_mono. nra.
    + apply exp_mono. rewrite !Rabs_pos_eq; lra.
Qed.

Lemma kernel_value_strict_compact k b d1 d2 :
  vanishing_kernel k -> 0 <= d1 -> d1 < d2 -> d2 <= b -> kernel_value k b d2 < kernel_value k b d1.
Proof.
  intros Hk Hd1 Hd Hb. unfold kernel_value.
  destruct (Req_EM_T b 0) as [->|Hb0]; [lra|].
  assert (Hbp : 0 < b) by lra.
  destruct (Rle_dec d2 b); [|lra]. destruct (Rle_dec d1 b); [|lra].
  pose proof (div_lt d1 d2 b Hbp Hd) as Hu. pose proof (div_nonneg d1 b Hbp Hd1) as Hu1.
  pose proof (div_range d2 b ltac:(lra) Hb Hb0) as Hu2.
  set (u := d1 / b) in *; set (v := d2 / b) in *.
  destruct Hk as [->|[->| ->]]; eqbs; try lra.
  - assert (u ^ 2 < v ^ 2 <= 1) by (split; nra). nra.
  - pose proof (cube_strict u v Hu1 Hu). pose proof (cube_bound v Hu2). apply cube_strict; lra.
Qed.

Lemma kernel_value_strict_smooth k b d1 d2 :
  smooth_kernel k -> 0 < b -> 0 <= d1 -> d1 < d2 -> kernel_value k b d2 < kernel_value k b d1.
Proof.
  intros Hk Hb Hd1 Hd. unfold kernel_value.
  destruct (Req_EM_T b 0) as [->|Hb0]; [lra|].
  pose proof (div_lt d1 d2 b Hb Hd) as Hu. pose proof (div_nonneg d1 b Hb Hd1) as Hu1.
  set (u := d1 / b) in *; set (v := d2 / b) in *.
  destruct Hk as [->| ->]; eqbs.
  - apply exp_increasing. nra.
  - apply exp_increasing. rewrite !Rabs_pos_eq; lra.
Qed.

Lemma pow_ne_0 x n : x <> 0 -> x ^ n <> 0.
Proof. intros; apply pow_nonzero; auto. Qed.

Lemma kernel_value_support k b d :
  known_kernel k -> 0 <= d -> 0 < b ->
  (kernel_value k b d = 0 <->
   (vanishing_kernel k /\ b <= d) \/ (k = "boxcar" /\ b < d)).
Proof.
  intros Hk Hd Hb. split.
  - intros H. unfold kernel_value, vanishing_kernel in *.
    destruct (Req_EM_T b 0); [lra|].
    destruct (Rle_dec d b) as [Hle|Hgt].
    + pose proof (div_range d b Hd Hle n) as Hu.
      assert (Hlt : d < b -> d / b < 1).
      { intros Hl. apply Rmult_lt_reg_r with b; auto. unfold Rdiv. rewrite Rmult_assoc, Rinv_l; lra. }
      set (u := d / b) in *.
      kcases Hk; cbn [String.eqb Ascii.eqb Bool.eqb] in H; try lra;
        try (match type of H with exp ?x = _ => pose proof (exp_pos x); lra end).
      * left. split; auto. destruct (Rle_dec b d); auto. exfalso. assert (d < b) by lra. specialize (Hlt H0). lra.
      * left. split; auto. destruct (Rle_dec b d); auto. exfalso. assert (Hl : d < b) by lra. specialize (Hlt Hl).
        revert H. apply pow_ne_0. nra.
      * left. split; auto. destruct (Rle_dec b d); auto. exfalso. assert (Hl : d < b) by lra. specialize (Hlt Hl).
        revert H. apply pow_ne_0. pose proof (cube_strict u 1 (proj1 Hu) Hlt). lra.
    + kcases Hk; cbn [String.eqb Ascii.eqb Bool.eqb] in H; try lra;
        try (match type of H with exp ?x = _ => pose proof (exp_pos x); lra end).
      * left; split; auto; lra.
      * right; split; auto; lra.
      * left; split; auto; lra.
      * left; split; auto; lra.
  - intros [[Hv Hge]|[-> Hgt]]; unfold kernel_value; (destruct (Req_EM_T b 0); [lra|]).
    + destruct (Rle_dec d b).
      * assert (d = b) by lra. subst d. assert (E : b / b = 1) by (field; auto). rewrite E.
        destruct Hv as [->|[->| ->]]; eqbs; ring.
      * destruct Hv as [->|[->| ->]]; eqbs; auto.
    + eqbs. destruct (Rle_dec d b); auto; lra.
Qed.

Lemma kernel_value_zero_bandwidth k d :
  known_kernel k -> k <> "uniform" -> kernel_value k 0 d = if Req_EM_T d 0 then 1 else 0.
Proof.
  intros Hk Hu. unfold kernel_value. destruct (Req_EM_T 0 0); [|contradiction].
  kcases Hk; eqbs; auto. contradiction.
Qed.

Lemma kernel_value_scale k b d c :
  0 < c -> 0 <= d -> kernel_value k (c * b) (c * d) = kernel_value k b d.
Proof.
  intros Hc Hd. unfold kernel_value.
  destruct (String.eqb k "uniform"); auto.
  destruct (Req_EM_T b 0) as [->|Hb].
  - rewrite Rmult_0_r. destruct (Req_EM_T 0 0); [|contradiction].
    destruct (Req_EM_T (c * d) 0); destruct (Req_EM_T d 0); auto; exfalso; nra.
  - destruct (Req_EM_T (c * b) 0) as [E|_]; [exfalso; destruct (Rmult_integral _ _ E); lra|].
    assert (E : c * d / (c * b) = d / b) by (field; lra). rewrite E.
    destruct (Rle_dec (c * d) (c * b)) as [H|H]; destruct (Rle_dec d b) as [H'|H']; auto.
    + exfalso. apply H'. apply Rmult_le_reg_l with c; auto.
    + exfalso. apply H. apply Rmult_le_compat_l; lra.
Qed.

Lemma kernel_value_textbook k b d :
  known_kernel k -> 0 <= d -> 0 < b -> kernel_value k b d = textbook k (d / b).
Proof.
  intros Hk Hd Hb. unfold kernel_value, textbook.
  destruct (Req_EM_T b 0); [lra|].
  pose proof (div_nonneg d b Hb Hd) as Hu.
  assert (Hiff : d <= b <-> d / b <= 1).
  { split; intros H.
    - apply (div_range d b); auto.
    - apply Rmult_le_reg_r with (/ b); [apply Rinv_0_lt_compat; auto|]. rewrite Rinv_r by lra. exact H. }
  destruct (Rle_dec d b) as [H|H]; destruct (Rle_dec (d / b) 1) as [H'|H']; try tauto;
    kcases Hk; eqbs; auto; rewrite ?Rabs_pos_eq by auto; auto.
Qed.

(** dask bisquare *)
Lemma dask_bisquare_value b d :
  0 <= d -> 0 <= b -> kernel_entry_dask_bisquare d b = Fin (kernel_value "bisquare" b d).
Proof.
  intros Hd Hb. unfold kernel_entry_dask_bisquare, kernel_value. eqbs.
  destruct (Req_EM_T b 0) as [->|Hb0].
  - destruct (Req_EM_T d 0) as [->|Hd0].
    + assert (E : ediv (Fin 0) (Fin 0) = NaN).
      { simpl. destruct (Req_EM_T 0 0); [|congruence].
        destruct (Rlt_dec 0 0); [lra|]. destruct (Rlt_dec 0 0); [lra|reflexivity]. }
      rewrite E. cbn [nan_to_num egtb]. assert (E2 : Rltb 1 0 = false) by (apply Rltb_false; lra). rewrite E2.
      simpl. f_equal; ring.
    + assert (E : ediv (Fin d) (Fin 0) = PInf).
      { simpl. destruct (Req_EM_T 0 0); [|congruence].
        destruct (Rlt_dec 0 d); [reflexivity|lra]. }
      rewrite E. simpl. f_equal; ring.
  - assert (E : ediv (Fin d) (Fin b) = Fin (d / b)).
    { simpl. destruct (Req_EM_T b 0); [contradiction|reflexivity]. }
    rewrite E. cbn [nan_to_num egtb].
    assert (Hiff : d <= b <-> d / b <= 1).
    { split; intros H.
      - apply (div_range d b); auto.
      - apply Rmult_le_reg_r with (/ b); [apply Rinv_0_lt_compat; lra|]. rewrite Rinv_r by lra. exact H. }
    destruct (Rltb 1 (d / b)) eqn:E2.
    + apply Rltb_true in E2. destruct (Rle_dec d b) as [H|H]; [apply Hiff in H; lra|].
      simpl. f_equal; ring.
    + apply Rltb_false in E2. destruct (Rle_dec d b) as [H|H]; [|exfalso; apply H, Hiff; lra].
      cbn -[Rmult Rplus Ropp Rdiv pow]. f_equal. simpl. ring.
Qed.
