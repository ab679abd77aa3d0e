From Coq Require Import Lra Lia Psatz.
From Verif.Model Require Import Base Ext Distance Simulation.
From Verif.Spec Require Import DistanceSpec SimulationSpec.
From Verif.Proofs Require Import ListFacts SumFacts KernelFacts CsrFacts DistanceFacts MoranFacts SimulationProps.
Open Scope string_scope.
Open Scope nat_scope.
Open Scope R_scope.

Section S.
  Variable G : Type.
  Variable uniform : G -> R -> R -> nat -> G * list R.
  Variable choice_with : G -> list R -> nat -> G * list R.
  Variable normal exponential : G -> nat -> G * list R.
  Hypothesis VU : valid_uniform uniform.
  Hypothesis VC : valid_choice_with choice_with.
  Hypothesis VN : valid_normal normal.
  Hypothesis VE : valid_exponential exponential.

  Notation coordinate := (sample_coordinate G uniform choice_with).
  Notation columns := (sample_columns G uniform choice_with).
  Notation points_of := (sample_points G uniform choice_with).

  Lemma columns_spec n B T ds : forall g g' cols, columns g n ds B T = Ok (g', cols) ->
    List.length cols = List.length ds /\
    forall k, (k < List.length ds)%nat -> List.length (nth k cols []) = n /\ forall x, In x (nth k cols []) -> admissible B T (nth k ds O) x.
  Proof.
    induction ds as [|d ds IH]; intros g g' cols H.
    { cbn in H. injection H as _ <-. split; auto. simpl. lia. }
    cbn [sample_columns] in H.
    destruct (match T with TOne t => Ok t | TList l => getitem l d end) as [t|e] eqn:ET; [|discriminate]. cbn [bind] in H.
    assert (HT : type_for T d t) by (destruct T; [simpl; congruence|apply getitem_ok in ET; auto]).
    assert (UT : forall u, type_for T d u -> u = t) by (destruct T; simpl in *; intros; congruence).
    destruct (if String.eqb t "continuous" || String.eqb t "discrete" then _ else _) as [[g1 col]|e] eqn:EC; [|discriminate].
    cbn [bind fst snd] in H. destruct (columns g1 n ds B T) as [[g2 cs]|e] eqn:ER; [|discriminate]. cbn [bind fst snd] in H.
    injection H as <- <-. apply IH in ER as [HL HA].
    assert (HC : List.length col = n /\ forall x, In x col -> admissible B T d x).
    { clear HA HL IH.
      destruct (String.eqb t "continuous") eqn:E1.
      - apply String.eqb_eq in E1. subst t. cbn [orb] in EC.
        destruct (match B with BOne b => Ok b | BList l => getitem l d end) as [b|e] eqn:EB; [|discriminate]. cbn [bind] in EC.
        assert (HB : bound_for B d b) by (destruct B; [simpl; congruence|apply getitem_ok in EB; auto]).
        unfold sample_coordinate in EC. rewrite String.eqb_refl in EC.
        destruct b as [k|[|lo [|hi rest]]]; try discriminate.
        assert (EC' : uniform g lo hi n = (g1, col)) by congruence. pose proof (VU g lo hi n) as [L I]. rewrite EC' in *. cbn [snd] in *.
        split; auto. intros x Hx. split; [|split].
        + intros _. exists lo, hi, rest. auto.
        + intros H. apply UT in H. discriminate.
        + intros u Hu N. apply UT in Hu. congruence.
      - destruct (String.eqb t "discrete") eqn:E2.
        + apply String.eqb_eq in E2. subst t. cbn [orb] in EC.
          destruct (match B with BOne b => Ok b | BList l => getitem l d end) as [b|e] eqn:EB; [|discriminate]. cbn [bind] in EC.
          assert (HB : bound_for B d b) by (destruct B; [simpl; congruence|apply getitem_ok in EB; auto]).
          unfold sample_coordinate in EC. rewrite E1, String.eqb_refl in EC.
          assert (W : List.length col = n /\ forall x, In x col -> (exists l, bound_for B d (Seq l) /\ In x l) \/
                              (exists k m, bound_for B d (Num k) /\ x = INR m /\ (Z.of_nat m < k)%Z)).
          { destruct b as [k|l].
            - destruct ((k <=? 0)%Z && negb (n =? 0)%nat) eqn:EK; [discriminate|].
              assert (EC' : choice_with g (map INR (seq 0 (Z.to_nat k))) n = (g1, col)) by congruence.
              destruct (VC g (map INR (seq 0 (Z.to_nat k))) n) as [L I].
              { apply Bool.andb_false_iff in EK as [EK|EK].
                - left. apply Z.leb_gt in EK. destruct (Z.to_nat k) eqn:EN; [lia|]. discriminate.
                - right. apply Bool.negb_false_iff, Nat.eqb_eq in EK. auto. }
              rewrite EC' in *. cbn [snd] in *. split; auto. intros x Hx. right. apply I in Hx. apply in_map_iff in Hx as [m [<- Hm]].
              apply in_seq in Hm. exists k, m. repeat split; auto. lia.
            - destruct l as [|a l].
              + destruct (n =? 0)%nat eqn:EN; [|discriminate]. apply Nat.eqb_eq in EN. injection EC as _ <-. subst n. split; auto. intros x [].
              + assert (EC' : choice_with g (a :: l) n = (g1, col)) by congruence.
                destruct (VC g (a :: l) n) as [L I]; [left; discriminate|]. rewrite EC' in *. cbn [snd] in *. split; auto.
                intros x Hx. left. exists (a :: l). auto. }
          destruct W as [L I]. split; auto. intros x Hx. split; [|split].
          * intros H. apply UT in H. discriminate.
          * intros _. auto.
          * intros u Hu _ N. apply UT in Hu. congruence.
        + cbn [orb] in EC. injection EC as _ <-. split; [apply repeat_length|]. intros x Hx. apply repeat_spec in Hx.
          split; [|split]; auto; intros H; apply UT in H; subst t; discriminate. }
    split; [simpl; lia|]. intros [|k] Hk; cbn [nth]; [exact HC|]. apply HA. simpl in Hk. lia.
  Qed.

  Lemma points_spec g n dim B T g' pts : points_of g n dim B T = Ok (g', pts) ->
    rect pts n dim /\ forall i d, (i < n)%nat -> (d < dim)%nat -> admissible B T d (mget 0 pts i d).
  Proof.
    unfold sample_points. destruct (columns g n (seq 0 dim) B T) as [[g1 cols]|e] eqn:E; [|discriminate].
    cbn [bind fst snd]. intros H. injection H as <- <-. apply columns_spec in E as [HL HA]. rewrite seq_length in *.
    unfold tabulate. split.
    - split; [rewrite map_length, seq_length; auto|]. apply Forall_forall. intros r Hr. apply in_map_iff in Hr as [i [<- _]].
      rewrite map_length. auto.
    - intros i d Hi Hd. unfold mget. rewrite (nth_map_in _ _ _ O) by (rewrite seq_length; auto). rewrite seq_nth by auto. cbn [Nat.add].
      rewrite (nth_map_in _ _ _ []) by lia. destruct (HA d Hd) as [L I]. rewrite seq_nth in I by auto. cbn [Nat.add] in I.
      apply I. apply nth_In. lia.
  Qed.

  Lemma columns_ok n B T ds : (forall d, In d ds -> usable_dimension B T d) -> forall g, exists r, columns g n ds B T = Ok r.
  Proof.
    induction ds as [|d ds IH]; intros H g; [eexists; reflexivity|]. cbn [sample_columns].
    destruct (H d (or_introl eq_refl)) as [t [HT HU]].
    assert (ET : match T with TOne t => Ok t | TList l => getitem l d end = Ok t).
    { destruct T; simpl in HT; [subst; auto|apply getitem_ok; auto]. }
    rewrite ET. cbn [bind].
    assert (EB : forall b, bound_for B d b -> match B with BOne b => Ok b | BList l => getitem l d end = Ok b).
    { intros b Hb. destruct B; simpl in Hb; [subst; auto|apply getitem_ok; auto]. }
    assert (R : exists x, (if String.eqb t "continuous" || String.eqb t "discrete" then
              b <- match B with BOne b => Ok b | BList l => getitem l d end ;; coordinate g n t b
            else Ok (g, repeat 0 n)) = Ok x).
    { destruct HU as [[-> [lo [hi [rest Hb]]]]|[[-> [x [rest Hb]]]|[N1 N2]]].
      - rewrite (EB _ Hb). eexists. reflexivity.
      - rewrite (EB _ Hb). eexists. reflexivity.
      - apply String.eqb_neq in N1. apply String.eqb_neq in N2. rewrite N1, N2. eexists. reflexivity. }
    destruct R as [x ->]. cbn [bind]. destruct (IH (fun d' Hd => H d' (or_intror Hd)) (fst x)) as [r ->]. eexists. reflexivity.
  Qed.
  Lemma points_ok g n dim B T : (forall d, (d < dim)%nat -> usable_dimension B T d) -> exists r, points_of g n dim B T = Ok r.
  Proof.
    intros H. unfold sample_points. destruct (columns_ok n B T (seq 0 dim)) with (g := g) as [r ->]; [intros d Hd; apply H; apply in_seq in Hd; lia|].
    eexists. reflexivity.
  Qed.
  (** bounds=[a, b] *)
  Lemma points_flat_list g n dim a l : (0 < dim)%nat -> points_of g n dim (BList (Num a :: l)) (TOne "continuous") = Raise TypeError.
  Proof. intros H. unfold sample_points. destruct dim; [lia|]. reflexivity. Qed.

  Section X.
    Variable P : Type.
    Notation sx := (@sample_x G uniform normal exponential P).

    Definition allowed (is_list : bool) (b0 b1 : param P) : Prop :=
      is_list = true \/ ((forall f, b0 <> Fun f) /\ forall f, b1 <> Fun f).

    Lemma sx_allowed g n t il b0 b1 m v s pts : allowed il b0 b1 ->
      sx g n t il b0 b1 m v s pts = ((Val (evalp pts b0), Val (evalp pts b1)), snd (sx g n t true (Val (evalp pts b0)) (Val (evalp pts b1)) m v s pts)).
    Proof.
      intros [->|[H0 H1]].
      - destruct b0, b1; reflexivity.
      - destruct b0 as [v0|f0]; [|exfalso; apply (H0 f0); auto]. destruct b1 as [v1|f1]; [|exfalso; apply (H1 f1); auto]. destruct il; reflexivity.
    Qed.
    Lemma fits n v : vfits n v = true <-> one_per_point n v.
    Proof. destruct v; simpl; [tauto|apply Nat.eqb_eq]. Qed.
    Lemma affine_len n base f : List.length (affine n base f) = n.
    Proof. unfold affine. rewrite map_length, seq_length. auto. Qed.
    Lemma affine_nth n base f i : (i < n)%nat -> nth i (affine n base f) 0 = f i (nth i base 0).
    Proof. intros H. unfold affine. rewrite (nth_map_in _ _ _ O) by (rewrite seq_length; auto). rewrite seq_nth by auto. reflexivity. Qed.

    Lemma sx_uniform g n il b0 b1 m v s pts : allowed il b0 b1 ->
      one_per_point n (at_points pts b0) -> one_per_point n (at_points pts b1) -> one_per_point n (at_points pts m) ->
      exists g' xs, snd (sx g n "uniform" il b0 b1 m v s pts) = Ok (g', Some xs) /\ List.length xs = n /\
        forall i, (i < n)%nat -> entry (at_points pts b0) i <= entry (at_points pts b1) i ->
          entry (at_points pts b0) i + entry (at_points pts m) i <= nth i xs 0 <= entry (at_points pts b1) i + entry (at_points pts m) i.
    Proof.
      intros A F0 F1 FM. rewrite sx_allowed by auto. cbn [snd]. unfold sample_x. cbn [evalp]. rewrite String.eqb_refl.
      pose proof (VU g 0 1 n) as [L I]. destruct (uniform g 0 1 n) as [g' base] eqn:EU. cbn [snd] in *.
      apply fits in F0, F1, FM.
      replace (vfits n (evalp pts b0)) with true by (destruct b0; auto). replace (vfits n (evalp pts b1)) with true by (destruct b1; auto).
      replace (vfits n (evalp pts m)) with true by (destruct m; auto). cbn [andb].
      eexists _, _. split; [reflexivity|]. split; [apply affine_len|]. intros i Hi Hle. rewrite affine_nth by auto.
      specialize (I (nth i base 0) ltac:(apply nth_In; lia)). rewrite Rmin_left, Rmax_right in I by lra.
      change (evalp pts b0) with (at_points pts b0). change (evalp pts b1) with (at_points pts b1). change (evalp pts m) with (at_points pts m).
      change (vget (at_points pts b0) i) with (entry (at_points pts b0) i). change (vget (at_points pts b1) i) with (entry (at_points pts b1) i).
      change (vget (at_points pts m) i) with (entry (at_points pts m) i). nra.
    Qed.
    Lemma sx_normal g n il b0 b1 m v s pts : allowed il b0 b1 -> one_per_point n (at_points pts v) -> one_per_point n (at_points pts m) ->
      exists xs, snd (sx g n "normal" il b0 b1 m v s pts) = Ok (fst (normal g n), Some xs) /\ List.length xs = n /\
        forall i, (i < n)%nat -> nth i xs 0 = nth i (snd (normal g n)) 0 * entry (at_points pts v) i + entry (at_points pts m) i.
    Proof.
      intros A FV FM. rewrite sx_allowed by auto. cbn [snd]. unfold sample_x. cbn [evalp String.eqb Ascii.eqb Bool.eqb].
      destruct (normal g n) as [g' base]. apply fits in FV, FM.
      replace (vfits n (evalp pts v)) with true by (destruct v; auto). replace (vfits n (evalp pts m)) with true by (destruct m; auto).
      eexists. split; [reflexivity|]. split; [apply affine_len|]. intros i Hi. rewrite affine_nth by auto. reflexivity.
    Qed.
    Lemma sx_exponential g n il b0 b1 m v s pts : allowed il b0 b1 -> one_per_point n (at_points pts s) ->
      exists xs, snd (sx g n "exponential" il b0 b1 m v s pts) = Ok (fst (exponential g n), Some xs) /\ List.length xs = n /\
        (forall i, (i < n)%nat -> nth i xs 0 = nth i (snd (exponential g n)) 0 * entry (at_points pts s) i) /\
        (forall i, (i < n)%nat -> 0 <= entry (at_points pts s) i -> 0 <= nth i xs 0).
    Proof.
      intros A FS. rewrite sx_allowed by auto. cbn [snd]. unfold sample_x. cbn [evalp String.eqb Ascii.eqb Bool.eqb].
      pose proof (VE g n) as [L I].
      destruct (exponential g n) as [g' base]. cbn [snd] in *. apply fits in FS.
      replace (vfits n (evalp pts s)) with true by (destruct s; auto).
      eexists. split; [reflexivity|]. split; [apply affine_len|].
      assert (E : forall i, (i < n)%nat -> nth i (affine n base (fun i u => u * vget (evalp pts s) i)) 0 = nth i base 0 * entry (at_points pts s) i).
      { intros i Hi. rewrite affine_nth by auto. reflexivity. }
      split; [exact E|]. intros i Hi Hs. rewrite E by auto. specialize (I (nth i base 0) ltac:(apply nth_In; lia)). nra.
    Qed.
    Lemma sx_unknown g n t il b0 b1 m v s pts : allowed il b0 b1 -> t <> "uniform" -> t <> "normal" -> t <> "exponential" ->
      snd (sx g n t il b0 b1 m v s pts) = Ok (g, None).
    Proof.
      intros A N1 N2 N3. rewrite sx_allowed by auto. cbn [snd]. unfold sample_x. cbn [evalp].
      apply String.eqb_neq in N1, N2, N3. rewrite N1, N2, N3. reflexivity.
    Qed.
    (** what the call leaves in the caller's bounds *)
    Lemma sx_bounds g n t b0 b1 m v s pts : fst (sx g n t true b0 b1 m v s pts) = (Val (at_points pts b0), Val (at_points pts b1)).
    Proof. rewrite sx_allowed by (left; auto). destruct b0, b1; reflexivity. Qed.
    Lemma sx_tuple g n t b0 b1 m v s pts : (exists f, b0 = Fun f \/ b1 = Fun f) -> snd (sx g n t false b0 b1 m v s pts) = Raise TypeError.
    Proof. intros [f [-> | ->]]; [reflexivity|]. destruct b0; reflexivity. Qed.
  End X.
End S.

(** ** mean and variance of an affine image *)
Lemma Rsum_list l : Rsum l = Rsum (map (fun i => nth i l 0) (seq 0 (List.length l))).
Proof. f_equal. symmetry. exact (eq_sym (list_tab 0 l)). Qed.
Lemma affine_moments n base xs a b : (0 < n)%nat -> List.length base = n -> List.length xs = n ->
  (forall i, (i < n)%nat -> nth i xs 0 = nth i base 0 * a + b) ->
  sample_mean xs = a * sample_mean base + b /\ sample_variance xs = a ^ 2 * sample_variance base.
Proof.
  intros Hn L1 L2 H.
  assert (E : xs = map (fun x => x * a + b) base).
  { apply (list_eq_nth 0); [rewrite map_length; congruence|]. intros i Hi. rewrite (nth_map_in _ _ _ 0) by congruence. apply H. congruence. }
  assert (N : INR n <> 0) by (apply not_0_INR; lia).
  assert (M : sample_mean xs = a * sample_mean base + b).
  { unfold sample_mean. rewrite L1, L2, E. rewrite Rsum_map_plus, Rsum_map_const, L1.
    rewrite Rsum_map_scal_r. replace (map (fun x => x) base) with base by (symmetry; apply map_id). field. auto. }
  split; [exact M|]. unfold sample_variance. rewrite M, L1, L2.
  replace (Rsum (map (fun x => (x - (a * sample_mean base + b)) ^ 2) xs)) with (a ^ 2 * Rsum (map (fun x => (x - sample_mean base) ^ 2) base)).
  - unfold Rdiv. ring.
  - rewrite <- Rsum_map_scal. rewrite E, map_map. f_equal. apply map_ext. intros x. ring.
Qed.
(** ** random bumps *)
Lemma psd2 a b c : 0 <= a -> 0 <= c -> b * b <= a * c -> semidefinite2 a b c.
Proof.
  intros Ha Hc H x y. destruct (Req_dec a 0) as [->|N].
  - assert (b = 0) by nra. subst. nra.
  - assert (0 < a) by lra. apply (Rmult_le_reg_l a); [auto|]. rewrite Rmult_0_r.
    replace (a * (a * x ^ 2 + 2 * b * x * y + c * y ^ 2)) with ((a * x + b * y) ^ 2 + (a * c - b * b) * y ^ 2) by ring.
    assert (0 <= (a * x + b * y) ^ 2) by apply pow2_ge_0. assert (0 <= y ^ 2) by apply pow2_ge_0. nra.
Qed.
Lemma pd2 a b c : 0 < a -> 0 < c -> definite2 a b c <-> b * b < a * c.
Proof.
  intros Ha Hc. split.
  - intros H. specialize (H (- b) a ltac:(right; lra)). replace (a * (- b) ^ 2 + 2 * b * - b * a + c * a ^ 2) with (a * (a * c - b * b)) in H by ring. nra.
  - intros H x y Hxy. apply (Rmult_lt_reg_l a); [auto|]. rewrite Rmult_0_r.
    replace (a * (a * x ^ 2 + 2 * b * x * y + c * y ^ 2)) with ((a * x + b * y) ^ 2 + (a * c - b * b) * y ^ 2) by ring.
    destruct (Req_dec y 0) as [->|N].
    + destruct Hxy as [Hx|]; [|lra]. assert (0 < x * x) by (apply Rsqr_pos_lt; auto). replace ((a * x + b * 0) ^ 2 + (a * c - b * b) * 0 ^ 2) with ((a * a) * (x * x)) by ring. apply Rmult_lt_0_compat; nra.
    + assert (0 < y * y) by (apply Rsqr_pos_lt; auto). assert (0 <= (a * x + b * y) ^ 2) by apply pow2_ge_0. assert (0 < (a * c - b * b) * (y * y)) by (apply Rmult_lt_0_compat; lra). replace (y ^ 2) with (y * y) by ring. lra.
Qed.

Section Bumps.
  Variable G : Type.
  Variable uniform : G -> R -> R -> nat -> G * list R.
  Variable choice_with : G -> list R -> nat -> G * list R.
  Hypothesis VU : valid_uniform uniform.
  Hypothesis VC : valid_choice_with choice_with.

  Lemma draw1_uniform g lo hi : lo <= hi -> lo <= snd (draw1 G (uniform g lo hi 1)) <= hi.
  Proof.
    intros H. destruct (VU g lo hi 1%nat) as [L I]. unfold draw1. cbn [snd]. destruct (snd (uniform g lo hi 1)) as [|x l]; [discriminate|].
    specialize (I x (or_introl eq_refl)). rewrite Rmin_left, Rmax_right in I by lra. auto.
  Qed.
  Definition bump_ok (lo hi : R) (b : bump) : Prop :=
    List.length (b_center b) = 2%nat /\ (forall x, In x (b_center b) -> -10 <= x <= 10) /\
    1 <= Rabs (b_amplitude b) <= 2 /\ lo <= b_sigma1 b <= hi /\ lo <= b_sigma2 b <= hi /\
    semidefinite2 (b_sigma1 b) (b_cov b) (b_sigma2 b) /\
    (definite2 (b_sigma1 b) (b_cov b) (b_sigma2 b) <-> Rabs (b_cov b) <> sqrt (b_sigma1 b * b_sigma2 b)).
  Lemma auto_bump_ok g lo hi : 0 < lo <= hi -> bump_ok lo hi (snd (auto_bump G uniform choice_with g lo hi)).
  Proof.
    intros H. unfold auto_bump.
    destruct (VU g (-10) 10 2%nat) as [L I]. destruct (uniform g (-10) 10 2) as [g1 c]. cbn [snd] in *.
    pose proof (draw1_uniform g1 1 2 ltac:(lra)) as HA. destruct (draw1 G (uniform g1 1 2 1)) as [g2 am]. cbn [snd] in HA.
    assert (HS : snd (draw1 G (choice_with g2 [-1; 1] 1)) = -1 \/ snd (draw1 G (choice_with g2 [-1; 1] 1)) = 1).
    { destruct (VC g2 [-1; 1] 1%nat ltac:(left; discriminate)) as [L' I']. unfold draw1. cbn [snd]. destruct (snd (choice_with g2 [-1; 1] 1)) as [|x l]; [discriminate|].
      cbn [hd]. specialize (I' x (or_introl eq_refl)). destruct I' as [<-|[<-|[]]]; auto. }
    destruct (draw1 G (choice_with g2 [-1; 1] 1)) as [g3 s]. cbn [snd] in HS.
    pose proof (draw1_uniform g3 lo hi ltac:(lra)) as H1. destruct (draw1 G (uniform g3 lo hi 1)) as [g4 s1]. cbn [snd] in H1.
    pose proof (draw1_uniform g4 lo hi ltac:(lra)) as H2. destruct (draw1 G (uniform g4 lo hi 1)) as [g5 s2]. cbn [snd] in H2.
    pose proof (sqrt_pos (s1 * s2)) as Hq.
    pose proof (draw1_uniform g5 (- sqrt (s1 * s2)) (sqrt (s1 * s2)) ltac:(lra)) as H3.
    destruct (draw1 G (uniform g5 (- sqrt (s1 * s2)) (sqrt (s1 * s2)) 1)) as [g6 cv]. cbn [snd] in H3 |- *.
    assert (Q : sqrt (s1 * s2) * sqrt (s1 * s2) = s1 * s2) by (apply sqrt_sqrt; nra).
    unfold bump_ok. cbn [b_center b_amplitude b_sigma1 b_sigma2 b_cov].
    split; [auto|]. split; [intros x Hx; specialize (I x Hx); rewrite Rmin_left, Rmax_right in I by lra; auto|].
    split.
    { rewrite Rabs_mult, (Rabs_right am) by lra. destruct HS as [-> | ->]; [rewrite Rabs_left by lra|rewrite Rabs_right by lra]; lra. }
    split; [auto|]. split; [auto|]. split; [apply psd2; nra|].
    rewrite pd2 by lra. set (q := sqrt (s1 * s2)) in *. rewrite <- Q. split.
    - intros D E. assert (EA : Rabs cv * Rabs cv = cv * cv) by (rewrite <- Rabs_mult; apply Rabs_right, Rle_ge, Rle_0_sqr). rewrite E in EA. lra.
    - intros N. assert (cv <> q) by (intros ->; apply N; apply Rabs_right; lra).
      assert (cv <> - q) by (intros ->; apply N; rewrite Rabs_Ropp; apply Rabs_right; lra).
      destruct H3 as [[K1|K1] [K2|K2]]; try (exfalso; congruence). assert (0 < (q - cv) * (q + cv)) by (apply Rmult_lt_0_compat; lra). lra.
  Qed.
  Lemma auto_bumps_ok rounds : forall g lo hi, 0 < lo <= hi ->
    List.length (snd (auto_bumps G uniform choice_with rounds g lo hi)) = rounds /\
    Forall (bump_ok lo hi) (snd (auto_bumps G uniform choice_with rounds g lo hi)).
  Proof.
    induction rounds as [|k IH]; intros g lo hi H; [split; [reflexivity|constructor]|]. cbn [auto_bumps].
    pose proof (auto_bump_ok g lo hi H) as HB. destruct (auto_bump G uniform choice_with g lo hi) as [g' b]. cbn [snd] in HB.
    destruct (IH g' lo hi H) as [L F]. destruct (auto_bumps G uniform choice_with k g' lo hi) as [g'' bs]. cbn [snd] in *.
    split; [simpl; lia|constructor; auto].
  Qed.
End Bumps.
