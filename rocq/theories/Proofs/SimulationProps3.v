From Coq Require Import Lra Lia Psatz.
From Verif.Model Require Import Base Ext Distance Simulation.
From Verif.Spec Require Import DistanceSpec SimulationSpec.
From Verif.Proofs Require Import ListFacts SumFacts KernelFacts CsrFacts DistanceFacts MoranFacts SimulationProps SimulationProps2.
Open Scope string_scope.
Open Scope nat_scope.
Open Scope R_scope.

Section S.
  Variable G : Type.
  Variable uniform : G -> R -> R -> nat -> G * list R.
  Variable choice_with : G -> list R -> nat -> G * list R.
  Variable normal exponential : G -> nat -> G * list R.
  Hypothesis VU : valid_uniform uniform.
  Hypothesis VC : valid_choice_with choice_with.

  Notation gen := (generate_sample G uniform choice_with normal exponential).
  Notation square_bounds := (BList [Seq [-10; 10]; Seq [-10; 10]]).

  Lemma square_points g n : exists g' pts, sample_points G uniform choice_with g n 2 square_bounds (TOne "continuous") = Ok (g', pts) /\
    rect pts n 2 /\ forall i d, (i < n)%nat -> (d < 2)%nat -> -10 <= mget 0 pts i d <= 10.
  Proof.
    destruct (points_ok G uniform choice_with g n 2 square_bounds (TOne "continuous")) as [[g' pts] E].
    { intros d Hd. exists "continuous". split; [reflexivity|]. left. split; [reflexivity|]. exists (-10), 10, []. destruct d as [|[|d]]; try lia; reflexivity. }
    exists g', pts. split; [exact E|]. apply (points_spec G uniform choice_with VU VC) in E as [HR HA]. split; [exact HR|].
    intros i d Hi Hd. destruct (HA i d Hi Hd) as [HC _]. destruct (HC eq_refl) as [lo [hi [rest [Hb Hx]]]].
    assert (lo = -10 /\ hi = 10) as [-> ->] by (destruct d as [|[|d]]; [| |lia]; simpl in Hb; split; congruence).
    rewrite Rmin_left, Rmax_right in Hx by lra. exact Hx.
  Qed.

  Definition makes_coefficients (n : nat) (mk : G -> G * (matrix R -> list R)) : Prop :=
    forall g pts, List.length pts = n -> List.length (snd (mk g) pts) = n.

  Lemma gen_ok seeded g0 n f mk : makes_coefficients n mk ->
    exists gs pts a b g1 g2 g3,
      rect pts n 2 /\ (forall i d, (i < n)%nat -> (d < 2)%nat -> -10 <= mget 0 pts i d <= 10) /\
      List.length a = n /\ List.length b = n /\
      (forall i, (i < n)%nat -> Rabs (nth i a 0 - nth i (snd (mk g1) pts) 0) <= 1) /\
      (forall i, (i < n)%nat -> Rabs (nth i b 0 - 3 * nth i (snd (mk g2) pts) 0) <= 2) /\
      gen seeded g0 n f (COne mk) = (y <- f (map2 (fun u v => [u; v]) a b) [snd (mk g3)] pts ;; Ok (gs, (map2 (fun u v => [u; v]) a b, y, pts))).
  Proof.
    intros M. unfold generate_sample. destruct (square_points seeded n) as [g1 [pts [EP [HR HB]]]]. rewrite EP. cbn [bind fst snd].
    assert (Ln : List.length pts = n) by apply HR.
    destruct (mk g1) as [g1' c1] eqn:E1.
    assert (L1 : List.length (c1 pts) = n) by (pose proof (M g1 pts Ln) as X; rewrite E1 in X; exact X).
    destruct (sx_uniform G uniform normal exponential VU (matrix R) g1' n false (Val (Sc (-1))) (Val (Sc 1)) (Fun (fun q => Ar (c1 q))) (Val (Sc 1)) (Val (Sc 1)) pts)
      as [g2 [a [Ea [La Ha]]]]; [right; split; intros; discriminate|exact I|exact I|exact L1|].
    unfold points_t in *. rewrite Ea. cbn [bind fst snd].
    destruct (mk g2) as [g2' c2] eqn:E2.
    assert (L2 : List.length (c2 pts) = n) by (pose proof (M g2 pts Ln) as X; rewrite E2 in X; exact X).
    destruct (sx_uniform G uniform normal exponential VU (matrix R) g2' n false (Val (Sc (-2))) (Val (Sc 2)) (Fun (fun q => Ar (map (Rmult 3) (c2 q)))) (Val (Sc 1)) (Val (Sc 1)) pts)
      as [g3 [b [Eb [Lb Hb]]]]; [right; split; intros; discriminate|exact I|exact I|simpl; rewrite map_length; exact L2|].
    rewrite Eb. cbn [bind fst snd].
    destruct (mk g3) as [g4 c3] eqn:E3.
    exists g4, pts, a, b, g1, g2, g3. rewrite E1, E2, E3. cbn [snd].
    split; [auto|]. split; [auto|]. split; [auto|]. split; [auto|]. split.
    { intros i Hi. specialize (Ha i Hi). cbn [at_points entry] in Ha. apply Rabs_le. lra. }
    split; [|reflexivity].
    intros i Hi. specialize (Hb i Hi). cbn [at_points entry] in Hb. rewrite (nth_map_in _ _ _ 0) in Hb by lia. apply Rabs_le. lra.
  Qed.

  Lemma pair_rect a b n : List.length a = n -> List.length b = n -> rect (map2 (fun u v : R => [u; v]) a b) n 2.
  Proof.
    intros H1 H2. split; [rewrite map2_length; lia|]. clear n H1 H2. revert b; induction a as [|x a IH]; intros [|z b]; simpl; auto.
  Qed.
  Lemma pair_get a b n i : List.length a = n -> List.length b = n -> (i < n)%nat ->
    mget 0 (map2 (fun u v : R => [u; v]) a b) i 0 = nth i a 0 /\ mget 0 (map2 (fun u v : R => [u; v]) a b) i 1 = nth i b 0.
  Proof.
    intros H1 H2. unfold mget. subst n. revert b i H2; induction a as [|x a IH]; intros [|z b] i H2 Hi; simpl in *; try lia.
    destruct i; [split; reflexivity|]. apply IH; lia.
  Qed.

  Lemma interact_ok n X c pts : rect X n 2 -> List.length (c pts) = n ->
    exists y, f_interact X [c] pts = Ok y /\ List.length y = n /\ forall i, (i < n)%nat -> nth i y 0 = nth i (c pts) 0 * mget 0 X i 0 * mget 0 X i 1.
  Proof.
    intros [HL HR] Hc. eexists. split; [reflexivity|].
    assert (L : List.length (combine (column X 0) (column X 1)) = n) by (rewrite combine_length; unfold column; rewrite !map_length; lia).
    split; [rewrite map2_length; lia|]. intros i Hi.
    rewrite (map2_nth _ _ _ _ 0 (0, 0)) by lia. rewrite combine_nth by (unfold column; rewrite !map_length; auto).
    cbn [fst snd]. unfold interaction_function, column, mget. rewrite !(nth_map_in _ _ _ []) by lia. reflexivity.
  Qed.

  Lemma gen_interact seeded g0 n mk : makes_coefficients n mk ->
    exists gs X y pts g1 g2 g3, gen seeded g0 n f_interact (COne mk) = Ok (gs, (X, y, pts)) /\
      rect pts n 2 /\ (forall i d, (i < n)%nat -> (d < 2)%nat -> -10 <= mget 0 pts i d <= 10) /\
      rect X n 2 /\ List.length y = n /\
      forall i, (i < n)%nat ->
        Rabs (mget 0 X i 0 - nth i (snd (mk g1) pts) 0) <= 1 /\
        Rabs (mget 0 X i 1 - 3 * nth i (snd (mk g2) pts) 0) <= 2 /\
        nth i y 0 = nth i (snd (mk g3) pts) 0 * mget 0 X i 0 * mget 0 X i 1.
  Proof.
    intros M. destruct (gen_ok seeded g0 n f_interact mk M) as [gs [pts [a [b [g1 [g2 [g3 [HR [HB [La [Lb [H1 [H2 E]]]]]]]]]]]]].
    pose proof (pair_rect a b n La Lb) as RX.
    destruct (interact_ok n _ (snd (mk g3)) pts RX (M g3 pts (proj1 HR))) as [y [Ey [Ly Hy]]].
    unfold points_t in *. rewrite Ey in E. cbn [bind] in E. exists gs. eexists. exists y, pts, g1, g2, g3. split; [exact E|].
    split; [auto|]. split; [auto|]. split; [exact RX|]. split; [auto|].
    intros i Hi. destruct (pair_get a b n i La Lb Hi) as [P0 P1]. split; [rewrite P0; auto|]. split; [rewrite P1; auto|auto].
  Qed.

  Lemma gen_square seeded g0 n mk : makes_coefficients n mk -> gen seeded g0 n f_square_2 (COne mk) = Raise IndexError.
  Proof.
    intros M. destruct (gen_ok seeded g0 n f_square_2 mk M) as [gs [pts [a [b [g1 [g2 [g3 [HR [HB [La [Lb [H1 [H2 E]]]]]]]]]]]]]. rewrite E. reflexivity.
  Qed.
  Lemma gen_list seeded g0 n f l : gen seeded g0 n f (CMany l) = Raise TypeError.
  Proof. unfold generate_sample. destruct (square_points seeded n) as [g1 [pts [-> _]]]. reflexivity. Qed.
End S.

(** ** instances *)
Definition low_uniform (g : nat) (lo hi : R) (n : nat) : nat * list R := (S g, repeat lo n).
Definition zero_choice (g : nat) (l : list R) (n : nat) : nat * list R := (S g, repeat (hd 0 l) n).
Definition ramp_normal (g : nat) (n : nat) : nat * list R := (S g, map INR (seq 0 n)).
Lemma low_uniform_ok : valid_uniform low_uniform.
Proof. intros g lo hi n. cbn. split; [apply repeat_length|]. intros x Hx. apply repeat_spec in Hx. subst. split; [apply Rmin_l|apply Rmax_l]. Qed.
Lemma zero_choice_ok : valid_choice_with zero_choice.
Proof.
  intros g l n H. cbn. split; [apply repeat_length|]. intros x Hx. destruct l as [|a l].
  - destruct H as [H| ->]; [congruence|destruct Hx].
  - apply repeat_spec in Hx. subst. left. auto.
Qed.
Lemma ramp_normal_ok : valid_normal ramp_normal.
Proof. intros g n. cbn. rewrite map_length, seq_length. auto. Qed.
Lemma ramp_exponential_ok : valid_exponential ramp_normal.
Proof. intros g n. cbn. rewrite map_length, seq_length. split; auto. intros x Hx. apply in_map_iff in Hx as [k [<- _]]. apply pos_INR. Qed.

(** a coefficient maker that draws a fresh level at every call *)
Definition level (g : nat) (pts : matrix R) : list R := map (fun _ => 10 * INR g) pts.
Definition random_level (g : nat) : nat * (matrix R -> list R) := (S g, level g).
Lemma random_level_ok n : makes_coefficients nat n random_level.
Proof. intros g pts H. cbn. unfold level. rewrite map_length. auto. Qed.

Lemma coefficient_mismatch :
  exists gs X y pts, generate_sample nat low_uniform zero_choice ramp_normal ramp_normal O O 1 f_interact (COne random_level) = Ok (gs, (X, y, pts)) /\
    ~ exists g, Rabs (mget 0 X 0 0 - nth 0 (snd (random_level g) pts) 0) <= 1 /\
                nth 0 y 0 = nth 0 (snd (random_level g) pts) 0 * mget 0 X 0 0 * mget 0 X 0 1.
Proof.
  eexists _, _, _, _. split; [reflexivity|]. intros [g [H1 H2]].
  cbn -[INR] in H1, H2. unfold interaction_function in H2. cbn -[INR] in H2.
  rewrite (INR_IZR_INZ 2) in *. rewrite (INR_IZR_INZ 4), (INR_IZR_INZ 6) in H2. simpl Z.of_nat in *.
  set (x := INR g) in *. assert (x = 6) by nra. subst x. rewrite H in H1. unfold Rabs in H1. destruct (Rcase_abs _) in H1; lra.
Qed.
