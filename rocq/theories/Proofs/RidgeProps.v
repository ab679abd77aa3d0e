From Coq Require Import Lra Psatz.
From Verif.Model Require Import Base Ext NumbaImpl.
From Verif.Spec Require Import RidgeSpec.
From Verif.Proofs Require Import ListFacts SumFacts KernelFacts CsrFacts.
Open Scope nat_scope.
Open Scope R_scope.

(** Sums over index ranges. *)
Definition Sg (n : nat) (f : nat -> R) : R := Rsum (tabulate n f).

Lemma Sg_ext n f g : (forall i, (i < n)%nat -> f i = g i) -> Sg n f = Sg n g.
Proof. intros H. unfold Sg. f_equal. apply tabulate_ext. auto. Qed.
Lemma Sg_plus n f g : Sg n (fun i => f i + g i) = Sg n f + Sg n g.
Proof. apply Rsum_map_plus. Qed.
Lemma Sg_minus n f g : Sg n (fun i => f i - g i) = Sg n f - Sg n g.
Proof. apply Rsum_map_minus. Qed.
Lemma Sg_scal n c f : Sg n (fun i => c * f i) = c * Sg n f.
Proof. apply Rsum_map_scal. Qed.
Lemma Sg_scal_r n c f : Sg n (fun i => f i * c) = Sg n f * c.
Proof. apply Rsum_map_scal_r. Qed.
Lemma Sg_swap n m f : Sg n (fun i => Sg m (f i)) = Sg m (fun j => Sg n (fun i => f i j)).
Proof. apply Rsum_swap. Qed.
Lemma Sg_nonneg n f : (forall i, (i < n)%nat -> 0 <= f i) -> 0 <= Sg n f.
Proof. intros H. apply Rsum_nonneg. intros x Hx. apply in_tabulate in Hx as (i & Hi & <-). auto. Qed.
Lemma Sg_zero n f : (forall i, (i < n)%nat -> 0 <= f i) -> Sg n f = 0 -> forall i, (i < n)%nat -> f i = 0.
Proof.
  intros H H0 i Hi. apply (Rsum_zero_elem (tabulate n f)); auto.
  - intros x Hx. apply in_tabulate in Hx as (k & Hk & <-). auto.
  - apply in_tabulate. eauto.
Qed.
Lemma Sg_all0 n f : (forall i, (i < n)%nat -> f i = 0) -> Sg n f = 0.
Proof. intros H. apply Rsum_zero. intros x Hx. apply in_tabulate in Hx as (k & Hk & <-). auto. Qed.
Lemma Sg_list l : Rsum l = Sg (length l) (fun i => nth i l 0).
Proof. unfold Sg. f_equal. apply tabulate_of_list. Qed.
Lemma dot_Sg a b n : length a = n -> length b = n -> dot a b = Sg n (fun i => nth i a 0 * nth i b 0).
Proof.
  intros Ha Hb. unfold dot, Sg. f_equal. apply (list_eq_nth 0); rewrite ?map2_length, ?tabulate_length; [lia|].
  intros i Hi. rewrite tabulate_nth by lia. apply (map2_nth Rmult a b i 0 0 0); lia.
Qed.
Lemma map2_sum {A B} (f : A -> B -> R) a b n da db : length a = n -> length b = n ->
  Rsum (map2 f a b) = Sg n (fun i => f (nth i a da) (nth i b db)).
Proof.
  intros Ha Hb. unfold Sg. f_equal. apply (list_eq_nth 0); rewrite ?map2_length, ?tabulate_length; [lia|].
  intros i Hi. rewrite tabulate_nth by lia. apply (map2_nth f a b i da db 0); lia.
Qed.

Section Fixed.
  Variables (p m : nat) (X : matrix R) (y w : list R) (alpha : R).
  Hypothesis HX : rect X m p.
  Hypothesis Hy : length y = m.
  Hypothesis Hw : length w = m.
  Hypothesis Hpos : forall i, (i < m)%nat -> 0 <= nth i w 0.
  Hypothesis Hsum : Rsum w <> 0.
  Hypothesis Ha : 0 <= alpha.

  Let x i j := nth j (nth i X []) 0.
  Let wt i := nth i w 0.
  Let S0 := Sg m wt.
  Let xm j := Sg m (fun i => x i j * wt i) / S0.
  Let ym := Sg m (fun i => nth i y 0 * wt i) / S0.

  Lemma S0_eq : Rsum w = S0.
  Proof. rewrite Sg_list, Hw. reflexivity. Qed.
  Lemma S0_nz : S0 <> 0.
  Proof. rewrite <- S0_eq. exact Hsum. Qed.

  Lemma center_x j : (j < p)%nat -> Sg m (fun i => wt i * (x i j - xm j)) = 0.
  Proof.
    intros Hj. rewrite (Sg_ext m _ (fun i => x i j * wt i - wt i * xm j)) by (intros; ring).
    rewrite Sg_minus, Sg_scal_r. fold S0. unfold xm. field. exact S0_nz.
  Qed.
  Lemma center_y : Sg m (fun i => wt i * (nth i y 0 - ym)) = 0.
  Proof.
    rewrite (Sg_ext m _ (fun i => nth i y 0 * wt i - wt i * ym)) by (intros; ring).
    rewrite Sg_minus, Sg_scal_r. fold S0. unfold ym. field. exact S0_nz.
  Qed.

  (** The normal equations. *)
  Definition gram a b := Sg m (fun i => wt i * (x i a - xm a) * (x i b - xm b)).
  Definition rhs a := Sg m (fun i => wt i * (x i a - xm a) * (nth i y 0 - ym)).
  Definition solves (c : list R) (r : nat -> R) :=
    forall a, (a < p)%nat -> Sg p (fun k => (gram a k + alpha * (if (a =? k)%nat then 1 else 0)) * nth k c 0) = r a.

  Lemma delta_sum a (c : nat -> R) n : (a < n)%nat -> Sg n (fun k => (if (a =? k)%nat then 1 else 0) * c k) = c a.
  Proof.
    revert a c. induction n as [|n IH]; intros a c Hlt; [lia|]. unfold Sg. rewrite tabulate_S, Rsum_cons. fold (Sg n (fun k => (if (a =? S k)%nat then 1 else 0) * c (S k))).
    destruct a as [|a].
    - rewrite Sg_all0; [simpl; lra|]. intros; simpl; lra.
    - cbn [Nat.eqb]. rewrite (IH a (fun k => c (S k))) by lia. lra.
  Qed.

  Lemma solves_alt c r : solves c r <->
    forall a, (a < p)%nat -> Sg m (fun i => wt i * (x i a - xm a) * Sg p (fun k => (x i k - xm k) * nth k c 0)) + alpha * nth a c 0 = r a.
  Proof.
    unfold solves. split; intros H a Hlt; rewrite <- (H a Hlt).
    all: rewrite (Sg_ext p (fun k => (gram a k + _) * _) (fun k => gram a k * nth k c 0 + alpha * ((if (a =? k)%nat then 1 else 0) * nth k c 0))) by (intros; ring).
    all: rewrite Sg_plus, Sg_scal, (delta_sum a (fun k => nth k c 0) p Hlt); f_equal; unfold gram.
    all: rewrite (Sg_ext p _ (fun k => Sg m (fun i => wt i * (x i a - xm a) * ((x i k - xm k) * nth k c 0))))
      by (intros; rewrite <- Sg_scal_r; apply Sg_ext; intros; ring).
    all: rewrite <- Sg_swap; apply Sg_ext; intros i Hi; rewrite Sg_scal; reflexivity.
  Qed.

  (** Positive definiteness. *)
  Lemma gram_form (c : list R) :
    Sg p (fun a => nth a c 0 * (Sg m (fun i => wt i * (x i a - xm a) * Sg p (fun k => (x i k - xm k) * nth k c 0)) + alpha * nth a c 0))
    = Sg m (fun i => wt i * (Sg p (fun k => (x i k - xm k) * nth k c 0)) ^ 2) + alpha * Sg p (fun a => nth a c 0 ^ 2).
  Proof.
    rewrite (Sg_ext p _ (fun a => Sg m (fun i => (x i a - xm a) * nth a c 0 * (wt i * Sg p (fun k => (x i k - xm k) * nth k c 0))) + alpha * nth a c 0 ^ 2)).
    2:{ intros a Hlt. rewrite Rmult_plus_distr_l, <- Sg_scal. f_equal; [apply Sg_ext; intros; ring|ring]. }
    rewrite Sg_plus, Sg_scal. f_equal. rewrite Sg_swap. apply Sg_ext. intros i Hi.
    rewrite Sg_scal_r. ring.
  Qed.

  Lemma nonsingular c : 0 < alpha -> length c = p -> solves c (fun _ => 0) -> forall k, (k < p)%nat -> nth k c 0 = 0.
  Proof.
    intros Hal Hlc Hs k Hk. apply solves_alt in Hs || (rewrite solves_alt in Hs).
    pose proof (gram_form c) as E. rewrite Sg_all0 in E by (intros a Hlt; rewrite Hs by auto; ring).
    assert (P1 : 0 <= Sg m (fun i => wt i * (Sg p (fun k => (x i k - xm k) * nth k c 0)) ^ 2)).
    { apply Sg_nonneg. intros i Hi. apply Rmult_le_pos; [apply Hpos; auto|apply pow2_ge_0]. }
    assert (P2 : 0 <= Sg p (fun a => nth a c 0 ^ 2)) by (apply Sg_nonneg; intros; apply pow2_ge_0).
    assert (Z : Sg p (fun a => nth a c 0 ^ 2) = 0) by nra.
    pose proof (Sg_zero p (fun a => nth a c 0 ^ 2) (fun i _ => pow2_ge_0 _) Z k Hk) as E0. cbn beta in E0. nra.
  Qed.

  (** What the solution of the normal equations minimises. *)
  Let b_of c := ym - Sg p (fun k => xm k * nth k c 0).

  Lemma linear_Sg c b i : linear p c b (nth i X []) = Sg p (fun j => x i j * nth j c 0) + b.
  Proof. reflexivity. Qed.
  Lemma objective_Sg c b : ridge_objective p X y w alpha c b
    = Sg m (fun i => wt i * (nth i y 0 - (Sg p (fun j => x i j * nth j c 0) + b)) ^ 2) + alpha * Sg p (fun j => nth j c 0 ^ 2).
  Proof. unfold ridge_objective. destruct HX as [-> _]. reflexivity. Qed.

  Lemma objective_split c b c' b' :
    let res i := nth i y 0 - (Sg p (fun j => x i j * nth j c 0) + b) in
    let d i := Sg p (fun j => x i j * (nth j c' 0 - nth j c 0)) + (b' - b) in
    ridge_objective p X y w alpha c' b' =
    ridge_objective p X y w alpha c b
    - 2 * (Sg m (fun i => wt i * res i * d i) - alpha * Sg p (fun j => nth j c 0 * (nth j c' 0 - nth j c 0)))
    + (Sg m (fun i => wt i * d i ^ 2) + alpha * Sg p (fun j => (nth j c' 0 - nth j c 0) ^ 2)).
  Proof.
    intros res d. rewrite !objective_Sg.
    rewrite (Sg_ext m (fun i => wt i * (nth i y 0 - (Sg p (fun j => x i j * nth j c' 0) + b')) ^ 2)
                      (fun i => wt i * res i ^ 2 - 2 * (wt i * res i * d i) + wt i * d i ^ 2)).
    2:{ intros i Hi. assert (E : Sg p (fun j => x i j * nth j c' 0) = Sg p (fun j => x i j * nth j c 0) + Sg p (fun j => x i j * (nth j c' 0 - nth j c 0))).
        { rewrite <- Sg_plus. apply Sg_ext; intros; ring. }
        unfold res, d. rewrite E. ring. }
    rewrite Sg_plus, Sg_minus, Sg_scal.
    rewrite (Sg_ext p (fun j => nth j c' 0 ^ 2) (fun j => nth j c 0 ^ 2 + 2 * (nth j c 0 * (nth j c' 0 - nth j c 0)) + (nth j c' 0 - nth j c 0) ^ 2)) by (intros; ring).
    rewrite !Sg_plus, Sg_scal. unfold res. ring.
  Qed.

  Lemma gradient c : solves c rhs ->
    let res i := nth i y 0 - (Sg p (fun j => x i j * nth j c 0) + b_of c) in
    Sg m (fun i => wt i * res i) = 0 /\
    forall a, (a < p)%nat -> Sg m (fun i => wt i * res i * x i a) = alpha * nth a c 0.
  Proof.
    intros Hs res.
    assert (Er : forall i, res i = (nth i y 0 - ym) - Sg p (fun k => (x i k - xm k) * nth k c 0)).
    { intros i. unfold res, b_of. rewrite (Sg_ext p (fun k => (x i k - xm k) * nth k c 0) (fun k => x i k * nth k c 0 - xm k * nth k c 0)) by (intros; ring).
      rewrite Sg_minus. ring. }
    assert (E0 : Sg m (fun i => wt i * res i) = 0).
    { rewrite (Sg_ext m _ (fun i => wt i * (nth i y 0 - ym) - Sg p (fun k => wt i * (x i k - xm k) * nth k c 0))).
      2:{ intros i Hi. rewrite Er, Rmult_minus_distr_l, <- Sg_scal. f_equal. apply Sg_ext; intros; ring. }
      rewrite Sg_minus, center_y, Sg_swap, Sg_all0; [ring|]. intros k Hk. rewrite Sg_scal_r, center_x by auto. ring. }
    split; [exact E0|]. intros a Hlt.
    apply (proj1 (solves_alt c rhs)) with (a := a) in Hs; auto. unfold rhs in Hs.
    rewrite (Sg_ext m _ (fun i => wt i * (x i a - xm a) * (nth i y 0 - ym)
                                 - wt i * (x i a - xm a) * Sg p (fun k => (x i k - xm k) * nth k c 0) + wt i * res i * xm a)).
    2:{ intros i Hi. rewrite !Er. ring. }
    rewrite Sg_plus, Sg_minus, Sg_scal_r, E0. lra.
  Qed.

  Lemma cross_zero c c' b' : solves c rhs ->
    let res i := nth i y 0 - (Sg p (fun j => x i j * nth j c 0) + b_of c) in
    let d i := Sg p (fun j => x i j * (nth j c' 0 - nth j c 0)) + (b' - b_of c) in
    Sg m (fun i => wt i * res i * d i) - alpha * Sg p (fun j => nth j c 0 * (nth j c' 0 - nth j c 0)) = 0.
  Proof.
    intros Hs res d. destruct (gradient c Hs) as [E0 E1].
    rewrite (Sg_ext m _ (fun i => Sg p (fun j => wt i * res i * x i j * (nth j c' 0 - nth j c 0)) + wt i * res i * (b' - b_of c))).
    2:{ intros i Hi. unfold d. rewrite Rmult_plus_distr_l, <- Sg_scal. f_equal. apply Sg_ext; intros; ring. }
    rewrite Sg_plus, Sg_scal_r. rewrite (E0 : Sg m (fun i => wt i * res i) = 0), Sg_swap.
    rewrite (Sg_ext p _ (fun j => alpha * (nth j c 0 * (nth j c' 0 - nth j c 0)))).
    2:{ intros j Hj. rewrite Sg_scal_r, (E1 j Hj : Sg m (fun i => wt i * res i * x i j) = _). ring. }
    rewrite Sg_scal. ring.
  Qed.

  Lemma minimises c c' b' : solves c rhs -> ridge_objective p X y w alpha c (b_of c) <= ridge_objective p X y w alpha c' b'.
  Proof.
    intros Hs. rewrite (objective_split c (b_of c) c' b'). rewrite (cross_zero c c' b' Hs).
    assert (0 <= Sg m (fun i => wt i * (Sg p (fun j => x i j * (nth j c' 0 - nth j c 0)) + (b' - b_of c)) ^ 2)).
    { apply Sg_nonneg. intros i Hi. apply Rmult_le_pos; [apply Hpos; auto|apply pow2_ge_0]. }
    assert (0 <= Sg p (fun j => (nth j c' 0 - nth j c 0) ^ 2)) by (apply Sg_nonneg; intros; apply pow2_ge_0).
    nra.
  Qed.

  Lemma unique c c' b' : 0 < alpha -> solves c rhs -> length c = p -> length c' = p ->
    ridge_objective p X y w alpha c' b' <= ridge_objective p X y w alpha c (b_of c) -> c' = c /\ b' = b_of c.
  Proof.
    intros Hal Hs Hl Hl' Hle. rewrite (objective_split c (b_of c) c' b') in Hle. rewrite (cross_zero c c' b' Hs) in Hle.
    set (d := fun i => Sg p (fun j => x i j * (nth j c' 0 - nth j c 0)) + (b' - b_of c)) in Hle.
    assert (P1 : 0 <= Sg m (fun i => wt i * d i ^ 2)).
    { apply Sg_nonneg. intros i Hi. apply Rmult_le_pos; [apply Hpos; auto|apply pow2_ge_0]. }
    assert (P2 : 0 <= Sg p (fun j => (nth j c' 0 - nth j c 0) ^ 2)) by (apply Sg_nonneg; intros; apply pow2_ge_0).
    change (Sg m (fun i => wt i * (Sg p (fun j => x i j * (nth j c' 0 - nth j c 0)) + (b' - b_of c)) ^ 2)) with (Sg m (fun i => wt i * d i ^ 2)) in Hle.
    assert (Z : Sg p (fun j => (nth j c' 0 - nth j c 0) ^ 2) = 0) by nra.
    assert (Z1 : Sg m (fun i => wt i * d i ^ 2) = 0) by nra.
    assert (Ec : forall j, (j < p)%nat -> nth j c' 0 = nth j c 0).
    { intros j Hj. pose proof (Sg_zero p (fun j => (nth j c' 0 - nth j c 0) ^ 2) (fun i _ => pow2_ge_0 _) Z j Hj) as E. cbn beta in E. nra. }
    split; [apply (list_eq_nth 0); [congruence|intros; apply Ec; lia]|].
    assert (Ed : forall i, d i = b' - b_of c).
    { intros i. unfold d. rewrite Sg_all0; [ring|]. intros j Hj. rewrite Ec by auto. ring. }
    rewrite (Sg_ext m _ (fun i => wt i * (b' - b_of c) ^ 2)) in Z1 by (intros; rewrite Ed; reflexivity).
    rewrite Sg_scal_r in Z1. apply Rmult_integral in Z1 as [Z1|Z1]; [exfalso; exact (S0_nz Z1)|]. nra.
  Qed.

  (** The code computes these sums. *)
  Lemma column_eq j : column j X = tabulate m (fun i => x i j).
  Proof.
    destruct HX as [HXl _]. unfold column. apply (list_eq_nth 0); rewrite ?map_length, ?tabulate_length; auto.
    intros i Hi. rewrite tabulate_nth by lia. rewrite (nth_map_in (fun row => nth j row 0) X i [] 0) by lia. reflexivity.
  Qed.
  Lemma wmean_x j : wmean (column j X) w = xm j.
  Proof.
    unfold wmean, xm. rewrite S0_eq. f_equal. rewrite (map2_sum Rmult (column j X) w m 0 0); auto.
    - apply Sg_ext. intros i Hi. rewrite column_eq, tabulate_nth by auto. reflexivity.
    - rewrite column_eq. apply tabulate_length.
  Qed.
  Lemma wmean_y : wmean y w = ym.
  Proof. unfold wmean, ym. rewrite S0_eq. f_equal. apply (map2_sum Rmult y w m 0 0); auto. Qed.

  Let Xc := map2 (fun row s => map (fun v => v * s) row) (map (fun row => map2 Rminus row (tabulate p (fun j => wmean (column j X) w))) X) (map sqrt w).
  Let yc := map2 Rmult (map (fun v => v - wmean y w) y) (map sqrt w).

  Lemma Xc_length : length Xc = m.
  Proof. destruct HX as [HXl _]. unfold Xc. rewrite map2_length, !map_length. lia. Qed.
  Lemma Xc_get i j : (i < m)%nat -> (j < p)%nat -> nth j (nth i Xc []) 0 = (x i j - xm j) * sqrt (wt i).
  Proof.
    intros Hi Hj. destruct HX as [HXl HXr]. assert (Hrow := rect_row X m p i HX Hi).
    unfold Xc. rewrite (map2_nth _ _ _ i [] 0 []) by (rewrite map_length; lia).
    rewrite (nth_map_in (fun row => map2 Rminus row _) X i [] []) by lia.
    rewrite (nth_map_in sqrt w i 0 0) by lia.
    rewrite (nth_map_in (fun v => v * _) _ j 0 0) by (rewrite map2_length, tabulate_length; lia).
    rewrite (map2_nth Rminus _ _ j 0 0 0) by (rewrite ?tabulate_length; lia).
    rewrite tabulate_nth by auto. rewrite wmean_x. reflexivity.
  Qed.
  Lemma yc_get i : (i < m)%nat -> nth i yc 0 = (nth i y 0 - ym) * sqrt (wt i).
  Proof.
    intros Hi. unfold yc. rewrite (map2_nth Rmult _ _ i 0 0 0) by (rewrite map_length; lia).
    rewrite (nth_map_in _ y i 0 0), (nth_map_in sqrt w i 0 0) by lia. rewrite wmean_y. reflexivity.
  Qed.
  Lemma Xc_column a i : (a < p)%nat -> (i < m)%nat -> nth i (column a Xc) 0 = (x i a - xm a) * sqrt (wt i).
  Proof. intros Hlt Hi. unfold column. rewrite (nth_map_in (fun row => nth a row 0) Xc i [] 0) by (rewrite Xc_length; auto). apply Xc_get; auto. Qed.
  Lemma sq i : (i < m)%nat -> sqrt (wt i) * sqrt (wt i) = wt i.
  Proof. intros Hi. apply sqrt_sqrt. apply Hpos; auto. Qed.

  Lemma gram_eq a b : (a < p)%nat -> (b < p)%nat -> dot (column a Xc) (column b Xc) = gram a b.
  Proof.
    intros Hlt Hb. rewrite (dot_Sg _ _ m) by (unfold column; rewrite map_length, Xc_length; auto). unfold gram. apply Sg_ext.
    intros i Hi. rewrite !Xc_column by auto. transitivity ((x i a - xm a) * (x i b - xm b) * (sqrt (wt i) * sqrt (wt i))); [ring|rewrite sq by auto; ring].
  Qed.
  Lemma rhs_eq a : (a < p)%nat -> dot (column a Xc) yc = rhs a.
  Proof.
    intros Hlt. rewrite (dot_Sg _ _ m).
    2:{ unfold column; rewrite map_length, Xc_length; auto. }
    2:{ unfold yc. rewrite map2_length, !map_length. lia. }
    unfold rhs. apply Sg_ext. intros i Hi. rewrite Xc_column, yc_get by auto.
    transitivity ((x i a - xm a) * (nth i y 0 - ym) * (sqrt (wt i) * sqrt (wt i))); [ring|rewrite sq by auto; ring].
  Qed.

  Variable solve : matrix R -> list R -> result (list R).
  Hypothesis Hsolve : exact_solver solve.

  Let A := mtab p p (fun a b => mget 0 (mtab p p (fun a b => dot (column a Xc) (column b Xc))) a b + alpha * (if (a =? b)%nat then 1 else 0)).
  Let B := tabulate p (fun a => dot (column a Xc) yc).

  Lemma A_get a b : (a < p)%nat -> (b < p)%nat -> mget 0 A a b = gram a b + alpha * (if (a =? b)%nat then 1 else 0).
  Proof. intros Hlt Hb. unfold A. rewrite !mtab_get by auto. rewrite gram_eq by auto. reflexivity. Qed.

  Lemma solve_ok c : solve A B = Ok c -> length c = p /\ solves c rhs.
  Proof.
    intros E. destruct (Hsolve p A B (mtab_rect _ _ _) (tabulate_length _ _)) as [H _]. destruct (H c E) as [Hl Hc]. split; auto.
    intros a Hlt. specialize (Hc a Hlt). unfold B in Hc. rewrite tabulate_nth, rhs_eq in Hc by auto. rewrite <- Hc.
    apply (Sg_ext p). intros k Hk. rewrite A_get by auto. reflexivity.
  Qed.
  Lemma solve_total : 0 < alpha -> exists c, solve A B = Ok c.
  Proof.
    intros Hal. destruct (solve A B) as [c|e] eqn:E; [eauto|exfalso].
    destruct (Hsolve p A B (mtab_rect _ _ _) (tabulate_length _ _)) as [_ H]. destruct H as (c & Hl & (k & Hk & Hn) & Hc); [eexists; eauto|].
    apply Hn. apply (nonsingular c); auto. intros a Hlt. refine (eq_trans _ (Hc a Hlt)). apply (Sg_ext p). intros k' Hk'. rewrite A_get by auto. reflexivity.
  Qed.

  Hypothesis Hm : (0 < m)%nat.

  Lemma ridge_unfold : ridge_cholesky solve p X y alpha w = (c <- solve A B ;; Ok (c, Fin (wmean y w - dot (tabulate p (fun j => wmean (column j X) w)) c))).
  Proof.
    unfold ridge_cholesky. destruct HX as [HXl _]. rewrite HXl, Hy, Hw, Nat.eqb_refl. cbn [negb orb].
    destruct X as [|r X'] eqn:EX; [simpl in HXl; lia|].
    assert (E1 : Reqb (Rsum w) 0 = false) by (unfold Reqb; destruct (Req_EM_T (Rsum w) 0); [contradiction|reflexivity]).
    assert (E2 : existsb (fun v => Rltb v 0) w = false).
    { destruct (existsb (fun v => Rltb v 0) w) eqn:E; auto. apply existsb_exists in E as (v & Hv & Hlt).
      apply (In_nth _ _ 0) in Hv as (i & Hi & <-). unfold Rltb in Hlt. destruct (Rlt_dec (nth i w 0) 0); [|discriminate].
      specialize (Hpos i ltac:(lia)). lra. }
    rewrite E1, E2. cbn [orb]. reflexivity.
  Qed.

  Lemma ridge_minimises c b : ridge_cholesky solve p X y alpha w = Ok (c, b) ->
    length c = p /\ exists b0, b = Fin b0 /\
    (forall c' b', ridge_objective p X y w alpha c b0 <= ridge_objective p X y w alpha c' b') /\
    (0 < alpha -> forall c' b', length c' = p -> ridge_objective p X y w alpha c' b' <= ridge_objective p X y w alpha c b0 -> c' = c /\ b' = b0).
  Proof.
    rewrite ridge_unfold. intros E. destruct (solve A B) as [c0|e] eqn:Es; [|discriminate]. cbn [bind] in E. injection E as -> <-.
    destruct (solve_ok c Es) as [Hl Hs]. split; auto. eexists. split; [reflexivity|].
    assert (Eb : wmean y w - dot (tabulate p (fun j => wmean (column j X) w)) c = b_of c).
    { rewrite wmean_y. unfold b_of. f_equal. rewrite (dot_Sg _ _ p) by (rewrite ?tabulate_length; auto).
      apply Sg_ext. intros k Hk. rewrite tabulate_nth, wmean_x by auto. reflexivity. }
    rewrite Eb. split; [intros; apply minimises; auto|]. intros Hal c' b' Hl' Hle. apply unique; auto.
  Qed.
  Lemma ridge_total : 0 < alpha -> exists c b, ridge_cholesky solve p X y alpha w = Ok (c, b).
  Proof. intros Hal. rewrite ridge_unfold. destruct (solve_total Hal) as [c ->]. cbn [bind]. eauto. Qed.
End Fixed.

(** ** r2_score *)
Section R2.
  Variables (y q : list R).
  Let m := Rsum y / INR (length y).
  Let tss := Rsum (map (fun a => (a - m) ^ 2) y).
  Let rss := Rsum (map2 (fun a b => (a - b) ^ 2) y q).

  Lemma tss_nonneg : 0 <= tss.
  Proof. apply Rsum_nonneg. intros v Hv. apply in_map_iff in Hv as (a & <- & _). apply pow2_ge_0. Qed.
  Lemma rss_nonneg : length q = length y -> 0 <= rss.
  Proof.
    intros Hl. unfold rss. rewrite (map2_sum _ y q (length y) 0 0) by auto. apply Sg_nonneg. intros; apply pow2_ge_0.
  Qed.
  Lemma tss_zero : tss = 0 <-> forall i j, (i < length y)%nat -> (j < length y)%nat -> nth i y 0 = nth j y 0.
  Proof.
    split.
    - intros H. assert (E : forall i, (i < length y)%nat -> nth i y 0 = m).
      { intros i Hi. assert (P : (nth i y 0 - m) ^ 2 = 0).
        { apply (Rsum_zero_elem (map (fun a => (a - m) ^ 2) y)); auto.
          - intros v Hv. apply in_map_iff in Hv as (a & <- & _). apply pow2_ge_0.
          - apply (in_map (fun a => (a - m) ^ 2)). apply nth_In; auto. }
        nra. }
      intros i j Hi Hj. rewrite !E by auto. reflexivity.
    - intros H. apply Rsum_zero. intros v Hv. apply in_map_iff in Hv as (a & <- & Ha).
      apply (In_nth _ _ 0) in Ha as (i & Hi & <-).
      assert (E : m = nth i y 0).
      { unfold m. assert (Es : Rsum y = INR (length y) * nth i y 0).
        { rewrite (Sg_list y), (Sg_ext _ _ (fun _ => nth i y 0)) by (intros; apply H; auto).
          unfold Sg, tabulate. rewrite Rsum_map_const, seq_length. reflexivity. }
        rewrite Es. field. apply not_0_INR. lia. }
      rewrite E. ring.
  Qed.
  Lemma rss_zero : length q = length y -> (rss = 0 <-> q = y).
  Proof.
    intros Hl. unfold rss. rewrite (map2_sum _ y q (length y) 0 0) by auto. split.
    - intros H. apply (list_eq_nth 0); auto. intros i Hi.
      pose proof (Sg_zero _ _ (fun i _ => pow2_ge_0 _) H i ltac:(lia)) as E. cbn beta in E. nra.
    - intros ->. apply Sg_all0. intros; ring.
  Qed.
End R2.

Definition constant (y : list R) : Prop := forall i j, (i < length y)%nat -> (j < length y)%nat -> nth i y 0 = nth j y 0.

Lemma r2_le_1 y q : length q = length y -> r2_numba y q <= 1.
Proof.
  intros Hl. unfold r2_numba. pose proof (tss_nonneg y). pose proof (rss_nonneg y q Hl). cbv zeta.
  unfold Reqb. destruct (Req_EM_T _ 0) as [E|E]; [lra|].
  match goal with |- 1 - ?a / ?b <= 1 => assert (0 <= a / b); [|lra] end.
  apply Rmult_le_pos; [auto|]. apply Rlt_le, Rinv_0_lt_compat. lra.
Qed.
Lemma r2_eq_1 y q : length q = length y -> ~ constant y -> (r2_numba y q = 1 <-> q = y).
Proof.
  intros Hl Hc. rewrite <- (rss_zero y q Hl). unfold r2_numba. cbv zeta. pose proof (tss_zero y) as HT.
  unfold Reqb. destruct (Req_EM_T _ 0) as [E|E]; [exfalso; exact (Hc (proj1 HT E))|].
  split; intros H.
  - match goal with H : 1 - ?a / ?b = 1 |- _ => assert (Z : a / b = 0) by lra; replace a with (a / b * b) by (field; auto); rewrite Z; ring end.
  - rewrite H. field. exact E.
Qed.
Lemma r2_constant y q : constant y -> r2_numba y q = 1.
Proof.
  intros Hc. unfold r2_numba. cbv zeta. unfold Reqb. destruct (Req_EM_T _ 0) as [E|E]; [reflexivity|].
  exfalso. apply E. apply (proj2 (tss_zero y)). exact Hc.
Qed.
Lemma r2_affine y q a b : a <> 0 -> length q = length y ->
  r2_numba (map (fun v => a * v + b) y) (map (fun v => a * v + b) q) = r2_numba y q.
Proof.
  intros Ha Hl. destruct y as [|y0 ys].
  { destruct q; [|discriminate]. reflexivity. }
  set (y := y0 :: ys) in *. assert (Hn : INR (length y) <> 0) by (apply not_0_INR; unfold y; simpl; lia).
  unfold r2_numba. cbv zeta. rewrite map_length, map_map.
  assert (Em : Rsum (map (fun v => a * v + b) y) / INR (length y) = a * (Rsum y / INR (length y)) + b).
  { rewrite (Rsum_map_plus (fun v => a * v) (fun _ => b)), (Rsum_map_scal a (fun v => v)), map_id, Rsum_map_const. field. exact Hn. }
  rewrite Em.
  assert (Et : Rsum (map (fun v => (a * v + b - (a * (Rsum y / INR (length y)) + b)) ^ 2) y) = a ^ 2 * Rsum (map (fun v => (v - Rsum y / INR (length y)) ^ 2) y)).
  { rewrite <- (Rsum_map_scal (a ^ 2)). apply Rsum_map_ext. intros; ring. }
  assert (Er : Rsum (map2 (fun u v => (u - v) ^ 2) (map (fun v => a * v + b) y) (map (fun v => a * v + b) q)) = a ^ 2 * Rsum (map2 (fun u v => (u - v) ^ 2) y q)).
  { rewrite map2_map, !(map2_sum _ y q (length y) 0 0) by auto. rewrite <- Sg_scal. apply Sg_ext. intros; ring. }
  rewrite Et, Er. assert (Ha2 : a ^ 2 <> 0) by (apply pow_nonzero; auto).
  set (t := Rsum (map (fun v => (v - Rsum y / INR (length y)) ^ 2) y)). set (r := Rsum (map2 _ y q)).
  unfold Reqb. destruct (Req_EM_T t 0) as [E|E].
  - rewrite E, Rmult_0_r. destruct (Req_EM_T 0 0); [reflexivity|congruence].
  - destruct (Req_EM_T (a ^ 2 * t) 0) as [E'|E']; [exfalso; apply Rmult_integral in E' as [|]; contradiction|]. field. split; auto.
Qed.
