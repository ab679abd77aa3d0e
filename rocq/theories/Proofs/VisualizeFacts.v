From Coq Require Import Lra Psatz Sorting.Sorted.
From Verif.Model Require Import Base Ext Sort Csr Neighbour Distance WeightModel Ale Visualize.
From Verif.Spec Require Import NeighbourSpec VisualizeSpec.
From Verif.Proofs Require Import ListFacts SumFacts SortFacts KernelFacts NeighbourFacts CsrFacts AleFacts.
Open Scope nat_scope.
Open Scope R_scope.

(** ** interpolation *)
Lemma SS_nth l i j : StronglySorted Rlt l -> (i < j)%nat -> (j < length l)%nat -> nth i l 0 < nth j l 0.
Proof.
  intros H. revert i j. induction H as [|a l Hs IH Hf]; intros i j Hij Hj; simpl in Hj; [lia|]. destruct j as [|j]; [lia|]. destruct i as [|i]; simpl.
  - rewrite Forall_forall in Hf. apply Hf, nth_In. lia.
  - apply IH; lia.
Qed.
Lemma SS_nth_le l i j : StronglySorted Rlt l -> (i <= j)%nat -> (j < length l)%nat -> nth i l 0 <= nth j l 0.
Proof. intros H Hij Hj. destruct (Nat.eq_dec i j) as [-> | ]; [lra|]. left. apply SS_nth; auto. lia. Qed.

Lemma interp_step x0 x1 xs y0 y1 ys x : interp (x0 :: x1 :: xs) (y0 :: y1 :: ys) x =
  if Rleb x x0 then y0 else if Rltb x x1 then y0 + (y1 - y0) / (x1 - x0) * (x - x0) else interp (x1 :: xs) (y1 :: ys) x.
Proof. reflexivity. Qed.

Lemma interp_knot xs ys k : StronglySorted Rlt xs -> length xs = length ys -> (k < length xs)%nat -> interp xs ys (nth k xs 0) = nth k ys 0.
Proof.
  revert ys k. induction xs as [|x0 xs IH]; intros ys k Hs HL Hk; [simpl in Hk; lia|]. destruct ys as [|y0 ys]; [simpl in HL; lia|].
  destruct xs as [|x1 xs]; destruct ys as [|y1 ys]; simpl in HL; try lia.
  - destruct k; [reflexivity|simpl in Hk; lia].
  - rewrite interp_step. destruct k as [|k].
    + cbn [nth]. destruct (Rleb x0 x0) eqn:E; auto. apply Rleb_false in E. lra.
    + pose proof (SS_nth _ 0 (S k) Hs ltac:(lia) Hk) as Hlt. change (nth 0 (x0 :: x1 :: xs) 0) with x0 in Hlt.
      destruct (Rleb _ x0) eqn:E; [apply Rleb_true in E; lra|]. pose proof (SS_nth_le _ 1 (S k) Hs ltac:(lia) Hk) as Hle. change (nth 1 (x0 :: x1 :: xs) 0) with x1 in Hle.
      destruct (Rltb _ x1) eqn:E1; [apply Rltb_true in E1; lra|]. change (nth (S k) (x0 :: x1 :: xs) 0) with (nth k (x1 :: xs) 0). change (nth (S k) (y0 :: y1 :: ys) 0) with (nth k (y1 :: ys) 0). apply IH; [inversion Hs; auto|simpl; lia|simpl in *; lia].
Qed.

Lemma interp_between xs ys k x : StronglySorted Rlt xs -> length xs = length ys -> (S k < length xs)%nat -> nth k xs 0 <= x <= nth (S k) xs 0 ->
  interp xs ys x = nth k ys 0 + (nth (S k) ys 0 - nth k ys 0) / (nth (S k) xs 0 - nth k xs 0) * (x - nth k xs 0).
Proof.
  revert ys k. induction xs as [|x0 xs IH]; intros ys k Hs HL Hk Hx; [simpl in Hk; lia|]. destruct ys as [|y0 ys]; [simpl in HL; lia|].
  destruct xs as [|x1 xs]; destruct ys as [|y1 ys]; simpl in HL; try lia; [simpl in Hk; lia|].
  pose proof (SS_nth _ k (S k) Hs ltac:(lia) Hk) as Hgap. pose proof (SS_nth _ 0 1 Hs ltac:(lia) ltac:(simpl; lia)) as H01. change (nth 0 (x0 :: x1 :: xs) 0) with x0 in H01. change (nth 1 (x0 :: x1 :: xs) 0) with x1 in H01.
  rewrite interp_step. destruct k as [|k].
  - cbn [nth] in *. destruct (Rleb x x0) eqn:E; [apply Rleb_true in E; assert (x = x0) by lra; subst; unfold Rminus at 3; rewrite Rplus_opp_r; ring|].
    destruct (Rltb x x1) eqn:E1; [reflexivity|]. apply Rltb_false in E1. assert (x = x1) by lra. subst.
    pose proof (interp_knot (x1 :: xs) (y1 :: ys) 0 ltac:(inversion Hs; auto) ltac:(simpl; lia) ltac:(simpl; lia)) as HK. cbn [nth] in HK. rewrite HK. field. lra.
  - pose proof (SS_nth _ 0 (S k) Hs ltac:(lia) ltac:(lia)) as Hlt. change (nth 0 (x0 :: x1 :: xs) 0) with x0 in Hlt.
    pose proof (SS_nth_le _ 1 (S k) Hs ltac:(lia) ltac:(lia)) as Hle. change (nth 1 (x0 :: x1 :: xs) 0) with x1 in Hle.
    destruct (Rleb x x0) eqn:E; [apply Rleb_true in E; lra|]. destruct (Rltb x x1) eqn:E1; [apply Rltb_true in E1; lra|].
    apply (IH (y1 :: ys) k); [inversion Hs; auto|simpl; lia|simpl in *; lia|exact Hx].
Qed.

Lemma interp_interpolates l : wf_line l -> interpolates l (interp (fst l) (snd l)).
Proof. intros (H1 & H2 & _). split; [intros; apply interp_knot; auto|intros; apply interp_between; auto]. Qed.

Lemma interp_lift c xs ys x : length xs = length ys -> xs <> [] -> interp xs (map (fun y => y + c) ys) x = interp xs ys x + c.
Proof.
  revert ys. induction xs as [|x0 xs IH]; intros ys HL Hne; [congruence|]. destruct ys as [|y0 ys]; [simpl in HL; lia|].
  destruct xs as [|x1 xs]; destruct ys as [|y1 ys]; simpl in HL; try lia; [reflexivity|].
  cbn [map]. rewrite !interp_step. destruct (Rleb x x0); [reflexivity|]. destruct (Rltb x x1); [unfold Rdiv; ring|]. apply (IH (y1 :: ys)); [simpl; lia|discriminate].
Qed.

(** ** common points *)
Lemma filter_SS {A} (R' : A -> A -> Prop) f l : StronglySorted R' l -> StronglySorted R' (filter f l).
Proof.
  induction 1 as [|a l Hs IH Hf]; simpl; [constructor|]. destruct (f a); auto. constructor; auto. rewrite Forall_forall in *. intros x Hx. apply filter_In in Hx. apply Hf. tauto.
Qed.

Lemma merge_points x1 y1 x2 y2 : common_points (x1, y1) (x2, y2) (x_merge x1 x2).
Proof.
  unfold x_merge. split; [apply filter_SS, unique_sorted|]. intros x. rewrite filter_In, unique_in, in_app_iff, andb_true_iff. simpl. unfold range_start, range_end, overlap_start, overlap_end. simpl.
  split; intros [H1 H2]; (split; [exact H1|]).
  - destruct H2 as [A B]. apply Rleb_true in A, B. lra.
  - split; destruct (Rleb _ _) eqn:E; auto; apply Rleb_false in E; lra.
Qed.

Lemma SS_same l l' : StronglySorted Rlt l -> StronglySorted Rlt l' -> (forall x, In x l <-> In x l') -> l = l'.
Proof.
  intros H. revert l'. induction H as [|a l Hs IH Hf]; intros l' H' E.
  - destruct l' as [|b l']; auto. exfalso. apply (proj2 (E b)). left; auto.
  - destruct H' as [|b l' Hs' Hf'].
    + exfalso. apply (proj1 (E a)). left; auto.
    + rewrite Forall_forall in Hf, Hf'.
      assert (a = b).
      { destruct (proj1 (E a) (or_introl eq_refl)) as [-> | Ha]; auto. destruct (proj2 (E b) (or_introl eq_refl)) as [-> | Hb]; auto.
        specialize (Hf b Hb). specialize (Hf' a Ha). lra. }
      subst b. f_equal. apply IH; auto. intros x. split; intros Hx.
      * destruct (proj1 (E x) (or_intror Hx)) as [<- | ]; auto. specialize (Hf a Hx). lra.
      * destruct (proj2 (E x) (or_intror Hx)) as [<- | ]; auto. specialize (Hf' a Hx). lra.
Qed.

Lemma common_sym l1 l2 pts : common_points l1 l2 pts -> common_points l2 l1 pts.
Proof.
  intros [H1 H2]. split; auto. intros x. rewrite H2. unfold range_start, range_end. rewrite (Rmax_comm (hd 0 (fst l2))), (Rmin_comm (last (fst l2) 0)). tauto.
Qed.

Lemma last_in {A} (l : list A) d : l <> [] -> In (last l d) l.
Proof. induction l as [|a l IH]; intros H; [congruence|]. destruct l as [|b l]; [left; auto|]. right. apply IH. discriminate. Qed.
Lemma hd_in {A} (l : list A) d : l <> [] -> In (hd d l) l.
Proof. destruct l; [congruence|left; auto]. Qed.

Lemma Rmax_or a b : Rmax a b = a \/ Rmax a b = b.
Proof. unfold Rmax. destruct (Rle_dec a b); auto. Qed.
Lemma Rmin_or a b : Rmin a b = a \/ Rmin a b = b.
Proof. unfold Rmin. destruct (Rle_dec a b); auto. Qed.

(** Two overlapping lines have at least two common points. *)
Lemma points_two l1 l2 pts : fst l1 <> [] -> fst l2 <> [] -> overlaps l1 l2 -> common_points l1 l2 pts -> (2 <= length pts)%nat.
Proof.
  intros N1 N2 Ho [Hs Hin]. unfold overlaps in Ho.
  assert (A : In (range_start l1 l2) pts).
  { apply Hin. split; [|lra]. unfold range_start. destruct (Rmax_or (hd 0 (fst l1)) (hd 0 (fst l2))) as [-> | ->]; [left|right]; apply hd_in; auto. }
  assert (B : In (range_end l1 l2) pts).
  { apply Hin. split; [|lra]. unfold range_end. destruct (Rmin_or (last (fst l1) 0) (last (fst l2) 0)) as [-> | ->]; [left|right]; apply last_in; auto. }
  destruct pts as [|a [|b pts]]; [destruct A| |simpl; lia]. destruct A as [A | []]. destruct B as [B | []]. lra.
Qed.

Lemma gap_pos pts k : StronglySorted Rlt pts -> (2 <= length pts)%nat -> (k < length pts)%nat -> 0 < gap_weight pts k.
Proof.
  intros Hs Hn Hk. unfold gap_weight. destruct (Nat.eqb_spec k 0) as [-> | Hk0]; [pose proof (SS_nth pts 0 1 Hs ltac:(lia) ltac:(lia)); lra|].
  destruct (Nat.eqb_spec (S k) (length pts)) as [E | E]; [pose proof (SS_nth pts (k - 1) k Hs ltac:(lia) ltac:(lia)); lra|].
  pose proof (SS_nth pts (k - 1) (k + 1) Hs ltac:(lia) ltac:(lia)). lra.
Qed.

Lemma point_weights_gap xs : (2 <= length xs)%nat -> point_weights xs = map (gap_weight xs) (seq 0 (length xs)).
Proof.
  intros Hn. unfold point_weights, tabulate. apply map_ext_in. intros k Hk. apply in_seq in Hk. unfold gap_weight.
  destruct (Nat.eqb_spec k (length xs - 1)); destruct (Nat.eqb_spec k 0); destruct (Nat.eqb_spec (S k) (length xs)); try lia; try (subst k); try lra.
Qed.

Lemma sum_gap_pos pts : StronglySorted Rlt pts -> (2 <= length pts)%nat -> 0 < sum_k (length pts) (gap_weight pts).
Proof.
  intros Hs Hn. unfold sum_k. assert (H : gap_weight pts 0 <= Rsum (map (gap_weight pts) (seq 0 (length pts)))).
  - apply Rsum_ge_elem; [|apply in_map, in_seq; lia]. intros y Hy. apply in_map_iff in Hy as (k & <- & Hk). apply in_seq in Hk. left. apply gap_pos; auto. lia.
  - pose proof (gap_pos pts 0 Hs Hn ltac:(lia)). lra.
Qed.

Lemma map2_map_map {A B C D} (g : B -> C -> D) (f : A -> B) (h : A -> C) l : map2 g (map f l) (map h l) = map (fun i => g (f i) (h i)) l.
Proof. induction l; simpl; congruence. Qed.

Lemma list_as_tab {A} (d : A) (l : list A) : l = map (fun i => nth i l d) (seq 0 (length l)).
Proof.
  apply (list_eq_nth d); [rewrite map_length, seq_length; auto|]. intros i Hi. rewrite (nth_map_in _ _ _ 0%nat) by (rewrite seq_length; auto). rewrite seq_nth by auto. reflexivity.
Qed.

Lemma Rdiv_1_ x : x / 1 = x.
Proof. field. Qed.

Lemma line_distance_value x1 y1 x2 y2 : wf_line (x1, y1) -> wf_line (x2, y2) ->
  let l1 := (x1, y1) in let l2 := (x2, y2) in
  (overlaps l1 l2 -> line_distance l1 l2 = Ok (Some (shifted_distance (x_merge x1 x2) (interp x1 y1) (interp x2 y2) (mean_difference (x_merge x1 x2) (interp x1 y1) (interp x2 y2))))) /\
  (~ overlaps l1 l2 -> line_distance l1 l2 = Ok None).
Proof.
  intros (S1 & L1 & N1) (S2 & L2 & N2) l1 l2. cbn [fst snd] in *. unfold line_distance, l1, l2. destruct x1 as [|a1 x1']; [congruence|]. destruct x2 as [|a2 x2']; [congruence|].
  set (x1 := a1 :: x1') in *. set (x2 := a2 :: x2') in *.
  assert (HO : overlaps (x1, y1) (x2, y2) <-> overlap_start x1 x2 < overlap_end x1 x2) by reflexivity.
  split; intros H.
  - destruct (Rleb _ _) eqn:E; [exfalso; apply Rleb_true in E; apply HO in H; apply (Rlt_not_le _ _ H E)|]. rewrite <- L1, <- L2, !Nat.eqb_refl. cbn [negb orb].
    pose proof (merge_points x1 y1 x2 y2) as HP. set (pts := x_merge x1 x2) in *. pose proof (points_two (x1, y1) (x2, y2) pts N1 N2 H HP) as Hn. destruct HP as [Hs _].
    f_equal. f_equal. rewrite map2_map_map, point_weights_gap by auto. set (f1 := interp x1 y1). set (f2 := interp x2 y2). set (n := length pts) in *.
    assert (ET : map (fun x => f1 x - f2 x) pts = map (fun k => f1 (nth k pts 0) - f2 (nth k pts 0)) (seq 0 n)) by (rewrite (list_as_tab 0 pts) at 1; rewrite map_map; reflexivity).
    rewrite ET. change (Rsum (map (fun k => f1 (nth k pts 0) - f2 (nth k pts 0)) (seq 0 n))) with (sum_k n (fun k => f1 (nth k pts 0) - f2 (nth k pts 0))).
    change (Rsum (map (gap_weight pts) (seq 0 n))) with (sum_k n (gap_weight pts)). pose proof (sum_gap_pos pts Hs Hn) as HW. fold n in HW. set (W := sum_k n (gap_weight pts)) in *.
    rewrite !map_map, map2_map_map. set (c := - sum_k n (fun k => f1 (nth k pts 0) - f2 (nth k pts 0)) / INR n).
    assert (EW : Rsum (map (fun x => gap_weight pts x / W) (seq 0 n)) = 1).
    { unfold Rdiv. rewrite (Rsum_map_scal_r (/ W) (gap_weight pts)). change (Rsum (map (gap_weight pts) (seq 0 n))) with W. apply Rinv_r. lra. }
    rewrite EW. unfold shifted_distance. fold n. fold W. rewrite Rdiv_1_ .
    assert (EC : mean_difference pts f1 f2 = - c) by (unfold c, mean_difference; fold n; unfold Rdiv; ring).
    rewrite EC. transitivity (Rsum (map (fun k => gap_weight pts k * (f1 (nth k pts 0) - f2 (nth k pts 0) - - c) ^ 2 * / W) (seq 0 n))); [|rewrite Rsum_map_scal_r; reflexivity]. apply Rsum_map_ext. intros k Hk. unfold Rdiv. ring.
  - destruct (Rleb _ _) eqn:E; [reflexivity|]. apply Rleb_false in E. exfalso. apply H, HO. exact E.
Qed.

Lemma line_distance_spec l1 l2 : wf_line l1 -> wf_line l2 ->
  (overlaps l1 l2 -> exists d, line_distance l1 l2 = Ok (Some d) /\ is_line_distance l1 l2 d) /\
  (~ overlaps l1 l2 -> line_distance l1 l2 = Ok None).
Proof.
  intros H1 H2. destruct l1 as [x1 y1], l2 as [x2 y2]. destruct (line_distance_value x1 y1 x2 y2 H1 H2) as [A B]. split; auto.
  intros Ho. eexists. split; [apply A; auto|]. exists (x_merge x1 x2), (interp x1 y1), (interp x2 y2). split; [apply merge_points|].
  split; [apply (interp_interpolates (x1, y1)); auto|]. split; [apply (interp_interpolates (x2, y2)); auto|reflexivity].
Qed.

(** ** the matrix *)
Lemma upper_inv ls : forall i rows, upper_rows i ls = Ok rows ->
  length rows = length ls /\ forall k, (k < length ls)%nat -> exists row, mapM (line_distance (nth k ls ([], []))) (skipn k ls) = Ok row /\ nth k rows [] = (repeat (Some 0) (i + k) ++ row)%list.
Proof.
  induction ls as [|l ls IH]; intros i rows H; simpl in H.
  - injection H as <-. split; auto. intros k Hk. simpl in Hk. lia.
  - destruct (line_distance l l) as [d0 | ] eqn:E0; [|discriminate]. simpl in H. destruct (mapM (line_distance l) ls) as [row | ] eqn:E1; [|discriminate]. simpl in H.
    destruct (upper_rows (S i) ls) as [rows' | ] eqn:E2; [|discriminate]. simpl in H. injection H as <-. destruct (IH _ _ E2) as [HL HR]. split; [simpl; lia|].
    intros k Hk. destruct k as [|k].
    + exists (d0 :: row). simpl. rewrite E0, E1. rewrite Nat.add_0_r. auto.
    + destruct (HR k ltac:(simpl in Hk; lia)) as (row' & A & B). exists row'. split; [exact A|]. simpl. rewrite B. replace (i + S k)%nat with (S i + k)%nat by lia. reflexivity.
Qed.

Lemma upper_ok ls : (forall l l', In l ls -> In l' ls -> exists d, line_distance l l' = Ok d) -> forall i, exists rows, upper_rows i ls = Ok rows.
Proof.
  induction ls as [|l ls IH]; intros H i; [eexists; reflexivity|]. cbn [upper_rows].
  assert (E : exists row, mapM (line_distance l) (l :: ls) = Ok row).
  { assert (HA : forall xs, incl xs (l :: ls) -> exists row, mapM (line_distance l) xs = Ok row).
    { induction xs as [|x xs IHx]; intros Hx; [eexists; reflexivity|]. destruct (H l x (or_introl eq_refl) (Hx x (or_introl eq_refl))) as [d Hd].
      destruct IHx as [row Hr]; [intros z Hz; apply Hx; right; auto|]. exists (d :: row). simpl. rewrite Hd. simpl. rewrite Hr. reflexivity. }
    apply HA. intros x Hx; exact Hx. }
  destruct E as [row Hr]. rewrite Hr. cbn [bind]. destruct (IH ltac:(intros a b Ha Hb; apply H; right; auto) (S i)) as [rows HR]. rewrite HR. eexists. reflexivity.
Qed.

Lemma max_finite_some l t : max_finite l = Some t -> In (Some t) l /\ forall a, In (Some a) l -> a <= t.
Proof.
  revert t. induction l as [|o l IH]; intros t H; simpl in H; [discriminate|]. destruct o as [a|].
  - destruct (max_finite l) as [b|] eqn:E.
    + injection H as <-. destruct (IH b eq_refl) as [A B]. split.
      * destruct (Rmax_or a b) as [-> | ->]; [left; auto|right; auto].
      * intros c [Hc | Hc]; [injection Hc as <-; apply Rmax_l|eapply Rle_trans; [apply B; auto|apply Rmax_r]].
    + injection H as <-. split; [left; auto|]. intros c [Hc | Hc]; [injection Hc as <-; lra|]. exfalso.
      clear IH. revert E Hc. clear. induction l as [|o l IH]; intros E Hc; [destruct Hc|]. simpl in E. destruct o as [x|]; [destruct (max_finite l); discriminate|]. destruct Hc as [Hc | Hc]; [discriminate|auto].
  - destruct (IH t H) as [A B]. split; [right; auto|]. intros c [Hc | Hc]; [discriminate|auto].
Qed.

Lemma max_finite_none l : max_finite l = None <-> forall a, ~ In (Some a) l.
Proof.
  split.
  - induction l as [|o l IH]; intros H a Ha; [destruct Ha|]. simpl in H. destruct o as [x|]; [destruct (max_finite l); discriminate|]. destruct Ha as [Ha | Ha]; [discriminate|]. apply (IH H a Ha).
  - intros H. destruct (max_finite l) as [t|] eqn:E; auto. apply max_finite_some in E as [E _]. destruct (H t E).
Qed.

Definition raw (ls : list line) (k j : nat) : option R :=
  if (j <? k)%nat then Some 0 else match line_distance (nth k ls ([], [])) (nth j ls ([], [])) with Ok d => d | Raise _ => None end.

Lemma skipn_nth {A} k (l : list A) j d : nth j (skipn k l) d = nth (k + j) l d.
Proof. revert l. induction k as [|k IH]; intros l; simpl; auto. destruct l as [|a l]; [destruct j; reflexivity|]. apply IH. Qed.

Lemma mapM_nth {A B} (f : A -> result B) l ys i da db : mapM f l = Ok ys -> (i < length l)%nat -> f (nth i l da) = Ok (nth i ys db).
Proof.
  revert ys i. induction l as [|a l IH]; intros ys i H Hi; simpl in Hi; [lia|]. simpl in H. destruct (f a) as [b|] eqn:E; [|discriminate]. simpl in H.
  destruct (mapM f l) as [bs|] eqn:E1; [|discriminate]. simpl in H. injection H as <-. destruct i; simpl; auto. apply IH; auto. lia.
Qed.

Lemma mapM_len {A B} (f : A -> result B) l ys : mapM f l = Ok ys -> length ys = length l.
Proof.
  revert ys. induction l as [|a l IH]; intros ys H; simpl in H; [injection H as <-; auto|]. destruct (f a); [|discriminate]. simpl in H. destruct (mapM f l) eqn:E; [|discriminate]. simpl in H. injection H as <-. simpl. f_equal. auto.
Qed.

Lemma upper_entries ls rows : upper_rows 0 ls = Ok rows -> rect rows (length ls) (length ls) /\
  forall k j, (k < length ls)%nat -> (j < length ls)%nat -> nth j (nth k rows []) None = raw ls k j.
Proof.
  intros H. destruct (upper_inv ls 0 rows H) as [HL HR].
  assert (Hlen : forall k, (k < length ls)%nat -> length (nth k rows []) = length ls).
  { intros k Hk. destruct (HR k Hk) as (row & Hm & E). rewrite E, app_length, repeat_length, (mapM_len _ _ _ Hm), skipn_length. lia. }
  split; [split; auto; apply Forall_forall; intros r Hr; apply (In_nth _ _ []) in Hr as (k & Hk & <-); apply Hlen; lia|].
  intros k j Hk Hj. destruct (HR k Hk) as (row & Hm & E). rewrite E. simpl. unfold raw. destruct (Nat.ltb_spec j k) as [Hjk | Hjk].
  - rewrite app_nth1 by (rewrite repeat_length; auto). assert (HI : In (nth j (repeat (Some 0) k) None) (repeat (Some 0) k)) by (apply nth_In; rewrite repeat_length; auto). apply repeat_spec in HI. auto.
  - rewrite app_nth2 by (rewrite repeat_length; auto). rewrite repeat_length.
    assert (Hlt : (j - k < length (skipn k ls))%nat) by (rewrite skipn_length; lia).
    pose proof (mapM_nth _ _ _ (j - k) ([], []) None Hm Hlt) as E'. rewrite skipn_nth in E'. replace (k + (j - k))%nat with j in E' by lia. unfold line in *. rewrite E'. reflexivity.
Qed.

Definition fill (top : R) (o : option R) : R := match o with Some d => d | None => top * 2 end.

Lemma partial_inv ls m : partial_distance ls = Ok m -> exists top, rect m (length ls) (length ls) /\
  (exists k j, (k < length ls)%nat /\ (j < length ls)%nat /\ raw ls k j = Some top) /\
  (forall k j a, (k < length ls)%nat -> (j < length ls)%nat -> raw ls k j = Some a -> a <= top) /\
  (forall k j, (k < length ls)%nat -> (j < length ls)%nat -> mget 0 m k j = fill top (raw ls k j) + fill top (raw ls j k)) /\
  (forall k j, (k <= j)%nat -> (j < length ls)%nat -> exists d, line_distance (nth k ls ([], [])) (nth j ls ([], [])) = Ok d).
Proof.
  unfold partial_distance. destruct (upper_rows 0 ls) as [rows | ] eqn:E; [|discriminate]. cbn [bind]. destruct (max_finite (concat rows)) as [top | ] eqn:Em; [|discriminate].
  intros H. injection H as <-. change (fun o : option R => match o with | Some d => d | None => top * 2 end) with (fill top). destruct (upper_entries ls rows E) as [HR HE]. exists top. set (n := length ls) in *.
  assert (HRf : rect (mmap (fill top) rows) n n) by (apply rect_mmap; auto).
  assert (HRt : rect (transpose 0 n (mmap (fill top) rows)) n n) by (apply transpose_rect; auto).
  assert (Hget : forall k j, (k < n)%nat -> (j < n)%nat -> mget 0 (mmap (fill top) rows) k j = fill top (raw ls k j)).
  { intros k j Hk Hj. unfold mget, mmap. assert (HLr : length rows = n) by apply HR. assert (HLk : length (nth k rows []) = n) by (apply (rect_row rows n n); auto).
    rewrite (nth_map_in _ _ _ []) by lia. rewrite (nth_map_in _ _ _ None) by lia. rewrite HE by auto. reflexivity. }
  apply max_finite_some in Em as [E1 E2]. split; [|split; [|split; [|split]]].
  - split.
    + rewrite map2_length. destruct HRf as [-> _], HRt as [-> _]. lia.
    + apply Forall_forall. intros r Hr. apply (In_nth _ _ []) in Hr as (k & Hk & <-). rewrite map2_length in Hk. destruct HRf as [A1 A2], HRt as [B1 B2].
      rewrite (map2_nth _ _ _ _ [] []) by lia. rewrite map2_length.
      rewrite (rect_row (mmap (fill top) rows) n n k (conj A1 A2)) by lia. rewrite (rect_row (transpose 0 n (mmap (fill top) rows)) n n k (conj B1 B2)) by lia. lia.
  - apply in_concat in E1 as (r & Hr & Ht). apply (In_nth _ _ []) in Hr as (k & Hk & <-). assert (HLr : length rows = n) by apply HR.
    apply (In_nth _ _ None) in Ht as (j & Hj & Ej). rewrite (rect_row rows n n k HR) in Hj by lia. exists k, j. rewrite <- HE by lia. repeat split; auto; lia.
  - intros k j a Hk Hj Ha. apply E2. apply in_concat. exists (nth k rows []). assert (HLr : length rows = n) by apply HR. split; [apply nth_In; lia|].
    rewrite <- HE in Ha by auto. rewrite <- Ha. apply nth_In. rewrite (rect_row rows n n k HR) by auto. auto.
  - intros k j Hk Hj. unfold mget at 1. destruct HRf as [A1 A2], HRt as [B1 B2]. rewrite (map2_nth _ _ _ _ [] []) by lia.
    rewrite (map2_nth _ _ _ _ 0 0); [|rewrite (rect_row (mmap (fill top) rows) n n k (conj A1 A2)) by lia; lia|rewrite (rect_row (transpose 0 n (mmap (fill top) rows)) n n k (conj B1 B2)) by lia; lia].
    f_equal; [apply Hget; auto|]. change (mget 0 (transpose 0 n (mmap (fill top) rows)) k j = fill top (raw ls j k)). rewrite (transpose_get 0 _ n n) by (auto using rect_mmap). apply Hget; auto.
  - intros k j Hkj Hj. destruct (upper_inv ls 0 rows E) as [_ HU]. destruct (HU k ltac:(lia)) as (row & Hm & _).
    pose proof (mapM_nth _ _ _ (j - k) ([], []) None Hm ltac:(rewrite skipn_length; lia)) as E'. rewrite skipn_nth in E'. replace (k + (j - k))%nat with j in E' by lia. eauto.
Qed.
