(** A stacking model whose base learners stay in the range of the targets, and whose
    predictions do not. *)
From Coq Require Import Lra.
From Verif.Model Require Import Base Ext Csr Neighbour Distance WeightModel NumbaImpl Stacking StackingPredict.
From Verif.Spec Require Import KernelSpec NeighbourSpec WeightModelSpec RidgeSpec StackingSpec StackingTotalSpec RidgeMetaSpec RangeSpec.
From Verif.Proofs Require Import ListFacts SumFacts KernelFacts NeighbourProps SolverExists StackingProps StackingClaims StackingExamples StackingTotal StackingUsualNumba
  StackingTotalExamples StackingUnitsExamples RidgeChanges StackingPredictProps StackingPredictTotal StackingEasy StackingEasyExamples.
Open Scope nat_scope.
Open Scope R_scope.

(** The first feature, cut to the range of the training targets. *)
Definition least (l : list R) : R := fold_right Rmin (hd 0 l) l.
Definition most (l : list R) : R := fold_right Rmax (hd 0 l) l.
Definition cut (e : R * R) (x : list R) : R := Rmax (fst e) (Rmin (snd e) (nth 0 x 0)).
Definition cut_fit {A} (i : nat) (X : matrix R) (y : list R) (w : list A) : result (R * R) :=
  match X, y with [], _ | _, [] => Raise ValueError | _, _ => Ok (least y, most y) end.
Definition cut_predict (e : R * R) (X : matrix R) : result (list R) := match X with [] => Raise ValueError | _ => Ok (map (cut e) X) end.

Lemma least_bounds d l lo hi : lo <= d <= hi -> (forall t, In t l -> lo <= t <= hi) -> lo <= fold_right Rmin d l <= hi.
Proof.
  intros Hd. induction l as [|a l IH]; cbn; intros H; [exact Hd|].
  assert (lo <= a <= hi) by auto. assert (lo <= fold_right Rmin d l <= hi) by auto.
  split; [apply Rmin_glb; lra|eapply Rle_trans; [apply Rmin_l|lra]].
Qed.
Lemma most_bounds d l lo hi : lo <= d <= hi -> (forall t, In t l -> lo <= t <= hi) -> lo <= fold_right Rmax d l <= hi.
Proof.
  intros Hd. induction l as [|a l IH]; cbn; intros H; [exact Hd|].
  assert (lo <= a <= hi) by auto. assert (lo <= fold_right Rmax d l <= hi) by auto.
  split; [eapply Rle_trans; [|apply Rmax_l]; lra|apply Rmax_lub; lra].
Qed.
Lemma least_le_most a l : least (a :: l) <= a <= most (a :: l).
Proof.
  unfold least, most. cbn [hd fold_right]. split; [apply Rmin_l|apply Rmax_l].
Qed.

Lemma cut_averages A (usable : A -> Prop) : averages usable cut_fit cut_predict.
Proof.
  intros i X y w e Z out HF _ HP. destruct X as [|x X]; [destruct y; discriminate|]. destruct y as [|a y]; [discriminate|].
  injection HF as <-. destruct Z as [|z Z]; [discriminate|]. injection HP as <-. split; [cbn; rewrite map_length; reflexivity|].
  intros v Hv lo hi HB. change (In v (map (cut (least (a :: y), most (a :: y))) (z :: Z))) in Hv.
  apply in_map_iff in Hv as (r & <- & _). unfold cut. cbn [fst snd].
  assert (Ha : lo <= a <= hi) by (apply HB; left; reflexivity).
  assert (L : lo <= least (a :: y) <= hi) by (apply least_bounds; auto).
  assert (M : lo <= most (a :: y) <= hi) by (apply most_bounds; auto).
  pose proof (least_le_most a y) as LM.
  split.
  - eapply Rle_trans; [apply L|apply Rmax_l].
  - apply Rmax_lub; [lra|]. eapply Rle_trans; [apply Rmin_l|lra].
Qed.

Lemma cut_data : needs_data (@cut_fit R) cut_predict.
Proof.
  split; [intros i y w e; destruct y; discriminate|]. split; [intros i [|x X] [|a y] w H Hy _; try congruence; try discriminate Hy; eexists; reflexivity|].
  split; [intros e [|x X]; split; [intros [p H]; discriminate|congruence|discriminate|intros _; eexists; reflexivity]|].
  intros e [|x X] p H; [discriminate|]. injection H as <-. cbn. rewrite map_length. reflexivity.
Qed.
Lemma cut_rowwise : rowwise cut_predict cut.
Proof. intros e [|x X] p H; [discriminate|injection H as <-; reflexivity]. Qed.

Definition rg_X : matrix R := [[4]; [5]; [6]].
Definition rg_y : list R := [0; 5; 10].
Definition rg_new : matrix R := [[10]; [5]; [0]].
Definition rg_c : sconfig := SConfig false None false (Some 4%Z) (Some 2%nat) 10 (Some (1 / 2)) None None None false.
Definition rg_s0 : sstate (R * R) (list R * R) :=
  SState (R * R) (list R * R) None None None None None false None None None None None None None None None None None None.
Notation rg_spredict := (spredict (R * R) cut_fit cut_predict (list R * R) rr_fit rr_predict 4 ex_wm).
Lemma rg_run : exists out, snd (rg_spredict ex_r rg_c (fun _ => None) rg_s0 rg_X rg_y [] rg_new []) = Ok out.
Proof.
  apply (spredict_iff cut_fit cut_predict rr_fit rr_predict 4 ex_wm cut_data rr_design ex_r rg_c (fun _ => None) rg_s0 rg_X rg_y [] rg_new [] ex_W ex_W (fun _ => None) (fun _ => None)).
  - reflexivity.
  - reflexivity.
  - apply ex_rect.
  - apply ex_rect.
  - cbn; lia.
  - apply (ex_runtime None false).
  - reflexivity.
  - intros k' H. apply (ex_runtime None false), H.
  - split; [exists 1%nat; split; [split; [reflexivity|repeat constructor]|cbn; lia]|]. split; [cbn; lia|]. split; [reflexivity|].
    cbn [length rg_X rg_new]. split; [|split].
    + intros j Hj. destruct j as [|[|[|j]]]; [exists 1%nat|exists 0%nat|exists 0%nat|lia]; (split; [lia|split; [cbn; lra|intros [_ H]; discriminate]]).
    + intros j Hj. exists 0%nat. split; [lia|]. destruct j as [|[|[|j]]]; [cbn; lra..|lia].
    + intros i Hi. exists 0%nat. split; [lia|]. destruct i as [|[|[|i]]]; [cbn; lra..|lia].
Qed.

Lemma rg_second : schedule 3 (r_second ex_r).
Proof. apply (ex_runtime None false). Qed.
Lemma rg_out_of_range : exists out p q, snd (rg_spredict ex_r rg_c (fun _ => None) rg_s0 rg_X rg_y [] rg_new []) = Ok out /\
  nth 0 out [] = [Fin p] /\ nth 2 out [] = [Fin q] /\ 10 < p /\ q < 0.
Proof.
  destruct rg_run as [out H]. exists out.
  destruct (rg_spredict ex_r rg_c (fun _ => None) rg_s0 rg_X rg_y [] rg_new []) as [[s fs2] r] eqn:E. cbn [snd] in H. subst r.
  assert (Efs : fs2 = (fun _ => None)).
  { unfold spredict in E. revert E.
    repeat (match goal with
            | |- context [match ?x with _ => _ end] => destruct x eqn:?
            | |- (let (_, _) := ?x in _) = _ -> _ => destruct x eqn:?
            end; try discriminate); intros E; try discriminate; injection E; intros; subst;
      unfold ex_wm in *; congruence. }
  subst fs2.
  destruct (new_predictions cut_fit cut_predict rr_fit rr_predict 4 ex_wm cut cut_rowwise ex_r rg_c (fun _ => None) rg_s0 rg_X rg_y [] rg_new [] ex_W ex_W (fun _ => None) (fun _ => None) s out
    eq_refl eq_refl ex_rect ex_rect ltac:(cbn; lia) rg_second eq_refl) as (es & B1 & B2 & B3 & B4 & _); [intros k' Hk; apply (ex_runtime None false), Hk|exact E|].
  assert (Hes : forall e, In e es -> e = (0, 10)).
  { intros e He. apply In_nth_error in He as [j Hj]. assert (Lj : (j < 3)%nat) by (change (j < length rg_X)%nat; rewrite <- B2; apply nth_error_Some; congruence).
    pose proof (B4 j e Hj) as P. unfold plain_base in P.
    assert (T : filter (fun k => negb (Reqb (mget 0 ex_W j k) 0) && negb (sc_leave_local_out rg_c && (k =? j)%nat)) (seq 0 (length rg_X)) = [0; 1; 2]%nat)
      by (destruct j as [|[|[|j]]]; [unfold ex_W; cbn; rdec; reflexivity..|lia]).
    rewrite T in P. cbn [map nth rg_X rg_y cut_fit] in P. injection P as <-. unfold least, most. cbn [hd fold_right].
    f_equal; unfold Rmin, Rmax; repeat (destruct (Rle_dec _ _); try lra). }
  assert (Hc : forall e x, In e es -> 0 <= nth 0 x 0 <= 10 -> cut e x = nth 0 x 0).
  { intros e x He Hx. rewrite (Hes e He). unfold cut. cbn [fst snd]. rewrite Rmin_right, Rmax_right by lra. reflexivity. }
  assert (Hi : forall i, (i < 3)%nat -> nth i out [] = [Fin (5 + 15 / 8 * (nth 0 (nth i rg_new []) 0 - 5))]).
  { intros i Hi.
    destruct (new_easy cut_fit cut_predict rr_fit rr_predict 4 ex_wm cut cut_rowwise rr_one rr_ridge ex_r rg_c (fun _ => None) rg_s0 rg_X rg_y [] rg_new [] ex_W ex_W (fun _ => None) (fun _ => None) s out i
      eq_refl eq_refl ex_rect ex_rect rg_second eq_refl) as [_ (es' & C1 & _ & C2)].
    - intros k' Hk; apply (ex_runtime None false), Hk.
    - cbn; lra.
    - exact E.
    - exact Hi.
    - exists 0%nat. split; [cbn; lia|]. destruct i as [|[|[|i]]]; [cbn; lra..|lia].
    - rewrite B1 in C1. injection C1 as <-.
      rewrite (C2 (fun t => nth 0 (nth t rg_X []) 0) (nth 0 (nth i rg_new []) 0)).
      + assert (Ts : support (length rg_X) ex_W i = [0; 1; 2]%nat).
        { unfold support. destruct i as [|[|[|i]]]; [unfold ex_W, Rltb; cbn; repeat (destruct (Rlt_dec _ _); try lra); reflexivity..|lia]. }
        rewrite Ts. do 2 f_equal. unfold ridge_of_copies, codeviation, mean_over, Rsum. destruct i as [|[|[|i]]]; [cbn; field..|lia].
      + intros e t He Ht. apply Hc; [exact He|]. destruct t as [|[|[|t]]]; [cbn; lra..|cbn in Ht; lia].
      + intros e He. apply Hc; [exact He|]. destruct i as [|[|[|i]]]; [cbn; lra..|lia]. }
  exists (5 + 15 / 8 * 5), (5 - 15 / 8 * 5). split; [reflexivity|].
  split; [rewrite Hi by lia; cbn; do 2 f_equal; lra|]. split; [rewrite Hi by lia; cbn; do 2 f_equal; lra|]. split; lra.
Qed.
