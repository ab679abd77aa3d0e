(** Leaving a location out of its own model never brings the prediction nearer. *)
From Coq Require Import Lra Lia Psatz Sorting.Sorted.
From Verif.Model Require Import Base Ext Csr Neighbour Distance WeightModel.
From Verif.Spec Require Import KernelSpec NeighbourSpec WeightModelSpec LinearSpec FeatureUnitsSpec LeaveOutSpec.
From Verif.Proofs Require Import ListFacts SumFacts KernelFacts CsrFacts NeighbourProps WeightModelFacts WeightModelProps FitProps LinearProps FeatureUnits.
Open Scope string_scope.
Open Scope nat_scope.
Open Scope R_scope.

Lemma Rsum_filter {A} (P : A -> bool) (g : A -> R) l : Rsum (map g (filter P l)) = Rsum (map (fun j => if P j then g j else 0) l).
Proof. induction l as [|a l IH]; [reflexivity|]. cbn [filter map]. destruct (P a); cbn [map]; rewrite ?Rsum_cons, IH; lra. Qed.
Lemma Rsum_only i (g : nat -> R) l : NoDup l -> In i l -> Rsum (map (fun j => if (i =? j)%nat then g j else 0) l) = g i.
Proof.
  induction 1 as [|a l Ha ND IH]; [contradiction|]. cbn [map]. rewrite Rsum_cons. intros [->|Hi].
  - rewrite Nat.eqb_refl. rewrite Rsum_zero; [lra|]. intros z Hz. apply in_map_iff in Hz as (j & <- & Hj).
    destruct (Nat.eqb_spec i j) as [->|]; [contradiction|reflexivity].
  - rewrite IH by exact Hi. destruct (Nat.eqb_spec i a) as [->|]; [contradiction|lra].
Qed.
Lemma penalised_rows q f (X : matrix R) y w T : penalised_error q f (map (fun j => nth j X []) T) (map (fun j => nth j y 0) T) (map w T) =
  q + Rsum (map (fun j => w j * (nth j y 0 - f (nth j X [])) ^ 2) T).
Proof.
  unfold penalised_error. f_equal. apply f_equal. rewrite map_length. apply (list_eq_nth 0); [rewrite tabulate_length, map_length; reflexivity|].
  intros k Hk. rewrite tabulate_length in Hk. rewrite tabulate_nth by auto. rewrite !(nth_map_in _ _ _ 0%nat) by auto. reflexivity.
Qed.

Section Learner.
  Context {est hyp : Type}.
  Variables (p : nat) (admissible : hyp -> Prop) (value : hyp -> list R -> R) (penalty : hyp -> R) (chosen : est -> hyp).
  Variable fit_est : nat -> matrix R -> list R -> list ext -> result est.
  Variable predict_est : est -> matrix R -> result (list R).
  Hypothesis HE : error_minimiser p admissible value penalty chosen fit_est predict_est.

  (** What the local model of [i] minimises. *)
  Lemma local_minimum lo X y W N i e : rect X N p -> nonnegative_weights W N -> (i < N)%nat -> local_model fit_est X y lo W N i e ->
    admissible (chosen e) /\ forall h, admissible h ->
      let err h := penalty h + Rsum (map (fun j => wt W i j * (nth j y 0 - value h (nth j X [])) ^ 2) (training_set lo W N i)) in
      err (chosen e) <= err h.
  Proof.
    intros HX HW Hi HM. apply (model_fit fit_est lo X y W N HW i e Hi) in HM. set (T := training_set lo W N i) in *.
    rewrite <- (map_map (wt W i) Fin) in HM. apply (proj1 HE) in HM.
    - destruct HM as [HA HM]. split; [exact HA|]. intros h Hh. cbv zeta. specialize (HM h Hh). rewrite !penalised_rows in HM. exact HM.
    - apply Forall_forall. intros r Hr. apply in_map_iff in Hr as (j & <- & Hj). unfold T, training_set in Hj. apply filter_In in Hj as [Hj _].
      apply in_seq in Hj. apply (rect_row X N p j HX). lia.
    - rewrite !map_length. reflexivity.
    - rewrite !map_length. reflexivity.
    - apply Forall_forall. intros r Hr. apply in_map_iff in Hr as (j & <- & Hj). apply (used_positive lo W N HW i j Hi Hj).
  Qed.

  Lemma left_out X y W N i e e' : rect X N p -> nonnegative_weights W N -> (i < N)%nat ->
    local_model fit_est X y true W N i e -> local_model fit_est X y false W N i e' ->
    (nth i y 0 - value (chosen e') (nth i X [])) ^ 2 <= (nth i y 0 - value (chosen e) (nth i X [])) ^ 2.
  Proof.
    intros HX HW Hi HM HM'.
    destruct (HW i i Hi Hi) as (r & Hr & [Hp|Hp]).
    2:{ (* not its own neighbour: the same model *)
      assert (EW : forall j, used_weight true W i j = used_weight false W i j).
      { intros j. unfold used_weight. cbn [andb]. destruct (Nat.eqb_spec i j) as [<-|]; [|reflexivity]. rewrite Hr, Hp. reflexivity. }
      assert (ET : training_set true W N i = training_set false W N i) by (unfold training_set; apply filter_ext; intros j; rewrite EW; reflexivity).
      unfold local_model in HM, HM'. rewrite ET in HM. rewrite (map_ext _ _ EW) in HM. rewrite HM in HM'. injection HM' as ->. lra. }
    destruct (local_minimum true X y W N i e HX HW Hi HM) as [HA H1]. destruct (local_minimum false X y W N i e' HX HW Hi HM') as [HA' H2].
    specialize (H1 _ HA'). specialize (H2 _ HA). cbv beta zeta in H1, H2.
    assert (ES : forall g : nat -> R, Rsum (map g (training_set false W N i)) = Rsum (map g (training_set true W N i)) + g i).
    { intros g. unfold training_set. rewrite !Rsum_filter. rewrite <- (Rsum_only i g (seq 0 N)); [|apply seq_NoDup|apply in_seq; lia].
      rewrite <- Rsum_map_plus. apply Rsum_map_ext. intros j Hj. unfold used_weight. cbn [andb].
      destruct (Nat.eqb_spec i j) as [<-|]; [|lra]. rewrite Hr. unfold eis_zero. rdec; cbn [negb]; lra. }
    rewrite !ES in H2. assert (Ew : wt W i i = r) by (unfold wt; rewrite Hr; reflexivity). rewrite Ew in H2.
    apply (Rmult_le_reg_l r); [exact Hp|]. lra.
  Qed.
End Learner.

(** ** Scores *)
Lemma r2_monotone ys ps qs a b : length ps = length qs -> (forall k, (k < length ys)%nat -> (nth k ys 0 - nth k qs 0) ^ 2 <= (nth k ys 0 - nth k ps 0) ^ 2) ->
  r2_score ys ps = Ok (Fin a) -> r2_score ys qs = Ok (Fin b) -> a <= b.
Proof.
  intros HL HK HA HB. unfold r2_score in HA, HB. destruct (Nat.eqb_spec (length ys) (length ps)) as [E|]; [|discriminate HA].
  destruct (Nat.eqb_spec (length ys) (length qs)) as [E'|]; [|discriminate HB]. cbn [negb] in HA, HB.
  assert (HS : forall us, 0 <= Rsum (map2 (fun a b => (a - b) * (a - b)) ys us)).
  { intros us. apply Rsum_nonneg. intros z Hz. apply (In_nth _ _ 0) in Hz as (k & Hk & <-). rewrite map2_length in Hk. rewrite (map2_nth _ _ _ _ 0 0) by lia. apply Rle_0_sqr. }
  assert (HD : 0 <= Rsum (map (fun a => (a - mean ys) * (a - mean ys)) ys)).
  { apply Rsum_nonneg. intros z Hz. apply in_map_iff in Hz as (t & <- & _). apply Rle_0_sqr. }
  assert (HM : Rsum (map2 (fun a b => (a - b) * (a - b)) ys qs) <= Rsum (map2 (fun a b => (a - b) * (a - b)) ys ps)).
  { clear HA HB HS HD. revert ps qs HL HK E E'. induction ys as [|u ys IH]; intros [|v ps] [|z qs] HL HK E E'; try discriminate; [simpl; lra|].
    cbn [map2]. rewrite !Rsum_cons. specialize (IH ps qs). assert (H0 := HK 0%nat ltac:(simpl; lia)). cbn [nth] in H0.
    assert (HI : Rsum (map2 (fun a b => (a - b) * (a - b)) ys qs) <= Rsum (map2 (fun a b => (a - b) * (a - b)) ys ps)).
    { apply IH; simpl in *; try lia. intros k Hk. apply (HK (S k)). lia. }
    replace ((u - z) * (u - z)) with ((u - z) ^ 2) by ring. replace ((u - v) * (u - v)) with ((u - v) ^ 2) by ring. lra. }
  set (P := Rsum (map2 _ ys ps)) in *. set (Q := Rsum (map2 _ ys qs)) in *. set (D := Rsum (map _ ys)) in *.
  pose proof (HS ps) as HP. pose proof (HS qs) as HQ. fold P in HP. fold Q in HQ.
  destruct ys as [|u [|u' ys]]; try discriminate HA. cbv zeta in HA, HB. fold P D in HA. fold Q D in HB. injection HA as <-. injection HB as <-.
  unfold Reqb. destruct (Req_EM_T D 0) as [HD0|HD0].
  - destruct (Req_EM_T P 0), (Req_EM_T Q 0); lra.
  - assert (0 < D) by lra. assert (Q / D <= P / D) by (apply Rmult_le_compat_r; [left; apply Rinv_0_lt_compat; lra|lra]). lra.
Qed.

Section Fits.
  Context {est hyp : Type}.
  Variables (p : nat) (admissible : hyp -> Prop) (value : hyp -> list R -> R) (penalty : hyp -> R) (chosen : est -> hyp).
  Variable fit_est : nat -> matrix R -> list R -> list ext -> result est.
  Variable predict_est : est -> matrix R -> result (list R).
  Hypothesis HE : error_minimiser p admissible value penalty chosen fit_est predict_est.

  Theorem leave_out_residuals G choice cpu wm wm' c c' order order' g g' fs fs' s0 s0' X y coords coords' given given' w w' W N :
    valid_choice choice -> (0 < cpu)%nat -> rect X N p -> nonnegative_weights W N ->
    in_force wm fs coords given w -> holds w W N -> in_force wm' fs' coords' given' w' -> holds w' W N ->
    schedule (num_tasks cpu c (num_locations c N)) order -> schedule (num_tasks cpu c' (num_locations c' N)) order' -> aligned c w -> aligned c' w' ->
    leave_local_out c = true -> leave_local_out c' = false ->
    let o := fit est fit_est predict_est G choice cpu wm c order g fs s0 X y coords given in
    let o' := fit est fit_est predict_est G choice cpu wm' c' order' g' fs' s0' X y coords' given' in
    o_result est G o = Ok tt -> o_result est G o' = Ok tt ->
    exists locs rs locs' rs', local_indices_ est (o_state est G o) = Some locs /\ local_residual_ est (o_state est G o) = Some rs /\
      local_indices_ est (o_state est G o') = Some locs' /\ local_residual_ est (o_state est G o') = Some rs' /\
      forall k k' i, nth_error locs k = Some i -> nth_error locs' k' = Some i -> Rabs (nth k' rs' 0) <= Rabs (nth k rs 0).
  Proof.
    intros Hch Hcpu HX HW Hf Hh Hf' Hh' HS HS' Hal Hal' HLO HLO' o o' Ho Ho'.
    assert (HL : length X = N) by apply HX.
    destruct (fit_aligned est fit_est predict_est G choice cpu wm c order g fs s0 X y coords given w W N Hch Hcpu HL Hf Hh HS Hal Ho)
      as (locs & es & ps & ys & rs & A1 & _ & _ & _ & A5 & _ & AN & _ & _ & _ & _ & _ & AK).
    destruct (fit_aligned est fit_est predict_est G choice cpu wm' c' order' g' fs' s0' X y coords' given' w' W N Hch Hcpu HL Hf' Hh' HS' Hal' Ho')
      as (locs' & es' & ps' & ys' & rs' & B1 & _ & _ & _ & B5 & _ & _ & _ & _ & _ & _ & _ & BK).
    exists locs, rs, locs', rs'. split; [exact A1|]. split; [exact A5|]. split; [exact B1|]. split; [exact B5|].
    intros k k' i Hk Hk'.
    assert (Lk : (k < length locs)%nat) by (apply nth_error_Some; congruence).
    assert (Lk' : (k' < length locs')%nat) by (apply nth_error_Some; congruence).
    destruct (AK k Lk) as (_ & R1 & e & HM & HP & _). destruct (BK k' Lk') as (_ & R2 & e' & HM' & HP' & _).
    rewrite (nth_error_nth _ _ _ Hk) in HM, HP, R1. rewrite (nth_error_nth _ _ _ Hk') in HM', HP', R2.
    assert (Hi : (i < N)%nat) by (apply AN; apply (nth_error_In _ _ Hk)).
    rewrite HLO in HM. rewrite HLO' in HM'. rewrite (proj2 HE) in HP, HP'. cbn [map] in HP, HP'. injection HP as HP. injection HP' as HP'.
    rewrite R1, R2, <- HP, <- HP'. apply Rsqr_le_abs_0. rewrite !Rsqr_pow2.
    apply (left_out p admissible value penalty chosen fit_est predict_est HE X y W N i e e'); auto.
  Qed.

  Theorem leave_out_score G choice cpu wm wm' c order order' g fs fs' s0 s0' X y coords coords' given given' w w' W N score score' :
    valid_choice choice -> (0 < cpu)%nat -> rect X N p -> nonnegative_weights W N ->
    in_force wm fs coords given w -> holds w W N -> in_force wm' fs' coords' given' w' -> holds w' W N ->
    schedule (num_tasks cpu c (num_locations c N)) order -> schedule (num_tasks cpu c (num_locations c N)) order' -> aligned c w -> aligned c w' ->
    let o := fit est fit_est predict_est G choice cpu wm (with_leave_out c true) order g fs s0 X y coords given in
    let o' := fit est fit_est predict_est G choice cpu wm' (with_leave_out c false) order' g fs' s0' X y coords' given' in
    o_result est G o = Ok tt -> o_result est G o' = Ok tt ->
    llocv_score_ est (o_state est G o) = Some (Fin score) -> llocv_score_ est (o_state est G o') = Some (Fin score') -> score <= score'.
  Proof.
    intros Hch Hcpu HX HW Hf Hh Hf' Hh' HS HS' Hal Hal' o o' Ho Ho' Hsc Hsc'.
    assert (HL : length X = N) by apply HX.
    pose proof (leave_out_residuals G choice cpu wm wm' (with_leave_out c true) (with_leave_out c false) order order' g g fs fs' s0 s0' X y coords coords' given given' w w' W N
      Hch Hcpu HX HW Hf Hh Hf' Hh' HS HS' Hal Hal' eq_refl eq_refl Ho Ho') as HR. cbv zeta in HR.
    destruct HR as (locs & rs & locs' & rs' & R1 & R2 & R3 & R4 & HR).
    destruct (fit_results est fit_est predict_est G choice cpu wm (with_leave_out c true) order g fs s0 X y coords given w W N Hch Hcpu HL Hf Hh HS Ho)
      as (l & es & ps & sc & Hy & H1 & H2 & H3 & H4 & H5 & H6 & H7 & _ & _ & H10 & _ & _ & H13 & _ & [g1 H15] & _).
    destruct (fit_results est fit_est predict_est G choice cpu wm' (with_leave_out c false) order' g fs' s0' X y coords' given' w' W N Hch Hcpu HL Hf' Hh' HS' Ho')
      as (l' & es' & ps' & sc' & _ & H1' & H2' & H3' & H4' & H5' & H6' & H7' & _ & _ & H10' & _ & _ & H13' & _ & [g2 H15'] & _).
    cbn [sample_local_rate with_leave_out] in H15, H15'. rewrite H15 in H15'. injection H15' as <- <-.
    unfold o in Hsc. rewrite H6 in Hsc. injection Hsc as ->. unfold o' in Hsc'. rewrite H6' in Hsc'. injection Hsc' as ->.
    rewrite H1 in R1. injection R1 as <-. rewrite H1' in R3. injection R3 as <-. rewrite H5 in R2. injection R2 as <-. rewrite H5' in R4. injection R4 as <-.
    apply (r2_monotone (take 0 y l) ps ps'); auto; [congruence|]. intros k Hk.
    assert (EL : length (take 0 y l) = length l) by (unfold take; apply map_length). rewrite EL in Hk.
    assert (Hn : nth_error l k = Some (nth k l 0%nat)) by (apply nth_error_nth'; exact Hk).
    specialize (HR k k _ Hn Hn). rewrite !(map2_nth _ _ _ _ 0 0) in HR by lia. rewrite <- !Rsqr_pow2. apply Rsqr_le_abs_1. exact HR.
  Qed.
End Fits.
