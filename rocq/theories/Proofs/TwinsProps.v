(** Proofs for C178: repeated observations. *)
From Coq Require Import Lra Lia.
From Verif.Model Require Import Base Ext Csr Kernel Neighbour Distance WeightMatrix WeightModel.
From Verif.Spec Require Import KernelSpec WeightSpec NeighbourSpec WeightModelSpec GrowingSpec TwinsSpec.
From Verif.Proofs Require Import ListFacts SumFacts KernelFacts CsrFacts NeighbourProps WeightModelFacts WeightModelProps WeightFacts WeightProps FitProps FitExamples LinearProps GrowingProps.
Open Scope string_scope.
Open Scope nat_scope.
Open Scope R_scope.

Section Fit.
  Variable est : Type.
  Variable fit_est : nat -> matrix R -> list R -> list ext -> result est.
  Variable predict_est : est -> matrix R -> result (list R).
  Variable G : Type.
  Variable choice : G -> list nat -> nat -> G * list nat.
  Variable cpu : nat.
  Variable wm : filesystem -> list coords -> list coords -> filesystem * result weights.

  (** Predictions equal to the targets. *)
  Lemma perfect_score c order g fs s0 X y coords given w W N :
    valid_choice choice -> (0 < cpu)%nat -> length X = N ->
    in_force wm fs coords given w -> holds w W N -> schedule (num_tasks cpu c (num_locations c N)) order -> aligned c w ->
    (forall i e p, (i < N)%nat -> local_model fit_est X y (leave_local_out c) W N i e -> predict_est e [nth i X []] = Ok [p] -> p = nth i y 0) ->
    let o := fit est fit_est predict_est G choice cpu wm c order g fs s0 X y coords given in
    o_result est G o = Ok tt ->
    local_predict_ est (o_state est G o) = y_sample_ est (o_state est G o) /\ llocv_score_ est (o_state est G o) = Some (Fin 1).
  Proof.
    intros Hch Hcpu HL Hf Hh HS Hal HI o Ho.
    destruct (fit_results est fit_est predict_est G choice cpu wm c order g fs s0 X y coords given w W N Hch Hcpu HL Hf Hh HS Ho)
      as (l & es & ps & sc & Hy & H1 & H2 & H3 & H4 & H5 & H6 & H7 & H8 & H9 & H10 & _ & _ & H13 & H14 & _ & _).
    destruct (fit_aligned est fit_est predict_est G choice cpu wm c order g fs s0 X y coords given w W N Hch Hcpu HL Hf Hh HS Hal Ho)
      as (l' & es' & ps' & ys & rs & A1 & _ & A3 & A4 & _ & _ & AN & _ & _ & _ & Ly & _ & AK).
    rewrite H1 in A1. injection A1 as <-. rewrite H3 in A3. injection A3 as <-.
    assert (E : ps = ys).
    { apply (list_eq_nth 0); [lia|]. intros k Hk. rewrite H13 in Hk. destruct (AK k Hk) as (Ek & _ & e & HM & HP & _). rewrite Ek.
      assert (Hi : (nth k l 0%nat < N)%nat) by (apply AN; apply nth_In; auto). exact (HI _ e _ Hi HM HP). }
    unfold o. split; [rewrite H3, A4, E; reflexivity|]. rewrite H6. rewrite H4 in A4. injection A4 as A4. rewrite A4, E in H7. unfold r2_score in H7. rewrite Nat.eqb_refl in H7. cbn [negb] in H7.
    destruct ys as [|u [|u' ys]]; [discriminate H7|subst ps; exfalso; apply H14; reflexivity|]. cbv zeta in H7. rewrite (sse_same (u :: u' :: ys) (u :: u' :: ys) eq_refl) in H7. injection H7 as <-.
    f_equal. f_equal. unfold Reqb. destruct (Req_EM_T 0 0) as [_|]; [|congruence].
    match goal with |- context [Req_EM_T ?d 0] => destruct (Req_EM_T d 0) as [|Hd] end; [reflexivity|]. field. exact Hd.
  Qed.

  Lemma twins_score c order g fs s0 X y coords given w W N :
    reproduces fit_est predict_est -> valid_choice choice -> (0 < cpu)%nat -> length X = N ->
    in_force wm fs coords given w -> holds w W N -> schedule (num_tasks cpu c (num_locations c N)) order -> aligned c w ->
    consistent X y -> (forall i, (i < N)%nat -> exists j, (j < N)%nat /\ repeats X y i j /\ mget (Fin 0) W i j <> Fin 0) ->
    let o := fit est fit_est predict_est G choice cpu wm c order g fs s0 X y coords given in
    o_result est G o = Ok tt ->
    local_predict_ est (o_state est G o) = y_sample_ est (o_state est G o) /\ llocv_score_ est (o_state est G o) = Some (Fin 1).
  Proof.
    intros HR Hch Hcpu HL Hf Hh HS Hal HC HT. apply (perfect_score c order g fs s0 X y coords given w W N); auto.
    intros i e p Hi HM HP. unfold local_model in HM. cbv zeta in HM. destruct (HT i Hi) as (j & Hj & (Hne & EX & Ey) & Hw).
    set (T := training_set (leave_local_out c) W N i) in *.
    assert (HTN : forall k, In k T -> (k < N)%nat) by (intros k Hk; unfold T, training_set in Hk; apply filter_In in Hk as [Hk _]; apply in_seq in Hk; lia).
    assert (HIn : In j T).
    { unfold T, training_set. apply filter_In. split; [apply in_seq; lia|]. unfold used_weight.
      assert (E : leave_local_out c && (i =? j)%nat = false) by (destruct (Nat.eqb_spec i j); [congruence|apply Bool.andb_false_r]). rewrite E.
      apply Bool.negb_true_iff. destruct (eis_zero (mget (Fin 0) W i j)) eqn:EZ; auto. apply eis_zero_Fin in EZ. contradiction. }
    apply (In_nth _ _ 0%nat) in HIn as (q & Hq & Eq).
    assert (HCT : consistent (map (fun j => nth j X []) T) (map (fun j => nth j y 0) T)).
    { intros a b Ha Hb. rewrite map_length in Ha, Hb. rewrite !(nth_map_in _ _ _ 0%nat) by auto. apply HC; rewrite HL; apply HTN, nth_In; auto. }
    pose proof (HR i _ _ _ e q HM) as HQ. rewrite !map_length in HQ. specialize (HQ eq_refl HCT Hq).
    rewrite !(nth_map_in _ _ _ 0%nat) in HQ by auto. rewrite Eq, EX, Ey in HQ. congruence.
  Qed.
End Fit.

(** Observations at the same place are neighbours. *)
Lemma coincident_weight Ds kt bw nc r c W i j :
  valid_distances Ds r c -> (0 < r)%nat -> (i < r)%nat -> (j < c)%nat -> (forall dim b, arg_at bw dim = Some b -> 0 <= b) ->
  (forall dim, (dim < length Ds)%nat -> mget 0 (nth dim Ds []) i j = 0) ->
  weight_matrix_from_distance (map A2 Ds) kt RNone bw nc = Ok W -> mget (Fin 0) W i j <> Fin 0.
Proof.
  intros HV Hr Hi Hj HB HZ H.
  assert (HG : wider kt bw bw nc nc (length Ds)).
  { intros dim k k' p p' Hd A B. destruct (requests_fun _ _ _ _ _ _ _ _ A B) as [_ <-]. destruct p as [b|z|q]; simpl; try lra; try lia.
    destruct A as (_ & _ & _ & _ & A). unfold rule_of in A. destruct (arg_at bw dim) as [b'|] eqn:E; destruct (arg_at nc dim) as [[| |]|]; try discriminate.
    injection A as ->. specialize (HB dim b E). lra. }
  destruct (own_share_shrinks Ds kt bw bw nc nc r c W W HV Hr HG H H i j Hi Hj HZ) as (w & w' & E & _ & Hw). rewrite E. intros E0. injection E0 as E0. lra.
Qed.

(** ** A learner that looks rows up *)
Definition row_eq_dec : forall a b : list R, {a = b} + {a <> b} := list_eq_dec Req_EM_T.
Fixpoint find_row (x : list R) (X : matrix R) (y : list R) : R :=
  match X, y with
  | r :: X', t :: y' => if row_eq_dec r x then t else find_row x X' y'
  | _, _ => 0
  end.
Definition memo_fit (c : nat) (X : matrix R) (y : list R) (w : list ext) : result (matrix R * list R) := Ok (X, y).
Definition memo_predict (e : matrix R * list R) (Xs : matrix R) : result (list R) := Ok (map (fun x => find_row x (fst e) (snd e)) Xs).

Lemma memo_reproduces : reproduces memo_fit memo_predict.
Proof.
  intros i X y w e j He Hy HC Hj. injection He as <-. unfold memo_predict. cbn [map fst snd]. do 2 f_equal. clear i w.
  revert y j Hy HC Hj. induction X as [|r X IH]; intros y j Hy HC Hj; [simpl in Hj; lia|]. destruct y as [|t y]; [discriminate|].
  cbn [find_row]. destruct (row_eq_dec r (nth j (r :: X) [])) as [E|E].
  - specialize (HC 0%nat j). cbn [nth length] in HC |- *. apply HC; [lia|exact Hj|exact E].
  - destruct j as [|j]; [cbn [nth] in E; congruence|]. cbn [nth]. apply IH; [simpl in Hy; lia| |simpl in Hj; lia].
    intros a b Ha Hb Hab. apply (HC (S a) (S b)); simpl; [lia|lia|exact Hab].
Qed.

Definition tX : matrix R := [[0]; [0]; [1]; [1]].
Definition ty (a b : R) : list R := [a; a; b; b].
Definition tW : matrix ext := repeat (repeat (Fin 1) 4) 4.
Definition tcfg : config := cfg true None None None.

Lemma lt4 i : (i < 4)%nat -> i = 0%nat \/ i = 1%nat \/ i = 2%nat \/ i = 3%nat.
Proof. lia. Qed.

Lemma twins_ok a b : o_result _ nat (fit _ memo_fit memo_predict nat first_choice 2 no_wm tcfg [1; 0]%nat 0%nat no_fs (init_state _) tX (ty a b) None (Some (WDense tW))) = Ok tt.
Proof.
  apply (fit_succeeds _ memo_fit memo_predict nat first_choice 2 no_wm _ _ _ _ _ _ _ _ _ (WDense tW) tW 4 first_choice_valid); auto.
  - left. reflexivity.
  - split; [split; [reflexivity|repeat constructor]|auto].
  - apply perm_swap.
  - left. reflexivity.
  - split; [exists 1%nat; split; [split; [reflexivity|repeat constructor]|simpl; lia]|]. split; [exact I|]. split; [intros r Hr; discriminate Hr|].
    split; [cbv [num_locations sample_local_rate tcfg cfg]; lia|].
    intros i _. eexists _, _. split; reflexivity.
Qed.

Lemma twins_consistent a b : consistent tX (ty a b).
Proof.
  intros j k Hj Hk. apply lt4 in Hj as [-> | [-> | [-> | ->]]]; apply lt4 in Hk as [-> | [-> | [-> | ->]]]; cbn [nth tX ty]; intros E; auto; injection E; intros; lra.
Qed.

Lemma twins_repeat a b i : (i < 4)%nat -> exists j, (j < 4)%nat /\ repeats tX (ty a b) i j /\ mget (Fin 0) tW i j <> Fin 0.
Proof.
  intros Hi. assert (E1 : Fin 1 <> Fin 0) by (intros E; injection E; lra).
  apply lt4 in Hi as [-> | [-> | [-> | ->]]]; [exists 1%nat|exists 0%nat|exists 3%nat|exists 2%nat]; (split; [lia|]); (split; [split; [lia|split; reflexivity]|exact E1]).
Qed.
