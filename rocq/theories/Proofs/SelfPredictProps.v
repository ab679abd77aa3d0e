(** Proofs for C196: predicting the training points. *)
From Coq Require Import Lra Lia Psatz Sorting.Sorted.
From Verif.Model Require Import Base Ext Sort Kernel Distance WeightMatrix Csr Neighbour WeightModel.
From Verif.Spec Require Import KernelSpec WeightSpec NoiseSpec NeighbourSpec WeightModelSpec EndToEndSpec MutualSpec.
From Verif.Spec Require Import SelfPredictSpec.
From Verif.Proofs Require Import ListFacts SumFacts KernelFacts WeightFacts WeightProps WeightExamples CsrFacts NeighbourFacts SampleFacts NeighbourProps WeightModelFacts WeightModelProps FitProps PredictProps FitExamples EndToEnd EndToEndExamples OneDimProps MutualProps.
Open Scope string_scope.
Open Scope nat_scope.
Open Scope R_scope.

Section Self.
  Variable est : Type.
  Variable fit_est : nat -> matrix R -> list R -> list ext -> result est.
  Variable predict_est : est -> matrix R -> result (list R).
  Variable G : Type.
  Variable choice : G -> list nat -> nat -> G * list nat.
  Variable cpu : nat.
  Variable f32 : R -> R.
  Variable mkw : Type.
  Variable no_kw : mkw.
  Variable sm : string -> option (mkw -> list R -> list R -> R).
  Variable dm : string -> option (list R -> list R -> R).
  Variable sr : list R -> list R.
  Variable dargs : Type.
  Variable truthy : dargs -> bool.
  Variable a : wm_args.
  Notation pw := (points_weights f32 mkw no_kw sm dm sr dargs truthy a None).
  Notation FIT := (fit est fit_est predict_est G choice cpu pw).
  Notation PBF := (predict_by_fit est fit_est predict_est cpu pw).
  Notation st o := (o_state est G o).

  Section Run.
  Variables (c : config) (order order' : list nat) (g : G) (fs fs' : filesystem) (s0 : state est) (X : matrix R) (y : list R) (v : list coords) (Ds : list (matrix R)) (W : matrix ext) (N : nat).
  Hypothesis Hch : valid_choice choice.
  Hypothesis Hcpu : (0 < cpu)%nat.
  Hypothesis HX : length X = N.
  Hypothesis HD : distance_matrices f32 mkw no_kw sm v (Some v) (a_measure a) None = Ok (map A2 Ds).
  Hypothesis HV : valid_distances Ds N N.
  Hypothesis Hr : a_ratio a = RNone.
  Hypothesis HW : weight_matrix_from_distance (map A2 Ds) (a_kernel a) RNone (a_bandwidth a) (a_count a) = Ok W.
  Hypothesis Hs : sample_local_rate c = None.
  Hypothesis Hcd : cache_data c = true.
  Hypothesis Hlo : leave_local_out c = false.
  Hypothesis HS : schedule (num_tasks cpu c N) order.
  Hypothesis HS' : schedule cpu order'.
  Let o := FIT c order g fs s0 X y (Some v) None.

  Lemma both ps : o_result est G o = Ok tt -> local_predict_ est (st o) = Some ps ->
    (0 < N)%nat /\ rect W N N /\ length ps = N /\
    (forall i, (i < N)%nat -> exists e, local_model fit_est X y false W N i e /\ predict_est e [nth i X []] = Ok [nth i ps 0]) /\
    (let T i := filter (fun j => negb (eis_zero (mget NaN W j i))) (seq 0 N) in
     forall out, snd (PBF c order' fs' (st o) X (Some v) None) = Ok out <->
      length out = N /\ forall i, (i < N)%nat ->
        exists e, fit_est i (map (fun j => nth j X []) (T i)) (map (fun j => nth j y 0) (T i)) (map (fun j => mget NaN W j i) (T i)) = Ok e /\
          predict_est e [nth i X []] = Ok (nth i out [])).
  Proof.
    intros HO HP.
    assert (HN : (0 < N)%nat).
    { assert (E0 : raises (o_result est G o) \/ (0 < N)%nat); [|destruct E0 as [[e E0]|]; [congruence|auto]].
      destruct (fit_inv est fit_est predict_est G choice cpu pw _ _ _ _ _ _ _ _ _ HO) as (w & g' & locs & preds & es & p & score & Hck & _).
      right. apply check_iff in Hck. destruct Hck as (d & Hv). destruct X as [|x X']; [exfalso|cbn in HX; lia]. destruct Hv as [HRx Hv]. destruct HRx as [HRx _]. cbn in HRx. revert Hv. intros. lia. }
    assert (HR : rect W N N) by (apply (wm_product _ _ _ _ N N W HV HN HW)).
    assert (Hf : in_force pw fs (Some v) None (WDense W)).
    { right. split; auto. exists v. split; auto. rewrite (pw_ok f32 mkw no_kw sm dm sr dargs truthy a fs v Ds HD), Hr, HW. reflexivity. }
    assert (Hh : holds (WDense W) W N) by (split; auto).
    pose proof (proj1 (fit_all_locations est fit_est predict_est G choice cpu pw c order g fs s0 X y (Some v) None (WDense W) W N Hch Hcpu HX Hf Hh Hs HS ps) (conj HO HP)) as (F1 & F2 & F3 & F4 & F5).
    rewrite Hlo in F5. split; [exact HN|]. split; [exact HR|]. split; [exact F4|]. split; [exact F5|].
    destruct (fit_inv est fit_est predict_est G choice cpu pw _ _ _ _ _ _ _ _ _ HO) as (w & g' & locs & preds & es & p & score & Hck & _ & _ & _ & _ & _ & EE).
    assert (Hst : data_coords est (st o) = Some v /\ data_X est (st o) = Some X /\ data_y est (st o) = Some y) by (unfold o; rewrite EE, Hcd; auto).
    destruct Hst as (S1 & S2 & S3).
    assert (Hly : length y = N) by (apply check_ok in Hck; destruct Hck as [E _]; congruence).
    apply (pbf_spec est fit_est predict_est cpu pw c order' fs' fs' (st o) X v v X y W N N Hcd Hcpu HS' S1 S2 S3); auto.
    rewrite (pw_eq f32 mkw no_kw sm dm sr dargs truthy a None I Hr fs' v v Ds HD), HW. reflexivity.
  Qed.

  Lemma same_set i : rect W N N -> (i < N)%nat -> (forall j, (j < N)%nat -> mget NaN W i j = Fin 0 <-> mget NaN W j i = Fin 0) ->
    filter (fun j => negb (eis_zero (mget NaN W j i))) (seq 0 N) = training_set false W N i.
  Proof.
    clear -W. intros HR Hi HP. unfold training_set. apply filter_ext_in. intros j Hj. apply in_seq in Hj. unfold used_weight. cbn [andb]. f_equal.
    rewrite <- (mget_indep NaN (Fin 0) W N N) by (auto; lia). specialize (HP j ltac:(lia)).
    assert (Z : forall x, eis_zero x = true <-> x = Fin 0).
    { intros [x| | |]; cbn; try (split; discriminate). unfold Reqb. destruct (Req_EM_T x 0) as [->|Hx]; split; congruence. }
    destruct (eis_zero (mget NaN W j i)) eqn:E1, (eis_zero (mget NaN W i j)) eqn:E2; auto.
    - apply Z, HP, Z in E1. congruence.
    - apply Z, HP, Z in E2. congruence.
  Qed.

  Lemma self_symmetric ps : symmetric_weights W N -> o_result est G o = Ok tt -> local_predict_ est (st o) = Some ps ->
    snd (PBF c order' fs' (st o) X (Some v) None) = Ok (map (fun p => [p]) ps).
  Proof.
    intros HSy HO HP. destruct (both ps HO HP) as (HN & HR & HL & HF & HB). apply HB. split; [rewrite map_length; auto|]. intros i Hi.
    destruct (HF i Hi) as (e & He & Hp). exists e. rewrite (same_set i HR Hi) by (intros j Hj; rewrite (HSy i j Hi Hj); reflexivity).
    split.
    - unfold local_model in He. cbv zeta in He. rewrite <- He. f_equal. apply map_ext_in. intros j Hj. unfold training_set in Hj. apply filter_In in Hj as [Hj _]. apply in_seq in Hj.
      unfold used_weight. cbn [andb]. rewrite <- (mget_indep NaN (Fin 0) W N N) by (auto; lia). apply HSy; lia.
    - rewrite Hp. f_equal. rewrite (nth_indep _ [] [0]) by (rewrite map_length; lia). rewrite (map_nth (fun p => [p])). reflexivity.
  Qed.

  Lemma self_unweighted ps : ignores_weights fit_est -> symmetric_distances Ds N -> fixed_bandwidths (a_kernel a) (a_bandwidth a) (a_count a) (length Ds) ->
    o_result est G o = Ok tt -> local_predict_ est (st o) = Some ps ->
    snd (PBF c order' fs' (st o) X (Some v) None) = Ok (map (fun p => [p]) ps).
  Proof.
    intros HI HSy HFx HO HP. destruct (both ps HO HP) as (HN & HR & HL & HF & HB). apply HB. split; [rewrite map_length; auto|]. intros i Hi.
    destruct (HF i Hi) as (e & He & Hp). exists e. rewrite (same_set i HR Hi).
    - split.
      + unfold local_model in He. cbv zeta in He. rewrite <- He. apply HI. rewrite !map_length. reflexivity.
      + rewrite Hp. f_equal. rewrite (nth_indep _ [] [0]) by (rewrite map_length; lia). rewrite (map_nth (fun p => [p])). reflexivity.
    - intros j Hj. pose proof (mutual Ds _ _ _ N W HSy HFx HN HW) as M.
      split; intros Z; [destruct (OneDimProps.classic_fin0 (mget NaN W j i)) as [|Q]|destruct (OneDimProps.classic_fin0 (mget NaN W i j)) as [|Q]]; auto; exfalso; apply M in Q; auto.
  Qed.
  End Run.
End Self.

(** ** Three points on a line, boxcar *)
Definition z_pw := points_weights (fun x => x) unit tt (fun _ => None) (fun _ => None) (fun r => r) unit (fun _ => true) q_args None.
Definition z_fit (lo : bool) := fit R wmean_fit wmean_predict nat first_choice 2 z_pw (cfg lo None None None) [0; 1]%nat 0%nat no_fs s_init fX fy (Some q_pts) None.
Definition z_pred (lo : bool) := snd (predict_by_fit R wmean_fit wmean_predict 2 z_pw (cfg lo None None None) [0; 1]%nat no_fs (o_state R nat (z_fit lo)) fX (Some q_pts) None).

Lemma z_in : in_force z_pw no_fs (Some q_pts) None (WDense q_W).
Proof.
  right. split; auto. exists q_pts. split; auto. unfold z_pw. rewrite (pw_ok _ _ _ _ _ _ _ _ q_args no_fs q_pts [q_D] q_dist).
  cbn [snd]. change (a_ratio q_args) with RNone. rewrite q_weights. reflexivity.
Qed.

Lemma z_ok lo : o_result R nat (z_fit lo) = Ok tt /\ local_predict_ R (o_state R nat (z_fit lo)) = Some (if lo then [2; 5 / 2; 2] else [3 / 2; 7 / 3; 3]).
Proof.
  apply (fit_all_locations R wmean_fit wmean_predict nat first_choice 2 z_pw (cfg lo None None None) [0; 1]%nat 0%nat no_fs s_init fX fy (Some q_pts) None (WDense q_W) q_W 3); auto.
  - apply first_choice_valid.
  - exact z_in.
  - split; [split; [reflexivity|repeat constructor]|auto].
  - apply Permutation_refl.
  - split; [apply fX_data; reflexivity|]. split; [exact I|]. split; [lia|]. split; [destruct lo; reflexivity|].
    assert (T' : training_set false q_W 3 0 = [0; 1]%nat /\ training_set false q_W 3 1 = [0; 1; 2]%nat /\ training_set false q_W 3 2 = [1; 2]%nat).
    { unfold training_set, used_weight, mget, q_W, eis_zero. cbn [seq filter Nat.eqb andb nth]. rdec. cbn [negb]. auto. }
    intros i Hi. destruct q_training as (T0 & T1 & T2). destruct T' as (U0 & U1 & U2).
    exists (nth i (if lo then [2; 5 / 2; 2] else [3 / 2; 7 / 3; 3]) 0). unfold local_model. cbn [cfg leave_local_out].
    destruct lo; apply lt3 in Hi as [-> | [-> | ->]]; [rewrite T0|rewrite T1|rewrite T2|rewrite U0|rewrite U1|rewrite U2]; (split; [|reflexivity]); unfold wmean_fit, used_weight, mget, q_W; cbn; apply (f_equal Ok); field.
Qed.

Lemma z_predicts lo : z_pred lo = Ok [[7 / 5]; [19 / 8]; [16 / 5]].
Proof.
  destruct (z_ok lo) as [HO _]. unfold z_fit in HO.
  destruct (fit_inv R wmean_fit wmean_predict nat first_choice 2 z_pw _ _ _ _ _ _ _ _ _ HO) as (w & g' & locs & preds & es & p & score & _ & _ & _ & _ & _ & _ & EE).
  apply (pbf_spec R wmean_fit wmean_predict 2 z_pw (cfg lo None None None) [0; 1]%nat no_fs no_fs (o_state R nat (z_fit lo)) fX q_pts q_pts fX fy q_W 3 3); auto.
  - apply Permutation_refl.
  - unfold z_fit. rewrite EE. reflexivity.
  - unfold z_fit. rewrite EE. reflexivity.
  - unfold z_fit. rewrite EE. reflexivity.
  - unfold z_pw. rewrite (pw_eq _ _ _ _ _ _ _ _ q_args None I eq_refl no_fs q_pts q_pts [q_D] q_dist), q_weights. reflexivity.
  - split; [reflexivity|repeat constructor].
  - split; [reflexivity|]. intros i Hi.
    assert (ET : filter (fun j => negb (eis_zero (mget NaN q_W j 0))) (seq 0 3) = [0; 1]%nat /\ filter (fun j => negb (eis_zero (mget NaN q_W j 1))) (seq 0 3) = [0; 1; 2]%nat /\ filter (fun j => negb (eis_zero (mget NaN q_W j 2))) (seq 0 3) = [1; 2]%nat).
    { unfold mget, q_W, eis_zero. cbn [seq filter nth]. rdec. cbn [negb]. auto. }
    destruct ET as (E0 & E1 & E2). exists (nth i [7 / 5; 19 / 8; 16 / 5] 0).
    apply lt3 in Hi as [-> | [-> | ->]]; [rewrite E0|rewrite E1|rewrite E2]; (split; [|reflexivity]); unfold wmean_fit, mget, q_W; cbn; apply (f_equal Ok); field.
Qed.

Lemma q_symmetric : symmetric_distances [q_D] 3.
Proof. split; [exact q_valid|]. intros dim i j Hd Hi Hj. cbn in Hd. assert (dim = 0%nat) as -> by lia. destruct i as [|[|[|i]]]; try lia; destruct j as [|[|[|j]]]; try lia; reflexivity. Qed.
Lemma q_fixed : fixed_bandwidths (a_kernel q_args) (a_bandwidth q_args) (a_count q_args) 1.
Proof. intros dim Hd. exists "boxcar", (3 / 2). repeat split; cbn; auto. unfold known_kernel; tauto. Qed.

(** A mean that ignores the weights. *)
Definition plain_fit (c : nat) (X : matrix R) (y : list R) (w : list ext) : result R :=
  if (length y =? 0)%nat then Raise ValueError else Ok (Rsum y / INR (length y)).
Lemma plain_ignores : ignores_weights plain_fit.
Proof. intros i X y w w' _. reflexivity. Qed.

Definition z_plain := fit R plain_fit wmean_predict nat first_choice 2 z_pw (cfg false None None None) [0; 1]%nat 0%nat no_fs s_init fX fy (Some q_pts) None.
Lemma z_plain_ok : o_result R nat z_plain = Ok tt /\ local_predict_ R (o_state R nat z_plain) = Some [3 / 2; 7 / 3; 3].
Proof.
  apply (fit_all_locations R plain_fit wmean_predict nat first_choice 2 z_pw (cfg false None None None) [0; 1]%nat 0%nat no_fs s_init fX fy (Some q_pts) None (WDense q_W) q_W 3); auto.
  - apply first_choice_valid.
  - exact z_in.
  - split; [split; [reflexivity|repeat constructor]|auto].
  - apply Permutation_refl.
  - split; [apply fX_data; reflexivity|]. split; [exact I|]. split; [lia|]. split; [reflexivity|].
    assert (T' : training_set false q_W 3 0 = [0; 1]%nat /\ training_set false q_W 3 1 = [0; 1; 2]%nat /\ training_set false q_W 3 2 = [1; 2]%nat).
    { unfold training_set, used_weight, mget, q_W, eis_zero. cbn [seq filter Nat.eqb andb nth]. rdec. cbn [negb]. auto. }
    intros i Hi. destruct T' as (U0 & U1 & U2).
    exists (nth i [3 / 2; 7 / 3; 3] 0). unfold local_model. cbn [cfg leave_local_out].
    apply lt3 in Hi as [-> | [-> | ->]]; [rewrite U0|rewrite U1|rewrite U2]; (split; [|reflexivity]); unfold plain_fit; cbn; apply (f_equal Ok); field.
Qed.

(** ** predict_by_weight *)
Definition z_mean (lo : bool) := snd (predict_by_weight R wmean_predict z_pw (cfg lo None None None) no_fs (o_state R nat (z_fit lo)) fX (Some q_pts) None).
Definition q_Wr : matrix R := [[1 / 2; 1 / 2; 0]; [1 / 3; 1 / 3; 1 / 3]; [0; 1 / 2; 1 / 2]].

Lemma z_means lo : z_mean lo = Ok (map Fin (if lo then [9 / 4; 13 / 6; 9 / 4] else [23 / 12; 41 / 18; 8 / 3])).
Proof.
  destruct (z_ok lo) as [HO HP]. set (ps := if lo then [2; 5 / 2; 2] else [3 / 2; 7 / 3; 3]) in *.
  assert (HH : holds (WDense q_W) q_W 3) by (split; [split; [reflexivity|repeat constructor]|auto]).
  destruct (fit_aligned R wmean_fit wmean_predict nat first_choice 2 z_pw (cfg lo None None None) [0; 1]%nat 0%nat no_fs s_init fX fy (Some q_pts) None (WDense q_W) q_W 3
    first_choice_valid ltac:(lia) eq_refl z_in HH (Permutation_refl _) (or_intror (or_introl eq_refl)) HO)
    as (locs & es & ps' & ys & rs & HLo & HE & HP' & _ & _ & HSo & HB & HNl & Le & Lp & _ & _ & HK).
  fold (z_fit lo) in HLo, HE, HP', HK. rewrite HP in HP'. injection HP' as <-. change (num_locations (cfg lo None None None) 3) with 3%nat in HNl.
  rewrite HNl in Le, Lp, HK.
  assert (EE : es = map Some ps).
  { assert (A : forall k, (k < 3)%nat -> nth k es None = Some (nth k ps 0)).
    { intros k Hk. destruct (HK k Hk) as (_ & _ & e & _ & H1 & H2). cbn [cfg cache_estimator] in H2. rewrite H2. unfold wmean_predict in H1. cbn [map] in H1. injection H1 as ->. reflexivity. }
    destruct es as [|a [|b [|d [|]]]]; try discriminate. pose proof (A 0%nat ltac:(lia)) as A0. pose proof (A 1%nat ltac:(lia)) as A1. pose proof (A 2%nat ltac:(lia)) as A2. cbn [nth] in A0, A1, A2. rewrite A0, A1, A2. unfold ps. destruct lo; reflexivity. }
  destruct (fit_inv R wmean_fit wmean_predict nat first_choice 2 z_pw _ _ _ _ _ _ _ _ _ HO) as (w & g' & locs' & preds & es' & p & score & _ & _ & _ & _ & _ & _ & EQ).
  unfold z_mean. rewrite (pbw_sum R wmean_predict z_pw (cfg lo None None None) no_fs no_fs (o_state R nat (z_fit lo)) fX q_pts q_pts ps (map (fun p => [p; p; p]) ps) q_Wr 3 3); auto; try lia.
  - cbn [snd]. f_equal. f_equal. unfold tabulate. cbn [seq map]. unfold mget, q_Wr. unfold ps. destruct lo; cbn [nth map]; rewrite !Rsum_cons, Rsum_nil; repeat apply (f_equal2 cons); try field; reflexivity.
  - rewrite HE, EE. reflexivity.
  - unfold z_fit. rewrite EQ. reflexivity.
  - unfold z_pw. rewrite (pw_eq _ _ _ _ _ _ _ _ q_args None I eq_refl no_fs q_pts q_pts [q_D] q_dist), q_weights. reflexivity.
  - split; [reflexivity|repeat constructor].
  - unfold ps. destruct lo; repeat constructor.
Qed.
