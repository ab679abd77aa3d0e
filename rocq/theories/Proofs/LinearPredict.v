From Coq Require Import Lra Psatz Sorting.Sorted.
From Verif.Model Require Import Base Ext Sort Kernel Distance WeightMatrix Csr Neighbour WeightModel.
From Verif.Spec Require Import KernelSpec WeightSpec NeighbourSpec WeightModelSpec LinearSpec.
From Verif.Proofs Require Import ListFacts SumFacts KernelFacts SortFacts WeightFacts WeightProps DistanceFacts CsrFacts NeighbourFacts ShrinkFacts SampleFacts NeighbourProps WeightModelFacts WeightModelProps FitProps PredictProps LinearProps AdaptiveFacts.
From Verif.Proofs Require EndToEnd.
Open Scope string_scope.
Open Scope nat_scope.
Open Scope R_scope.

Lemma pbf_linear :
  forall est fit_est predict_est (intercept : est -> R) coef q cpu f32 mkw no_kw sm dm sr dargs truthy a o,
  least_squares q fit_est predict_est intercept coef ->
  match o with Some d => truthy d = false | None => True end -> a_ratio a = RNone ->
  forall c order fs s X v t tX ty Ds m n W out,
  cache_data c = true -> (0 < cpu)%nat -> schedule cpu order ->
  data_coords est s = Some t -> data_X est s = Some tX -> data_y est s = Some ty ->
  distance_matrices f32 mkw no_kw sm t (Some v) (a_measure a) None = Ok (map A2 Ds) ->
  valid_distances Ds n m -> (0 < n)%nat -> rect tX n q -> length ty = n -> rect X m q ->
  weight_matrix_from_distance (map A2 Ds) (a_kernel a) RNone (a_bandwidth a) (a_count a) = Ok W ->
  snd (predict_by_fit est fit_est predict_est cpu (points_weights f32 mkw no_kw sm dm sr dargs truthy a o) c order fs s X (Some v) None) = Ok out ->
  length out = m /\
  forall i b0 b, (i < m)%nat -> length b = q ->
    let T := weighted_points W n i in
    (forall j, In j T -> nth j ty 0 = linear b0 b (nth j tX [])) ->
    affine_combination (map (fun j => nth j tX []) T) (nth i X []) ->
    nth i out [] = [linear b0 b (nth i X [])].
Proof.
  intros est fit_est predict_est intercept coef q cpu f32 mkw no_kw sm dm sr dargs truthy a o HLS Ho Hr
    c order fs s X v t tX ty Ds m n W out H1 Hcpu HS Ht HX Hy HD HV Hn HlX Hly HlXn HW HO.
  destruct (wm_stochastic Ds _ _ _ n m W HV Hn HW) as (Wr & -> & HR & HF & _).
  assert (Hget : forall i j, (i < n)%nat -> (j < m)%nat -> mget NaN (mmap Fin Wr) i j = Fin (mget 0 Wr i j)) by (intros; apply (mmap_get Fin Wr 0 NaN n m); auto).
  assert (Hpos : forall j i, (j < n)%nat -> (i < m)%nat -> 0 <= mget 0 Wr j i).
  { intros j i Hj Hi. assert (HN : normalised_row (nth j Wr [])) by (rewrite Forall_forall in HF; apply HF; apply nth_In; destruct HR; lia).
    destruct HN as [HN _]. rewrite Forall_forall in HN. apply HN. apply nth_In. rewrite (rect_row Wr n m j HR Hj). exact Hi. }
  pose proof (pbf_spec est fit_est predict_est cpu (points_weights f32 mkw no_kw sm dm sr dargs truthy a o) c order fs fs s X v t tX ty (mmap Fin Wr) m n H1 Hcpu HS Ht HX Hy) as HSp.
  cbv zeta in HSp. apply HSp in HO; auto; [|rewrite (pw_eq _ _ _ _ _ _ _ _ _ _ Ho Hr fs t v Ds HD), HW; reflexivity|apply rect_mmap; exact HR|apply HlX|apply HlXn].
  destruct HO as [HL HI]. split; [exact HL|]. intros i b0 b Hi Hb T HT HA.
  destruct (HI i Hi) as (e & He & Hp). fold T in He.
  assert (HTn : forall j, In j T -> (j < n)%nat /\ mget NaN (mmap Fin Wr) j i = Fin (mget 0 Wr j i) /\ 0 < mget 0 Wr j i).
  { intros j Hj. apply filter_In in Hj as [Hj HZ]. apply in_seq in Hj. assert (Hj' : (j < n)%nat) by lia. split; auto.
    rewrite Hget in HZ |- * by auto. split; auto. destruct (Hpos j i Hj' Hi) as [Hp'|Hp']; auto. exfalso. rewrite <- Hp' in HZ. revert HZ. unfold eis_zero. rdec. discriminate. }
  apply (learner_point q fit_est predict_est intercept coef HLS i tX ty T (fun j => mget 0 Wr j i) e); auto.
  - intros j Hj. apply (rect_row tX n q j HlX). apply HTn; auto.
  - intros j Hj. apply HTn; auto.
  - apply (rect_row X m q i HlXn Hi).
  - rewrite <- He. f_equal. apply map_ext_in. intros j Hj. symmetry. apply HTn; auto.
Qed.

(** All locations fitted: position and location agree. *)
Lemma sorted_all locs N : StronglySorted lt locs -> (forall i, In i locs -> (i < N)%nat) -> length locs = N -> locs = seq 0 N.
Proof.
  intros HS HB HN. assert (HND : NoDup locs).
  { clear -HS. induction HS as [|x l HS IH HF]; constructor; auto. intros Hx. rewrite Forall_forall in HF. specialize (HF x Hx). lia. }
  apply StronglySorted_lt_ext; [exact HS|apply seq_sorted|].
  assert (Hinc : incl (seq 0 N) locs).
  { apply NoDup_length_incl; [exact HND|rewrite seq_length; lia|]. intros i Hi. apply in_seq. specialize (HB i Hi). lia. }
  intros j. split; [intros Hj; apply in_seq; specialize (HB j Hj); lia|apply Hinc].
Qed.

Lemma pbw_linear :
  forall est fit_est predict_est (intercept : est -> R) coef q G choice cpu f32 mkw no_kw sm dm sr dargs truthy a o,
  least_squares q fit_est predict_est intercept coef ->
  match o with Some d => truthy d = false | None => True end -> a_ratio a = RNone ->
  forall wm c order g fs fs' s0 X y t given w W N Z v Ds m V b0 b,
  valid_choice choice -> (0 < cpu)%nat -> rect X N q -> in_force wm fs (Some t) given w -> holds w W N -> nonnegative_weights W N ->
  sample_local_rate c = None -> schedule (num_tasks cpu c N) order -> cache_data c = true -> cache_estimator c = true ->
  length b = q -> (forall j, (j < N)%nat -> nth j y 0 = linear b0 b (nth j X [])) ->
  let trained := fit est fit_est predict_est G choice cpu wm c order g fs s0 X y (Some t) given in
  o_result est G trained = Ok tt ->
  rect Z m q -> (0 < m)%nat ->
  distance_matrices f32 mkw no_kw sm v (Some t) (a_measure a) None = Ok (map A2 Ds) -> valid_distances Ds m N ->
  weight_matrix_from_distance (map A2 Ds) (a_kernel a) RNone (a_bandwidth a) (a_count a) = Ok V ->
  exists out, predict_by_weight est predict_est (points_weights f32 mkw no_kw sm dm sr dargs truthy a o) c fs' (o_state est G trained) Z (Some v) None = (fs', Ok (map Fin out)) /\
    length out = m /\
    forall i, (i < m)%nat ->
      (exists j, (j < N)%nat /\ mget NaN V i j <> Fin 0) ->
      (forall j, (j < N)%nat -> mget NaN V i j <> Fin 0 ->
         affine_combination (map (fun k => nth k X []) (training_set (leave_local_out c) W N j)) (nth i Z [])) ->
      nth i out 0 = linear b0 b (nth i Z []).
Proof.
  intros est fit_est predict_est intercept coef q G choice cpu f32 mkw no_kw sm dm sr dargs truthy a o HLS Ho Hr
    wm c order g fs fs' s0 X y t given w W N Z v Ds m V b0 b HV Hc HX HI HH HW Hs HS Hcd Hce Hb HL trained HO HZ Hm HD HVD HWt.
  assert (HN : num_locations c N = N) by (unfold num_locations; rewrite Hs; reflexivity).
  assert (HS' : schedule (num_tasks cpu c (num_locations c N)) order) by (rewrite HN; exact HS).
  assert (HA : aligned c w) by (right; left; exact Hs).
  destruct (fit_aligned est fit_est predict_est G choice cpu wm c order g fs s0 X y (Some t) given w W N HV Hc (proj1 HX) HI HH HS' HA HO)
    as (locs & es & ps & ys & rs & HLo & HE & HP & HY & HR & HSo & HB & HNl & Le & Lp & Ly & Lr & HK).
  rewrite HN in HNl. pose proof (sorted_all locs N HSo HB HNl) as El. subst locs. rewrite seq_length in Le, Lp, Ly, Lr, HK. clear HNl.
  assert (HK' : forall j, (j < N)%nat -> exists e, local_model fit_est X y (leave_local_out c) W N j e /\ nth j es None = Some e).
  { intros j Hj. destruct (HK j Hj) as (_ & _ & e & HM & _ & HC). rewrite seq_nth in HM by auto. rewrite Hce in HC. exists e. auto. }
  assert (Hes : exists es', es = map Some es' /\ length es' = N /\ forall j e, (j < N)%nat -> nth_error es' j = Some e -> local_model fit_est X y (leave_local_out c) W N j e).
  { assert (HF : Forall (fun x => x <> None) es).
    { apply Forall_forall. intros x Hx. apply (In_nth _ _ None) in Hx as (j & Hj & <-). destruct (HK' j) as (e & _ & ->); [lia|discriminate]. }
    assert (HEX : exists es', es = map Some es').
    { clear -HF. induction es as [|[x|] l IH]; inversion HF; subst; [exists []; reflexivity| |congruence].
      destruct (IH ltac:(assumption)) as (l' & ->). exists (x :: l'). reflexivity. }
    destruct HEX as (es' & E). exists es'. split; auto. split; [rewrite E, map_length in Le; exact Le|].
    intros j e Hj He. destruct (HK' j Hj) as (e' & HM & He'). rewrite E in He'. 
    assert (E' : nth_error (map Some es') j = Some (Some e)) by (rewrite nth_error_map, He; reflexivity).
    apply nth_error_nth with (d := None) in E'. rewrite E' in He'. injection He' as <-. exact HM. }
  destruct Hes as (es' & -> & Hl & HMod).
  assert (Hdc : data_coords est (o_state est G trained) = Some t).
  { destruct (fit_inv est fit_est predict_est G choice cpu wm _ _ _ _ _ _ _ _ _ HO) as (w1 & g' & locs & preds & es0 & p & score & _ & _ & _ & _ & _ & _ & EE).
    unfold trained. rewrite EE, Hcd. reflexivity. }
  assert (HN0 : (0 < N)%nat).
  { destruct (Nat.eq_0_gt_0_cases N) as [E|E]; auto. exfalso.
    pose proof (fit_single_location est fit_est predict_est G choice cpu wm c order g fs s0 X y (Some t) given w W N HV Hc (proj1 HX) HI HH HS' ltac:(lia)) as [e He].
    unfold trained in HO. rewrite HO in He. discriminate He. }
  set (preds := map (fun e => map (linear (intercept e) (coef e)) Z) es').
  destruct (pbw_points est predict_est f32 mkw no_kw sm dm sr dargs truthy a o Ho Hr c fs' (o_state est G trained) Z v t es' preds Ds m N V Hcd Hce HE Hdc HD HVD Hm HN0 Hl)
    as (out & HOut & HLen & HPt); auto.
  { unfold preds. clear -HLS HZ. induction es' as [|e l IH]; constructor; auto. split; [apply (proj2 HLS)|rewrite map_length; apply (proj1 HZ)]. }
  exists out. split; [exact HOut|]. split; [exact HLen|]. intros i Hi Hex Haf.
  destruct (HPt i Hi) as (_ & HCv & _).
  assert (Hb2 : linear b0 b (nth i Z []) <= nth i out 0 <= linear b0 b (nth i Z [])); [|lra].
  apply HCv; auto. intros j Hj Hnz.
  assert (Hpj : nth i (nth j preds []) 0 = linear b0 b (nth i Z [])); [|lra].
  destruct (nth_error es' j) as [e|] eqn:Ee; [|apply nth_error_None in Ee; lia].
  pose proof (HMod j e Hj Ee) as HM.
  assert (Epj : nth j preds [] = map (linear (intercept e) (coef e)) Z).
  { unfold preds. apply nth_error_nth. rewrite nth_error_map, Ee. reflexivity. }
  rewrite Epj. rewrite (nth_map_in _ _ _ []) by (rewrite (proj1 HZ); exact Hi).
  set (T := training_set (leave_local_out c) W N j).
  destruct (learner_rows q fit_est predict_est intercept coef HLS j X y T (wt W j) e b0 b) as [HC HRw]; auto.
  - intros k Hk. apply (training_rows q (leave_local_out c) X W N HX j k Hk).
  - intros k Hk. apply (used_positive (leave_local_out c) W N HW j k Hj Hk).
  - apply (model_fit fit_est (leave_local_out c) X y W N HW j e Hj HM).
  - intros k Hk. apply HL. apply filter_In in Hk as [Hk _]. apply in_seq in Hk. lia.
  - apply (affine_agree _ _ _ _ q (map (fun k => nth k X []) T)); auto.
    + apply (rect_row Z m q i HZ Hi).
    + apply Forall_forall. intros r Hr'. apply in_map_iff in Hr' as (k & <- & Hk). apply (training_rows q (leave_local_out c) X W N HX j k Hk).
    + apply Haf; auto.
    + intros r Hr'. apply in_map_iff in Hr' as (k & <- & Hk). auto.
Qed.
