(** Predictions of learners that average. *)
From Coq Require Import Lra Psatz Sorting.Sorted.
From Verif.Model Require Import Base Ext Sort Kernel Distance WeightMatrix Csr Neighbour WeightModel.
From Verif.Spec Require Import KernelSpec WeightSpec NeighbourSpec WeightModelSpec LinearSpec RangeSpec.
From Verif.Proofs Require Import ListFacts SumFacts KernelFacts SortFacts WeightFacts WeightProps DistanceFacts CsrFacts NeighbourFacts ShrinkFacts SampleFacts NeighbourProps WeightModelFacts WeightModelProps FitProps PredictProps LinearProps LinearPredict AdaptiveFacts.
Open Scope string_scope.
Open Scope nat_scope.
Open Scope R_scope.

Lemma in_range_incl a b v : (forall t, In t a -> In t b) -> in_range a v -> in_range b v.
Proof. intros H HV lo hi HB. apply HV. intros t Ht. apply HB, H, Ht. Qed.

Section Learner.
  Context {est : Type}.
  Variable fit_est : nat -> matrix R -> list R -> list ext -> result est.
  Variable predict_est : est -> matrix R -> result (list R).
  Hypothesis HA : averages positive_weight fit_est predict_est.

  Lemma model_range lo X y W N i e Z out v : nonnegative_weights W N -> (i < N)%nat ->
    local_model fit_est X y lo W N i e -> predict_est e Z = Ok out -> In v out ->
    in_range (map (fun j => nth j y 0) (training_set lo W N i)) v.
  Proof.
    intros HW Hi HM HP Hv. unfold local_model in HM. refine (proj2 (HA _ _ _ _ _ _ _ HM _ HP) v Hv).
    apply Forall_forall. intros u Hu. apply in_map_iff in Hu as (j & <- & Hj).
    destruct (used_positive lo W N HW i j Hi Hj) as [-> Hp]. eexists. split; [reflexivity|exact Hp].
  Qed.
End Learner.

Lemma fit_range :
  forall est fit_est predict_est G choice cpu wm c order g fs s0 X y coords given w W N,
  @averages est ext positive_weight fit_est predict_est ->
  valid_choice choice -> (0 < cpu)%nat -> length X = N -> in_force wm fs coords given w -> holds w W N -> nonnegative_weights W N ->
  schedule (num_tasks cpu c (num_locations c N)) order -> aligned c w ->
  let o := fit est fit_est predict_est G choice cpu wm c order g fs s0 X y coords given in
  o_result est G o = Ok tt ->
  exists locs ps rs,
    local_indices_ est (o_state est G o) = Some locs /\ local_predict_ est (o_state est G o) = Some ps /\
    local_residual_ est (o_state est G o) = Some rs /\ length ps = length locs /\ length rs = length locs /\
    forall k, (k < length locs)%nat ->
      in_range (map (fun j => nth j y 0) (training_set (leave_local_out c) W N (nth k locs 0%nat))) (nth k ps 0) /\
      forall lo hi, (forall j, (j < N)%nat -> lo <= nth j y 0 <= hi) -> Rabs (nth k rs 0) <= hi - lo.
Proof.
  intros est fit_est predict_est G choice cpu wm c order g fs s0 X y coords given w W N HAv HV Hc HX HI HH HW HS HA o HO.
  destruct (fit_aligned est fit_est predict_est G choice cpu wm c order g fs s0 X y coords given w W N HV Hc HX HI HH HS HA HO)
    as (locs & es & ps & ys & rs & HL & HE & HP & HY & HR & HSo & HB & HN & Le & Lp & Ly & Lr & HK).
  exists locs, ps, rs. repeat (split; [assumption|]). intros k Hk.
  destruct (HK k Hk) as (Hy & Hr & e & HM & HO' & _).
  assert (Hi : (nth k locs 0%nat < N)%nat) by (apply HB; apply nth_In; auto).
  assert (Hin : in_range (map (fun j => nth j y 0) (training_set (leave_local_out c) W N (nth k locs 0%nat))) (nth k ps 0))
    by (apply (model_range fit_est predict_est HAv _ X y W N _ e _ _ _ HW Hi HM HO'); left; reflexivity).
  split; [exact Hin|]. intros lo hi Hlh.
  assert (H1 : lo <= nth k ps 0 <= hi).
  { apply Hin. intros t Ht. apply in_map_iff in Ht as (j & <- & Hj). apply Hlh. unfold training_set in Hj.
    apply filter_In in Hj as [Hj _]. apply in_seq in Hj. lia. }
  rewrite Hr. assert (H2 : lo <= nth (nth k locs 0%nat) y 0 <= hi) by auto. rewrite <- ?Hy in *. apply Rabs_le. lra.
Qed.

Lemma pbf_range :
  forall est fit_est predict_est cpu f32 mkw no_kw sm dm sr dargs truthy a o,
  @averages est ext positive_weight fit_est predict_est ->
  match o with Some d => truthy d = false | None => True end -> a_ratio a = RNone ->
  forall c order fs s X v t tX ty Ds m n W out,
  cache_data c = true -> (0 < cpu)%nat -> schedule cpu order ->
  data_coords est s = Some t -> data_X est s = Some tX -> data_y est s = Some ty ->
  distance_matrices f32 mkw no_kw sm t (Some v) (a_measure a) None = Ok (map A2 Ds) ->
  valid_distances Ds n m -> (0 < n)%nat -> length tX = n -> length ty = n -> length X = m ->
  weight_matrix_from_distance (map A2 Ds) (a_kernel a) RNone (a_bandwidth a) (a_count a) = Ok W ->
  snd (predict_by_fit est fit_est predict_est cpu (points_weights f32 mkw no_kw sm dm sr dargs truthy a o) c order fs s X (Some v) None) = Ok out ->
  length out = m /\
  forall i, (i < m)%nat -> exists p, nth i out [] = [p] /\ in_range (map (fun j => nth j ty 0) (weighted_points W n i)) p.
Proof.
  intros est fit_est predict_est cpu f32 mkw no_kw sm dm sr dargs truthy a o HAv Ho Hr
    c order fs s X v t tX ty Ds m n W out H1 Hcpu HS Ht HX Hy HD HV Hn HlX Hly HlXn HW HO.
  destruct (wm_stochastic Ds _ _ _ n m W HV Hn HW) as (Wr & -> & HR & HF & _).
  assert (Hget : forall i j, (i < n)%nat -> (j < m)%nat -> mget NaN (mmap Fin Wr) i j = Fin (mget 0 Wr i j)) by (intros; apply (mmap_get Fin Wr 0 NaN n m); auto).
  assert (Hpos : forall j i, (j < n)%nat -> (i < m)%nat -> 0 <= mget 0 Wr j i).
  { intros j i Hj Hi. assert (HN : normalised_row (nth j Wr [])) by (rewrite Forall_forall in HF; apply HF; apply nth_In; destruct HR; lia).
    destruct HN as [HN _]. rewrite Forall_forall in HN. apply HN. apply nth_In. rewrite (rect_row Wr n m j HR Hj). exact Hi. }
  pose proof (pbf_spec est fit_est predict_est cpu (points_weights f32 mkw no_kw sm dm sr dargs truthy a o) c order fs fs s X v t tX ty (mmap Fin Wr) m n H1 Hcpu HS Ht HX Hy) as HSp.
  cbv zeta in HSp. apply HSp in HO; auto; [|rewrite (pw_eq _ _ _ _ _ _ _ _ _ _ Ho Hr fs t v Ds HD), HW; reflexivity|apply rect_mmap; exact HR].
  destruct HO as [HL HI]. split; [exact HL|]. intros i Hi.
  destruct (HI i Hi) as (e & He & Hp).
  assert (HPo : Forall positive_weight (map (fun j => mget NaN (mmap Fin Wr) j i) (weighted_points (mmap Fin Wr) n i))).
  { apply Forall_forall. intros u Hu. apply in_map_iff in Hu as (j & <- & Hj). apply filter_In in Hj as [Hj HZ]. apply in_seq in Hj.
    assert (Hj' : (j < n)%nat) by lia. rewrite Hget in HZ |- * by auto. eexists. split; [reflexivity|].
    destruct (Hpos j i Hj' Hi) as [Hp'|Hp']; auto. exfalso. rewrite <- Hp' in HZ. revert HZ. unfold eis_zero. rdec. discriminate. }
  destruct (HAv _ _ _ _ _ _ _ He HPo Hp) as [Lo Hin].
  destruct (nth i out []) as [|p [|p' l]]; cbn in Lo; try lia. exists p. split; [reflexivity|]. apply Hin. left; reflexivity.
Qed.

Lemma pbw_range :
  forall est fit_est predict_est G choice cpu f32 mkw no_kw sm dm sr dargs truthy a o,
  @averages est ext positive_weight fit_est predict_est ->
  match o with Some d => truthy d = false | None => True end -> a_ratio a = RNone ->
  forall wm c order g fs fs' s0 X y t given w W N Z v Ds m V,
  valid_choice choice -> (0 < cpu)%nat -> length X = N -> in_force wm fs (Some t) given w -> holds w W N -> nonnegative_weights W N ->
  sample_local_rate c = None -> schedule (num_tasks cpu c N) order -> cache_data c = true -> cache_estimator c = true ->
  let trained := fit est fit_est predict_est G choice cpu wm c order g fs s0 X y (Some t) given in
  o_result est G trained = Ok tt ->
  length Z = m -> (0 < m)%nat -> answers predict_est Z ->
  distance_matrices f32 mkw no_kw sm v (Some t) (a_measure a) None = Ok (map A2 Ds) -> valid_distances Ds m N ->
  weight_matrix_from_distance (map A2 Ds) (a_kernel a) RNone (a_bandwidth a) (a_count a) = Ok V ->
  exists out, predict_by_weight est predict_est (points_weights f32 mkw no_kw sm dm sr dargs truthy a o) c fs' (o_state est G trained) Z (Some v) None = (fs', Ok (map Fin out)) /\
    length out = m /\
    forall i, (i < m)%nat ->
      ((exists j, (j < N)%nat /\ mget NaN V i j <> Fin 0) ->
       forall lo hi, (forall j k, (j < N)%nat -> mget NaN V i j <> Fin 0 -> In k (training_set (leave_local_out c) W N j) -> lo <= nth k y 0 <= hi) ->
       lo <= nth i out 0 <= hi) /\
      ((forall j, (j < N)%nat -> mget NaN V i j = Fin 0) -> nth i out 0 = 0).
Proof.
  intros est fit_est predict_est G choice cpu f32 mkw no_kw sm dm sr dargs truthy a o HAv Ho Hr
    wm c order g fs fs' s0 X y t given w W N Z v Ds m V HV Hc HX HI HH HW Hs HS Hcd Hce trained HO HZ Hm HAn HD HVD HWt.
  assert (HN : num_locations c N = N) by (unfold num_locations; rewrite Hs; reflexivity).
  assert (HS' : schedule (num_tasks cpu c (num_locations c N)) order) by (rewrite HN; exact HS).
  assert (HA : aligned c w) by (right; left; exact Hs).
  destruct (fit_aligned est fit_est predict_est G choice cpu wm c order g fs s0 X y (Some t) given w W N HV Hc HX HI HH HS' HA HO)
    as (locs & es & ps & ys & rs & HLo & HE & HP & HY & HR & HSo & HB & HNl & Le & Lp & Ly & Lr & HK).
  rewrite HN in HNl. pose proof (sorted_all locs N HSo HB HNl) as El. subst locs. rewrite seq_length in Le, Lp, Ly, Lr, HK. clear HNl.
  assert (HK' : forall j, (j < N)%nat -> exists e, local_model fit_est X y (leave_local_out c) W N j e /\ nth j es None = Some e).
  { intros j Hj. destruct (HK j Hj) as (_ & _ & e & HM & _ & HC). rewrite seq_nth in HM by auto. rewrite Hce in HC. exists e. auto. }
  assert (Hes : exists es', es = map Some es' /\ length es' = N /\ forall j e, (j < N)%nat -> nth_error es' j = Some e -> local_model fit_est X y (leave_local_out c) W N j e).
  { assert (HF : Forall (fun x => x <> None) es).
    { apply Forall_forall. intros x Hx. apply (In_nth _ _ None) in Hx as (j & Hj & <-). destruct (HK' j) as (e & _ & ->); [lia|discriminate]. }
    assert (HEX : exists es', es = map Some es').
    { clear -HF. induction es as [|[x|] l IH]; inversion HF; subst; [exists []; reflexivity| |congruence].
      destruct (IH ltac:(assumption)) as (l' & ->). exists (x :: l'). reflexivity. }
    destruct HEX as (es' & E). exists es'. split; auto. split; [rewrite E, map_length in Le; exact Le|].
    intros j e Hj He. destruct (HK' j Hj) as (e' & HM & He'). rewrite E in He'.
    assert (E' : nth_error (map Some es') j = Some (Some e)) by (rewrite nth_error_map, He; reflexivity).
    apply nth_error_nth with (d := None) in E'. rewrite E' in He'. injection He' as <-. exact HM. }
  destruct Hes as (es' & -> & Hl & HMod).
  assert (Hdc : data_coords est (o_state est G trained) = Some t).
  { destruct (fit_inv est fit_est predict_est G choice cpu wm _ _ _ _ _ _ _ _ _ HO) as (w1 & g' & locs & preds & es0 & p & score & _ & _ & _ & _ & _ & _ & EE).
    unfold trained. rewrite EE, Hcd. reflexivity. }
  assert (HN0 : (0 < N)%nat).
  { destruct (Nat.eq_0_gt_0_cases N) as [E|E]; auto. exfalso.
    pose proof (fit_single_location est fit_est predict_est G choice cpu wm c order g fs s0 X y (Some t) given w W N HV Hc HX HI HH HS' ltac:(lia)) as [e He].
    unfold trained in HO. rewrite HO in He. discriminate He. }
  assert (HPr : exists preds, Forall2 (fun e p => predict_est e Z = Ok p /\ length p = m) es' preds).
  { assert (HM' : forall e, In e es' -> exists j, (j < N)%nat /\ local_model fit_est X y (leave_local_out c) W N j e).
    { intros e He. apply In_nth_error in He as [j Hj]. assert (j < length es')%nat by (apply nth_error_Some; congruence).
      exists j. split; [lia|]. apply HMod; [lia|exact Hj]. }
    clear -HM' HAn HAv HZ HW. induction es' as [|e l IH]; [exists []; constructor|].
    destruct IH as [ps Hps]; [intros; apply HM'; right; auto|].
    destruct (HAn e) as [out Ho]. exists (out :: ps). constructor; [|exact Hps]. split; [exact Ho|].
    destruct (HM' e (or_introl eq_refl)) as (j & Hj & HM). unfold local_model in HM.
    rewrite <- HZ. refine (proj1 (HAv _ _ _ _ _ _ _ HM _ Ho)).
    apply Forall_forall. intros u Hu. apply in_map_iff in Hu as (k & <- & Hk).
    destruct (used_positive (leave_local_out c) W N HW j k Hj Hk) as [-> Hp]. eexists. split; [reflexivity|exact Hp]. }
  destruct HPr as [preds HPr].
  destruct (pbw_points est predict_est f32 mkw no_kw sm dm sr dargs truthy a o Ho Hr c fs' (o_state est G trained) Z v t es' preds Ds m N V Hcd Hce HE Hdc HD HVD Hm HN0 Hl HPr HWt)
    as (out & HOut & HLen & HPt).
  exists out. split; [exact HOut|]. split; [exact HLen|]. intros i Hi.
  destruct (HPt i Hi) as (_ & HCv & H0). split; [|exact H0]. intros Hex lo hi Hlh. apply HCv; [exact Hex|].
  intros j Hj Hnz. destruct (nth_error es' j) as [e|] eqn:Ee; [|apply nth_error_None in Ee; lia].
  pose proof (HMod j e Hj Ee) as HM.
  assert (Hpj : predict_est e Z = Ok (nth j preds []) /\ length (nth j preds []) = m).
  { clear -HPr Ee. revert j Ee. induction HPr as [|e0 p0 l l' H HF IH]; intros j Ee; [destruct j; discriminate|].
    destruct j as [|j]; cbn in *; [injection Ee as ->; exact H|apply IH; exact Ee]. }
  destruct Hpj as [Hpj Lj].
  apply (model_range fit_est predict_est HAv _ X y W N j e Z _ _ HW Hj HM Hpj (nth_In (nth j preds []) 0 (eq_ind_r (fun q => (i < q)%nat) Hi Lj))).
  intros u Hu. apply in_map_iff in Hu as (k & <- & Hk). apply (Hlh j k Hj Hnz Hk).
Qed.
