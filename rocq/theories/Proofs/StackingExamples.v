(** Concrete stacking runs: three observations with unit weights, each sampling
    one base learner besides its own. *)
From Coq Require Import Lra.
From Verif.Model Require Import Base Ext Csr Neighbour Distance WeightModel NumbaImpl Stacking.
From Verif.Spec Require Import KernelSpec NeighbourSpec StackingSpec.
From Verif.Proofs Require Import ListFacts KernelFacts CsrFacts ShrinkFacts NeighbourFacts SampleFacts WeightModelFacts
  NeighbourProps WeightModelProps StackingCsr StackingFacts StackingMeta StackingProps.
Open Scope nat_scope.
Open Scope R_scope.

(** A generator that starts at a different place each time. *)
Definition rot_choice (g : nat) (population : list nat) (size : nat) : nat * list nat :=
  (S g, firstn size (skipn (g mod length population) population ++ firstn (g mod length population) population)).
Lemma rot_choice_valid : valid_choice rot_choice.
Proof.
  intros g p s Hs. cbn. set (k := (g mod length p)%nat).
  assert (HP : Permutation p (skipn k p ++ firstn k p)).
  { rewrite Permutation_app_comm, firstn_skipn. apply Permutation_refl. }
  split; [apply firstn_length_le; rewrite <- (Permutation_length HP); auto|].
  exists (skipn s (skipn k p ++ firstn k p)). rewrite firstn_skipn. exact HP.
Qed.

Definition ex_fit (i : nat) (X : matrix R) (y w : list R) : result R :=
  match y with [] => Raise ValueError | _ => Ok (Rsum y) end.
Definition ex_row (e : R) (row : list R) : R := e + nth 0 row 0.
Definition ex_predict (e : R) (X : matrix R) : result (list R) := Ok (map (ex_row e) X).
Definition ex_fit_meta (alpha : R) (p : nat) (X : matrix R) (y w : list R) : result R :=
  match y with [] => Raise ValueError | _ => Ok (Rsum y) end.
Definition ex_predict_meta (m : R) (X : matrix R) : result (list R) := Ok (map (fun row => m + Rsum row) X).
Definition ex_solve (A : matrix R) (b : list R) : result (list R) := Ok b.
Definition ex_wm (fs : filesystem) (a b : list coords) : filesystem * result swts := (fs, Ok (SDense (repeat (repeat 1 3) 3))).

Definition ex_X : matrix R := [[0]; [1]; [2]].
Definition ex_W : matrix R := [[1; 1; 1]; [1; 1; 1]; [1; 1; 1]].
Definition ex_r : runtime := Runtime [0; 1; 2]%nat [2; 1; 0]%nat [1; 0; 2]%nat (repeat [] 3) [1; 0]%nat 7.
Definition ex_c (rate : option R) (numba : bool) : sconfig :=
  SConfig true None false (Some 4%Z) (Some 2%nat) 10 (Some (1 / 2)) None None rate numba.
Definition ex_s0 : sstate R R := SState R R None None None None None false None None None None None None None None None None None None.
Definition ex_L : matrix bool := [[true; true; false]; [false; true; true]; [true; false; true]].
Definition ex_csr : csr R := csr_of_rows 3 (repeat [(0%nat, 1); (1%nat, 1); (2%nat, 1)] 3).
Lemma ex_form : csr_form 0 (fun x => Reqb x 0) ex_W 3 ex_csr.
Proof. unfold csr_form, ex_W. cbn. rdec. reflexivity. Qed.

Notation ex_sfit := (sfit R ex_fit ex_predict R ex_fit_meta ex_predict_meta ex_solve nat 0%nat rot_choice 4 ex_wm).

Lemma ex_rect : rect ex_W 3 3. Proof. split; [reflexivity|repeat constructor]. Qed.
Lemma ex_rates rate numba : valid_rates (ex_c rate numba).
Proof. unfold valid_rates; cbn. split; [|split]; intros q H; try discriminate. injection H as <-. lra. Qed.
Lemma ex_runtime rate numba : valid_runtime ex_r 3 (patches 4 (ex_c rate numba)).
Proof.
  unfold valid_runtime, schedule. cbn. repeat split.
  - apply Permutation_refl.
  - exact (Permutation_rev [2; 1; 0]%nat).
  - apply perm_swap.
  - intros k' H. injection H as <-. apply perm_swap.
Qed.
Lemma ex_sampled g order : sample_neighbour nat 0%nat rot_choice order g ex_W (1 / 2) None = Ok (3%nat, ex_L).
Proof.
  unfold sample_neighbour, ex_W, mmap, positive. cbn [map bind]. rdec.
  cbn [fill_diagonal mapi mapi_from list_set map count_true select nonzero nonzero_from length].
  unfold sample_count. rewrite !(Rceil_eq _ 1) by (simpl; lra). reflexivity.
Qed.

Ltac rdec1 := repeat match goal with
  | |- context[Rnonzero 0] => replace (Rnonzero 0) with false by (unfold Rnonzero; rdec; reflexivity)
  | |- context[Rnonzero 1] => replace (Rnonzero 1) with true by (unfold Rnonzero; rdec; reflexivity)
  | |- context[positive 1] => replace (positive 1) with true by (unfold positive; rdec; reflexivity)
  end.

Ltac ex_finish := rdec1; cbn -[Rplus Rmult Rminus Rdiv Rinv Rsum r2_score Rceil INR ridge_cholesky].

Lemma ex_sampled_csr g order : sample_neighbour_csr nat 0%nat rot_choice order g ex_csr (1 / 2) None =
  Ok (3%nat, csr_of_rows 3 [[(0, true); (1, true)]; [(1, true); (2, true)]; [(0, true); (2, true)]]%nat).
Proof.
  unfold sample_neighbour_csr, ex_csr. cbn -[Rceil INR]. ex_finish.
  unfold sample_count. rewrite !(Rceil_eq _ 1) by (simpl; lra). reflexivity.
Qed.

Ltac ex_steps :=
  unfold sfit; match goal with |- context[check_X_y ?a ?b] => change (check_X_y a b) with (@Ok unit tt) end; cbv beta iota;
  unfold leave_out_sample; cbn [ex_c sc_leave_out_rate sc_leave_out_shrink]; first [rewrite ex_sampled | rewrite ex_sampled_csr]; cbn [bind fst snd];
  unfold sample_locations; cbn [sc_sample_local_rate shrink_w sc_meta_shrink].
Lemma ex_run (y0 y1 y2 : R) : let o := ex_sfit ex_r (ex_c None false) 41%nat (fun _ => None) ex_s0 ex_X [y0; y1; y2] None (Some (SDense ex_W)) in
  so_result R R nat o = Ok tt.
Proof. cbv zeta. ex_steps. cbn -[Rplus Rmult Rminus Rdiv Rinv Rsum r2_score]. ex_finish. unfold r2_score. reflexivity. Qed.

(** The same with the weights computed from (empty) coordinates. *)
Lemma ex_run_coords (y0 y1 y2 : R) : let o := ex_sfit ex_r (ex_c None false) 41%nat (fun _ => None) ex_s0 ex_X [y0; y1; y2] (Some []) None in
  so_result R R nat o = Ok tt.
Proof. cbv zeta. unfold sfit. match goal with |- context[check_X_y ?a ?b] => change (check_X_y a b) with (@Ok unit tt) end. cbv beta iota. unfold ex_wm. cbv beta iota. cbn [fst snd].
  unfold leave_out_sample; cbn [ex_c sc_leave_out_rate sc_leave_out_shrink]. change (repeat (repeat 1 3) 3) with ex_W. rewrite ex_sampled. cbn [bind fst snd].
  unfold sample_locations; cbn [sc_sample_local_rate shrink_w sc_meta_shrink]. cbn -[Rplus Rmult Rminus Rdiv Rinv Rsum r2_score]. ex_finish. unfold r2_score. reflexivity. Qed.

(** With estimator_sample_rate every meta model reads base learner 0, which is
    trained on observation 1. *)
Lemma ex_estimators g i : (i < 3)%nat -> sample_estimators nat rot_choice g (Some 1) 3 i (nth i ex_L []) = Ok (S g, [true; false; false]).
Proof.
  intros Hi. assert (Hb : getitem (nth i ex_L []) i = Ok true) by (destruct i as [|[|[|i]]]; try reflexivity; lia).
  unfold sample_estimators. rewrite Hb. cbn [bind nonzero nonzero_from length]. unfold draw.
  rewrite (Rceil_eq _ 1) by (simpl; lra). cbn [Z.ltb Z.compare Z.of_nat length Pos.of_succ_nat Pos.compare Pos.compare_cont orb bind fst snd Z.to_nat Pos.to_nat Pos.iter_op Nat.add].
  unfold rot_choice. cbn [length]. rewrite Nat.mod_1_r. reflexivity.
Qed.
Lemma ex_run_rate (y0 y1 y2 : R) : let o := ex_sfit ex_r (ex_c (Some 1) false) 41%nat (fun _ => None) ex_s0 ex_X [y0; y1; y2] None (Some (SDense ex_W)) in
  so_result R R nat o = Ok tt /\
  ss_stacking_predict R R (so_state R R nat o) =
    Some [Rsum [y1; y2] + Rsum [Rsum [y1] + 0]; Rsum [y0; y2] + Rsum [Rsum [y1] + 1]; Rsum [y0; y1] + Rsum [Rsum [y1] + 2]].
Proof.
  cbv zeta. ex_steps. cbn -[Rplus Rmult Rminus Rdiv Rinv Rsum r2_score Rceil INR]. ex_finish.
  unfold meta_task_dense. cbn [length]. rewrite (ex_estimators 3 0) by lia.
  cbn -[Rplus Rmult Rminus Rdiv Rinv Rsum r2_score Rceil INR sample_estimators].
  change [false; true; true] with (nth 1 ex_L []). rewrite (ex_estimators 4 1) by lia.
  cbn -[Rplus Rmult Rminus Rdiv Rinv Rsum r2_score Rceil INR sample_estimators].
  change [true; false; true] with (nth 2 ex_L []). rewrite (ex_estimators 5 2) by lia.
  cbn -[Rplus Rmult Rminus Rdiv Rinv Rsum r2_score].
  unfold r2_score. split; reflexivity.
Qed.


Definition ex_cL : csr bool := csr_of_rows 3 [[(0, true); (1, true)]; [(1, true); (2, true)]; [(0, true); (2, true)]]%nat.
Definition ex_cLT : csr bool := csr_of_rows 3 [[(0, true); (2, true)]; [(0, true); (1, true)]; [(1, true); (2, true)]]%nat.
Definition ex_cW : csr R := csr_of_rows 3 [[(1%nat, 1)]; [(2%nat, 1)]; [(0%nat, 1)]].
Definition ex_cP : csr bool := csr_of_rows 3 (repeat [(0, true); (1, true); (2, true)]%nat 3).
Definition ex_cS : csr nat := csr_of_rows 3 (repeat [(0, 1); (1, 1); (2, 1)]%nat 3).
Definition ex_cN : csr bool := csr_of_rows 3 [[(1, true); (2, true)]; [(0, true); (2, true)]; [(0, true); (1, true)]]%nat.
Definition ex_cX (a b c : R) : csr R := csr_of_rows 3 (map (fun e => map (fun j => (j, ex_row e (nth j ex_X []))) [0; 1; 2]%nat) [a; b; c]).
Lemma ex_t : transpose_mask (MSparse ex_cL) = MSparse ex_cLT. Proof. reflexivity. Qed.
Lemma ex_z : clear_diag (zero_leave_out (MSparse ex_cLT) (SSparse ex_csr)) = SSparse ex_cW.
Proof. cbv [zero_leave_out ex_csr]. cbn -[Rnonzero clear_diag]. rdec1. unfold clear_diag, eliminate_zeros, R_is_zero. cbn -[Reqb]. rdec. reflexivity. Qed.
Lemma ex_p : positive_w (SSparse ex_csr) = MSparse ex_cP.
Proof. unfold positive_w, ex_csr, csr_where. cbn -[positive]. rdec1. reflexivity. Qed.
Lemma ex_s2 : second_w [1; 0; 2]%nat (repeat [] 3) (MSparse ex_cP) (MSparse ex_cLT) = Ok (S2Sparse ex_cS).
Proof. reflexivity. Qed.
Lemma ex_n : clear_mask_diag (MSparse ex_cP) = MSparse ex_cN. Proof. reflexivity. Qed.
Lemma ex_b y0 y1 y2 : fit_bases R ex_fit ex_predict [1; 0]%nat ex_X [y0; y1; y2] (SSparse ex_cW) (S2Sparse ex_cS) (Some 2%nat) =
  Ok ([[ex_row (Rsum [y1]) [0]]; [ex_row (Rsum [y2]) [1]]; [ex_row (Rsum [y0]) [2]]],
      XSparse (ex_cX (Rsum [y1]) (Rsum [y2]) (Rsum [y0])), [Rsum [y1]; Rsum [y2]; Rsum [y0]]).
Proof.
  assert (H : csr_where Rnonzero ex_cW = csr_of_rows 3 [[(1, true)]; [(2, true)]; [(0, true)]]%nat).
  { unfold csr_where, ex_cW. cbn -[Rnonzero]. rdec1. reflexivity. }
  unfold fit_bases, base_task_sparse, fit_base. rewrite H. cbn -[Rsum ex_row Rplus]. reflexivity.
Qed.
Lemma ex_m y0 y1 y2 a b c g : exists ps ses,
  fit_metas R R ex_fit_meta ex_predict_meta ex_solve nat rot_choice ex_r (ex_c None false) g 3 [y0; y1; y2] (SSparse ex_csr) (MSparse ex_cN)
    (MSparse ex_cL) (XSparse (ex_cX a b c)) [a; b; c] = Ok (g, (ps, None, ses)) /\ length ps = 3%nat.
Proof. eexists _, _. split; [cbn -[Rsum Rplus ex_row]; reflexivity|reflexivity]. Qed.
Lemma ex_m_numba y0 y1 y2 a b c g : exists ps sc ses,
  fit_metas R R ex_fit_meta ex_predict_meta ex_solve nat rot_choice ex_r (ex_c None true) g 3 [y0; y1; y2] (SSparse ex_csr) (MSparse ex_cN)
    (MSparse ex_cL) (XSparse (ex_cX a b c)) [a; b; c] = Ok (g, (ps, sc, ses)) /\ length ps = 3%nat.
Proof.
  eexists [_; _; _], _, _. split; [|reflexivity]. unfold fit_metas, meta_task_numba. cbn -[Rsum Rplus ex_row ridge_cholesky].
  unfold ridge_cholesky. cbn -[Rsum Rplus ex_row Reqb Rltb sqrt wmean Rmult r2_numba dot Rminus].
  rewrite (proj2 (Reqb_false (Rsum [1; 1]) 0)) by (unfold Rsum; simpl; lra). rdec.
  cbn -[Rsum Rplus ex_row Reqb Rltb sqrt wmean Rmult r2_numba dot Rminus]. reflexivity.
Qed.

Lemma ex_run_csr (y0 y1 y2 : R) (numba : bool) :
  so_result R R nat (ex_sfit ex_r (ex_c None numba) 41%nat (fun _ => None) ex_s0 ex_X [y0; y1; y2] None (Some (SSparse ex_csr))) = Ok tt.
Proof.
  ex_steps. fold ex_cL. cbn [sc_leave_local_out ex_r r_second r_buffer r_base]. cbn [ex_c sc_sample_local_rate sc_leave_local_out sc_meta_shrink shrink_w]. cbv beta iota zeta. fold (ex_c None numba). rewrite ex_t, ex_z, ex_p, ex_s2, ex_n.
  change (patches 4 _) with (Some 2%nat). cbn [bind]. rewrite ex_b. cbn [bind].
  assert (E : forall a b c, one_each [[a]; [b]; [c]] = Ok [a; b; c]) by reflexivity. rewrite E.
  change (take 0 [y0; y1; y2] (seq 0 (length ex_X))) with [y0; y1; y2].
  unfold r2_score at 1. cbn [bind length Nat.eqb negb].
  assert (EM : exists ps sc ses, fit_metas R R ex_fit_meta ex_predict_meta ex_solve nat rot_choice ex_r (ex_c None numba) 3%nat 3%nat [y0; y1; y2] (SSparse ex_csr) (MSparse ex_cN)
    (MSparse ex_cL) (XSparse (ex_cX (Rsum [y1]) (Rsum [y2]) (Rsum [y0]))) [Rsum [y1]; Rsum [y2]; Rsum [y0]] = Ok (3%nat, (ps, sc, ses)) /\ length ps = 3%nat).
  { destruct numba; [apply ex_m_numba|]. destruct (ex_m y0 y1 y2 (Rsum [y1]) (Rsum [y2]) (Rsum [y0]) 3%nat) as (ps & ses & H). exists ps, None, ses. exact H. }
  destruct EM as (ps & sc & ses & EM & El). change (length ex_X) with 3%nat. rewrite EM. cbn [bind fst snd].
  unfold r2_score. rewrite El. reflexivity.
Qed.
