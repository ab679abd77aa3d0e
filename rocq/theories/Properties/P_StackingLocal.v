(** Property C149: which observations a stacked prediction depends on. *)
From Coq Require Import Lra.
From Verif.Model Require Import Base Ext Csr Neighbour Distance WeightModel NumbaImpl Stacking StackingPredict.
From Verif.Spec Require Import KernelSpec NeighbourSpec StackingSpec.
From Verif.Proofs Require Import NeighbourProps StackingExamples StackingTotalExamples StackingLocal StackingLocalExamples.
Open Scope string_scope.
Open Scope nat_scope.
Open Scope R_scope.

(** C149: two data sets with the same weights that agree within two steps of [i]
    (the target of [i] itself apart) give the same stacked prediction at [i]. *)
Theorem C149_two_steps :
  forall est meta fit_est predict_est fit_meta predict_meta solve (f : est -> list R -> R), rowwise predict_est f ->
  forall G seed0 choice cpu wm r r' c g g' fs s0 s0' X X' y y' coords given w W W' i,
  let n := List.length X in
  let o := sfit est fit_est predict_est meta fit_meta predict_meta solve G seed0 choice cpu wm r c g fs s0 X y coords given in
  let o' := sfit est fit_est predict_est meta fit_meta predict_meta solve G seed0 choice cpu wm r' c g' fs s0' X' y' coords given in
  valid_choice choice -> List.length X' = n ->
  valid_runtime r n (patches cpu c) -> valid_runtime r' n (patches cpu c) ->
  valid_rates c -> real_weights wm fs coords given w -> holds_real w W n -> all_bases_used c w ->
  shrunk_weights (sc_meta_shrink c) W W' ->
  (sc_use_numba c = true -> 0 < mget 0 W' i i /\ forall a b, (a < n)%nat -> (b < n)%nat -> 0 <= mget 0 W a b) ->
  so_result est meta G o = Ok tt -> so_result est meta G o' = Ok tt ->
  (i < n)%nat ->
  (forall k, two_steps n W i k -> nth k X [] = nth k X' []) ->
  (forall k, two_steps n W i k -> k <> i -> nth k y 0 = nth k y' 0) ->
  exists ps ps', ss_stacking_predict est meta (so_state est meta G o) = Some ps /\
    ss_stacking_predict est meta (so_state est meta G o') = Some ps' /\
    List.length ps = n /\ List.length ps' = n /\ nth i ps 0 = nth i ps' 0.
Proof. intros est meta fe pe fm pm so f Hf G sd ch cpu wm; exact (stacking_local fe pe fm pm so f Hf sd ch cpu wm). Qed.
Print Assumptions C149_two_steps.

(** Two groups of three: whatever the second group holds, the fit succeeds and
    observation 0 of the first group does not see it. *)
Example C149_example : rowwise u_predict ex_row /\ valid_runtime el_r 6 (patches 4 (ex_c None false)) /\ valid_rates (ex_c None false) /\
  holds_real (SDense el_W) el_W 6 /\ (forall k, (k < 6)%nat -> two_steps 6 el_W 0 k -> (k < 3)%nat) /\
  forall X y, rect X 6 2 -> List.length y = 6%nat ->
    so_result R R nat (u_sfit el_r (ex_c None false) 41%nat (fun _ => None) ex_s0 X y None (Some (SDense el_W))) = Ok tt.
Proof.
  split; [intros e [|x X] p H; [discriminate|injection H as <-; reflexivity]|]. split; [apply el_runtime|]. split; [apply ex_rates|].
  split; [split; [apply el_rect|left; reflexivity]|]. split; [apply el_far|apply el_run].
Qed.

(** One step is not enough: observation 3 has weight zero for observation 0, and
    its target changes the stacked prediction at 0. *)
Theorem C149_one_step_refuted :
  exists y y', mget 0 em_W 0 3 = 0 /\ (forall k, k <> 3%nat -> nth k y 0 = nth k y' 0) /\
  let o := ex_sfit u_r em_c 41%nat (fun _ => None) ex_s0 u_X y None (Some (SDense em_W)) in
  let o' := ex_sfit u_r em_c 41%nat (fun _ => None) ex_s0 u_X y' None (Some (SDense em_W)) in
  so_result R R nat o = Ok tt /\ so_result R R nat o' = Ok tt /\
  exists ps ps', ss_stacking_predict R R (so_state R R nat o) = Some ps /\
    ss_stacking_predict R R (so_state R R nat o') = Some ps' /\ nth 0 ps 0 <> nth 0 ps' 0.
Proof.
  exists [1; 2; 4; 8], [1; 2; 4; 9]. split; [reflexivity|]. split; [intros [|[|[|[|k]]]] H; first [reflexivity|congruence|destruct k; reflexivity]|]. cbv zeta.
  destruct (em_run 1 2 4 8) as (A1 & ps & A2 & A3). destruct (em_run 1 2 4 9) as (B1 & ps' & B2 & B3).
  split; [exact A1|]. split; [exact B1|]. exists ps, ps'. split; [exact A2|]. split; [exact B2|]. rewrite A3, B3. unfold Rsum; simpl; lra.
Qed.
Print Assumptions C149_one_step_refuted.

(** The same for new points. *)
Theorem C149_new_points :
  forall est meta fit_est predict_est fit_meta predict_meta cpu wm (f : est -> list R -> R), rowwise predict_est f ->
  forall r r' c fs fs' s0 s0' X X' y y' v v' Xp Xp' vp vp' W U fs1 fs1' fs2 fs2' s s' out out' i,
  let n := List.length X in
  let run := spredict est fit_est predict_est meta fit_meta predict_meta cpu wm in
  List.length X' = n -> List.length Xp' = List.length Xp ->
  wm fs v v = (fs1, Ok (SDense W)) -> wm fs1 v vp = (fs2, Ok (SDense U)) ->
  wm fs' v' v' = (fs1', Ok (SDense W)) -> wm fs1' v' vp' = (fs2', Ok (SDense U)) ->
  rect W n n -> rect U n (List.length Xp) ->
  schedule n (r_second r) -> List.length (r_buffer r) = n -> (forall k', patches cpu c = Some k' -> schedule k' (r_base r)) ->
  schedule n (r_second r') -> List.length (r_buffer r') = n -> (forall k', patches cpu c = Some k' -> schedule k' (r_base r')) ->
  run r c fs s0 X y v Xp vp = (s, fs2, Ok out) -> run r' c fs' s0' X' y' v' Xp' vp' = (s', fs2', Ok out') ->
  (i < List.length Xp)%nat -> nth i Xp [] = nth i Xp' [] ->
  (forall k, new_two_steps n W U i k -> nth k X [] = nth k X' [] /\ nth k y 0 = nth k y' 0) ->
  nth i out [] = nth i out' [].
Proof. intros est meta fe pe fm pm cpu wm f Hf; exact (new_local fe pe fm pm cpu wm f Hf). Qed.
Print Assumptions C149_new_points.
