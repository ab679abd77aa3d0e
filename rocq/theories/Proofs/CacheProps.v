(** Proofs about the distance cache at the level of single writes. *)
From Coq Require Import Lra Lia Permutation.
From Verif.Model Require Import Base Distance Cache.
From Verif.Spec Require Import DistanceSpec CacheSpec.
From Verif.Proofs Require Import ListFacts CsrFacts DistanceFacts.
Open Scope string_scope.
Open Scope nat_scope.
Open Scope R_scope.

Lemma disk_set_same d p e : disk_set d p e p = e.
Proof. unfold disk_set. rewrite String.eqb_refl. reflexivity. Qed.
Lemma disk_set_other d p q e : q <> p -> disk_set d p e q = d q.
Proof. intros H. unfold disk_set. destruct (String.eqb_spec q p); congruence. Qed.

Lemma write_chunk_length c b l : List.length (write_chunk c b l) = List.length l.
Proof. revert c. induction l as [|[h o] l IH]; intros [|c]; simpl; auto. Qed.
Lemma write_chunk_nth c b l i : (i < List.length l)%nat ->
  nth i (write_chunk c b l) (0%nat, None) =
  if Nat.eqb i c then (fst (nth i l (0%nat, None)), Some b) else nth i l (0%nat, None).
Proof.
  revert c i. induction l as [|[h o] l IH]; intros c i Hi; [simpl in Hi; lia|].
  destruct c as [|c], i as [|i]; simpl; auto. apply IH. simpl in Hi. lia.
Qed.

(** State of a path after some of the blocks have been stored. *)
Definition stored (sizes : list nat) (blocks : list (matrix R)) (cs : list nat) : list (nat * option (matrix R)) :=
  map (fun c => (nth c sizes 0%nat, if in_dec Nat.eq_dec c cs then Some (nth c blocks []) else None)) (seq 0 (List.length sizes)).

Lemma stored_length sizes blocks cs : List.length (stored sizes blocks cs) = List.length sizes.
Proof. unfold stored. rewrite map_length, seq_length. reflexivity. Qed.
Lemma stored_nth sizes blocks cs i : (i < List.length sizes)%nat ->
  nth i (stored sizes blocks cs) (0%nat, None) =
  (nth i sizes 0%nat, if in_dec Nat.eq_dec i cs then Some (nth i blocks []) else None).
Proof.
  intros H. unfold stored.
  rewrite (nth_indep _ (0%nat, None) ((fun c => (nth c sizes 0%nat, if in_dec Nat.eq_dec c cs then Some (nth c blocks []) else None)) 0%nat))
    by (rewrite map_length, seq_length; auto).
  rewrite (map_nth (fun c => (nth c sizes 0%nat, if in_dec Nat.eq_dec c cs then Some (nth c blocks []) else None))), seq_nth by auto.
  reflexivity.
Qed.

Lemma stored_nil sizes blocks : stored sizes blocks [] = map (fun h => (h, None)) sizes.
Proof.
  apply (nth_ext _ _ (0%nat, None) (0%nat, None)); rewrite stored_length; [rewrite map_length; reflexivity|].
  intros i Hi. rewrite stored_nth by auto. rewrite (nth_map_in _ _ _ 0%nat) by auto. reflexivity.
Qed.

Lemma stored_write sizes blocks cs c :
  write_chunk c (nth c blocks []) (stored sizes blocks cs) = stored sizes blocks (cs ++ [c])%list.
Proof.
  apply (nth_ext _ _ (0%nat, None) (0%nat, None)).
  { rewrite write_chunk_length, !stored_length. reflexivity. }
  intros i Hi. rewrite write_chunk_length, stored_length in Hi.
  rewrite write_chunk_nth by (rewrite stored_length; auto). rewrite !stored_nth by auto.
  destruct (Nat.eqb_spec i c) as [->|N].
  - simpl. destruct (in_dec Nat.eq_dec c (cs ++ [c])) as [|F]; [reflexivity|]. exfalso. apply F, in_or_app. right. left. reflexivity.
  - destruct (in_dec Nat.eq_dec i cs) as [Y|F], (in_dec Nat.eq_dec i (cs ++ [c])) as [Y'|F']; auto.
    + exfalso. apply F', in_or_app. auto.
    + apply in_app_or in Y'. destruct Y' as [Y'|[Y'|[]]]; [tauto|congruence].
Qed.

Lemma writes_state p w sizes blocks cs : forall d cs0,
  d p = Some (ZArr w (stored sizes blocks cs0)) ->
  apply_steps d (map (fun c => SWrite p c (nth c blocks [])) cs) p = Some (ZArr w (stored sizes blocks (cs0 ++ cs)%list)) /\
  forall q, q <> p -> apply_steps d (map (fun c => SWrite p c (nth c blocks [])) cs) q = d q.
Proof.
  induction cs as [|c cs IH]; intros d cs0 H.
  - rewrite app_nil_r. simpl. auto.
  - unfold apply_steps. cbn [map fold_left]. cbn [apply_step]. rewrite H.
    destruct (IH (disk_set d p (Some (ZArr w (write_chunk c (nth c blocks []) (stored sizes blocks cs0))))) (cs0 ++ [c])%list) as [A B].
    { rewrite disk_set_same, stored_write. reflexivity. }
    rewrite <- app_assoc in A. split; [exact A|].
    intros q Hq. unfold apply_steps in B. rewrite B, disk_set_other by auto. reflexivity.
Qed.

(** After the metadata and [j] stored blocks. *)
Lemma to_zarr_state p m sizes order d j :
  apply_steps d (firstn (3 + j) (to_zarr_steps p m sizes order)) p =
    Some (ZArr (ncols m) (stored sizes (split_rows sizes m) (firstn j order))) /\
  forall q, q <> p -> apply_steps d (firstn (3 + j) (to_zarr_steps p m sizes order)) q = d q.
Proof.
  unfold to_zarr_steps. cbn [Nat.add firstn]. rewrite firstn_map.
  unfold apply_steps. cbn [fold_left apply_step].
  set (d3 := disk_set (disk_set (disk_set d p None) p (Some ZDir)) p _).
  destruct (writes_state p (ncols m) sizes (split_rows sizes m) (firstn j order) d3 []) as [A B].
  { unfold d3. rewrite disk_set_same, stored_nil. reflexivity. }
  split; [exact A|]. intros q Hq. unfold apply_steps in B. rewrite B by auto.
  unfold d3. rewrite !disk_set_other by auto. reflexivity.
Qed.

Lemma steps_other p m sizes order : forall q d k, q <> p ->
  apply_steps d (firstn k (to_zarr_steps p m sizes order)) q = d q.
Proof.
  intros q d k Hq. destruct k as [|[|[|j]]].
  - reflexivity.
  - unfold to_zarr_steps, apply_steps. cbn [firstn fold_left apply_step]. rewrite disk_set_other; auto.
  - unfold to_zarr_steps, apply_steps. cbn [firstn fold_left apply_step]. rewrite !disk_set_other; auto.
  - apply (to_zarr_state p m sizes order d j). auto.
Qed.

(** ** Reading back *)
Lemma split_rows_length sizes m : List.length (split_rows sizes m) = List.length sizes.
Proof. revert m. induction sizes; intros m; simpl; auto. Qed.

Lemma concat_split sizes : forall m, list_sum sizes = List.length m -> concat (split_rows sizes m) = m.
Proof.
  induction sizes as [|h hs IH]; intros m H; simpl in *.
  - destruct m; [reflexivity|discriminate].
  - rewrite IH; [apply firstn_skipn|]. rewrite skipn_length. lia.
Qed.

Lemma split_block_length sizes : forall m c, list_sum sizes = List.length m -> (c < List.length sizes)%nat ->
  List.length (nth c (split_rows sizes m) []) = nth c sizes 0%nat.
Proof.
  induction sizes as [|h hs IH]; intros m c H Hc; [simpl in Hc; lia|].
  simpl in H. destruct c as [|c]; simpl.
  - rewrite firstn_length. lia.
  - apply IH; [rewrite skipn_length; lia|simpl in Hc; lia].
Qed.

Lemma list_sum_cons h hs : list_sum (h :: hs) = (h + list_sum hs)%nat.
Proof. reflexivity. Qed.

Lemma nth_concat_chunk {A} (dflt : A) sizes : forall (l : list (list A)) c i,
  List.length l = List.length sizes -> (forall c, (c < List.length sizes)%nat -> List.length (nth c l []) = nth c sizes 0%nat) ->
  in_chunk sizes c i -> nth i (concat l) dflt = nth (i - list_sum (firstn c sizes)) (nth c l []) dflt.
Proof.
  induction sizes as [|h hs IH]; intros l c i HL HS [Hc Hi]; [simpl in Hc; lia|].
  destruct l as [|b l]; [discriminate|].
  pose proof (HS 0%nat ltac:(simpl; lia)) as H0. simpl in H0.
  destruct c as [|c].
  - simpl in Hi. simpl. rewrite app_nth1 by lia. f_equal. lia.
  - simpl concat. change (firstn (S c) (h :: hs)) with (h :: firstn c hs) in *.
    change (firstn (S (S c)) (h :: hs)) with (h :: firstn (S c) hs) in Hi. rewrite !list_sum_cons in *.
    rewrite app_nth2 by lia. rewrite (IH l c).
    + rewrite H0. simpl. f_equal. lia.
    + simpl in HL. lia.
    + intros c' Hc'. exact (HS (S c') ltac:(simpl; lia)).
    + split; [simpl in Hc; lia|]. lia.
Qed.

Lemma chunk_range sizes c i : in_chunk sizes c i -> (i < list_sum sizes)%nat.
Proof.
  intros [Hc Hi]. rewrite <- (firstn_skipn (S c) sizes), list_sum_app. lia.
Qed.

Lemma firstn_S_sum sizes c : (c < List.length sizes)%nat ->
  list_sum (firstn (S c) sizes) = (list_sum (firstn c sizes) + nth c sizes 0)%nat.
Proof.
  revert c. induction sizes as [|h hs IH]; intros c Hc; [simpl in Hc; lia|].
  destruct c as [|c]; [simpl; lia|].
  change (firstn (S (S c)) (h :: hs)) with (h :: firstn (S c) hs).
  change (firstn (S c) (h :: hs)) with (h :: firstn c hs). rewrite !list_sum_cons. simpl nth.
  rewrite IH by (simpl in Hc; lia). lia.
Qed.

Definition read_back (w : nat) (sizes : list nat) (m : matrix R) (cs : list nat) : matrix R :=
  concat (map (chunk_rows w) (stored sizes (split_rows sizes m) cs)).

Lemma read_chunk w sizes m cs c : (c < List.length sizes)%nat ->
  nth c (map (chunk_rows w) (stored sizes (split_rows sizes m) cs)) [] =
  if in_dec Nat.eq_dec c cs then nth c (split_rows sizes m) [] else repeat (repeat 0 w) (nth c sizes 0%nat).
Proof.
  intros Hc. rewrite (nth_indep _ [] (chunk_rows w (0%nat, None))) by (rewrite map_length, stored_length; auto).
  rewrite map_nth, stored_nth by auto. unfold chunk_rows. simpl.
  destruct (in_dec Nat.eq_dec c cs); reflexivity.
Qed.

Lemma nth_repeat_lt {A} (x dflt : A) k n : (k < n)%nat -> nth k (repeat x n) dflt = x.
Proof. revert k. induction n as [|n IH]; intros [|k] H; simpl; auto; try lia. apply IH. lia. Qed.

Lemma read_row w sizes m cs c i : list_sum sizes = List.length m -> in_chunk sizes c i ->
  nth i (read_back w sizes m cs) [] = if in_dec Nat.eq_dec c cs then nth i m [] else repeat 0 w.
Proof.
  intros HS Hc. pose proof Hc as [Hlt Hi]. unfold read_back.
  rewrite (nth_concat_chunk [] sizes _ c i).
  - rewrite read_chunk by auto. destruct (in_dec Nat.eq_dec c cs).
    + transitivity (nth i (concat (split_rows sizes m)) []); [symmetry; apply nth_concat_chunk|rewrite concat_split; auto].
      * apply split_rows_length.
      * intros c' Hc'. apply split_block_length; auto.
      * auto.
    + rewrite firstn_S_sum in Hi by auto. apply nth_repeat_lt. lia.
  - rewrite map_length, stored_length. reflexivity.
  - intros c' Hc'. rewrite read_chunk by auto. destruct (in_dec Nat.eq_dec c' cs).
    + apply split_block_length; auto.
    + apply repeat_length.
  - auto.
Qed.

Lemma read_complete w sizes m cs : list_sum sizes = List.length m -> (forall c, (c < List.length sizes)%nat -> In c cs) ->
  read_back w sizes m cs = m.
Proof.
  intros HS HC. unfold read_back. transitivity (concat (split_rows sizes m)); [|apply concat_split; auto].
  f_equal. apply (nth_ext _ _ [] []).
  - rewrite map_length, stored_length, split_rows_length. reflexivity.
  - intros c Hc. rewrite map_length, stored_length in Hc. rewrite read_chunk by auto.
    destruct (in_dec Nat.eq_dec c cs) as [|F]; [reflexivity|]. exfalso. apply F. auto.
Qed.

Lemma read_length w sizes m cs : list_sum sizes = List.length m -> List.length (read_back w sizes m cs) = List.length m.
Proof.
  intros HS. unfold read_back. rewrite <- HS.
  assert (H : forall l : list (matrix R), List.length l = List.length sizes ->
     (forall c, (c < List.length sizes)%nat -> List.length (nth c l []) = nth c sizes 0%nat) -> List.length (concat l) = list_sum sizes).
  { clear. induction sizes as [|h hs IH]; intros l HL HN.
    - destruct l; [reflexivity|discriminate].
    - destruct l as [|b l]; [discriminate|]. simpl. rewrite app_length, (IH l).
      + pose proof (HN 0%nat ltac:(simpl; lia)) as H0. simpl in H0. lia.
      + simpl in HL. lia.
      + intros c Hc. exact (HN (S c) ltac:(simpl; lia)). }
  apply H.
  - rewrite map_length, stored_length. reflexivity.
  - intros c Hc. rewrite read_chunk by auto. destruct (in_dec Nat.eq_dec c cs).
    + apply split_block_length; auto.
    + apply repeat_length.
Qed.

Section Crash.
  Context {mkw : Type} (dask_metric : string -> option (list R -> list R -> R)) (sort_row : list R -> list R).

  (** The effects of a call that computes. *)
  Lemma computing_run d source t metric f cache_sort (kw : kwargs mkw) path sizes order order' steps r :
    kw_filepath kw = Some path -> (kw_overwrite kw = true \/ d (zarr_path path) = None) ->
    ncols source = ncols t -> dask_metric metric = Some f ->
    dask_run mkw dask_metric sort_row d source (Some t) metric cache_sort kw sizes order order' = (steps, r) ->
    exists tail, steps = (to_zarr_steps (zarr_path path) (cdist f source t) sizes order ++ tail)%list /\
      (tail = [] \/ tail = to_zarr_steps (sorted_path (zarr_path path)) (map sort_row (cdist f source t)) sizes order').
  Proof.
    intros Hp Ho Hn Hm E. unfold dask_run in E. rewrite Hn, Nat.eqb_refl, Hp, Hm in E.
    assert (EC : (if negb (kw_overwrite kw) then d (zarr_path path) else None) = None).
    { destruct (kw_overwrite kw); simpl; auto. destruct Ho; [discriminate|auto]. }
    rewrite EC in E. destruct cache_sort; injection E as <- <-.
    - eexists; split; [reflexivity|right; reflexivity].
    - exists []. rewrite app_nil_r. auto.
  Qed.

  Lemma apply_steps_app d a b : apply_steps d (a ++ b)%list = apply_steps (apply_steps d a) b.
  Proof. unfold apply_steps. apply fold_left_app. Qed.

  Lemma to_zarr_length p m sizes order : List.length (to_zarr_steps p m sizes order) = (3 + List.length order)%nat.
  Proof. unfold to_zarr_steps. cbn [List.length]. rewrite map_length. reflexivity. Qed.

  Lemma crash_state d p m sizes order tail s' o' j :
    (tail = [] \/ tail = to_zarr_steps (sorted_path (zarr_path p)) s' sizes o') ->
    crash_disk (3 + j) d (to_zarr_steps (zarr_path p) m sizes order ++ tail)%list (zarr_path p) =
      Some (ZArr (ncols m) (stored sizes (split_rows sizes m) (firstn j order))).
  Proof.
    intros HT. unfold crash_disk. rewrite firstn_app, to_zarr_length, apply_steps_app.
    destruct (to_zarr_state (zarr_path p) m sizes order d j) as [A _].
    destruct HT as [-> | ->].
    - rewrite firstn_nil. exact A.
    - rewrite steps_other; [exact A|]. intros E. exact (sorted_path_differs p (eq_sym E)).
  Qed.

  Lemma reuse_run d (kw : kwargs mkw) path source target metric cache_sort sizes order order' e :
    reuses kw path source target -> d (zarr_path path) = Some e ->
    dask_run mkw dask_metric sort_row d source target metric cache_sort kw sizes order order' =
    ([], m <- from_zarr e ;; Ok (DaskMatrix m)).
  Proof.
    intros (Hp & Ho & Hn) He. unfold dask_run.
    destruct target as [t|].
    - rewrite (Hn t eq_refl), Nat.eqb_refl, Hp, Ho. cbn [negb]. rewrite He. reflexivity.
    - rewrite Hp, Ho. cbn [negb]. rewrite He. reflexivity.
  Qed.

  Lemma cdist_length f source t : List.length (cdist f source t) = List.length source.
  Proof. unfold cdist. apply map_length. Qed.
  Lemma cdist_get f source t i j : (i < List.length source)%nat -> (j < List.length t)%nat ->
    mget 0 (cdist f source t) i j = f (nth i source []) (nth j t []).
  Proof.
    intros Hi Hj. unfold mget, cdist. rewrite (nth_map_in _ _ _ []) by auto. rewrite (nth_map_in _ _ _ []) by auto. reflexivity.
  Qed.
  Lemma cdist_ncols f source t : (0 < List.length source)%nat -> ncols (cdist f source t) = List.length t.
  Proof. destruct source; simpl; [lia|]. intros _. unfold ncols, cdist. simpl. apply map_length. Qed.

  Lemma interrupted d source t metric f cache_sort (kw : kwargs mkw) path sizes order order' steps r k
        source' target' metric' cache_sort' (kw' : kwargs mkw) sizes' order2 order2' :
    kw_filepath kw = Some path -> (kw_overwrite kw = true \/ d (zarr_path path) = None) ->
    ncols source = ncols t -> dask_metric metric = Some f ->
    chunking (List.length source) sizes order ->
    dask_run mkw dask_metric sort_row d source (Some t) metric cache_sort kw sizes order order' = (steps, r) ->
    (3 <= k)%nat -> reuses kw' path source' target' ->
    exists M,
      dask_run mkw dask_metric sort_row (crash_disk k d steps) source' target' metric' cache_sort' kw' sizes' order2 order2' =
        ([], Ok (DaskMatrix M)) /\
      List.length M = List.length source /\
      forall c i j, in_chunk sizes c i -> (j < List.length t)%nat ->
        (In c (firstn (k - 3) order) -> mget 0 M i j = f (nth i source []) (nth j t [])) /\
        (~ In c (firstn (k - 3) order) -> mget 0 M i j = 0).
  Proof.
    intros Hp Ho Hn Hm (HS & HO) E Hk HR.
    destruct (computing_run _ _ _ _ _ _ _ _ _ _ _ _ _ Hp Ho Hn Hm E) as (tail & -> & HT).
    assert (Ek : (3 + (k - 3) = k)%nat) by lia.
    set (D := cdist f source t) in *.
    exists (read_back (ncols D) sizes D (firstn (k - 3) order)).
    pose proof (crash_state d path D sizes order tail _ _ (k - 3) HT) as HX. rewrite Ek in HX.
    rewrite (reuse_run _ _ _ _ _ _ _ _ _ _ _ HR HX).
    assert (HD : list_sum sizes = List.length D) by (unfold D; rewrite cdist_length; auto).
    split; [reflexivity|]. split; [rewrite read_length by auto; apply cdist_length|].
    intros c i j Hc Hj. assert (Hi : (i < List.length source)%nat) by (rewrite <- HS; eapply chunk_range; eauto).
    split; intros HI; unfold mget; rewrite (read_row _ _ _ _ c i HD Hc).
    - destruct (in_dec Nat.eq_dec c (firstn (k - 3) order)) as [|F]; [|tauto].
      exact (cdist_get f source t i j Hi Hj).
    - destruct (in_dec Nat.eq_dec c (firstn (k - 3) order)) as [F|]; [tauto|].
      rewrite nth_repeat. reflexivity.
  Qed.

  Lemma bare_directory d source t metric f cache_sort (kw : kwargs mkw) path sizes order order' steps r
        source' target' metric' cache_sort' (kw' : kwargs mkw) sizes' order2 order2' :
    kw_filepath kw = Some path -> (kw_overwrite kw = true \/ d (zarr_path path) = None) ->
    ncols source = ncols t -> dask_metric metric = Some f ->
    dask_run mkw dask_metric sort_row d source (Some t) metric cache_sort kw sizes order order' = (steps, r) ->
    reuses kw' path source' target' ->
    crash_disk 1 d steps (zarr_path path) = None /\
    exists e, dask_run mkw dask_metric sort_row (crash_disk 2 d steps) source' target' metric' cache_sort' kw' sizes' order2 order2' =
        ([], Raise e).
  Proof.
    intros Hp Ho Hn Hm E HR.
    destruct (computing_run _ _ _ _ _ _ _ _ _ _ _ _ _ Hp Ho Hn Hm E) as (tail & -> & HT).
    split.
    - unfold crash_disk, to_zarr_steps, apply_steps. cbn [firstn app fold_left apply_step]. apply disk_set_same.
    - exists ValueError. rewrite (reuse_run _ _ _ _ _ _ _ _ _ _ ZDir HR); [reflexivity|].
      unfold crash_disk, to_zarr_steps, apply_steps. cbn [firstn app fold_left apply_step]. apply disk_set_same.
  Qed.

  Lemma order_all n sizes order : chunking n sizes order -> forall c, (c < List.length sizes)%nat -> In c order.
  Proof. intros [_ HO] c Hc. apply (Permutation_in _ (Permutation_sym HO)), in_seq. lia. Qed.

  (** Whatever is on the disk, an overwriting call leaves and returns the right matrix. *)
  Lemma overwrite_repairs d source t metric f cache_sort (kw : kwargs mkw) path sizes order order' :
    kw_filepath kw = Some path -> kw_overwrite kw = true ->
    ncols source = ncols t -> dask_metric metric = Some f ->
    chunking (List.length source) sizes order ->
    exists steps r, dask_run mkw dask_metric sort_row d source (Some t) metric cache_sort kw sizes order order' = (steps, Ok r) /\
      result_matrix r = cdist f source t /\
      exists e, apply_steps d steps (zarr_path path) = Some e /\ from_zarr e = Ok (cdist f source t).
  Proof.
    intros Hp Ho Hn Hm HC. pose proof HC as [HS HO].
    destruct (dask_run mkw dask_metric sort_row d source (Some t) metric cache_sort kw sizes order order') as [steps r] eqn:E.
    destruct (computing_run _ _ _ _ _ _ _ _ _ _ _ _ _ Hp (or_introl Ho) Hn Hm E) as (tail & -> & HT).
    assert (Er : exists r0, r = Ok r0 /\ result_matrix r0 = cdist f source t).
    { unfold dask_run in E. rewrite Hn, Nat.eqb_refl, Hp, Hm, Ho in E. cbn [negb] in E.
      destruct cache_sort; injection E as _ <-; eexists; split; reflexivity. }
    destruct Er as (r0 & -> & Er). do 2 eexists. split; [reflexivity|]. split; [exact Er|].
    set (D := cdist f source t) in *.
    exists (ZArr (ncols D) (stored sizes (split_rows sizes D) order)). split.
    - pose proof (crash_state d path D sizes order tail _ _ (List.length order) HT) as A.
      unfold crash_disk in A. rewrite firstn_app, firstn_all2 in A by (rewrite to_zarr_length; lia).
      rewrite to_zarr_length, Nat.sub_diag, firstn_O, app_nil_r, firstn_all in A.
      rewrite apply_steps_app. destruct HT as [-> | ->]; [exact A|].
      pose proof (steps_other (sorted_path (zarr_path path)) (map sort_row D) sizes order' (zarr_path path)
        (apply_steps d (to_zarr_steps (zarr_path path) D sizes order)) (3 + List.length order')
        (fun E' => sorted_path_differs path (eq_sym E'))) as B.
      rewrite firstn_all2 in B by (rewrite to_zarr_length; lia). rewrite B. exact A.
    - change (Ok (read_back (ncols D) sizes D order) = Ok D). rewrite read_complete; [reflexivity| |].
      + unfold D. rewrite cdist_length. auto.
      + eapply order_all; eauto.
  Qed.

  (** Uninterrupted, the single writes amount to the store-level model. *)
  Lemma contents_set_ne d p e q : q <> p -> contents (disk_set d p e) q = contents d q.
  Proof. intros H. unfold contents. rewrite disk_set_other by auto. reflexivity. Qed.

  Lemma full_write d p m sizes order :
    list_sum sizes = List.length m -> (forall c, (c < List.length sizes)%nat -> In c order) ->
    (forall q, contents (apply_steps d (to_zarr_steps p m sizes order)) q = fs_write (contents d) p m q) /\
    (no_bare_directory d -> no_bare_directory (apply_steps d (to_zarr_steps p m sizes order))).
  Proof.
    intros HS HO. destruct (to_zarr_state p m sizes order d (List.length order)) as [A B].
    rewrite firstn_all2 in A, B by (rewrite to_zarr_length; lia). rewrite firstn_all in A. split.
    - intros q. unfold fs_write. destruct (String.eqb_spec q p) as [->|N].
      + unfold contents. rewrite A. change (Some (read_back (ncols m) sizes m order) = Some m). rewrite read_complete; auto.
      + unfold contents. rewrite B by auto. reflexivity.
    - intros HN q. destruct (String.eqb_spec q p) as [->|N]; [rewrite A; discriminate|rewrite B by auto; apply HN].
  Qed.

  Lemma fs_write_ext fs fs' p m : (forall q, fs q = fs' q) -> forall q : string, fs_write fs p m q = fs_write fs' p m q.
  Proof. intros H q. unfold fs_write. destruct (String.eqb q p); auto. Qed.

  Lemma uninterrupted d source target metric cache_sort (kw : kwargs mkw) sizes order order' steps r :
    no_bare_directory d -> chunking (List.length source) sizes order -> chunking (List.length source) sizes order' ->
    dask_run mkw dask_metric sort_row d source target metric cache_sort kw sizes order order' = (steps, r) ->
    no_bare_directory (apply_steps d steps) /\
    exists fs', distance_matrix_dask mkw dask_metric sort_row (contents d) source target metric cache_sort kw = (fs', r) /\
      forall p, contents (apply_steps d steps) p = fs' p.
  Proof.
    intros HN HC HC' E. unfold dask_run in E. unfold distance_matrix_dask.
    destruct (match target with
           | Some t => if (ncols source =? ncols t)%nat then Ok tt
                       else Raise (PyException "Source and target coordinate dimension not match")
           | None => Ok tt
           end) as [[]|e].
    2:{ injection E as <- <-. split; [exact HN|]. eexists; split; [reflexivity|]. reflexivity. }
    set (filepath := zarr_path (match kw_filepath kw with Some p => p | None => "distance_matrix.zarr" end)) in *.
    assert (EC : match (match kw_filepath kw with Some _ => if negb (kw_overwrite kw) then d filepath else None | None => None end) with
                 | Some e => exists m, from_zarr e = Ok m /\
                     (match kw_filepath kw with Some _ => if negb (kw_overwrite kw) then contents d filepath else None | None => None end) = Some m
                 | None => (match kw_filepath kw with Some _ => if negb (kw_overwrite kw) then contents d filepath else None | None => None end) = None
                 end).
    { destruct (kw_filepath kw); [|reflexivity]. destruct (negb (kw_overwrite kw)); [|reflexivity].
      unfold contents. pose proof (HN filepath) as HF. destruct (d filepath) as [[|w ch]|]; [congruence| |reflexivity].
      simpl. eexists; split; reflexivity. }
    destruct (match kw_filepath kw with Some _ => if negb (kw_overwrite kw) then d filepath else None | None => None end) as [e|].
    - destruct EC as (m & Em & ->). rewrite Em in E. simpl in E. injection E as <- <-.
      split; [exact HN|]. eexists; split; [reflexivity|]. reflexivity.
    - rewrite EC. clear EC.
      destruct target as [t|].
      2:{ injection E as <- <-. split; [exact HN|]. eexists; split; [reflexivity|]. reflexivity. }
      destruct (dask_metric metric) as [f|].
      2:{ injection E as <- <-. split; [exact HN|]. eexists; split; [reflexivity|]. reflexivity. }
      assert (HD : list_sum sizes = List.length (cdist f source t)) by (rewrite cdist_length; apply HC).
      destruct (full_write d filepath (cdist f source t) sizes order HD (order_all _ _ _ HC)) as [A1 A2].
      destruct cache_sort; pose proof (f_equal fst E) as ES; pose proof (f_equal snd E) as ER;
        cbn [fst snd] in ES, ER; subst steps r.
      + assert (HD' : list_sum sizes = List.length (map sort_row (cdist f source t))) by (rewrite map_length; auto).
        destruct (full_write (apply_steps d (to_zarr_steps filepath (cdist f source t) sizes order)) (sorted_path filepath)
           (map sort_row (cdist f source t)) sizes order' HD' (order_all _ _ _ HC')) as [B1 B2].
        rewrite apply_steps_app. split; [auto|]. eexists; split; [reflexivity|].
        intros p. rewrite B1. apply fs_write_ext. exact A1.
      + split; [auto|]. eexists; split; [reflexivity|]. exact A1.
  Qed.
End Crash.
