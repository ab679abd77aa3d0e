(** Lazily evaluated distances (C167). *)
From Coq Require Import Lra Lia Permutation.
From Verif.Model Require Import Base Distance Cache CacheLazy.
From Verif.Spec Require Import DistanceSpec CacheSpec CacheLazySpec.
From Verif.Proofs Require Import ListFacts CsrFacts DistanceFacts DistanceExamples CacheProps CacheProps2 CacheExamples.
Open Scope string_scope.
Open Scope nat_scope.
Open Scope R_scope.

Lemma holds_stored d path m sizes cs : (forall c, (c < length sizes)%nat -> In c cs) ->
  d path = Some (ZArr (ncols m) (stored sizes (split_rows sizes m) cs)) -> list_sum sizes = length m -> holds d path m sizes.
Proof.
  intros HC E HS. split; [|exact HS]. rewrite E. f_equal. f_equal. unfold stored. apply map_ext_in. intros c Hc. apply in_seq in Hc.
  destruct (in_dec Nat.eq_dec c cs) as [|F]; [reflexivity|]. exfalso. apply F, HC. lia.
Qed.

Lemma mapM_ok {A B} (f : A -> result B) g l : (forall x, In x l -> f x = Ok (g x)) -> mapM f l = Ok (map g l).
Proof.
  induction l as [|x l IH]; intros H; [reflexivity|]. cbn [mapM map]. rewrite (H x (or_introl eq_refl)), IH by (intros; apply H; right; auto). reflexivity.
Qed.

(** What every block reads, by row. *)
Lemma compute_blocks moment path w sizes (bs : nat -> matrix R) :
  (forall c, (c < length sizes)%nat -> read_block (moment c) path w sizes c = Ok (bs c)) ->
  compute moment (LFile path w sizes) = Ok (concat (map bs (seq 0 (length sizes)))).
Proof. intros H. unfold compute. rewrite (mapM_ok _ bs) by (intros c Hc; apply in_seq in Hc; apply H; lia). reflexivity. Qed.

Lemma read_stored d path m w sizes cs c : (c < length sizes)%nat -> w = ncols m ->
  d path = Some (ZArr (ncols m) (stored sizes (split_rows sizes m) cs)) ->
  read_block d path w sizes c = Ok (if in_dec Nat.eq_dec c cs then nth c (split_rows sizes m) [] else repeat (repeat 0 w) (nth c sizes 0%nat)).
Proof.
  intros Hc -> E. unfold read_block. rewrite E.
  rewrite (nth_error_nth' _ (0%nat, None)) by (rewrite stored_length; exact Hc). rewrite stored_nth by exact Hc.
  destruct (in_dec Nat.eq_dec c cs); [|reflexivity]. rewrite !Nat.eqb_refl. reflexivity.
Qed.
Lemma read_holds d path m sizes c : (c < length sizes)%nat -> holds d path m sizes ->
  read_block d path (ncols m) sizes c = Ok (nth c (split_rows sizes m) []).
Proof.
  intros Hc [E HS]. unfold read_block. rewrite E.
  rewrite (nth_error_nth' _ (0%nat, None)) by (rewrite map_length, seq_length; exact Hc).
  rewrite (nth_map_in _ _ c 0%nat) by (rewrite seq_length; exact Hc). rewrite seq_nth by exact Hc. rewrite !Nat.eqb_refl. reflexivity.
Qed.

Lemma concat_length sizes : forall l : list (matrix R), length l = length sizes ->
  (forall c, (c < length sizes)%nat -> length (nth c l []) = nth c sizes 0%nat) -> length (concat l) = list_sum sizes.
Proof.
  induction sizes as [|h hs IH]; intros l HL HN.
  - destruct l; [reflexivity|discriminate].
  - destruct l as [|b l]; [discriminate|]. simpl. rewrite app_length, (IH l).
    + pose proof (HN 0%nat ltac:(simpl; lia)) as H0. simpl in H0. lia.
    + simpl in HL. lia.
    + intros c Hc. exact (HN (S c) ltac:(simpl; lia)).
Qed.

Lemma row_of_block sizes m c i : list_sum sizes = length m -> in_chunk sizes c i ->
  nth (i - list_sum (firstn c sizes)) (nth c (split_rows sizes m) []) [] = nth i m [].
Proof.
  intros HS Hc. pose proof Hc as [Hlt Hi].
  transitivity (nth i (concat (split_rows sizes m)) []); [symmetry; apply nth_concat_chunk|rewrite concat_split; auto].
  - apply split_rows_length.
  - intros c' Hc'. apply split_block_length; auto.
  - auto.
Qed.

Section Lazy.
  Context {mkw : Type} (dask_metric : string -> option (list R -> list R -> R)) (sort_row : list R -> list R).

  (** Evaluated at once, the plan gives what Model/Cache.v says. *)
  Theorem open_refines d source target metric cache_sort (kw : kwargs mkw) sizes order order' :
    let '(steps, r) := dask_open mkw dask_metric sort_row d source target metric cache_sort kw sizes order order' in
    dask_run mkw dask_metric sort_row d source target metric cache_sort kw sizes order order' =
      (steps, x <- r ;; compute_result (fun _ => d) x).
  Proof.
    unfold dask_open, dask_run. destruct (match target with Some t => if ncols source =? ncols t then Ok tt else _ | None => Ok tt end); [|reflexivity].
    cbv zeta. set (fp := zarr_path _).
    destruct (match kw_filepath kw with Some _ => if negb (kw_overwrite kw) then d fp else None | None => None end) as [[|w chunks]|] eqn:E.
    - reflexivity.
    - assert (Ed : d fp = Some (ZArr w chunks)) by (destruct (kw_filepath kw); [destruct (negb (kw_overwrite kw)); [exact E|discriminate]|discriminate]).
      cbn [bind compute_result]. f_equal. 
      assert (EC : compute (fun _ => d) (LFile fp w (map fst chunks)) = from_zarr (ZArr w chunks)).
      { unfold from_zarr. rewrite (compute_blocks _ _ _ _ (fun c => nth c (map (chunk_rows w) chunks) [])).
        - do 2 f_equal. rewrite map_length. replace (length chunks) with (length (map (chunk_rows w) chunks)) by apply map_length.
          apply (nth_ext _ _ [] []); rewrite map_length, seq_length; [reflexivity|]. intros c Hc.
          rewrite (nth_map_in _ _ c 0%nat) by (rewrite seq_length; exact Hc). rewrite seq_nth by exact Hc. reflexivity.
        - intros c Hc. rewrite map_length in Hc. unfold read_block. rewrite Ed.
          rewrite (nth_error_nth' _ (0%nat, None)) by exact Hc.
          rewrite (nth_map_in (chunk_rows w) chunks c (0%nat, None)) by exact Hc. rewrite (nth_map_in fst chunks c (0%nat, None)) by exact Hc.
          destruct (nth c chunks (0%nat, None)) as [h [b|]]; simpl; [rewrite !Nat.eqb_refl|]; reflexivity. }
      rewrite EC. reflexivity.
    - destruct target as [t|]; [|reflexivity]. destruct (dask_metric metric) as [f|]; [|reflexivity]. destruct cache_sort; reflexivity.
  Qed.

  (** A call that computes: its result never looks at the disk again. *)
  Theorem computed_is_fixed d source t metric f cache_sort (kw : kwargs mkw) sizes order order' :
    (kw_filepath kw = None \/ kw_overwrite kw = true \/ (forall p, kw_filepath kw = Some p -> d (zarr_path p) = None)) ->
    ncols source = ncols t -> dask_metric metric = Some f ->
    exists steps r, dask_open mkw dask_metric sort_row d source (Some t) metric cache_sort kw sizes order order' = (steps, Ok r) /\
      forall moment, exists x, compute_result moment r = Ok x /\ result_matrix x = cdist f source t.
  Proof.
    intros Ho Hn Hm. unfold dask_open. rewrite Hn, Nat.eqb_refl. cbv zeta.
    replace (match kw_filepath kw with Some p => if negb (kw_overwrite kw) then _ else None | None => None end) with (@None zentry).
    2:{ destruct (kw_filepath kw) as [p|] eqn:Ep; [|reflexivity]. destruct (kw_overwrite kw) eqn:Eo; [reflexivity|]. simpl.
        destruct Ho as [H|[H|H]]; [discriminate|discriminate|]. symmetry. apply H. reflexivity. }
    rewrite Hm. destruct cache_sort; (eexists; eexists; split; [reflexivity|]; intros moment; eexists; split; reflexivity).
  Qed.

  (** A call that reuses the file. *)
  Lemma open_reuse d (kw : kwargs mkw) path source target metric cache_sort sizes order order' m sz :
    reuses kw path source target -> holds d (zarr_path path) m sz ->
    dask_open mkw dask_metric sort_row d source target metric cache_sort kw sizes order order' =
      ([], Ok (LMatrix (LFile (zarr_path path) (ncols m) sz))).
  Proof.
    intros (Hp & Ho & Hn) [He HS]. unfold dask_open.
    assert (EM : map fst (map (fun c => (nth c sz 0%nat, Some (nth c (split_rows sz m) []))) (seq 0 (length sz))) = sz).
    { rewrite map_map. cbn [fst]. apply (nth_ext _ _ 0%nat 0%nat); rewrite map_length, seq_length; [reflexivity|]. intros c Hc.
      rewrite (nth_map_in _ _ c 0%nat) by (rewrite seq_length; exact Hc). rewrite seq_nth by exact Hc. reflexivity. }
    destruct target as [t|].
    - rewrite (Hn t eq_refl), Nat.eqb_refl, Hp, Ho. cbn [negb]. rewrite He, EM. reflexivity.
    - rewrite Hp, Ho. cbn [negb]. rewrite He, EM. reflexivity.
  Qed.

  Theorem lazy_read d (kw : kwargs mkw) path source target metric cache_sort sizes order order' m sz
      source1 t1 metric1 f1 cache_sort1 (kw1 : kwargs mkw) order1 order1' steps1 r1 :
    reuses kw path source target -> holds d (zarr_path path) m sz -> rect m (length source1) (length t1) ->
    kw_filepath kw1 = Some path -> kw_overwrite kw1 = true -> ncols source1 = ncols t1 -> dask_metric metric1 = Some f1 ->
    chunking (length source1) sz order1 ->
    dask_run mkw dask_metric sort_row d source1 (Some t1) metric1 cache_sort1 kw1 sz order1 order1' = (steps1, r1) ->
    exists x, dask_open mkw dask_metric sort_row d source target metric cache_sort kw sizes order order' = ([], Ok (LMatrix x)) /\
      forall progress : nat -> nat, exists M,
        compute (fun c => crash_disk (progress c) d steps1) x = Ok M /\ length M = length source1 /\
        forall c i j, in_chunk sz c i -> (j < length t1)%nat ->
          (progress c = 0%nat -> mget 0 M i j = mget 0 m i j) /\
          (In c (firstn (progress c - 3) order1) -> mget 0 M i j = f1 (nth i source1 []) (nth j t1 [])) /\
          (progress c <> 0%nat -> ~ In c (firstn (progress c - 3) order1) -> mget 0 M i j = 0).
  Proof.
    intros HR HH HM Hp Ho Hn Hm HC E. eexists. split; [apply (open_reuse _ _ _ _ _ _ _ _ _ _ _ _ HR HH)|]. intros progress.
    destruct (computing_run dask_metric sort_row _ _ _ _ _ _ _ _ _ _ _ _ _ Hp (or_introl Ho) Hn Hm E) as (tail & -> & HT).
    set (D := cdist f1 source1 t1) in *. pose proof HH as [_ HS].
    assert (HD : list_sum sz = length D) by (unfold D; rewrite cdist_length; apply HC).
    assert (HN : (0 < length source1)%nat -> ncols D = ncols m).
    { intros H0. unfold D. rewrite cdist_ncols by exact H0. symmetry. apply (ncols_rect m (length source1)); auto. }
    set (fill := fun c => repeat (repeat 0 (ncols m)) (nth c sz 0%nat)).
    set (bs := fun c => if Nat.eqb (progress c) 0 then nth c (split_rows sz m) []
                        else if in_dec Nat.eq_dec c (firstn (progress c - 3) order1) then nth c (split_rows sz D) [] else fill c).
    assert (HB : forall c, (c < length sz)%nat -> read_block (crash_disk (progress c) d (to_zarr_steps (zarr_path path) D sz order1 ++ tail)%list) (zarr_path path) (ncols m) sz c = Ok (bs c)).
    { intros c Hc. unfold bs. destruct (progress c) as [|[|[|k]]] eqn:Ek.
      - cbn [Nat.eqb]. apply read_holds; auto.
      - cbn [Nat.eqb]. change (1 - 3)%nat with 0%nat. cbn [firstn]. destruct (in_dec Nat.eq_dec c []) as [[]|_]. unfold read_block.
        unfold crash_disk, to_zarr_steps, apply_steps. cbn [firstn app fold_left apply_step]. rewrite disk_set_same. reflexivity.
      - cbn [Nat.eqb]. change (2 - 3)%nat with 0%nat. cbn [firstn]. destruct (in_dec Nat.eq_dec c []) as [[]|_]. unfold read_block.
        unfold crash_disk, to_zarr_steps, apply_steps. cbn [firstn app fold_left apply_step]. rewrite disk_set_same. reflexivity.
      - cbn [Nat.eqb]. replace (S (S (S k)) - 3)%nat with k by lia.
        pose proof (crash_state d path D sz order1 tail _ _ k HT) as HX. cbn [Nat.add] in HX.
        destruct (length source1) as [|n] eqn:En.
        + (* no rows at all *)
          assert (E0 : nth c sz 0%nat = 0%nat).
          { destruct HC as [HC _]. assert (G : forall l c, (list_sum l = 0 -> nth c l 0 = 0)%nat).
            { clear. induction l as [|h l IH]; intros [|c] H; auto; rewrite list_sum_cons in H; cbn [nth]; [lia|apply IH; lia]. }
            apply G. exact HC. }
          assert (L1 : nth c (split_rows sz D) [] = []) by (apply length_zero_iff_nil; rewrite split_block_length; auto).
          unfold read_block. rewrite HX. rewrite (nth_error_nth' _ (0%nat, None)) by (rewrite stored_length; exact Hc). rewrite stored_nth by exact Hc.
          assert (ED : D = []) by (unfold D; destruct source1; [reflexivity|discriminate]).
          assert (Em : m = []) by (destruct HM as [HM _]; destruct m; [reflexivity|discriminate]).
          destruct (in_dec Nat.eq_dec c (firstn k order1)); [|reflexivity]. rewrite ED, Em, !Nat.eqb_refl. reflexivity.
        + rewrite (read_stored _ _ D (ncols m) sz _ c Hc (eq_sym (HN ltac:(lia))) HX). reflexivity. }
    exists (concat (map bs (seq 0 (length sz)))). split; [apply compute_blocks; exact HB|].
    assert (HL : forall c, (c < length sz)%nat -> length (nth c (map bs (seq 0 (length sz))) []) = nth c sz 0%nat).
    { intros c Hc. rewrite (nth_map_in _ _ c 0%nat) by (rewrite seq_length; exact Hc). rewrite seq_nth by exact Hc. cbn [Nat.add]. unfold bs, fill.
      destruct (Nat.eqb (progress c) 0); [apply split_block_length; auto|].
      destruct (in_dec Nat.eq_dec c _); [apply split_block_length; auto|apply repeat_length]. }
    split; [rewrite (concat_length sz); [apply HC|rewrite map_length, seq_length; reflexivity|exact HL]|].
    intros c i j Hc Hj. pose proof Hc as [Hlt Hi].
    assert (ER : nth i (concat (map bs (seq 0 (length sz)))) [] = nth (i - list_sum (firstn c sz)) (bs c) []).
    { rewrite (nth_concat_chunk [] sz _ c i); [|rewrite map_length, seq_length; reflexivity|exact HL|exact Hc].
      rewrite (nth_map_in _ _ c 0%nat) by (rewrite seq_length; exact Hlt). rewrite seq_nth by exact Hlt. reflexivity. }
    assert (Hn' : (i < length source1)%nat) by (destruct HC as [<- _]; eapply chunk_range; eauto).
    unfold mget. rewrite ER. unfold bs. split; [|split].
    - intros E0. rewrite E0. cbn [Nat.eqb]. rewrite (row_of_block sz m c i HS Hc). reflexivity.
    - intros HI. destruct (Nat.eqb_spec (progress c) 0) as [E0|_]; [rewrite E0 in HI; destruct HI|].
      destruct (in_dec Nat.eq_dec c _) as [_|F]; [|tauto]. rewrite (row_of_block sz D c i HD Hc). exact (cdist_get f1 source1 t1 i j Hn' Hj).
    - intros N0 HI. destruct (Nat.eqb_spec (progress c) 0) as [E0|_]; [tauto|].
      destruct (in_dec Nat.eq_dec c _) as [F|_]; [tauto|]. unfold fill. rewrite firstn_S_sum in Hi by auto. rewrite nth_repeat_lt by lia. apply nth_repeat.
  Qed.
End Lazy.

(** After the overwriting call has finished: the new distances. *)
Section After.
  Context {mkw : Type} (dask_metric : string -> option (list R -> list R -> R)) (sort_row : list R -> list R).

  Theorem later_file d (kw : kwargs mkw) path source target metric cache_sort sizes order order' m sz
      source1 t1 metric1 f1 cache_sort1 (kw1 : kwargs mkw) order1 order1' steps1 r1 :
    reuses kw path source target -> holds d (zarr_path path) m sz -> rect m (length source1) (length t1) ->
    kw_filepath kw1 = Some path -> kw_overwrite kw1 = true -> ncols source1 = ncols t1 -> dask_metric metric1 = Some f1 ->
    chunking (length source1) sz order1 ->
    dask_run mkw dask_metric sort_row d source1 (Some t1) metric1 cache_sort1 kw1 sz order1 order1' = (steps1, r1) ->
    exists x, dask_open mkw dask_metric sort_row d source target metric cache_sort kw sizes order order' = ([], Ok (LMatrix x)) /\
      compute (fun _ => d) x = Ok m /\
      exists M, compute (fun _ => apply_steps d steps1) x = Ok M /\
        forall i j, (i < length source1)%nat -> (j < length t1)%nat -> mget 0 M i j = f1 (nth i source1 []) (nth j t1 []).
  Proof.
    intros HR HH HM Hp Ho Hn Hm HC E.
    destruct (lazy_read dask_metric sort_row d kw path source target metric cache_sort sizes order order' m sz source1 t1 metric1 f1 cache_sort1 kw1 order1 order1' steps1 r1 HR HH HM Hp Ho Hn Hm HC E) as (x & Ex & HX).
    exists x. split; [exact Ex|]. split.
    - rewrite (open_reuse dask_metric sort_row _ _ _ _ _ _ _ _ _ _ _ _ HR HH) in Ex. injection Ex as <-.
      rewrite (compute_blocks _ _ _ _ (fun c => nth c (split_rows sz m) [])).
      + apply (f_equal (@Ok _)). transitivity (concat (split_rows sz m)); [|apply concat_split; apply HH]. f_equal.
        rewrite <- (split_rows_length sz m). apply (nth_ext _ _ [] []); rewrite map_length, seq_length; [reflexivity|]. intros c Hc.
        rewrite (nth_map_in _ _ c 0%nat) by (rewrite seq_length; exact Hc). rewrite seq_nth by exact Hc. reflexivity.
      + intros c Hc. apply read_holds; auto.
    - destruct (HX (fun _ => (3 + length steps1)%nat)) as (M & EM & _ & HMr). exists M. split.
      + rewrite <- EM. unfold crash_disk. rewrite firstn_all2 by lia. reflexivity.
      + intros i j Hi Hj. assert (HCk : exists c, in_chunk sz c i).
        { destruct HC as [HC _]. rewrite <- HC in Hi. clear - Hi. revert i Hi. induction sz as [|h hs IH]; intros i Hi; [simpl in Hi; lia|].
          rewrite list_sum_cons in Hi. destruct (Nat.lt_ge_cases i h) as [L|G].
          - exists 0%nat. split; [simpl; lia|]. cbn [firstn]. rewrite list_sum_cons. simpl. lia.
          - destruct (IH (i - h)%nat ltac:(lia)) as (c & H1 & H2). exists (S c). split; [simpl; lia|].
            change (firstn (S (S c)) (h :: hs)) with (h :: firstn (S c) hs). change (firstn (S c) (h :: hs)) with (h :: firstn c hs).
            rewrite !list_sum_cons. lia. }
        destruct HCk as (c & Hc). destruct (HMr c i j Hc Hj) as (_ & HN & _). apply HN.
        rewrite firstn_all2.
        * apply (order_all (length source1) sz); [exact HC|apply Hc].
        * destruct (computing_run dask_metric sort_row _ _ _ _ _ _ _ _ _ _ _ _ _ Hp (or_introl Ho) Hn Hm E) as (tail & -> & _).
          rewrite app_length, to_zarr_length. lia.
  Qed.
End After.

(** A file that is gone. *)
Lemma deleted_file moment path w sizes : (forall c, (c < length sizes)%nat -> moment c path = None) ->
  compute moment (LFile path w sizes) = Ok (repeat (repeat 0 w) (list_sum sizes)).
Proof.
  intros H. rewrite (compute_blocks _ _ _ _ (fun c => repeat (repeat 0 w) (nth c sizes 0%nat))).
  - f_equal. clear H. transitivity (concat (map (fun h => repeat (repeat 0 w) h) sizes)).
    + f_equal. apply (nth_ext _ _ [] []); rewrite !map_length, seq_length; [reflexivity|]. intros c Hc.
      rewrite (nth_map_in _ _ c 0%nat) by (rewrite seq_length; exact Hc). rewrite seq_nth by exact Hc.
      rewrite (nth_map_in _ _ c 0%nat) by exact Hc. reflexivity.
    + induction sizes as [|h hs IH]; [reflexivity|]. cbn [map concat]. rewrite IH, list_sum_cons, repeat_app. reflexivity.
  - intros c Hc. unfold read_block. rewrite (H c Hc). reflexivity.
Qed.

(** Two rows at 5 and 2 in the file, in two blocks; meanwhile the file is rewritten
    with 7 and 4, the second row first. *)
Definition lx_old : disk := apply_steps (fun _ => None) (fst (ex_run (fun _ => None))).
Definition lx_new := dask_run unit ex_metric (fun r => r) lx_old [[7]; [4]] (Some [[0]]) "euclidean" false (Kwargs (Some "d") true tt)
    [1; 1]%nat [1; 0]%nat [1; 0]%nat.
Lemma lx_euclid : euclid [5] [0] = 5 /\ euclid [2] [0] = 2 /\ euclid [7] [0] = 7 /\ euclid [4] [0] = 4.
Proof.
  pose proof (euclid_col 5 2 ltac:(lra) ltac:(lra)) as H. pose proof (euclid_col 7 4 ltac:(lra) ltac:(lra)) as H'.
  unfold cdist in H, H'. cbn [map] in H, H'. injection H as A B. injection H' as C D. auto.
Qed.
Lemma lx_holds : holds lx_old "d.zarr" [[5]; [2]] [1; 1]%nat.
Proof.
  destruct lx_euclid as (H5 & H2 & _). split; [|reflexivity]. unfold lx_old, ex_run, dask_run, cdist, apply_steps, to_zarr_steps. cbn. rewrite H5, H2. reflexivity.
Qed.
Lemma lx_mixed : exists x, snd (dask_open unit ex_metric (fun r => r) lx_old [[5]; [2]] (Some [[0]]) "euclidean" false
      (Kwargs (Some "d") false tt) [2]%nat [0]%nat [0]%nat) = Ok (LMatrix x) /\
  compute (fun c => crash_disk (nth c [0; 4] 0)%nat lx_old (fst lx_new)) x = Ok [[5]; [4]] /\
  compute (fun c => crash_disk (nth c [3; 0] 0)%nat lx_old (fst lx_new)) x = Ok [[0]; [2]].
Proof.
  destruct lx_euclid as (H5 & H2 & H7 & H4). eexists. split; [reflexivity|].
  unfold lx_new, lx_old, ex_run, dask_run, cdist, crash_disk, apply_steps, to_zarr_steps. cbn. rewrite H5, H2, H4. split; reflexivity.
Qed.
