(** Proofs: several dimensions sharing one cache file; unwritten rows and the
    weights computed from them. *)
From Coq Require Import Lra Lia Permutation.
From Verif.Model Require Import Base Ext Kernel Distance WeightMatrix Cache.
From Verif.Spec Require Import DistanceSpec CacheSpec KernelSpec WeightSpec.
From Verif.Proofs Require Import ListFacts CsrFacts DistanceFacts KernelFacts SumFacts KernelProps WeightFacts WeightProps WeightRaises KernelExamples WeightExamples CacheProps.
Open Scope string_scope.
Open Scope nat_scope.
Open Scope R_scope.

Section Shared.
  Context {mkw : Type} (dask_metric : string -> option (list R -> list R -> R)) (sort_row : list R -> list R).

  Lemma dims_fold (source : list coords) (tl : list (option coords)) (ms : list string) cs (args : list (kwargs mkw))
        (P : nat -> filesystem -> list dask_result -> Prop) n :
    (forall k fs out, (k < n)%nat -> P k fs out ->
       exists s t m a fs' r, getitem source k = Ok s /\ getitem tl k = Ok t /\ getitem ms k = Ok m /\ getitem args k = Ok a /\
         distance_matrix_dask mkw dask_metric sort_row fs s t m cs a = (fs', Ok r) /\ P (S k) fs' (out ++ [r])%list) ->
    forall len k fs out, (k + len = n)%nat -> P k fs out ->
    exists fs' out',
      fold_left (fun acc dim =>
        match acc with
        | (fs, Raise e) => (fs, Raise e)
        | (fs, Ok out) =>
          match (s <- getitem source dim ;; t <- getitem tl dim ;;
                 m <- getitem ms dim ;; a <- getitem args dim ;; Ok (s, t, m, a)) with
          | Raise e => (fs, Raise e)
          | Ok (s, t, m, a) =>
            match distance_matrix_dask mkw dask_metric sort_row fs s t m cs a with
            | (fs', Raise e) => (fs', Raise e)
            | (fs', Ok r) => (fs', Ok (out ++ [r])%list)
            end
          end
        end) (seq k len) (fs, Ok out) = (fs', Ok out') /\ P n fs' out'.
  Proof.
    intros HStep. induction len as [|len IH]; intros k fs out Hk HP.
    - exists fs, out. simpl. split; [reflexivity|]. replace n with k by lia. auto.
    - destruct (HStep k fs out ltac:(lia) HP) as (s & t & m & a & fs' & r & E1 & E2 & E3 & E4 & E5 & HP').
      cbn [seq fold_left]. rewrite E1, E2, E3, E4. cbn [bind]. rewrite E5.
      apply (IH (S k) fs' (out ++ [r])%list); [lia|auto].
  Qed.

  Lemma dim_args (source target : list coords) ms k :
    dims_match source target ms -> (k < List.length source)%nat ->
    let s := nth k source [] in let t := nth k target [] in let m := nth k ms "" in
    getitem source k = Ok s /\ getitem (map Some target) k = Ok (Some t) /\ getitem ms k = Ok m /\ ncols s = ncols t.
  Proof.
    intros (H1 & H2 & H3) Hk s t m.
    assert (Ht : (k < List.length target)%nat) by lia.
    split; [exact (getitem_lt [] source k Hk)|].
    split; [exact (eq_trans (getitem_lt None (map Some target) k ltac:(rewrite map_length; exact Ht))
                            (f_equal Ok (nth_map_in Some target k [] None Ht)))|].
    split; [apply (getitem_lt "" ms k); lia|].
    apply (H3 k); apply nth_error_nth'; auto.
  Qed.

  Notation own := (own dask_metric).

  Lemma compute_dim fs (s t : coords) m f cs (a : kwargs mkw) fp :
    ncols s = ncols t -> dask_metric m = Some f ->
    fp = zarr_path (match kw_filepath a with Some p => p | None => "distance_matrix.zarr" end) ->
    (kw_filepath a = None \/ kw_overwrite a = true \/ fs fp = None) ->
    exists fs' r, distance_matrix_dask mkw dask_metric sort_row fs s (Some t) m cs a = (fs', Ok r) /\
      result_matrix r = cdist f s t /\ fs' fp = Some (cdist f s t) /\
      forall q, q <> fp -> (cs = true -> q <> sorted_path fp) -> fs' q = fs q.
  Proof.
    intros Hn Hm -> HO. unfold distance_matrix_dask. rewrite Hn, Nat.eqb_refl, Hm.
    set (fp := zarr_path _) in *.
    assert (EC : match kw_filepath a with Some _ => if negb (kw_overwrite a) then fs fp else None | None => None end = None).
    { destruct (kw_filepath a); [|reflexivity]. destruct (kw_overwrite a) eqn:EO; [reflexivity|]. simpl.
      destruct HO as [HO|[HO|HO]]; [discriminate|discriminate|exact HO]. }
    rewrite EC. assert (HD : sorted_path fp <> fp) by (unfold fp; apply sorted_path_differs).
    destruct cs; do 2 eexists; (split; [reflexivity|]); (split; [reflexivity|]); unfold fs_write; split.
    - destruct (String.eqb_spec fp (sorted_path fp)); [congruence|]. rewrite String.eqb_refl. reflexivity.
    - intros q H1 H2. destruct (String.eqb_spec q (sorted_path fp)); [exfalso; apply H2; auto|].
      destruct (String.eqb_spec q fp); [congruence|reflexivity].
    - rewrite String.eqb_refl. reflexivity.
    - intros q H1 H2. destruct (String.eqb_spec q fp); [congruence|reflexivity].
  Qed.

  Lemma reuse_dim fs (s t : coords) m cs (a : kwargs mkw) path d :
    ncols s = ncols t -> kw_filepath a = Some path -> kw_overwrite a = false -> fs (zarr_path path) = Some d ->
    distance_matrix_dask mkw dask_metric sort_row fs s (Some t) m cs a = (fs, Ok (DaskMatrix d)).
  Proof.
    intros Hn Hp Ho Hf. unfold distance_matrix_dask. rewrite Hn, Nat.eqb_refl, Hp, Ho. cbn [negb]. rewrite Hf. reflexivity.
  Qed.

  (** One file named for all dimensions: every dimension gets the first one's matrix. *)
  Lemma shared_path fs (source target : list coords) metrics cs (kw : kwargs mkw) path :
    kw_filepath kw = Some path -> kw_overwrite kw = false -> fs (zarr_path path) = None ->
    (0 < List.length source)%nat ->
    dims_match source target (metric_list (List.length source) metrics) ->
    dask_metric (nth 0 (metric_list (List.length source) metrics) "") <> None ->
    exists fs' r rs m,
      distance_matrices_dask_kw mkw dask_metric sort_row fs source (Some target) metrics cs None kw = (fs', Ok (r :: rs)) /\
      own source target (metric_list (List.length source) metrics) 0 m /\ result_matrix r = m /\
      rs = repeat (DaskMatrix m) (List.length source - 1) /\ fs' (zarr_path path) = Some m.
  Proof.
    intros Hp Ho Hf Hpos HM Hm0. set (n := List.length source) in *. set (ms := metric_list n metrics) in *.
    destruct (dask_metric (nth 0 ms "")) as [f|] eqn:Ef; [|congruence].
    set (m := cdist f (nth 0 source []) (nth 0 target [])).
    pose (P := fun (k : nat) (fs1 : filesystem) (out : list dask_result) =>
      match k with
      | O => fs1 = fs /\ out = []
      | S k' => fs1 (zarr_path path) = Some m /\ exists r, result_matrix r = m /\ out = (r :: repeat (DaskMatrix m) k')%list
      end).
    destruct (dims_fold source (map Some target) ms cs (repeat kw n) P n) with (len := n) (k := 0%nat) (fs := fs) (out := @nil dask_result)
      as (fs' & out & E & HP).
    - intros k fs1 out Hk HPk. destruct (dim_args source target ms k HM Hk) as (E1 & E2 & E3 & En).
      assert (E4 : getitem (repeat kw n) k = Ok kw).
      { rewrite (getitem_lt kw _ k) by (rewrite repeat_length; auto). rewrite nth_repeat. reflexivity. }
      destruct k as [|k].
      + destruct HPk as [-> ->].
        destruct (compute_dim fs _ _ _ f cs kw (zarr_path path) En Ef) as (fs' & r & ED & Er & Ew & _).
        { rewrite Hp. reflexivity. } { right. right. exact Hf. }
        do 6 eexists. do 5 (split; [eassumption|]). unfold P. split; [exact Ew|]. exists r. split; [exact Er|reflexivity].
      + destruct HPk as (Hw & r & Er & ->).
        do 6 eexists. do 4 (split; [eassumption|]). split; [apply (reuse_dim fs1 _ _ _ cs kw path m En Hp Ho Hw)|].
        unfold P. split; [exact Hw|]. exists r. split; [exact Er|].
        cbn [repeat app]. f_equal. rewrite <- (repeat_cons k (DaskMatrix m)). reflexivity.
    - lia.
    - unfold P. auto.
    - unfold P in HP. replace n with (S (n - 1))%nat in HP by lia. destruct HP as (Hw & r & Er & ->).
      exists fs', r, (repeat (DaskMatrix m) (n - 1)), m. repeat split; auto.
      + unfold distance_matrices_dask_kw. fold n. destruct HM as (HL & _ & _). fold n in HL. rewrite HL, Nat.eqb_refl.
        rewrite <- HL. fold ms. exact E.
      + exists f. split; [exact Ef|reflexivity].
  Qed.

  (** Overwriting, or without a file name: every dimension gets its own matrix,
      and the file keeps the last one's only. *)
  Lemma shared_path_overwrite fs (source target : list coords) metrics cs (kw : kwargs mkw) :
    (kw_filepath kw = None \/ kw_overwrite kw = true) ->
    (0 < List.length source)%nat ->
    dims_match source target (metric_list (List.length source) metrics) ->
    (forall k, (k < List.length source)%nat -> dask_metric (nth k (metric_list (List.length source) metrics) "") <> None) ->
    exists fs' rs,
      distance_matrices_dask_kw mkw dask_metric sort_row fs source (Some target) metrics cs None kw = (fs', Ok rs) /\
      List.length rs = List.length source /\
      (forall k r, nth_error rs k = Some r -> own source target (metric_list (List.length source) metrics) k (result_matrix r)) /\
      exists m, own source target (metric_list (List.length source) metrics) (List.length source - 1) m /\
        fs' (zarr_path (match kw_filepath kw with Some p => p | None => "distance_matrix.zarr" end)) = Some m.
  Proof.
    intros HO Hpos HM Hmk. set (n := List.length source) in *. set (ms := metric_list n metrics) in *.
    set (fp := zarr_path (match kw_filepath kw with Some p => p | None => "distance_matrix.zarr" end)).
    pose (P := fun (k : nat) (fs1 : filesystem) (out : list dask_result) =>
      List.length out = k /\ (forall i r, nth_error out i = Some r -> own source target ms i (result_matrix r)) /\
      (0 < k -> exists m, own source target ms (k - 1) m /\ fs1 fp = Some m)%nat).
    destruct (dims_fold source (map Some target) ms cs (repeat kw n) P n) with (len := n) (k := 0%nat) (fs := fs) (out := @nil dask_result)
      as (fs' & out & E & HP).
    - intros k fs1 out Hk (HL & HA & _). destruct (dim_args source target ms k HM Hk) as (E1 & E2 & E3 & En).
      assert (E4 : getitem (repeat kw n) k = Ok kw).
      { rewrite (getitem_lt kw _ k) by (rewrite repeat_length; auto). rewrite nth_repeat. reflexivity. }
      specialize (Hmk k Hk). destruct (dask_metric (nth k ms "")) as [f|] eqn:Ef; [|congruence].
      destruct (compute_dim fs1 _ _ _ f cs kw fp En Ef eq_refl) as (fs' & r & ED & Er & Ew & _); [tauto|].
      do 6 eexists. do 5 (split; [eassumption|]). unfold P. split; [rewrite app_length; simpl; lia|]. split.
      + intros i r' Hi. destruct (Nat.lt_ge_cases i (List.length out)).
        * rewrite nth_error_app1 in Hi by auto. apply HA; auto.
        * rewrite nth_error_app2 in Hi by auto. destruct (i - List.length out)%nat as [|x] eqn:Ei; [|destruct x; discriminate].
          simpl in Hi. injection Hi as <-. assert (i = k) as -> by lia. exists f. split; [exact Ef|exact Er].
      + intros _. exists (cdist f (nth k source []) (nth k target [])). split; [|exact Ew].
        replace (S k - 1)%nat with k by lia. exists f. split; [exact Ef|reflexivity].
    - lia.
    - unfold P. split; [reflexivity|]. split; [intros [|i] r H; discriminate|lia].
    - destruct HP as (HL & HA & HB). exists fs', out. split; [|split; [exact HL|split; [exact HA|apply HB; lia]]].
      unfold distance_matrices_dask_kw. fold n. destruct HM as (HL' & _ & _). fold n in HL'. rewrite HL', Nat.eqb_refl.
      rewrite <- HL'. fold ms. exact E.
  Qed.

  (** Own files: own matrices, kept in these files. *)
  Lemma separate_paths fs (source target : list coords) metrics cs (args : list (kwargs mkw)) kw0 (paths : list string) :
    (0 < List.length source)%nat -> args = map (fun p => Kwargs (Some p) false (kw_metric kw0)) paths ->
    List.length paths = List.length source -> NoDup (map zarr_path paths) ->
    (forall p q, cs = true -> In p paths -> In q paths -> zarr_path p <> sorted_path (zarr_path q)) ->
    (forall p, In p paths -> fs (zarr_path p) = None) ->
    dims_match source target (metric_list (List.length source) metrics) ->
    (forall k, (k < List.length source)%nat -> dask_metric (nth k (metric_list (List.length source) metrics) "") <> None) ->
    exists fs' rs,
      distance_matrices_dask_kw mkw dask_metric sort_row fs source (Some target) metrics cs (Some args) kw0 = (fs', Ok rs) /\
      List.length rs = List.length source /\
      (forall k r, nth_error rs k = Some r -> own source target (metric_list (List.length source) metrics) k (result_matrix r) /\
         fs' (zarr_path (nth k paths "")) = Some (result_matrix r)).
  Proof.
    intros Hpos -> HPL HND HSO HF HM Hmk. set (n := List.length source) in *. set (ms := metric_list n metrics) in *.
    set (args := map (fun p => Kwargs (Some p) false (kw_metric kw0)) paths).
    pose (P := fun (k : nat) (fs1 : filesystem) (out : list dask_result) =>
      List.length out = k /\
      (forall i r, nth_error out i = Some r -> own source target ms i (result_matrix r) /\ fs1 (zarr_path (nth i paths "")) = Some (result_matrix r)) /\
      (forall i, (k <= i < n)%nat -> fs1 (zarr_path (nth i paths "")) = None)).
    destruct (dims_fold source (map Some target) ms cs args P n) with (len := n) (k := 0%nat) (fs := fs) (out := @nil dask_result)
      as (fs' & out & E & HP).
    - intros k fs1 out Hk (HL & HA & HB). destruct (dim_args source target ms k HM Hk) as (E1 & E2 & E3 & En).
      assert (E4 : getitem args k = Ok (Kwargs (Some (nth k paths "")) false (kw_metric kw0))).
      { unfold args. rewrite (getitem_lt kw0 _ k) by (rewrite map_length; lia). rewrite (nth_map_in _ _ _ "") by lia. reflexivity. }
      specialize (Hmk k Hk). destruct (dask_metric (nth k ms "")) as [f|] eqn:Ef; [|congruence].
      destruct (compute_dim fs1 _ _ _ f cs (Kwargs (Some (nth k paths "")) false (kw_metric kw0)) (zarr_path (nth k paths "")) En Ef eq_refl)
        as (fs' & r & ED & Er & Ew & Eo).
      { right. right. apply HB. lia. }
      assert (HNE : forall i, (i < n)%nat -> i <> k -> fs' (zarr_path (nth i paths "")) = fs1 (zarr_path (nth i paths ""))).
      { intros i Hi Hik. apply Eo.
        - intros EQ. apply Hik. apply (proj1 (NoDup_nth _ "") HND i k); rewrite ?map_length; try lia.
          rewrite !(nth_map_in _ _ _ "") by lia. exact EQ.
        - intros C. apply HSO; auto; apply nth_In; lia. }
      do 6 eexists. do 5 (split; [eassumption|]). unfold P. split; [rewrite app_length; simpl; lia|]. split.
      + intros i r' Hi. destruct (Nat.lt_ge_cases i (List.length out)).
        * rewrite nth_error_app1 in Hi by auto. rewrite HNE by lia. apply HA; auto.
        * rewrite nth_error_app2 in Hi by auto. destruct (i - List.length out)%nat as [|x] eqn:Ei; [|destruct x; discriminate].
          simpl in Hi. injection Hi as <-. assert (i = k) as -> by lia. rewrite Er. split; [|exact Ew].
          exists f. split; [exact Ef|reflexivity].
      + intros i Hi. rewrite HNE by lia. apply HB. lia.
    - lia.
    - unfold P. split; [reflexivity|]. split; [intros [|i] r H; discriminate|].
      intros i Hi. apply HF, nth_In. lia.
    - destruct HP as (HL & HA & HB). exists fs', out. split; [|split; [exact HL|exact HA]].
      unfold distance_matrices_dask_kw. fold n. destruct HM as (HL' & _ & _). fold n in HL'. rewrite HL', Nat.eqb_refl.
      rewrite <- HL'. fold ms. exact E.
  Qed.
End Shared.

(** A row of zero distances weighs all columns alike. *)
Lemma zero_row_uniform D r c i k b W :
  rect D r c -> entries (Rle 0) D -> (i < r)%nat -> (0 < c)%nat -> 0 <= b ->
  (forall j, (j < c)%nat -> mget 0 D i j = 0) ->
  weight_matrix_from_distance_dask [D] (DScal k) RNone (DScal b) DNone DNone = Ok W ->
  forall j, (j < c)%nat -> mget NaN W i j = Fin (1 / INR c).
Proof.
  intros HR HE Hi Hc Hb HZ E j Hj.
  assert (HV : valid_distances [D] r c) by (split; [discriminate|constructor; [split; auto|constructor]]).
  rewrite (dask_fixed_agrees [D] (DScal k) (DScal b) r c HV ltac:(lia)) in E.
  2:{ intros dim b' Hb'. simpl in Hb'. injection Hb' as <-. exact Hb. }
  2:{ intros dim Hd. exact I. }
  destruct (wm_product _ _ _ _ _ _ _ HV ltac:(lia) E) as (_ & raw & H1 & H2).
  assert (HW : forall j', (j' < c)%nat -> raw 0%nat i j' = 1).
  { intros j' Hj'. destruct (H1 0%nat i j' ltac:(simpl; lia) Hi Hj') as (k' & p & (Ek & Hk & _ & _ & Hp) & b' & Hb' & Hw).
    simpl in Ek, Hp. injection Ek as <-. injection Hp as <-. simpl in Hb'. subst b'.
    simpl in Hw. rewrite HZ in Hw by auto.
    apply (weighs_iff k b 0 (raw 0%nat i j') Hk (Rle_refl 0)) in Hw.
    pose proof (proj1 (weighs_iff k b 0 1 Hk (Rle_refl 0)) (coincident_weight_one k b Hk Hb)) as Hw'. congruence. }
  destruct (H2 i j Hi Hj) as [-> _].
  assert (HP : forall j', (j' < c)%nat -> Rprod (tabulate (List.length [D]) (fun dim => raw dim i j')) = 1).
  { intros j' Hj'. apply Rprod_ones. intros x Hx. unfold tabulate in Hx. simpl in Hx. destruct Hx as [<-|[]]. apply HW. auto. }
  assert (HS : Rsum (tabulate c (fun j' => Rprod (tabulate (List.length [D]) (fun dim => raw dim i j')))) = INR c).
  { unfold tabulate at 1. transitivity (Rsum (map (fun _ => 1) (seq 0 c))).
    - apply Rsum_map_ext. intros j' Hj'. apply in_seq in Hj'. apply HP. lia.
    - rewrite Rsum_map_const, seq_length. ring. }
  pose proof (lt_0_INR c Hc). rewrite HS, HP by auto.
  destruct (Req_EM_T (INR c) 0); [lra|reflexivity].
Qed.
