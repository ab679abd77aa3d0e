(** Concrete cases for C117, C118. *)
From Coq Require Import Lra Lia Permutation.
From Verif.Model Require Import Base Distance Cache.
From Verif.Spec Require Import DistanceSpec CacheSpec.
From Verif.Proofs Require Import DistanceExamples CacheProps CacheProps2.
Open Scope string_scope.
Open Scope nat_scope.
Open Scope R_scope.

Definition ex_metric (s : string) : option (list R -> list R -> R) :=
  if String.eqb s "euclidean" then Some euclid else None.
Definition ex_space_time : list coords := [[[0]; [3]]; [[0]; [1]]].
Definition ex_origins : list coords := [[[0]]; [[0]]].
Lemma euclid_col a b : 0 <= a -> 0 <= b -> cdist euclid [[a]; [b]] [[0]] = [[a]; [b]].
Proof.
  intros H1 H2. pose proof (euclid_1 a H1) as A. pose proof (euclid_1 b H2) as B.
  unfold cdist in *. cbn [map] in *. congruence.
Qed.
Lemma ex_shared :
  dims_match ex_space_time ex_origins ["euclidean"; "euclidean"] /\
  snd (distance_matrices_dask_kw unit ex_metric (fun r => r) (fun _ => None) ex_space_time (Some ex_origins)
        (Scalar "euclidean") false None (Kwargs (Some "d") false tt)) =
    Ok [DaskMatrix [[0]; [3]]; DaskMatrix [[0]; [3]]] /\
  cdist euclid (nth 1 ex_space_time []) (nth 1 ex_origins []) = [[0]; [1]].
Proof.
  assert (HM : dims_match ex_space_time ex_origins ["euclidean"; "euclidean"]).
  { split; [reflexivity|]. split; [simpl; lia|]. intros [|[|k]] s t Hs Ht; simpl in Hs, Ht.
    - inversion Hs; inversion Ht; reflexivity.
    - inversion Hs; inversion Ht; reflexivity.
    - destruct k; discriminate. }
  split; [exact HM|]. split; [|apply euclid_col; lra].
  destruct (shared_path ex_metric (fun r => r) (fun _ => None) ex_space_time ex_origins (Scalar "euclidean") false
    (Kwargs (Some "d") false tt) "d" eq_refl eq_refl eq_refl ltac:(simpl; lia) HM ltac:(discriminate))
    as (fs' & r & rs & m & E & (f & Ef & ->) & Er & -> & _).
  rewrite E. simpl in Ef. injection Ef as <-. simpl nth in *. cbn [snd List.length Nat.sub repeat].
  unfold distance_matrices_dask_kw, distance_matrix_dask in E. cbn in E. injection E as _ <-.
  pose proof (euclid_col 0 3 ltac:(lra) ltac:(lra)) as HE.
  change [[euclid [0] [0]]; [euclid [3] [0]]] with (cdist euclid [[0]; [3]] [[0]]).
  change (map (fun p : list R => map (fun q : list R => euclid p q) [[0]]) [[0]; [3]]) with (cdist euclid [[0]; [3]] [[0]]).
  rewrite HE. reflexivity.
Qed.
Lemma ex_separate :
  NoDup (map zarr_path ["space"; "time"]) /\
  (forall p q, In p ["space"; "time"] -> In q ["space"; "time"] -> zarr_path p <> sorted_path (zarr_path q)).
Proof.
  split.
  - cbn. constructor; [|constructor; [intros []|constructor]]. intros [H|[]]. discriminate.
  - intros p q [<-|[<-|[]]] [<-|[<-|[]]]; vm_compute; discriminate.
Qed.

Definition ex_run (d : disk) :=
  dask_run unit ex_metric (fun r => r) d [[5]; [2]] (Some [[0]]) "euclidean" false (Kwargs (Some "d") false tt)
    [1; 1]%nat [1; 0]%nat [1; 0]%nat.
Lemma ex_crash :
  chunking 2 [1; 1]%nat [1; 0]%nat /\ in_chunk [1; 1]%nat 0 0 /\
  snd (dask_run unit ex_metric (fun r => r)
         (crash_disk 4 (fun _ => None) (fst (ex_run (fun _ => None)))) [[5]; [2]] (Some [[0]]) "euclidean" false
         (Kwargs (Some "d") false tt) [2]%nat [0]%nat [0]%nat) = Ok (DaskMatrix [[0]; [2]]) /\
  snd (ex_run (fun _ => None)) = Ok (DaskMatrix [[5]; [2]]).
Proof.
  split; [split; [reflexivity|apply perm_swap]|]. split; [split; simpl; lia|].
  assert (H5 : euclid [5] [0] = 5 /\ euclid [2] [0] = 2).
  { pose proof (euclid_col 5 2 ltac:(lra) ltac:(lra)) as H. unfold cdist in H. cbn [map] in H. injection H as A B. auto. }
  destruct H5 as [H5 H2].
  split.
  - unfold ex_run, dask_run, crash_disk, to_zarr_steps, cdist, apply_steps. cbn. rewrite H2. reflexivity.
  - unfold ex_run, dask_run, cdist. cbn. rewrite H2, H5. reflexivity.
Qed.
