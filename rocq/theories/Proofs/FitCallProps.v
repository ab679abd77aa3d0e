(** Calls with array-likes (C131). *)
From Verif.Model Require Import Base Ext Csr Distance WeightModel NumbaImpl Stacking Constructor FitCall.
From Verif.Spec Require Import ConstructorSpec.
From Verif.Proofs Require Import ConstructorProps.

Section WM.
  Context (est : Type) (fit_est : nat -> matrix R -> list R -> list ext -> result est) (predict_est : est -> matrix R -> result (list R)).
  Context (cpu : nat) (wm : filesystem -> list coords -> list coords -> filesystem * result weights).

  Lemma array_predict_by_fit c order fs s m v W :
    predict_by_fit_call est fit_est predict_est cpu wm c order fs s (NumpyArray m) v W
    = predict_by_fit est fit_est predict_est cpu wm c order fs s m v W.
  Proof.
    unfold predict_by_fit_call, predict_by_fit, predict_weights. destruct (negb (cache_data c)); [reflexivity|].
    destruct (guard_weights v W) as [u|e]; [|reflexivity]. destruct W as [w|]; [reflexivity|].
    destruct (data_coords est s) as [t|]; [|reflexivity]. destruct v as [v|]; [|reflexivity].
    destruct (wm fs t v) as [fs' [r|e]]; [|reflexivity]. cbn [bind]. destruct (w_transpose r). reflexivity.
  Qed.

  Lemma list_predict_by_fit c order fs s m v W r :
    snd (predict_by_fit_call est fit_est predict_est cpu wm c order fs s (NestedList m) v W) <> Ok r.
  Proof.
    unfold predict_by_fit_call. destruct (predict_weights est wm c fs s v W) as [fs' [w|e]]; cbn [snd bind read_shape]; discriminate.
  Qed.

  Lemma list_predict_by_fit_error c order fs s m v W w :
    cache_data c = true -> v <> None \/ W = None ->
    W = Some w \/ W = None /\ (exists t v0 u, data_coords est s = Some t /\ v = Some v0 /\ snd (wm fs t v0) = Ok u) ->
    snd (predict_by_fit_call est fit_est predict_est cpu wm c order fs s (NestedList m) v W) = Raise AttributeError.
  Proof.
    intros Hc Hg HW. unfold predict_by_fit_call.
    assert (E : exists u, snd (predict_weights est wm c fs s v W) = Ok u).
    { unfold predict_weights. rewrite Hc. cbn [negb]. destruct HW as [->|(-> & t & v0 & u & -> & -> & Hu)].
      - destruct Hg as [Hg|Hg]; [|discriminate]. destruct v; [|congruence]. eexists. reflexivity.
      - cbn [guard_weights]. destruct (wm fs t v0) as [fs' r]. cbn [snd] in Hu. subst r. eexists. reflexivity. }
    destruct E as [u E]. destruct (predict_weights est wm c fs s v W) as [fs' r]. cbn [snd] in E. subst r. reflexivity.
  Qed.
End WM.

Lemma nested_fit (obj : Type) cores c0 pos kw (d : list (string * pyval obj)) est fit_est predict_est G choice cpu wm c order (g : G) fs (s : state est) m y v W :
  c0 <> CStackingEstimator -> construct obj cores c0 pos kw = Ok d ->
  fit_call est fit_est predict_est G choice cpu wm c (repr_params obj c0 d ;;; Ok tt) order g fs s (NumpyArray m) y v W
  = Outcome est G s W g fs (Raise RuntimeError).
Proof.
  intros n H. unfold fit_call, log_before_fitting, read_shape.
  destruct (no_sklearn cores (fun v => Ok v) (fun _ _ => true) c0 pos kw d n H) as (_ & -> & _). reflexivity.
Qed.
