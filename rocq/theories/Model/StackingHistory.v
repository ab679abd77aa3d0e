(** Sequences of calls on a StackingWeightModel:
    /repo/georegression/stacking_model.py:231-692 [fit] and 695-1107 [predict_by_fit]. *)
From Verif.Model Require Import Base Ext Csr Neighbour Distance WeightModel NumbaImpl Stacking StackingPredict.
Open Scope string_scope.
Open Scope nat_scope.
Open Scope R_scope.

Section StackingHistory.
  Variable est : Type.
  Variable fit_est : nat -> matrix R -> list R -> list R -> result est.
  Variable predict_est : est -> matrix R -> result (list R).
  Variable meta : Type.
  Variable fit_meta : R -> nat -> matrix R -> list R -> list R -> result meta.
  Variable predict_meta : meta -> matrix R -> result (list R).
  Variable solve : matrix R -> list R -> result (list R).
  Variable G : Type.
  Variable seed0 : G.
  Variable choice : G -> list nat -> nat -> G * list nat.
  Variable cpu : nat.
  Variable wm : filesystem -> list coords -> list coords -> filesystem * result swts.

  (** A new object (stacking_model.py:171-229 [__init__]): only cache_estimator among
      the attributes of [sstate] is assigned. *)
  Definition new_stacking (cache_estimator : bool) : sstate est meta :=
    SState est meta None None None None None cache_estimator None None None None None None None None None None None None.

  (** A method call with its arguments and the schedule it meets. *)
  Inductive scall : Type :=
  | SFit (r : runtime) (X : matrix R) (y : list R) (v : option (list coords)) (given : option swts)
  | SPredict (r : runtime) (X : matrix R) (y : list R) (v : list coords) (Xp : matrix R) (vp : list coords).

  (** The object, NumPy's global generator and the files. *)
  Record sworld : Type := SWorld { sw_state : sstate est meta; sw_gen : G; sw_files : filesystem }.

  (** One call, whether it returns or raises (stacking_model.py:231-692, 695-1107). *)
  Definition do_scall (c : sconfig) (w : sworld) (k : scall) : sworld :=
    let '(SWorld s g fs) := w in
    match k with
    | SFit r X y v given =>
      let o := sfit est fit_est predict_est meta fit_meta predict_meta solve G seed0 choice cpu wm r c g fs s X y v given in
      SWorld (so_state est meta G o) (so_gen est meta G o) (so_fs est meta G o)
    | SPredict r X y v Xp vp =>
      let '(s', fs', _) := spredict est fit_est predict_est meta fit_meta predict_meta cpu wm r c fs s X y v Xp vp in
      SWorld s' g fs'
    end.
  Definition srun (c : sconfig) (w : sworld) (ks : list scall) : sworld := fold_left (do_scall c) ks w.
End StackingHistory.
