(** The methods of the models as called with an array-like X (a NumPy array or a
    nested list): where the code reads [X.shape] or formats the estimator before
    scikit-learn's check_X_y or an estimator has converted X. *)
From Verif.Model Require Import Base Ext Csr Neighbour Distance WeightModel NumbaImpl Stacking.
Open Scope R_scope.

(** What the caller passes as X, with the numbers it holds. *)
Inductive array_like : Type := NumpyArray (m : matrix R) | NestedList (m : list (list R)).
(** check_X_y (weight_model.py:329, stacking_model.py:247) and the local estimators
    convert either. *)
Definition contents (x : array_like) : matrix R := match x with NumpyArray m => m | NestedList m => m end.
(** [X.shape]: a list has no such attribute. *)
Definition read_shape (x : array_like) : result unit :=
  match x with NumpyArray _ => Ok tt | NestedList _ => Raise AttributeError end.

(** weight_model.py:758-776 [log_before_fitting]: [X.shape] and
    [f"{self.local_estimator}"]; [shown] is the outcome of the latter.  The other
    fields are numbers, booleans or None and can always be formatted, except args
    and kwargs, which the caller chose ([shown] covers them). *)
Definition log_before_fitting (x : array_like) (shown : result unit) : result unit := read_shape x ;;; shown.

Section Calls.
  Variable est : Type.
  Variable fit_est : nat -> matrix R -> list R -> list ext -> result est.
  Variable predict_est : est -> matrix R -> result (list R).
  Variable G : Type.
  Variable choice : G -> list nat -> nat -> G * list nat.
  Variable cpu : nat.
  Variable wm : filesystem -> list coords -> list coords -> filesystem * result weights.

  (** weight_model.py:314-384 [fit], with its first statement (327). *)
  Definition fit_call (c : config) (shown : result unit) (order : list nat) (g : G) (fs : filesystem) (s : state est)
      (x : array_like) (y : list R) (v : option (list coords)) (W : option weights) : outcome est G :=
    match log_before_fitting x shown with
    | Raise e => Outcome est G s W g fs (Raise e)
    | Ok _ => fit est fit_est predict_est G choice cpu wm c order g fs s (contents x) y v W
    end.

  (** weight_model.py:386-425 [predict_by_weight]: X only goes to the local
      estimators. *)
  Definition predict_by_weight_call (c : config) (fs : filesystem) (s : state est) (x : array_like)
      (v : option (list coords)) (W : option weights) : filesystem * result (list ext) :=
    predict_by_weight est predict_est wm c fs s (contents x) v W.

  (** weight_model.py:442-457: [predict_by_fit] up to the weight matrix. *)
  Definition predict_weights (c : config) (fs : filesystem) (s : state est) (v : option (list coords)) (W : option weights)
      : filesystem * result (weights * option (list nat)) :=
    if negb (cache_data c) then (fs, Raise (PyException "Prediction by fit need cache_data set True"%string))
    else match guard_weights v W with
    | Raise e => (fs, Raise e)
    | Ok _ =>
      match W with
      | Some w => (fs, Ok (w, None))
      | None => match data_coords est s, v with
                | Some t, Some v => let '(fs', r) := wm fs t v in (fs', w <- r ;; Ok (w_transpose w))
                | _, _ => (fs, Raise TypeError)
                end
      end
    end.
  (** weight_model.py:427-467 [predict_by_fit]: 459 [N = X.shape[0]] follows the weight
      matrix. *)
  Definition predict_by_fit_call (c : config) (order : list nat) (fs : filesystem) (s : state est) (x : array_like)
      (v : option (list coords)) (W : option weights) : filesystem * result (list (list R)) :=
    let '(fs', w) := predict_weights c fs s v W in
    (fs', w <- w ;;
          read_shape x ;;;
          match data_X est s, data_y est s with
          | Some tX, Some ty =>
            r <- fit_all est fit_est predict_est cpu order tX ty (seq 0 (List.length (contents x))) (fst w) (snd w) false (Some (contents x)) (Jobs None None) ;;
            Ok (fst r)
          | _, _ => Raise TypeError
          end).
End Calls.

Section StackingCalls.
  Variable est : Type.
  Variable fit_est : nat -> matrix R -> list R -> list R -> result est.
  Variable predict_est : est -> matrix R -> result (list R).
  Variable meta : Type.
  Variable fit_meta : R -> nat -> matrix R -> list R -> list R -> result meta.
  Variable predict_meta : meta -> matrix R -> result (list R).
  Variable solve : matrix R -> list R -> result (list R).
  Variable G : Type.
  Variable seed0 : G.
  Variable choice : G -> list nat -> nat -> G * list nat.
  Variable cpu : nat.
  Variable wm : filesystem -> list coords -> list coords -> filesystem * result swts.

  (** stacking_model.py:1109-1124 [log_stacking_before_fitting] formats six scalar
      parameters, neither X nor the estimator. *)
  Definition log_stacking_before_fitting : result unit := Ok tt.
  (** stacking_model.py:231-692 [fit], with its first statement (245). *)
  Definition sfit_call (r : runtime) (c : sconfig) (g : G) (fs : filesystem) (s : sstate est meta)
      (x : array_like) (y : list R) (v : option (list coords)) (W : option swts) : soutcome est meta G :=
    match log_stacking_before_fitting with
    | Raise e => SOutcome est meta G s W g fs (Raise e)
    | Ok _ => sfit est fit_est predict_est meta fit_meta predict_meta solve G seed0 choice cpu wm r c g fs s (contents x) y v W
    end.
End StackingCalls.
