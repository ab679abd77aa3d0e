(** Model of /repo/georegression/simulation/simulation_for_STST_variation.py:21-100
    [fit_models]: two stacking models, each fitted ten times to the same data. *)
From Verif.Model Require Import Base Ext Csr Neighbour Distance WeightModel NumbaImpl Stacking StackingHistory.
Open Scope string_scope.
Open Scope nat_scope.
Open Scope R_scope.

(** Values of the dict written to the file: numbers, and whatever [info] holds. *)
Inductive value (I : Type) : Type :=
| Num (x : ext)
| Info (i : I).
Arguments Num {I} x.
Arguments Info {I} i.

(** A Python dict with string keys: [d[k] = v], lookup, and [{**d, **e}]. *)
Definition dict (I : Type) : Type := list (string * value I).
Fixpoint dict_set {I} (d : dict I) (k : string) (v : value I) : dict I :=
  match d with
  | [] => [(k, v)]
  | (k', v') :: d => if String.eqb k' k then (k, v) :: d else (k', v') :: dict_set d k v
  end.
Fixpoint dict_get {I} (d : dict I) (k : string) : option (value I) :=
  match d with
  | [] => None
  | (k', v) :: d => if String.eqb k' k then Some v else dict_get d k
  end.
Definition dict_update {I} (d e : dict I) : dict I := fold_left (fun d kv => dict_set d (fst kv) (snd kv)) e d.

(** [np.mean], [np.std], [np.max], [np.min] of a non-empty list of scores.  A score is a
    number or NaN (see [r2_score]), and a NaN makes all four NaN. *)
Fixpoint numbers (l : list ext) : option (list R) :=
  match l with
  | [] => Some []
  | Fin x :: l => option_map (cons x) (numbers l)
  | _ => None
  end.
Definition variance (l : list R) : R := mean (map (fun x => (x - mean l) * (x - mean l)) l).
Definition of_numbers (f : list R -> R) (l : list ext) : ext :=
  match numbers l with Some r => Fin (f r) | None => NaN end.
Definition np_mean : list ext -> ext := of_numbers mean.
Definition np_std : list ext -> ext := of_numbers (fun l => sqrt (variance l)).
Definition np_max : list ext -> ext := of_numbers (fun l => fold_left Rmax l (hd 0 l)).
Definition np_min : list ext -> ext := of_numbers (fun l => fold_left Rmin l (hd 0 l)).

(** [f"{i}"] for the numbers of the repeats. *)
Definition digit (i : nat) : string :=
  nth i ["0"; "1"; "2"; "3"; "4"; "5"; "6"; "7"; "8"; "9"] "".

(** The keys of the two models. *)
Definition prefix (extra : bool) : string := if extra then "Stacking_Extra_" else "Stacking_".

Section Variation.
  Variable I : Type.
  (** Everything a fit reads or changes besides its arguments. *)
  Variable world : Type.
  (** Fitting one of the two models: [llocv_score_], [llocv_stacking_] and the seconds it took. *)
  Variable fit_once : bool -> world -> world * result (ext * ext * R).

  (** Lines 47-60 and 77-90: [n] fits one after the other. *)
  Fixpoint fit_times (extra : bool) (n : nat) (w : world) : world * result (list (ext * ext * R)) :=
    match n with
    | O => (w, Ok [])
    | S n =>
      let '(w, r) := fit_once extra w in
      match r with
      | Raise e => (w, Raise e)
      | Ok f => let '(w, rs) := fit_times extra n w in (w, fs <- rs ;; Ok (f :: fs))
      end
    end.

  (** Lines 57-59 and 87-89, for the repeats from [i] on. *)
  Fixpoint note_fits (extra : bool) (i : nat) (fits : list (ext * ext * R)) (d : dict I) : dict I :=
    match fits with
    | [] => d
    | (base, stacking, seconds) :: fits =>
      let d := dict_set d (prefix extra ++ "Base_" ++ digit i) (Num base) in
      let d := dict_set d (prefix extra ++ digit i) (Num stacking) in
      let d := dict_set d (prefix extra ++ "Time") (Num (Fin seconds)) in
      note_fits extra (S i) fits d
    end.
  (** Lines 62-65 and 92-95. *)
  Definition note_spread (extra : bool) (scores : list ext) (d : dict I) : dict I :=
    let d := dict_set d (prefix extra ++ "Mean") (Num (np_mean scores)) in
    let d := dict_set d (prefix extra ++ "Std") (Num (np_std scores)) in
    let d := dict_set d (prefix extra ++ "Max") (Num (np_max scores)) in
    dict_set d (prefix extra ++ "Min") (Num (np_min scores)).
  Definition score_of (f : ext * ext * R) : ext := snd (fst f).

  Definition repeats : nat := 10.

  (** Lines 21-100 from the first constructor on; the constructors only store their
      arguments and printing is left out.  The file is opened for appending. *)
  Definition variation (w : world) (file : list (dict I)) (info : dict I) : world * list (dict I) * result (dict I) :=
    match fit_times false repeats w with
    | (w, Raise e) => (w, file, Raise e)
    | (w, Ok fits) =>
      match fit_times true repeats w with
      | (w, Raise e) => (w, file, Raise e)
      | (w, Ok fits') =>
        let d := note_spread false (map score_of fits) (note_fits false 0 fits []) in
        let d := note_spread true (map score_of fits') (note_fits true 0 fits' d) in
        let d := dict_update d info in
        (w, (file ++ [d])%list, Ok d)
      end
    end.
End Variation.

Section Fits.
  (** The learners of the two models; their own randomness shows as a dependence on the
      number of fits done before. *)
  Variable est : Type.
  Variable fit_est : bool -> nat -> nat -> matrix R -> list R -> list R -> result est.
  Variable predict_est : est -> matrix R -> result (list R).
  Variable meta : Type.
  Variable fit_meta : R -> nat -> matrix R -> list R -> list R -> result meta.
  Variable predict_meta : meta -> matrix R -> result (list R).
  Variable solve : matrix R -> list R -> result (list R).
  Variable G : Type.
  Variable seed0 : G.
  Variable choice : G -> list nat -> nat -> G * list nat.
  Variable cpu : nat.
  (** weight_matrix_from_points with the arguments of the constructors, no cache file. *)
  Variable wm : list coords -> list coords -> result swts.
  (** Schedules and duration of each fit. *)
  Variable rt : nat -> runtime.
  Variable seconds : nat -> R.

  (** The two objects, the global generator, the files, the number of fits so far. *)
  Record script_world : Type := SW {
    v_object : bool -> sstate est meta;
    v_gen : G;
    v_files : filesystem;
    v_fits : nat
  }.

  (** StackingWeightModel(..., neighbour_count=..., neighbour_leave_out_rate=rate) with
      the defaults otherwise (lines 39-45, 67-73; stacking_model.py:168-193). *)
  Definition script_config (rate : R) : sconfig := SConfig true None false None None 10 (Some rate) None None None false.

  (** Lines 49-53 and 79-83: [model.fit(X_plus, y, [points])], X_plus with the coordinates
      as further columns (line 32), and the two attributes read afterwards. *)
  Definition script_fit (rate : R) (X : matrix R) (y : list R) (points : coords) (extra : bool) (w : script_world)
    : script_world * result (ext * ext * R) :=
    let X_plus := map2 (fun x p => (x ++ p)%list) X points in
    let k := v_fits w in
    let o := sfit est (fit_est extra k) predict_est meta fit_meta predict_meta solve G seed0 choice cpu (fun fs s t => (fs, wm s t))
               (rt k) (script_config rate) (v_gen w) (v_files w) (v_object w extra) X_plus y (Some [points]) None in
    let w' := SW (fun e => if Bool.eqb e extra then so_state est meta G o else v_object w e) (so_gen est meta G o) (so_fs est meta G o) (S k) in
    (w', so_result est meta G o ;;;
         match ss_llocv_score est meta (so_state est meta G o), ss_llocv_stacking est meta (so_state est meta G o) with
         | Some a, Some b => Ok (a, b, seconds k)
         | _, _ => Raise AttributeError
         end).
End Fits.
