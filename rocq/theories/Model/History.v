(** Sequences of calls on a WeightModel, and arrays shared between the caller and
    several models: /repo/georegression/weight_model.py:314-624. *)
From Verif.Model Require Import Base Ext Distance WeightModel Inspect.
Open Scope string_scope.
Open Scope nat_scope.
Open Scope R_scope.

Section History.
  Variable est : Type.
  Variable fit_est : nat -> matrix R -> list R -> list ext -> result est.
  Variable predict_est : est -> matrix R -> result (list R).
  Variable G : Type.
  Variable choice : G -> list nat -> nat -> G * list nat.
  Variable cpu : nat.
  Variable wm : filesystem -> list coords -> list coords -> filesystem * result weights.
  Variable permute : G -> list nat -> G * list nat.

  (** A method call with its arguments.  The other methods (importance_score_local,
      partial_dependence, local_ICE, local_ALE, global_ALE) assign no attribute that
      any method reads. *)
  Inductive call : Type :=
  | CFit (order : list nat) (X : matrix R) (y : list R) (v : option (list coords)) (given : option weights)
  | CPredictByWeight (X : matrix R) (v : option (list coords)) (given : option weights)
  | CPredictByFit (order : list nat) (X : matrix R) (v : option (list coords)) (given : option weights)
  | CImportance (repeats : nat)
  | CInteraction (buffer : nat -> nat -> nat -> R) (repeats : nat).

  (** The object, NumPy's global generator and the files. *)
  Record world : Type := World { w_state : state est; w_gen : G; w_files : filesystem }.

  (** One call of the methods modelled in WeightModel.v and Inspect.v, whether it
      returns or raises. *)
  Definition do_call (c : config) (w : world) (k : call) : world :=
    let '(World s g fs) := w in
    match k with
    | CFit order X y v given =>
      let o := fit est fit_est predict_est G choice cpu wm c order g fs s X y v given in
      World (o_state est G o) (o_gen est G o) (o_fs est G o)
    | CPredictByWeight X v given => World s g (fst (predict_by_weight est predict_est wm c fs s X v given))
    | CPredictByFit order X v given => World s g (fst (predict_by_fit est fit_est predict_est cpu wm c order fs s X v given))
    | CImportance r => let '(s', g', _) := importance_score_global est predict_est G permute c s g r in World s' g' fs
    | CInteraction buffer r => let '(s', g', _) := interaction_score_global est predict_est G permute c buffer s g r in World s' g' fs
    end.
  Definition run (c : config) (w : world) (ks : list call) : world := fold_left (do_call c) ks w.

  (** ** Shared arrays *)

  (** The caller's arrays.  [fit] keeps references: weight_model.py:339-341 [self.X = X]
      (check_X_y returns the numeric NumPy array it was given), [self.y = y],
      [self.coordinate_vector_list = coordinate_vector_list], and 348 [self.weight_matrix_ =
      weight_matrix].  The other attributes are new arrays. *)
  Record heap : Type := Heap {
    h_X : nat -> matrix R; h_y : nat -> list R; h_C : nat -> list coords; h_W : nat -> weights }.

  (** A model: its attributes, and for the four above the caller's array they are
      ([None]: the attribute is not a caller's array and is in [b_state]). *)
  Record object : Type := Object {
    b_state : state est; b_X : option nat; b_y : option nat; b_C : option nat; b_W : option nat }.

  Definition attr {A} (f : nat -> A) (r : option nat) (own : option A) : option A :=
    match r with Some a => Some (f a) | None => own end.
  (** The attributes as they read now. *)
  Definition view (h : heap) (b : object) : state est :=
    let s := b_state b in
    State est (is_fitted est s) (n_features_in est s) (n_obs est s)
      (attr (h_X h) (b_X b) (data_X est s)) (attr (h_y h) (b_y b) (data_y est s)) (attr (h_C h) (b_C b) (data_coords est s))
      (attr (h_W h) (b_W b) (weight_matrix_ est s)) (neighbour_matrix_ est s) (local_indices_ est s) (y_sample_ est s)
      (local_estimators est s) (local_predict_ est s) (llocv_score_ est s) (local_residual_ est s)
      (permutation_score_decrease_ est s) (interaction_matrix_ est s).

  Definition update {A} (f : nat -> A) (a : nat) (v : A) : nat -> A := fun b => if (b =? a)%nat then v else f b.
  Definition set_W (h : heap) (a : nat) (w : weights) : heap := Heap (h_X h) (h_y h) (h_C h) (update (h_W h) a w).

  (** weight_model.py:314-384 [fit] called with the caller's arrays [xa], [ya], [ca], [wa]:
      the references are taken at lines 339-341 and 348, the weight matrix is changed in
      place at 350-356. *)
  Definition fit_shared (c : config) (order : list nat) (g : G) (fs : filesystem) (h : heap) (b : object)
      (xa ya : nat) (ca wa : option nat) : heap * object * outcome est G :=
    let o := fit est fit_est predict_est G choice cpu wm c order g fs (view h b) (h_X h xa) (h_y h ya) (option_map (h_C h) ca) (option_map (h_W h) wa) in
    let accepted := match check_X_y (h_X h xa) (h_y h ya), ca, wa with
                    | Raise _, _, _ => false
                    | Ok _, None, None => false
                    | Ok _, _, _ => true
                    end in
    let keep_data := accepted && cache_data c in
    let weights_ref := match wa, ca with
                       | Some a, _ => Some a
                       | None, Some v => match snd (wm fs (h_C h v) (h_C h v)) with Ok _ => None | Raise _ => b_W b end
                       | None, None => b_W b
                       end in
    (match wa, o_weights est G o with Some a, Some w => set_W h a w | _, _ => h end,
     Object (o_state est G o)
       (if keep_data then Some xa else b_X b) (if keep_data then Some ya else b_y b) (if keep_data then ca else b_C b)
       (if accepted then weights_ref else b_W b),
     o).

  (** What the caller and the models do to the arrays. *)
  Inductive event : Type :=
  | EFit (model : nat) (c : config) (order : list nat) (xa ya : nat) (ca wa : option nat)
  | EWriteX (a : nat) (v : matrix R) | EWriteY (a : nat) (v : list R) | EWriteC (a : nat) (v : list coords) | EWriteW (a : nat) (v : weights).
  Record shared_world : Type := Shared { s_heap : heap; s_objects : nat -> object; s_gen : G; s_files : filesystem }.
  Definition happen (w : shared_world) (e : event) : shared_world :=
    let '(Shared h obs g fs) := w in
    match e with
    | EFit m c order xa ya ca wa =>
      let '(h', b', o) := fit_shared c order g fs h (obs m) xa ya ca wa in
      Shared h' (update obs m b') (o_gen est G o) (o_fs est G o)
    | EWriteX a v => Shared (Heap (update (h_X h) a v) (h_y h) (h_C h) (h_W h)) obs g fs
    | EWriteY a v => Shared (Heap (h_X h) (update (h_y h) a v) (h_C h) (h_W h)) obs g fs
    | EWriteC a v => Shared (Heap (h_X h) (h_y h) (update (h_C h) a v) (h_W h)) obs g fs
    | EWriteW a v => Shared (set_W h a v) obs g fs
    end.
  Definition happen_all (w : shared_world) (es : list event) : shared_world := fold_left happen es w.
  (** The attributes of a model as they read now. *)
  Definition model_now (w : shared_world) (m : nat) : state est := view (s_heap w) (s_objects w m).
  (** What the fit of an [EFit] event does. *)
  Definition fit_outcome (w : shared_world) (m : nat) (c : config) (order : list nat) (xa ya : nat) (ca wa : option nat) : outcome est G :=
    snd (fit_shared c order (s_gen w) (s_files w) (s_heap w) (s_objects w m) xa ya ca wa).
End History.
