(** Model of the parameter search of the experiment scripts
    (/repo/georegression/simulation/simulation_for_fitting.py:850-1006
    [test_models, test_GRF, test_stacking, test_GWR]; the same text in
    simulation_for_robust.py:894-1082 and, but for the data that [test_GRF] and
    [test_GWR] fit, in simulation_for_data_size.py:292-448). *)
From Verif.Model Require Import Base Ext.
Open Scope nat_scope.
Open Scope list_scope.

Inductive family := Stacking | GRF | GWR.

Section Grid.
  (** Neighbour counts, leave-out rates, the tags (count, func, coef), random state. *)
  Variables count rate tag G : Type.

  (** One dict of the results: its parameters, [use_x_plus], the score that is compared
      and, for stacking, the score of the base learners. *)
  Record entry := { e_count : count; e_rate : option rate; e_plus : bool; e_score : ext; e_base : option ext }.
  (** The dict after [params["count"] = ...] etc., as one line of a file. *)
  Definition line : Type := (entry * tag)%type.

  (** Constructing and fitting a model on the data with ([true]) or without the
      coordinates as features: [llocv_score_], or [(llocv_score_, llocv_stacking_)]. *)
  Variable weight_fit : family -> G -> bool -> count -> G * result ext.
  Variable stacking_fit : G -> bool -> count -> rate -> G * result (ext * ext).

  (** The loops: one fit after the other, an exception ends the search. *)
  Fixpoint each {A} (job : G -> A -> G * result entry) (g : G) (l : list A) : G * result (list entry) :=
    match l with
    | [] => (g, Ok [])
    | a :: l =>
      let '(g, r) := job g a in
      match r with
      | Raise x => (g, Raise x)
      | Ok e => let '(g, rs) := each job g l in (g, es <- rs ;; Ok (e :: es))
      end
    end.

  (** [for use_x_plus in [True, False]: for neighbour_count in ...]. *)
  Definition grid (counts : list count) : list (bool * count) :=
    map (pair true) counts ++ map (pair false) counts.
  Definition grid_rates (counts : list count) (rates : list rate) : list (bool * count * rate) :=
    flat_map (fun p => map (pair p) rates) (grid counts).

  (** simulation_for_fitting.py:897-926 [test_GRF] and 976-1006 [test_GWR]; [data] tells
      which data the two branches fit: [if use_x_plus: fit(X_plus) else: fit(X)] here,
      [fit(X_plus)] in both branches of simulation_for_data_size.py:355-358, 434-437. *)
  Definition test_weight (f : family) (data : bool -> bool) (g : G) (counts : list count) : G * result (list entry) :=
    each (fun g p => let '(plus, n) := p in
      let '(g, r) := weight_fit f g (data plus) n in
      (g, s <- r ;; Ok {| e_count := n; e_rate := None; e_plus := plus; e_score := s; e_base := None |})) g (grid counts).
  Definition data_as_labelled (plus : bool) : bool := plus.
  Definition data_always_plus (plus : bool) : bool := true.

  (** simulation_for_fitting.py:929-973 [test_stacking]. *)
  Definition test_stacking (g : G) (counts : list count) (rates : list rate) : G * result (list entry) :=
    each (fun g p => let '(plus, n, q) := p in
      let '(g, r) := stacking_fit g plus n q in
      (g, s <- r ;; Ok {| e_count := n; e_rate := Some q; e_plus := plus; e_score := snd s; e_base := Some (fst s) |})) g (grid_rates counts rates).

  (** Python's [max(l, key=...)]: the first element no later one exceeds. *)
  Definition max_entry (l : list entry) : result entry :=
    match l with
    | [] => Raise ValueError
    | e :: l => Ok (fold_left (fun best e => if egtb (e_score e) (e_score best) then e else best) l e)
    end.

  (** simulation_params.jsonl and simulation_param_best.jsonl, opened for appending. *)
  Record files := { params_file : list line; best_file : list line }.

  (** simulation_for_fitting.py:850-894 [test_models]; printing left out but for the
      exception of [max]. *)
  Definition test_models (data : bool -> bool) (g : G) (fs : files) (stacking_counts : list count) (rates : list rate)
      (grf_counts gwr_counts : list count) (t : tag) : G * files * result unit :=
    match test_stacking g stacking_counts rates with
    | (g, Raise x) => (g, fs, Raise x)
    | (g, Ok st) =>
      match test_weight GRF data g grf_counts with
      | (g, Raise x) => (g, fs, Raise x)
      | (g, Ok gf) =>
        match test_weight GWR data g gwr_counts with
        | (g, Raise x) => (g, fs, Raise x)
        | (g, Ok gw) =>
          let tagged := map (fun e => (e, t)) in
          let fs := {| params_file := params_file fs ++ tagged st ++ tagged gf ++ tagged gw; best_file := best_file fs |} in
          match (a <- max_entry st ;; b <- max_entry gf ;; c <- max_entry gw ;; Ok [a; b; c]) with
          | Raise x => (g, fs, Raise x)
          | Ok bests => (g, {| params_file := params_file fs; best_file := best_file fs ++ tagged bests |}, Ok tt)
          end
        end
      end
    end.
End Grid.
