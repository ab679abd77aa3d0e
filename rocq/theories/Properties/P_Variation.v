(** Property C186: the experiment on the variation of stacking scores. *)
From Coq Require Import Lra Lia.
From Verif.Model Require Import Base Ext Csr Neighbour Distance WeightModel NumbaImpl Stacking StackingHistory Variation.
From Verif.Spec Require Import KernelSpec NeighbourSpec StackingSpec StackingHistorySpec VariationSpec.
From Verif.Proofs Require Import StackingExamples VariationProps VariationSame VariationExamples.
Open Scope string_scope.
Open Scope nat_scope.
Open Scope R_scope.

(** C186: an experiment that returns has appended one line to the file.  The line holds
    the info given, the two scores of each of ten fits of either model, done one after
    the other on the same objects, and mean, standard deviation, maximum and minimum of
    the ten stacking scores. *)
Theorem C186_line : forall I world fit_once (w w' : world) file file' info line,
  script_info info -> variation I world fit_once w file info = (w', file', Ok line) ->
  file' = (file ++ [line])%list /\ (forall k v, In (k, v) info -> dict_get line k = Some v) /\
  exists fits fits' w1, successive fit_once false w fits w1 /\ successive fit_once true w1 fits' w' /\
    List.length fits = 10%nat /\ List.length fits' = 10%nat /\ reports false fits line /\ reports true fits' line.
Proof. intros. eapply finished; eauto. Qed.
Print Assumptions C186_line.

(** C186: whatever the ten scores, the numbers reported fit together: the mean lies
    between minimum and maximum, the deviation is at most half their distance, its
    square at most the product of the distances of the mean from both, and it is 0
    exactly if all scores are the same. *)
Theorem C186_spread : forall x mu s m M, is_mean x mu -> is_deviation x s -> greatest x M -> least x m ->
  m <= mu <= M /\ s <= (M - m) / 2 /\ s ^ 2 <= (M - mu) * (mu - m) /\ (s = 0 <-> forall v, In v x -> v = mu).
Proof. intros. apply spread; assumption. Qed.
Print Assumptions C186_spread.

(** C186: relied on: what was computed before a failure is kept.  False: if one of the
    twenty fits raises, the file is left as it was. *)
Theorem C186_failure_refuted : forall I world fit_once (w w' : world) file file' info e,
  variation I world fit_once w file info = (w', file', Raise e) -> file' = file.
Proof. intros. eapply unfinished; eauto. Qed.
Print Assumptions C186_failure_refuted.

(** C186: relied on: Stacking_Time and Stacking_Extra_Time are the time of the ten fits,
    or of a fit on average.  False: they are the duration of the tenth fit alone, however
    long the others took. *)
Theorem C186_time_refuted : forall I est fit_est predict_est meta fit_meta predict_meta solve G seed0 choice cpu wm rt rate X y points sec
    (w w' : script_world est meta G) file file' info line,
  v_fits est meta G w = 0%nat -> script_info info ->
  variation I _ (script_fit est fit_est predict_est meta fit_meta predict_meta solve G seed0 choice cpu wm rt sec rate X y points) w file info = (w', file', Ok line) ->
  dict_get line "Stacking_Time" = Some (Num (Fin (sec 9%nat))) /\ dict_get line "Stacking_Extra_Time" = Some (Num (Fin (sec 19%nat))).
Proof. intros. eapply time_of_last; eauto. Qed.
Print Assumptions C186_time_refuted.

(** C186: relied on: the spread of the ten scores shows how much the random choice of the
    left-out neighbours matters.  False: with learners that have no randomness of their
    own, the ten base scores are the same and so are the ten stacking scores, and the
    standard deviation is 0, whatever the state of the global generator, the schedules
    of the parallel loops and the earlier uses of the objects: every fit draws the same
    left-out neighbours. *)
Theorem C186_sampling_refuted : forall I est fit_est predict_est meta fit_meta predict_meta solve G seed0 choice cpu wm rt rate X y points sec w W
    (a a' : script_world est meta G) file file' info line,
  let n := List.length (map2 (fun x p => (x ++ p)%list) X points) in
  (forall extra k, fit_est extra k = fit_est extra 0%nat) ->
  valid_choice choice -> (0 < cpu)%nat -> (forall k, valid_runtime (rt k) n (Some cpu)) -> 0 <= rate ->
  wm [points] [points] = Ok w -> holds_real w W n -> script_info info ->
  variation I _ (script_fit est fit_est predict_est meta fit_meta predict_meta solve G seed0 choice cpu wm rt sec rate X y points) a file info = (a', file', Ok line) ->
  forall extra, exists base stacking,
    (forall i, (i < 10)%nat -> dict_get line (prefix extra ++ "Base_" ++ digit i) = Some (Num base) /\
                               dict_get line (prefix extra ++ digit i) = Some (Num stacking)) /\
    (forall x, stacking = Fin x -> dict_get line (prefix extra ++ "Std") = Some (Num (Fin 0))).
Proof. intros. eapply no_spread with (w := w) (W := W); eauto. Qed.
Print Assumptions C186_sampling_refuted.

(** The script's models with learners without randomness, half the neighbours left out of
    three: the experiment finishes and meets the hypotheses. *)
Example C186_example :
  exists w' file' line,
    variation nat _ (script_fit R va_fit ex_predict R ex_fit_meta ex_predict_meta ex_solve nat 0%nat rot_choice 4 va_wm va_rt va_seconds (1 / 2) va_X va_y va_points)
      va_world [] va_info = (w', file', Ok line) /\
    script_info va_info /\ v_fits R R nat va_world = 0%nat /\
    (forall extra k, va_fit extra k = va_fit extra 0%nat) /\ valid_choice rot_choice /\
    (forall k, valid_runtime (va_rt k) (List.length (map2 (fun x p => (x ++ p)%list) va_X va_points)) (Some 4%nat)) /\
    va_wm [va_points] [va_points] = Ok (SDense (repeat (repeat 1 3) 3)) /\
    holds_real (SDense (repeat (repeat 1 3) 3)) (repeat (repeat 1 3) 3) (List.length (map2 (fun x p => (x ++ p)%list) va_X va_points)) /\
    dict_get line "Stacking_Time" = Some (Num (Fin (INR 9))).
Proof.
  destruct va_finished as (w' & file' & line & E). exists w', file', line. split; [exact E|]. split; [exact va_script_info|]. split; [reflexivity|].
  split; [reflexivity|]. split; [exact rot_choice_valid|]. split; [exact va_runtime|]. split; [reflexivity|]. split; [exact va_holds|].
  refine (proj1 (C186_time_refuted _ _ _ _ _ _ _ _ _ _ _ _ _ _ _ _ _ _ va_seconds va_world w' [] file' va_info line _ va_script_info E)). reflexivity.
Qed.

(** Fits whose scores differ finish too, and one that fails in the second round leaves
    nothing. *)
Example C186_example_differ :
  (exists w' file' line, variation nat nat vb_fit 0%nat [] va_info = (w', file', Ok line)) /\
  variation nat nat vc_fit 0%nat [] va_info = (14%nat, [], Raise ValueError) /\
  is_mean [1; 2; 3] 2 /\ is_deviation [1; 1; 3; 3] 1 /\ greatest [1; 2; 3] 3 /\ least [1; 2; 3] 1.
Proof.
  split; [eexists _, _, _; reflexivity|]. split; [reflexivity|]. unfold is_deviation, is_mean, greatest, least, Rsum. cbn.
  split; [lra|]. split; [split; [lra|]; intros mu H; assert (mu = 2) as -> by lra; lra|].
  split; (split; [tauto|]; intros v [<-|[<-|[<-|[]]]]; lra).
Qed.
