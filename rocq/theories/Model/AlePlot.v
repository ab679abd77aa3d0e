(** Model of visualize/ale.py [plot_ale] and of the curves that
    simulation/simulation_for_ale.py draws with it.  Colours, fonts, legends and
    the file written are not modelled. *)
From Verif.Model Require Import Base Ext Simulation WeightModel Ale.
Open Scope nat_scope.
Open Scope R_scope.

(** ** numpy.histogram with an integer number of bins, as called by ax.hist *)

(** Its range: the values' own, widened when they are all equal. *)
Definition hist_range (x : list R) : R * R :=
  match x with
  | [] => (0, 1)
  | v :: vs =>
    let lo := fold_left Rmin vs v in
    let hi := fold_left Rmax vs v in
    if Req_EM_T lo hi then (lo - / 2, hi + / 2) else (lo, hi)
  end.
(** The bin of a value; the largest value belongs to the last bin.  NumPy then
    moves values that rounding put beside their bin, which changes nothing here. *)
Definition hist_index (bins : nat) (lo hi v : R) : Z :=
  let i := trunc ((v - lo) / (hi - lo) * INR bins) in
  if Z.eqb i (Z.of_nat bins) then (i - 1)%Z else i.
Definition hist_edge (bins : nat) (lo hi : R) (k : nat) : R := lo + INR k * ((hi - lo) / INR bins).

(** A figure: the line drawn, and the bars with their left and right ends. *)
Record ale_figure := AleFigure { line : list (R * R); bars : list (R * R * nat) }.

(** ax.hist(x, bins=bins, density=False) *)
Definition histogram (bins : nat) (x : list R) : list (R * R * nat) :=
  let '(lo, hi) := hist_range x in
  map (fun k => (hist_edge bins lo hi k, hist_edge bins lo hi (S k),
                 List.length (filter (fun v => Z.eqb (hist_index bins lo hi v) (Z.of_nat k)) x))) (seq 0 bins).

(** visualize/ale.py:9-26 [plot_ale]: the axis of the bars is labelled "Density". *)
Definition plot_ale (fvals ale x : list R) : result ale_figure :=
  if negb (List.length fvals =? List.length ale)%nat then Raise ValueError
  else Ok (AleFigure (combine fvals ale) (histogram 10 x)).

(** simulation_for_ale.py:158-166, simulation_data_fitting.py:77-80: the line
    labelled "True value", where [beta] is the coefficient and [x2_average] the
    centre of the second feature at the location. *)
Definition true_value (beta x2_average x : R) : R :=
  beta * (1 / 2) * ((x2_average + 2) ^ 2 - (x2_average - 2) ^ 2) * (1 / 4) * x.

(** simulation_for_ale.py:168-173: mean prediction with the first feature at the
    least value of the neighbours; [x2_base] is the random sample. *)
Definition base_value (predictor : matrix R -> result (list R)) (x1_base : R) (x2_base : list R) : result R :=
  p <- predictor (map (fun b => [x1_base; b]) x2_base) ;; Ok (mean p).
(** 175-178. *)
Definition shifted (ale : list R) (base_value_real : R) : result (list R) :=
  a0 <- getitem ale 0 ;; Ok (map (fun v => v - (a0 - base_value_real)) ale).
