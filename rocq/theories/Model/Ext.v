(** Extended reals: the value domain of NumPy floating-point arrays without
    rounding.  [Fin r], the two infinities and NaN, with the IEEE-754 rules for
    the special values (signed zeros are identified). *)
From Verif.Model Require Import Base.
Open Scope R_scope.

Inductive ext : Type := Fin (r : R) | PInf | NInf | NaN.

Definition einf (pos : bool) : ext := if pos then PInf else NInf.

(** Sign of an extended number; [None] for NaN. *)
Definition esign (x : ext) : option comparison :=
  match x with
  | NaN => None
  | PInf => Some Gt
  | NInf => Some Lt
  | Fin r => Some (if Rlt_dec 0 r then Gt else if Rlt_dec r 0 then Lt else Eq)
  end.

Definition eopp (x : ext) : ext :=
  match x with Fin r => Fin (- r) | PInf => NInf | NInf => PInf | NaN => NaN end.

Definition eadd (x y : ext) : ext :=
  match x, y with
  | Fin a, Fin b => Fin (a + b)
  | NaN, _ | _, NaN => NaN
  | PInf, NInf | NInf, PInf => NaN
  | PInf, _ | _, PInf => PInf
  | NInf, _ | _, NInf => NInf
  end.

Definition esub (x y : ext) : ext := eadd x (eopp y).

Definition emul (x y : ext) : ext :=
  match x, y with
  | Fin a, Fin b => Fin (a * b)
  | _, _ =>
    match esign x, esign y with
    | None, _ | _, None => NaN
    | Some Eq, _ | _, Some Eq => NaN              (* 0 * inf *)
    | Some Gt, Some Gt | Some Lt, Some Lt => PInf
    | Some Gt, Some Lt | Some Lt, Some Gt => NInf
    end
  end.

Definition ediv (x y : ext) : ext :=
  match x, y with
  | NaN, _ | _, NaN => NaN
  | Fin a, Fin b =>
    if Req_EM_T b 0 then
      (if Rlt_dec 0 a then PInf else if Rlt_dec a 0 then NInf else NaN)
    else Fin (a / b)
  | Fin _, _ => Fin 0
  | PInf, Fin b => if Rlt_dec b 0 then NInf else PInf
  | NInf, Fin b => if Rlt_dec b 0 then PInf else NInf
  | _, _ => NaN                                    (* inf / inf *)
  end.

Definition eabs (x : ext) : ext :=
  match x with Fin r => Fin (Rabs r) | PInf => PInf | NInf => PInf | NaN => NaN end.

Definition eexp (x : ext) : ext :=
  match x with Fin r => Fin (exp r) | PInf => PInf | NInf => Fin 0 | NaN => NaN end.

Definition esquare (x : ext) : ext := emul x x.
Definition ecube (x : ext) : ext := emul x (emul x x).

(** [x > y] as NumPy evaluates it (false when either is NaN). *)
Definition egtb (x y : ext) : bool :=
  match x, y with
  | NaN, _ | _, NaN => false
  | Fin a, Fin b => Rltb b a
  | PInf, PInf => false
  | PInf, _ => true
  | _, PInf => false
  | NInf, _ => false
  | Fin _, NInf => true
  end.

(** [x == 0]. *)
Definition eis_zero (x : ext) : bool :=
  match x with Fin r => Reqb r 0 | _ => false end.

Definition esum (l : list ext) : ext := fold_right eadd (Fin 0) l.
Definition eprod (l : list ext) : ext := fold_right emul (Fin 1) l.

(** Largest finite float64, the replacement of -inf in [np.nan_to_num]
    (for float32 arrays NumPy uses the float32 maximum instead; the branch is
    reached by no non-negative distance). *)
Definition float_max : R := (2 - / 2 ^ 52) * 2 ^ 1023.

(** [np.nan_to_num(x, nan=0.0, posinf=np.inf)]: NaN -> 0, +inf kept,
    -inf -> most negative finite number.  /repo/georegression/kernel.py:43-48 *)
Definition nan_to_num (x : ext) : ext :=
  match x with
  | NaN => Fin 0
  | NInf => Fin (- float_max)
  | _ => x
  end.
