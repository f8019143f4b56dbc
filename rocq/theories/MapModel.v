(** Model of the numbers behind the maps: contour levels, colour map,
    graticule and arrangement of the figures (PlotInterface/maps.py), and the
    length of the scale bar (PlotInterface/scalebar.py).  Drawing itself is
    not modelled. *)
From Coq Require Import Reals ZArith QArith Qround List Bool.
From Verif Require Import Base CircleModel CellModel.
Import ListNotations.
Local Open Scope R_scope.

(** [int(np.floor(np.log10(x)))] for x > 0. *)
Definition exponent10 (x : R) : Z := Int_part (ln x / ln 10).
(** [10.0**e]. *)
Definition pow10 (e : Z) : R := Rpower 10 (IZR e).
(** [np.ceil]. *)
Definition rceil (x : R) : Z := (- Int_part (- x))%Z.

(** [np.arange(a, b, step)] for step > 0. *)
Definition rarange (a b step : R) : list R :=
  map (fun k => a + INR k * step) (seq 0 (Z.to_nat (rceil ((b - a) / step)))).

Inductive lvl_error := EqualValues | NoLogarithm | NoStep.

(** The spacings tried, PlotInterface/maps.py:60. *)
Definition levelOpts : list R := [5; 1; 1 / 2; 1 / 4; 1 / 5; 1 / 10].

(** levels, PlotInterface/maps.py:29-68.  The type checks are not modelled:
    both arguments are Python floats.  NoLogarithm: the logarithm of a
    number that is not positive is NaN or minus infinity, which [int]
    refuses.  NoStep: the list of admissible spacings is empty and [0]
    raises IndexError. *)
Definition levels (maxval minval : R) : (list R * Z) + lvl_error :=
  if Req_EM_T maxval minval then inr EqualValues else
  let hi := if rlt maxval minval then minval else maxval in
  let lo := if rlt maxval minval then maxval else minval in
  if rlt 0 hi then
    let e := exponent10 hi in
    let significand := (hi - lo) * pow10 (- e) in
    match find (fun o => rlt 7 (significand / o)) levelOpts with
    | Some step => inl (rarange lo hi (step * pow10 e), e)
    | None => inr NoStep
    end
  else inr NoLogarithm.

(** Whether selectColormap takes the diverging colour map,
    PlotInterface/maps.py:99-101, for the smallest and largest level. *)
Definition diverging (mx mn percent : R) : bool :=
  rlt (Rabs ((Rabs mx - Rabs mn) / (mx - mn))) percent.

(** addGraticule, PlotInterface/maps.py:187-200: the spacing, and the lines
    along one axis. *)
Definition qarange (a b step : Q) : list Q :=
  map (fun k => a + inject_Z (Z.of_nat k) * step)%Q
      (seq 0 (Z.to_nat (Qceiling ((b - a) / step)))).
Definition grStep (dd : Q) : Q :=
  match find (fun o => Qle_bool 5 (dd / o)) [30; 10; 5; 4; 2]%Q with
  | Some o => o
  | None => 2%Q
  end.
Definition grLines (lo hi dl : Q) : list Q :=
  qarange (inject_Z (Qfloor (lo / dl)) * dl)%Q (hi + dl)%Q dl.

(** The arrangement of n figures, PlotInterface/maps.py:285-287 and
    PlotInterface/curves.py:113-115: [int(np.ceil(np.sqrt(n)))] rows and
    [int(np.ceil(n / rows))] columns.  None: ZeroDivisionError for n = 0. *)
Definition ceilSqrt (n : nat) : nat := Nat.sqrt_up n.
Definition arrange (n : nat) : option (nat * nat) :=
  let rows := ceilSqrt n in
  match rows with
  | O => None
  | _ => Some (rows, (n + rows - 1) / rows)%nat
  end.

(** _setlength, PlotInterface/scalebar.py:132-143, after the length has been
    rounded to one significant digit: it is d * 10^k with 1 <= d <= 10.
    scale_number subtracts 10^k until the first character of the number is
    1, 2 or 5.  For k >= 0 the first character of d * 10^k is the first digit
    of d.  For -4 <= k < 0 the number is printed with a leading '0' and, once
    negative, with a leading '-', so in exact arithmetic the recursion never
    ends (None, a RecursionError); in floating point a rounding error near
    zero may end it with the length 0.  Smaller k, maps of less than half a
    metre, are not modelled. *)
Fixpoint scaleDigit (d : nat) : option nat :=
  match d with
  | O => None
  | S d' => match d with
            | 1 | 2 | 5 | 10 => Some d
            | _ => scaleDigit d'
            end
  end%nat.
Definition scaleLength (d : nat) (k : Z) : option (nat * Z) :=
  if (k <? 0)%Z then None else option_map (fun d' => (d', k)) (scaleDigit d).
