(** Vapour pressure, dew point, wet bulb and relative humidity conversions (Utilities/metutils.py), over the
    real numbers.  Masked arrays and floating-point rounding are not modelled; temperatures of -237.3 degrees (a
    division by zero) are left out by the theorems. *)
From Coq Require Import Reals ZArith Bool.
From Verif Require Import CircleModel.
Open Scope R_scope.

(** metutils.py:397-434 (the pressure rows and columns of "kPa" used here) *)
Inductive punit := KPa | HPa | PaU | Pascals | InHg | MmHg.
Definition fromKPa (u : punit) (v : R) : R :=
  match u with
  | KPa => v | HPa => v * 10 | PaU => v * 1000 | Pascals => v * 1000
  | InHg => v * (295299831 / 1000000000) | MmHg => v * (7500615613 / 1000000000)
  end.
Definition toKPa (u : punit) (v : R) : R :=
  match u with
  | KPa => v | HPa => v * (1 / 10) | PaU => v * (1 / 1000) | Pascals => v * (1 / 1000)
  | InHg => v * (3386388667 / 1000000000) | MmHg => v * (13332239 / 100000000)
  end.

(** elevToAirPr, metutils.py:21-40 *)
Definition elevToAirPr (elev : R) (u : punit) : R :=
  let ap := if rlt 0 elev then (101325 / 1000) * exp (- (1184 / 10000000) * elev) else 101325 / 1000 in
  fromKPa u ap.

(** vapPrToDewPoint, metutils.py:42-55; [None]: the logarithm is not a number or the divisor is zero. *)
Definition vapPrToDewPoint (vp : R) (u : punit) : option R :=
  let vp := toKPa u vp in
  if rlt 0 vp then
    if Req_EM_T (ln vp) (1678 / 100) then None
    else Some ((1169 / 10 + (2373 / 10) * ln vp) / (1678 / 100 - ln vp))
  else None.

(** dewPointToVapPr, metutils.py:57-70, and satVapPr, metutils.py:138-162, have the same body *)
Definition satVapPr (t : R) (u : punit) : R :=
  fromKPa u (exp ((1678 / 100 * t - 1169 / 10) / (t + 2373 / 10))).
Definition dewPointToVapPr (t : R) (u : punit) : R :=
  fromKPa u (exp ((1678 / 100 * t - 1169 / 10) / (t + 2373 / 10))).

(** wetBulbGlobeTemp, metutils.py:72-86 *)
Definition wetBulbGlobeTemp (t_dp temp : R) : R :=
  567 / 1000 * temp + 393 / 1000 * dewPointToVapPr t_dp KPa + 394 / 100.

(** wetBulbToVapPr, metutils.py:106-136 *)
Definition wetBulbToVapPr (db wb elev : R) (u : punit) : R :=
  let wb := if rlt db wb then db else wb in
  let cfA := 66 / 100000 * (1 + 115 / 100000 * wb) in
  let ap := elevToAirPr elev KPa in
  fromKPa u (satVapPr wb KPa - cfA * ap * (db - wb)).

(** wetBulbToDewPoint, metutils.py:88-104 *)
Definition wetBulbToDewPoint (db wb elev : R) : option R := vapPrToDewPoint (wetBulbToVapPr db wb elev KPa) KPa.

(** vapPrToRH, metutils.py:165-190 (over Q in NumModel) *)
Definition vapPrToRH (vp sat : R) : R :=
  let rh := if Req_EM_T sat 0 then 100 else vp / sat * 100 in
  if rlt 100 rh then 100 else if rlt rh 0 then 0 else rh.

(** wetBulbToRH, metutils.py:194-222: the vapour pressure in the default unit, the saturation pressure in kPa *)
Definition wetBulbToRH (t_db t_wb elev : R) : R :=
  vapPrToRH (wetBulbToVapPr t_db t_wb elev HPa) (satVapPr t_db KPa).

(** dewPointToRH, metutils.py:224-242; [None] is Python's None *)
Definition dewPointToRH (t_dry t_dew : R) : option R :=
  let e t := 611 / 100 * Rpower 10 ((75 / 10 * t) / (2373 / 10 + t)) in
  let rh := e t_dew / e t_dry * 100 in
  if rlt 100 rh || rlt rh 0 then None else Some rh.

(** rHToDewPoint, metutils.py:244-263 *)
Inductive dewRes := Unbound | Undefined | Dew (t : R).
Definition rHToDewPoint (rh t_dry : R) : dewRes :=
  let v := rh / 100 * satVapPr t_dry KPa in
  if rlt 0 v then
    match vapPrToDewPoint v KPa with
    | None => Undefined
    | Some t => if rlt t_dry t then Undefined else Dew t
    end
  else Unbound.

(** vapour, metutils.py:479-490 *)
Definition vapour (t : R) : R := 6112 / 1000 * exp (1767 / 100 * t / (2435 / 10 + t)).

(** dewPointToWetBulb, metutils.py:502-553: one pass of the loop on the trial temperature, the increment and the
    direction; [inl]: the loop is left *)
Definition trial (T p Tw : R) : R :=
  satVapPr Tw HPa - p * (T - Tw) * (66 / 100000) * (1 + 115 / 100000 * Tw).
Definition diff (T Td p Tw : R) : R := satVapPr Td HPa - trial T p Tw.
Definition wbState : Type := R * R * bool.   (* trial temperature, increment, upwards? *)
Definition wbStep (T Td p : R) (s : wbState) : R + wbState :=
  let '(Tw, inc, up) := s in
  let e := diff T Td p Tw in
  if rlt (5 / 100) (Rabs e) then
    let cur := negb (rlt e 0) in
    let inc' := if Bool.eqb cur up then inc else inc / 10 in
    inr (if cur then Tw + inc' else Tw - inc', inc', cur)
  else inl Tw.
Fixpoint wbRun (T Td p : R) (n : nat) (s : wbState) : option R :=
  match n with
  | O => None
  | S n' => match wbStep T Td p s with inl t => Some t | inr s' => wbRun T Td p n' s' end
  end.
(** numpy.round to three decimals; ties upwards *)
Definition round3 (x : R) : R := IZR (Int_part (1000 * x + 1 / 2)) / 1000.
(** [None]: ValueError; otherwise the result of [n] passes of the loop, if it has ended *)
Definition dewPointToWetBulb (T Td p : R) (n : nat) : option (option R) :=
  if rlt T Td then None else Some (option_map round3 (wbRun T Td p n (Td, 10, true))).
