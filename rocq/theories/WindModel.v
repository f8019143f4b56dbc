(** Radial wind and pressure profiles and the surface wind models over the reals
    (wind/vmax.py, wind/windmodels.py, wind/windmodels.f90, PressureInterface/pressureProfile.py).
    Arrays are modelled at one grid point; pressures are in Pa unless stated, radii in metres for
    the wind models and in kilometres for the pressure profile as in the code. *)
From Coq Require Import Reals Lra.
From Verif Require Import CircleModel.
Open Scope R_scope.

(** numpy.sign *)
Definition rsign (x : R) : R := if rlt x 0 then -1 else if rlt 0 x then 1 else 0.
(** Fortran SIGN(a, b): |a| with the sign of b, +|a| for b = 0 *)
Definition fsign (a b : R) : R := if rlt b 0 then - Rabs a else Rabs a.

(** metutils.py:362-375; numpy.radians is multiplication with pi/180 *)
Definition coriolis (lat : R) : R := 2 * (2 * PI / 86400) * sin (lat * PI / 180).

(** * Wind-pressure relations *)
Inductive vtype := Willoughby | Holland | Atkinson | OtherType.
(** a result, a raised exception, or numpy's nan *)
Inductive wres := WOk (x : R) | WValueError | WNotImplemented | WNan.

(** the implicit conversion of pressures below 10000 from hPa to Pa: vmax.py:82-86, 127-128,
    windmodels.py:72-87, 164-172 *)
Definition toPa (p : R) : R := if rlt p 10000 then p * 100 else p.
(** numpy's power with a positive exponent *)
Definition npow (x y : R) : option R :=
  if rlt 0 x then Some (Rpower x y) else if rlt x 0 then None else Some 0.
(** numpy's sqrt *)
Definition nsqrt (x : R) : wres := if rlt x 0 then WNan else WOk (sqrt x).
Definition scaleW (k : R) (w : wres) : wres := match w with WOk x => WOk (k * x) | e => e end.
Definition ofPow (k : R) (o : option R) : wres := match o with Some x => WOk (k * x) | None => WNan end.

(** vmax, vmax.py:59-119 *)
Definition vmax (pCentre pEnv : R) (t : vtype) (beta rho : R) : wres :=
  let pC := toPa pCentre in
  let pE := toPa pEnv in
  if rlt pE pC then WValueError else
  let dP := pE - pC in
  match t with
  | Willoughby => scaleW (6252 / 10000) (nsqrt dP)
  | Holland => nsqrt (beta * dP / (exp 1 * rho))
  | Atkinson => ofPow (304 / 100) (npow (1010 - pC * (1 / 100)) (644 / 1000))
  | OtherType => WNotImplemented
  end.

(** pDiff, vmax.py:121-142 *)
Definition pDiff (vMax pEnv : R) (t : vtype) (beta rho : R) : wres :=
  let pE := toPa pEnv in
  match t with
  | Willoughby => WOk (pE - (vMax / (6252 / 10000)) ^ 2)
  | Holland => WOk (pE - rho * exp 1 * vMax ^ 2 / beta)
  | Atkinson => match npow (vMax / (304 / 100)) (1 / (644 / 1000)) with
                | Some d => WOk (pE - d * 100) | None => WNan end
  | OtherType => WNotImplemented
  end.

(** * Pressure profile (pressureProfile.py) *)
(** lines 146-164; the compiled subroutine pressureProfile.f90:23-25 is the same expression.
    The radius is positive: makeGrid replaces zero distances by 1e-30 (maputils.py:529). *)
Definition prsHolland (pc dP rMax beta r : R) : R := pc + dP * exp (- Rpower (rMax / r) beta).
(** lines 166-181 *)
Definition prsWilloughbyBeta (vMax rMax lat : R) : R :=
  10036 / 10000 + 173 / 10000 * vMax - 313 / 1000 * ln rMax + 87 / 10000 * Rabs lat.
Definition prsWilloughby (pc pe rMax lat r : R) : wres :=
  match vmax pc pe Willoughby (13 / 10) (115 / 100) with
  | WOk v => WOk (prsHolland pc (pe - pc) rMax (prsWilloughbyBeta v rMax lat) r)
  | e => e end.
(** lines 183-189 *)
Definition prsSchloemer (pc dP rMax r : R) : R := prsHolland pc dP rMax 1 r.
(** lines 203-207; also windmodels.py:606-613 and 679-685 *)
Definition dp2of (dP : R) : R :=
  if rlt dP 1500 then dP / 1500 * (800 + (dP - 800) / 2000) else 800 + (dP - 800) / 2000.
(** lines 208-220; [None] is the default of beta1 and beta2 *)
Definition orElse (o : option R) (d : R) : R := match o with Some x => x | None => d end.
Definition prsDouble (pc dP rMax rMax2 : R) (beta1 beta2 : option R) (r : R) : R :=
  let dp2 := dp2of dP in
  let dp1 := dP - dp2 in
  let b1 := orElse beta1 (73 / 10 - pc / 16000) in
  let b2 := orElse beta2 (72 / 10 - pc / 16000) in
  pc + dp1 * exp (- Rpower (rMax / r) b1) + dp2 * exp (- Rpower (rMax2 / r) b2).
(** lines 254-260 *)
Definition clamp (b : R) : R := if rlt b (8 / 10) then 8 / 10 else if rlt (22 / 10) b then 22 / 10 else b.
Definition prsPowellBeta (lat rMax : R) : R :=
  clamp (1881093 / 1000000 - 10917 / 1000000 * Rabs lat - 5567 / 1000000 * rMax).
Definition prsPowell (pc dP rMax lat r : R) : R := prsHolland pc dP rMax (prsPowellBeta lat rMax) r.

(** * Wind profiles (windmodels.py) *)
Definition rho : R := 115 / 100.
(** the attributes used by the profile methods *)
Record prof := { pf : R; pdP : R; prMax : R; pbeta : R; pvMax : R }.

(** HollandWindSpeed.maximum, lines 119-122 *)
Definition hollandSpeed (beta dP : R) : R := sqrt (beta * dP / (exp 1 * rho)).
(** WilloughbyWindSpeed.maximum, lines 103-104 *)
Definition willoughbySpeed (dP : R) : R := 6252 / 10000 * sqrt dP.

(** HollandWindProfile.__init__ with WindProfileModel.__init__, lines 155-175, 311-315 *)
Definition mkHolland (lat eP cP rMax beta : R) : prof :=
  let dP := toPa eP - toPa cP in
  {| pf := coriolis lat; pdP := dP; prMax := rMax; pbeta := beta; pvMax := hollandSpeed beta dP |}.
(** WilloughbyWindProfile.__init__, lines 481-488: the shape parameter uses the Willoughby speed,
    the profile afterwards the Holland speed *)
Definition windWilloughbyBeta (vMax rMax lat : R) : R :=
  10036 / 10000 + 173 / 10000 * vMax - 313 / 10000 * ln (rMax / 1000) + 87 / 10000 * Rabs lat.
Definition mkWilloughby (lat eP cP rMax : R) : prof :=
  mkHolland lat eP cP rMax (windWilloughbyBeta (willoughbySpeed (toPa eP - toPa cP)) rMax lat).
(** SchloemerWindProfile.__init__, lines 572-573 *)
Definition mkSchloemer (lat eP cP rMax : R) : prof := mkHolland lat eP cP rMax 1.
(** PowellWindProfile.__init__, lines 808-817; "m" to "nm" is 0.000539957 (metutils.py:424) *)
Definition windPowellBeta (lat rMax : R) : R :=
  clamp (1881093 / 1000000 - 10917 / 1000000 * Rabs lat - 5567 / 1000000 * (rMax * (539957 / 1000000000))).
Definition mkPowell (lat eP cP rMax : R) : prof := mkHolland lat eP cP rMax (windPowellBeta lat rMax).

(** HollandWindProfile.secondDerivative, lines 317-349: the value, and the value returned; [None]
    is the AssertionError *)
Definition rawSecond (p : prof) : R :=
  let beta := pbeta p in let dP := pdP p in let f := pf p in let rMax := prMax p in let E := exp 1 in
  (beta * dP * (-4 * beta ^ 3 * dP / rho - (-2 + beta ^ 2) * E * (Rabs f * rMax) ^ 2)) /
  (E * rho * sqrt ((4 * beta * dP) / (E * rho) + (f * rMax) ^ 2) *
   (4 * beta * dP * rMax ^ 2 / rho + E * (f * rMax ^ 2) ^ 2)).
Definition secondDerivative (p : prof) : option R :=
  let d2 := rawSecond p in
  let d2 := if andb (rlt 0 d2) (rlt (Rabs (pdP p)) (1 / 2)) then -2 * (1 / 100000000000) else d2 in
  if rlt d2 0 then Some d2 else None.
(** firstDerivative, lines 351-367 *)
Definition firstDerivative (p : prof) : R :=
  let beta := pbeta p in let dP := pdP p in let f := pf p in let rMax := prMax p in let E := exp 1 in
  - Rabs f / 2 + (E * f ^ 2 * rMax * sqrt ((4 * beta * dP / rho) / E + (f * rMax) ^ 2)) /
                 (2 * (4 * beta * dP / rho + E * (f * rMax) ^ 2)).

(** the coefficients of the cubic, lines 395-398 and 453-456, windmodels.f90:152-154, and, with a zero
    first derivative, lines 705-708 *)
Definition aa (d2 d1 vMax rMax : R) : R := (d2 / 2 - (d1 - vMax / rMax) / rMax) / rMax.
Definition bb (d2 d1 vMax rMax : R) : R := (d2 - 6 * aa d2 d1 vMax rMax * rMax) / 2.
Definition cc (d2 d1 vMax rMax : R) : R :=
  d1 - 3 * aa d2 d1 vMax rMax * rMax ^ 2 - 2 * bb d2 d1 vMax rMax * rMax.
(** line 407 *)
Definition core (d2 d1 vMax rMax r : R) : R :=
  r * (r * (r * aa d2 d1 vMax rMax + bb d2 d1 vMax rMax) + cc d2 d1 vMax rMax).
(** line 460 *)
Definition coreVort (d2 d1 vMax rMax r : R) : R :=
  r * (r * 4 * aa d2 d1 vMax rMax + 3 * bb d2 d1 vMax rMax) + 2 * cc d2 d1 vMax rMax.
(** lines 399-404 *)
Definition delta (p : prof) (r : R) : R := Rpower (prMax p / r) (pbeta p).
Definition outer (p : prof) (r : R) : R :=
  sqrt ((pdP p * pbeta p / rho) * delta p r * exp (- delta p r) + (r * pf p / 2) ^ 2) - r * Rabs (pf p) / 2.
(** lines 442-451 *)
Definition outerVort (p : prof) (r : R) : R :=
  let d := delta p r in let e := exp (- d) in let b := pbeta p in let dP := pdP p in let f := pf p in
  Rabs f +
  (b ^ 2 * dP * d ^ 2 * e / (2 * rho * r) - b ^ 2 * dP * d * e / (2 * rho * r) + r * f ^ 2 / 4) /
  sqrt (b * dP * d * e / rho + (r * f / 2) ^ 2) +
  sqrt (b * dP * d * e / rho + (r * f / 2) ^ 2) / r.
(** the profile before the sign of the hemisphere is applied *)
Definition hollandAbs (p : prof) (d2 r : R) : R :=
  if rle r (prMax p) then core d2 (firstDerivative p) (pvMax p) (prMax p) r else outer p r.
Definition hollandVortAbs (p : prof) (d2 r : R) : R :=
  if rle r (prMax p) then coreVort d2 (firstDerivative p) (pvMax p) (prMax p) r else outerVort p r.
(** HollandWindProfile.velocity and vorticity, lines 369-464, without the compiled module *)
Definition hollandVelocity (p : prof) (r : R) : option R :=
  match secondDerivative p with Some d2 => Some (rsign (pf p) * hollandAbs p d2 r) | None => None end.
Definition hollandVorticity (p : prof) (r : R) : option R :=
  match secondDerivative p with Some d2 => Some (rsign (pf p) * hollandVortAbs p d2 r) | None => None end.
(** the same with the compiled module, windmodels.f90:143-177 and 180-219 *)
Definition fhollandVelocity (p : prof) (r : R) : option R :=
  match secondDerivative p with Some d2 => Some (fsign (hollandAbs p d2 r) (pf p)) | None => None end.
Definition fhollandVorticity (p : prof) (r : R) : option R :=
  match secondDerivative p with Some d2 => Some (fsign (hollandVortAbs p d2 r) (pf p)) | None => None end.

(** JelesnianskiWindProfile, lines 238-285 *)
Definition jelVelocity (p : prof) (r : R) : R :=
  rsign (pf p) * (2 * pvMax p * prMax p * r / (prMax p ^ 2 + r ^ 2)).
Definition jelVorticity (p : prof) (r : R) : R :=
  let rr := r * 1000 in
  rsign (pf p) * 2 * pvMax p * prMax p / (prMax p ^ 2 + rr ^ 2) +
  rsign (pf p) * 2 * pvMax p * prMax p * (prMax p ^ 2 - rr ^ 2) / (prMax p ^ 2 + rr ^ 2) ^ 2.
(** RankineWindProfile, lines 508-553; alpha is 0.5 *)
Definition rankVelocity (p : prof) (r : R) : R :=
  rsign (pf p) * (if rle r (prMax p) then pvMax p * (r / prMax p) else pvMax p * Rpower (prMax p / r) (1 / 2)).
Definition rankVorticity (p : prof) (r : R) : R :=
  if rle r (prMax p) then rsign (pf p) * (pvMax p * (r / prMax p) + pvMax p / prMax p)
  else rankVelocity p r / r - 1 / 2 * pvMax p * prMax p / Rpower r (1 / 2 + 1).
(** DoubleHollandWindProfile.velocity, lines 661-719, outside the core (and everywhere for dP < 1500) *)
Definition doubleOuter (p : prof) (beta1 beta2 rMax2 r : R) : R :=
  let dp2 := dp2of (pdP p) in
  let dp1 := pdP p - dp2 in
  let mu := Rpower (prMax p / r) beta1 in
  let nu := Rpower (rMax2 / r) beta2 in
  rsign (pf p) * sqrt ((beta1 * dp1 / rho) * mu * exp (- mu) + (beta2 * dp2 / rho) * nu * exp (- nu) +
                       (r * pf p / 2) ^ 2) - r * Rabs (pf p) / 2.

(** * Surface wind models *)
(** HubbertWindField.field, lines 965-985, at a point with gradient wind [V] *)
Definition hubbert (f rMax V r lam vFm thetaFm thetaMax : R) : R * R :=
  let inflow := (if rlt r rMax then 0 else - rsign f * 25) * PI / 180 in
  let asym := vFm * cos (thetaFm + thetaMax * PI / 180 - lam + PI) in
  let Vsf := 7 / 10 * V + asym in
  let phi := inflow - lam in
  (Vsf * sin phi * (1069 / 1000), Vsf * cos phi * (1069 / 1000)).

(** McConochieWindField.field, lines 1014-1045; [Vabs] is the largest |V| of the grid *)
Definition mcInflow (f rMax r : R) : R :=
  - rsign f * (if rlt r rMax then 10 * r / rMax
               else if rlt r (12 / 10 * rMax) then 10 + 75 * (r / rMax - 1) else 25) * PI / 180.
Definition swrf (v : R) : R :=
  let a := Rabs v in
  if rle 45 a then 66 / 100
  else if rle (195 / 10) a then 77 / 100 - (431 / 100 * (a - 195 / 10)) / 1000
  else if rle 6 a then 81 / 100 - (293 / 100 * (a - 6)) / 1000
  else 81 / 100.
Definition mcconochie (f rMax Vabs V r lam vFm thetaFm thetaMax : R) : R * R :=
  let asym := (1 / 2 * (1 + cos (thetaFm + thetaMax * PI / 180 - lam)) * vFm * (V / Vabs)) in
  let Vsf := V + asym in
  let phi := mcInflow f rMax r - lam in
  (swrf Vsf * Vsf * sin phi * (1069 / 1000), swrf Vsf * Vsf * cos phi * (1069 / 1000)).

(** numpy.arctan2 for real numbers (signed zeros are not modelled) *)
Definition atan2 (y x : R) : R :=
  if rlt 0 x then atan (y / x)
  else if rlt x 0 then (if rlt y 0 then atan (y / x) - PI else atan (y / x) + PI)
  else if rlt 0 y then PI / 2 else if rlt y 0 then - (PI / 2) else 0.

(** complex numbers *)
Record cplx := { re : R; im : R }.
Definition C (a b : R) : cplx := {| re := a; im := b |}.
Definition cadd (a b : cplx) : cplx := C (re a + re b) (im a + im b).
Definition cmul (a b : cplx) : cplx := C (re a * re b - im a * im b) (re a * im b + im a * re b).
Definition cscale (k : R) (a : cplx) : cplx := C (k * re a) (k * im a).
Definition cdiv (a b : cplx) : cplx :=
  let n := re b ^ 2 + im b ^ 2 in
  C ((re a * re b + im a * im b) / n) ((im a * re b - re a * im b) / n).
Definition cexpi (t : R) : cplx := C (cos t) (sin t).

(** KepertWindField.field, lines 1053-1155, at a point with gradient wind [V] and vorticity [Z];
    K = 50, Cd = 0.002. numpy's sqrt of a negative number (nan) is not modelled: sqrt is 0 there. *)
Definition umod (Vm vFm : R) : R :=
  if andb (rlt 0 vFm) (rlt (Vm / vFm) 5) then vFm * Rabs (125 / 100 * (1 - vFm / Vm)) else vFm.
Definition kvt (Vm vFm rMax r : R) : R :=
  if rlt (2 * rMax) r then umod Vm vFm * exp (- (r / (2 * rMax) - 1) ^ 2) else umod Vm vFm.
(** the surface wind in polar components (usf, vsf) *)
Definition kepertPolar (s f rMax Vm V Z r lam vFm thetaFm : R) : R * R :=
  let K := 50 in let Cd := 2 / 1000 in
  let Vt := kvt Vm vFm rMax r in
  let al := (2 * V / r + f) / (2 * K) in
  let be := (f + Z) / (2 * K) in
  let gam := V / (2 * K * r) in
  let albe := sqrt (al / be) in
  let chi := Rabs (Cd / K * V / sqrt (sqrt (al * be))) in
  let eta := Rabs (Cd / K * V / sqrt (sqrt (al * be) + Rabs gam)) in
  let psi := Rabs (Cd / K * V / sqrt (Rabs (sqrt (al * be) - Rabs gam))) in
  let A0 := cscale (- 1 / (2 * chi ^ 2 + 3 * chi + 2)) (cscale (chi * V) (C 1 (1 + chi))) in
  let u0s := re A0 * albe * s in
  let v0s := im A0 in
  let nAm := cscale (- psi * Vt) (cadd (C (1 + 2 * albe) 0) (cscale ((1 + albe) * eta) (C 1 1))) in
  let Am := if rlt (sqrt (al * be)) (Rabs gam)
            then cdiv nAm (cscale albe (C (2 + 3 * (eta + psi) + 2 * (eta * psi)) (- 2 + 2 * (eta * psi))))
            else cdiv nAm (cscale albe (C (2 * (1 + eta * psi) + 3 * psi) (2 * (1 + eta * psi) + 3 * eta))) in
  let Ap := if rlt (sqrt (al * be)) (Rabs gam)
            then cdiv (cscale (- eta * Vt) (cadd (C (1 - 2 * albe) 0) (cscale ((1 - albe) * psi) (C 1 (- 1)))))
                      (cscale albe (C (2 + 3 * (eta + psi) + 2 * (eta * psi)) (2 - 2 * (eta * psi))))
            else cdiv (cscale (- eta * Vt) (cadd (C (1 - 2 * albe) 0) (cscale ((1 - albe) * psi) (C 1 1))))
                      (cscale albe (C (2 * (1 + eta * psi) + 3 * eta) (2 * (1 + eta * psi) + 3 * psi))) in
  let em := cexpi (- (lam - thetaFm) * s) in
  let ep := cexpi ((lam - thetaFm) * s) in
  let ums := re (cmul Am em) * albe in
  let vms := im (cmul Am em) * s in
  let ups := re (cmul Ap ep) * albe in
  let vps := im (cmul Ap ep) * s in
  let us := u0s + ups + ums in
  let vs := v0s + vps + vms + V in
  (us + Vt * cos (lam - thetaFm), vs - Vt * sin (lam - thetaFm)).
(** lines 1149-1153 *)
Definition cartesian (uv : R * R) (lam : R) : R * R :=
  let phi := atan2 (fst uv) (snd uv) in
  let S := sqrt (fst uv ^ 2 + snd uv ^ 2) in
  (S * sin (phi - lam), S * cos (phi - lam)).
Definition kepert (f rMax Vm V Z r lam vFm thetaFm : R) : R * R :=
  cartesian (kepertPolar (rsign f) f rMax Vm V Z r lam vFm thetaFm) lam.
(** the compiled field, windmodels.f90:1-140: profile and field at once, with SIGN(1, f) for sign(f) *)
Definition fkepert (p : prof) (d2 r lam vFm thetaFm : R) : R * R :=
  cartesian (kepertPolar (fsign 1 (pf p)) (pf p) (prMax p) (pvMax p) (fsign (hollandAbs p d2 r) (pf p))
                         (fsign (hollandVortAbs p d2 r) (pf p)) r lam vFm thetaFm) lam.
