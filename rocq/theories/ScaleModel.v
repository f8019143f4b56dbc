(** The scale bar of maps, PlotInterface/scalebar.py. Numbers are exact rationals; a point is the multiple of the direction by
    which it lies from the start of the bar; [dist] is the distance in metres of a point from the start ([None]: NaN,
    outside of the projection). A loop or recursion that does not end within [fuel] passes gives [None]. *)
From Coq Require Import List Arith ZArith Bool QArith Qabs Qround.
From Verif Require Import CellModel.
From Verif Require GenModel.
Local Open Scope Q_scope.

Inductive outcome := Point (x : Q) | ValueErr.
(** A comparison with NaN is false *)
Definition below (d : option Q) (distance : Q) : bool := match d with Some v => qlt v distance | None => false end.
(** [np.isclose(d, distance, rtol=tol)] *)
Definition isclose (d : option Q) (distance tol : Q) : bool :=
  match d with Some v => Qle_bool (Qabs (v - distance)) ((1 # 100000000) + tol * Qabs distance) | None => false end.
(** _upper_bound, scalebar.py:38-45 *)
Fixpoint growLoop (fuel : nat) (dist : Q -> option Q) (distance len : Q) : option Q :=
  if below (dist len) distance then match fuel with O => None | S f => growLoop f dist distance (len * 2) end else Some len.
(** _distance_along_line, 71-86 *)
Fixpoint halveLoop (fuel : nat) (dist : Q -> option Q) (distance tol left right : Q) : option Q :=
  if isclose (dist right) distance tol then Some right
  else match fuel with
       | O => None
       | S f => let mid := (left + right) / 2 in
                if below (dist mid) distance then halveLoop f dist distance tol mid right
                else halveLoop f dist distance tol left mid
       end.
(** _point_along_line, 89-117, with the checks of 32-36 (the direction is never zero), 63-69 *)
Definition pointAlong (fuel : nat) (dist : Q -> option Q) (distance tol : Q) : option outcome :=
  if Qle_bool distance 0 then Some ValueErr
  else match growLoop fuel dist distance (1 # 10) with
       | None => None
       | Some e =>
           if below (dist e) distance then Some ValueErr
           else if Qle_bool tol 0 then Some ValueErr
           else option_map Point (halveLoop fuel dist distance tol 0 e)
       end.

(** _setlength, 120-142, of the width of the map in metres. [floor(log10(x))] of [x > 0]: searched for between -30 and 30 *)
Definition ndim (x : Q) : Z := fold_right (fun k n => if Qle_bool (Qpower 10 k) x then k else n) (-30)%Z (rev (map (fun i => Z.of_nat i - 30)%Z (seq 0 61))).
(** [round(x, -n)]: numpy divides, rounds half to even and multiplies *)
Definition round1 (x : Q) (n : Z) : Q := inject_Z (GenModel.rint (x / Qpower 10 n)) * Qpower 10 n.
(** The first character of [str(x)]: [None] for the sign of a negative number *)
Fixpoint firstDigit (fuel : nat) (z : Z) : Z := match fuel with O => z | S f => if (z <? 10)%Z then z else firstDigit f (z / 10) end.
Definition firstChar (x : Q) : option Z := if qlt x 0 then None else Some (firstDigit 40 (Qfloor x)).
(** scale_number, 137-140 *)
Fixpoint scaleNumber (fuel : nat) (n : Z) (x : Q) : option Z :=
  match firstChar x with
  | Some 1%Z | Some 2%Z | Some 5%Z => Some (Qfloor x)
  | _ => match fuel with O => None | S f => scaleNumber f n (x - Qpower 10 n) end
  end.
Definition setLength (fuel : nat) (width : Q) : option Z :=
  let x := width / 5000 in let n := ndim x in scaleNumber fuel n (round1 x n).
(** scale_bar, 190-200: where the bar ends *)
Definition scaleBar (fuel : nat) (dist : Q -> option Q) (length : Q) (metres tol : Q) : option outcome :=
  pointAlong fuel dist (length * metres) tol.
