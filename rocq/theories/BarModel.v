(** Model of the scale bar of a map, PlotInterface/scalebar.py:15-217: the length chosen, the search for the
    end of the bar and the place of its label.  The transformation between the coordinates of the axes and of the
    Earth and the distance on the ellipsoid (cartopy) are a parameter [dist], [None] standing for NaN.  Positions
    are pairs of reals.  The arguments for colours and fonts are not modelled. *)
From Coq Require Import Reals ZArith List Bool.
From Verif Require Import Base CircleModel MapModel.
Local Open Scope R_scope.

Definition pt := (R * R)%type.
(** [start + length * direction] *)
Definition along (p : pt) (t : R) (d : pt) : pt := (fst p + t * fst d, snd p + t * snd d).
(** [(a + b) / 2] *)
Definition mid (a b : pt) : pt := ((fst a + fst b) / 2, (snd a + snd b) / 2).

(** Comparisons with a number that may be NaN, which are false for NaN *)
Definition nlt (a : option R) (b : R) : bool := match a with Some x => rlt x b | None => false end.
(** [np.isclose(a, b, rtol=tol)], with the default atol of 1e-8 *)
Definition isclose (a : option R) (b tol : R) : bool :=
  match a with Some x => rle (Rabs (x - b)) (1 / 100000000 + tol * Rabs b) | None => false end.

(** ValueErrors, and a loop that has not ended after the given number of rounds *)
Inductive bar_error := NotPositive | NoDirection | TooClose | NoTolerance | Running.

(** scalebar.py:41-43 *)
Fixpoint expSearch (n : nat) (dist : pt -> pt -> option R) (start dir : pt) (distance length : R) : pt + bar_error :=
  let e := along start length dir in
  if nlt (dist start e) distance then
    match n with O => inr Running | S k => expSearch k dist start dir distance (length * 2) end
  else inl e.
(** _upper_bound, scalebar.py:15-45 *)
Definition upperBound (n : nat) (dist : pt -> pt -> option R) (start dir : pt) (distance : R) : pt + bar_error :=
  if rle distance 0 then inr NotPositive
  else if rle (fst dir * fst dir + snd dir * snd dir) 0 then inr NoDirection
  else expSearch n dist start dir distance (1 / 10).
(** scalebar.py:77-86 *)
Fixpoint bisect (n : nat) (dist : pt -> pt -> option R) (start : pt) (distance tol : R) (left right : pt) : pt + bar_error :=
  if isclose (dist start right) distance tol then inl right
  else match n with
       | O => inr Running
       | S k => let m := mid left right in
                if nlt (dist start m) distance then bisect k dist start distance tol m right
                else bisect k dist start distance tol left m
       end.
(** _distance_along_line, scalebar.py:48-88 *)
Definition distanceAlong (n : nat) (dist : pt -> pt -> option R) (start e : pt) (distance tol : R) : pt + bar_error :=
  if nlt (dist start e) distance then inr TooClose
  else if rle tol 0 then inr NoTolerance
  else bisect n dist start distance tol start e.
(** _point_along_line, scalebar.py:91-117 *)
Definition pointAlong (n : nat) (dist : pt -> pt -> option R) (start : pt) (distance angle tol : R) : pt + bar_error :=
  match upperBound n dist start (cos angle, sin angle) distance with
  | inr x => inr x
  | inl e => distanceAlong n dist start e distance tol
  end.

(** [round(x)]: to the nearest whole number, halves to the even one *)
Definition nearest (x : R) : Z :=
  let f := Int_part x in
  if rlt (x - IZR f) (1 / 2) then f
  else if rlt (1 / 2) (x - IZR f) then (f + 1)%Z
  else if Z.even f then f else (f + 1)%Z.
(** _setlength, scalebar.py:120-144, for a map [width] metres wide; [None]: the recursion does not end, see
    MapModel.scaleLength *)
Definition setLength (width : R) : option R :=
  let len := width / 5000 in
  let k := exponent10 len in
  match scaleLength (Z.to_nat (nearest (len * pow10 (- k)))) k with
  | Some (d, k') => Some (INR d * pow10 k')
  | None => None
  end.

(** What is drawn: the ends of the bar, the place of the text and the number in it *)
Record bar := { b_from : pt; b_to : pt; b_text : pt; b_number : R }.
(** scale_bar, scalebar.py:185-217; [given]: the argument [length] unless it is None.  [inr Running] also stands
    for the recursion of _setlength. *)
Definition scaleBar (n : nat) (dist : pt -> pt -> option R) (width : R) (loc : pt) (given : option R)
    (metresPerUnit tol angle textOffset : R) : bar + bar_error :=
  let len := match given with
             | Some l => if Req_EM_T l 0 then setLength width else Some l
             | None => setLength width
             end in
  match len with
  | None => inr Running
  | Some l =>
      let rad := angle * PI / 180 in
      match pointAlong n dist loc (l * metresPerUnit) rad tol with
      | inr x => inr x
      | inl e => let m := mid loc e in
                 inl {| b_from := loc; b_to := e; b_number := l;
                        b_text := (fst m + textOffset * (- sin rad), snd m + textOffset * cos rad) |}
      end
  end.
