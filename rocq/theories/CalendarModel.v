(** Days of the year: Utilities/loadData.py:579-619 (julianDays), DataProcess/DataProcess.py:783-838
    (_frequency, _juliandays) and the date of a simulated genesis, TrackGenerator.py:555, 602-616.
    Dates are those of Python's [datetime] module, the Gregorian calendar carried on backwards. *)
From Coq Require Import List Arith ZArith Bool QArith Qround.
Import ListNotations.
Close Scope Q_scope. Open Scope Z_scope.

Definition isLeap (y : Z) : bool := (y mod 4 =? 0) && (negb (y mod 100 =? 0) || (y mod 400 =? 0)).
Definition monthLens (leap : bool) : list Z := [31; if leap then 29 else 28; 31; 30; 31; 30; 31; 31; 30; 31; 30; 31].
Definition sumZ (l : list Z) : Z := fold_right Z.add 0 l.
(** A date accepted by [datetime] *)
Definition validDate (y : Z) (m : nat) (d : Z) : bool :=
  (1 <=? y) && (y <=? 9999) && (1 <=? m)%nat && (m <=? 12)%nat && (1 <=? d) && (d <=? nth (m - 1) (monthLens (isLeap y)) 0).
(** [strftime("%j")] *)
Definition dayOfYear (leap : bool) (m : nat) (d : Z) : Z := sumZ (firstn (m - 1) (monthLens leap)) + d.
(** [strptime("%j")]: month and day of the [n]-th day of the year; [None]: ValueError *)
Fixpoint fromDay (lens : list Z) (n : Z) : option (nat * Z) :=
  match lens with
  | [] => None
  | l :: r => if n <=? l then Some (1%nat, n)
              else match fromDay r (n - l) with Some (m, d) => Some (S m, d) | None => None end
  end.

(** loadData.py:579-619 for one record without the checks of hour and minute; [None]: ValueError *)
Definition julianDay (y : Z) (m : nat) (d : Z) : option Z :=
  let jy := if y <? 1900 then 1904 else y in
  if y <? 0 then None else if validDate jy m d then Some (dayOfYear (isLeap jy) m d) else None.
(** DataProcess.py:817-819 *)
Definition correctDay (y jday : Z) : Z := if (y mod 4 =? 0) && (60 <=? jday) then jday - 1 else jday.
(** [numpy.histogram] of integers with bins of width one from [lo] to [hi]: the last bin includes [hi] *)
Definition histogram (lo hi : Z) (l : list Z) : list nat :=
  map (fun i => let b := lo + Z.of_nat i in
                length (filter (fun x => (b <=? x) && ((x <? b + 1) || ((b + 1 =? hi) && (x =? hi)))) l))
      (seq 0 (Z.to_nat (hi - lo))).
Definition compressZ (l : list Z) (ind : list bool) : list Z := map fst (filter snd (combine l ind)).
(** DataProcess.py:821-822: the histogram of genesis days *)
Definition genesisHist (days : list Z) (ind : list bool) : list nat := histogram 1 366 (compressZ days ind).
(** DataProcess.py:783-800: the annual numbers of cyclones; [None]: not written *)
Definition minZ (l : list Z) : Z := match l with [] => 0 | a :: r => fold_right Z.min a r end.
Definition maxZ (l : list Z) : Z := match l with [] => 0 | a :: r => fold_right Z.max a r end.
Definition frequency (years : list Z) (ind : list bool) : option (list nat) :=
  if minZ years =? maxZ years then None
  else Some (histogram (minZ years) (maxZ years + 1) (compressZ years ind)).

(** TrackGenerator.py:555, 609-616: year and hour from uniform variates [u], [v] in [0, 1), the day of the year
    sampled; ["%03d"] cuts the fraction off. Day 366 of a common year, which Python turns into 1 January of the
    next year, is not sampled and is [None] here. *)
Definition genesisYear (u : Q) : Z := Qfloor (1900 + u * (9998 - 1900))%Q.
Definition genesisHour (v : Q) : Z := Qfloor (v * 24)%Q.
Definition genesisDate (year : Z) (day : Q) : option (nat * Z) :=
  if Qfloor day <? 1 then None else fromDay (monthLens (isLeap year)) (Qfloor day).
