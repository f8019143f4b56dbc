(** Interpolation of tracks to a regular time step: Evaluate/interpolateTracks.py:53-243 and the Akima
    interpolation of positions, Utilities/akima.py:78-170 and Utilities/akima.c:72-215.
    Numbers are exact rationals. Times are hours after the first record; their computation from the dates,
    the dates of the new records and the wind speeds, which are treated like the central pressures, are not
    modelled. scipy's smoothing-free cubic spline ([splrep], [splev]) is a parameter. *)
From Coq Require Import List Arith ZArith Bool QArith Qabs Qround.
From Verif Require Import CellModel NumModel SampModel FitModel.
Import ListNotations.
Open Scope Q_scope.

(** interpolateTracks.py:99-100: [arange(0, T + .01, delta)] with the last entry replaced by [T];
    [None]: ZeroDivisionError or IndexError. *)
Definition newtimes (T delta : Q) : option (list Q) :=
  if Qeq_bool delta 0 then None else
  match arange 0 (T + (1 # 100)) delta with
  | [] => None
  | l => Some (removelast l ++ [T])
  end.

(** sys.maxsize marks missing values *)
Definition maxsize : Q := inject_Z 9223372036854775807.
(** interpolateTracks.py:114 *)
Definition validIdx (cp : list Q) : list nat := filter (fun i => qlt (nth i cp 0) maxsize) (seq 0 (length cp)).
(** [np.where(...)[0][0]] and [np.where(...)[0][-1]]; [None]: IndexError *)
Definition firstWhere {A} (p : A -> bool) (d : A) (l : list A) : option nat :=
  hd_error (filter (fun k => p (nth k l d)) (seq 0 (length l))).
Definition lastWhere {A} (p : A -> bool) (d : A) (l : list A) : option nat :=
  hd_error (rev (filter (fun k => p (nth k l d)) (seq 0 (length l)))).
Definition interpAll (ts ys nt : list Q) : option (list Q) := allSome (map (interp ts ys) nt).

(** The central pressure at the new times before masking: interpolateTracks.py:119-140 (up to three
    records) and 163-203; [None]: an exception. *)
Definition newPressure (ts cp nt : list Q) : option (list Q) :=
  let v := validIdx cp in
  match v with
  | [] => Some (map (fun _ => 0) nt)
  | [i] => Some (map (fun _ => nth i cp 0) nt)
  | i :: _ =>
      if (length ts <=? 3)%nat then interpAll ts cp nt
      else
        let j := last v 0%nat in
        match firstWhere (fun t => Qle_bool (nth i ts 0) t) 0 nt, lastWhere (fun t => Qle_bool t (nth j ts 0)) 0 nt with
        | Some a, Some b =>
            if (a =? b)%nat then Some (map (fun k => if (k =? a)%nat then nth i cp 0 else 0) (seq 0 (length nt)))
            else
              match interpAll (map (fun k => nth k ts 0) v) (map (fun k => nth k cp 0) v) (slice a b nt) with
              | Some (w0 :: w) =>
                  Some (map (fun k => if (a <=? k)%nat && (k <? b)%nat then nth (k - a) (w0 :: w) 0
                                      else if (k =? b)%nat then last (w0 :: w) 0 else 0) (seq 0 (length nt)))
              | _ => None
              end
        | _, _ => None
        end
  end.
(** interpolateTracks.py:225-226 *)
Definition maskPressure (p : Q) : Q := if qlt 10000000 p then maxsize else if qlt p 700 then maxsize else p.

(** * Akima interpolation *)
Fixpoint diffs (l : list Q) : list Q :=
  match l with
  | a :: ((b :: _) as r) => (b - a) :: diffs r
  | _ => []
  end.
Fixpoint zipdiv (a b : list Q) : list Q :=
  match a, b with x :: a', y :: b' => x / y :: zipdiv a' b' | _, _ => [] end.
(** akima.py:142 *)
Definition slopes (x y : list Q) : list Q := zipdiv (diffs y) (diffs x).
(** akima.py:143-148; akima.c:110-141 computes the same four slopes by way of extrapolated points *)
Definition extend (m : list Q) : list Q :=
  let k := length m in
  let mm := 2 * nth 0 m 0 - nth 1 m 0 in
  let mmm := 2 * mm - nth 0 m 0 in
  let mp := 2 * nth (k - 1) m 0 - nth (k - 2) m 0 in
  let mpp := 2 * mp - nth (k - 1) m 0 in
  mmm :: mm :: m ++ [mp; mpp].
Definition f1 (m1 : list Q) (i : nat) : Q := Qabs (nth (i + 3) m1 0 - nth (i + 2) m1 0).
Definition f2 (m1 : list Q) (i : nat) : Q := Qabs (nth (i + 1) m1 0 - nth i m1 0).
Definition weighted (m1 : list Q) (i : nat) : Q :=
  (f1 m1 i * nth (i + 1) m1 0 + f2 m1 i * nth (i + 2) m1 0) / (f1 m1 i + f2 m1 i).
Definition maxOf (l : list Q) : Q := match l with [] => 0 | a :: r => amax a r end.
(** akima.py:150-158: the derivatives at the data points *)
Definition pyDerivs (m1 : list Q) (n : nat) : list Q :=
  let mx := maxOf (map (fun i => f1 m1 i + f2 m1 i) (seq 0 n)) in
  map (fun i => if qlt ((1 # 1000000000) * mx) (f1 m1 i + f2 m1 i) then weighted m1 i else nth (i + 1) m1 0) (seq 0 n).
(** akima.c:143-163 *)
Definition cDerivs (m1 : list Q) (n : nat) : list Q :=
  map (fun i => if qlt (f1 m1 i + f2 m1 i) (1 # 1000000000) then (1 # 2) * (nth (i + 1) m1 0 + nth (i + 2) m1 0)
                else weighted m1 i) (seq 0 n).
(** The cubic on the segment from point [j] to [j + 1], akima.py:159-160, 168; akima.c:164-186, 209 *)
Definition cubic (x y b : list Q) (j : nat) (t : Q) : Q :=
  let h := nth (j + 1) x 0 - nth j x 0 in
  let m := (nth (j + 1) y 0 - nth j y 0) / h in
  let c := (3 * m - 2 * nth j b 0 - nth (j + 1) b 0) / h in
  let d := (nth j b 0 + nth (j + 1) b 0 - 2 * m) / (h * h) in
  let w := t - nth j x 0 in
  ((w * d + c) * w + nth j b 0) * w + nth j y 0.
(** [numpy.digitize] for increasing [x]: the number of leading entries that are not above [t] *)
Fixpoint digitize (x : list Q) (t : Q) : nat :=
  match x with
  | [] => 0%nat
  | a :: r => if Qle_bool a t then S (digitize r t) else 0%nat
  end.
(** akima.py:129-140; [None]: ValueError *)
Definition pyAkima (x y xo : list Q) : option (list Q) :=
  let n := length x in
  if (n <? 3)%nat then None
  else if negb (n =? length y)%nat then None
  else if existsb (fun d => Qle_bool d 0) (diffs x) then None
  else if existsb (fun t => qlt t (nth 0 x 0) || qlt (nth (n - 1) x 0) t) xo then None
  else
    let b := pyDerivs (extend (slopes x y)) n in
    Some (map (fun t => cubic x y b (Nat.min (digitize x t) (n - 1) - 1) t) xo).

(** akima.c:196-204: the walk along the data points; [k] is the position of [pxi], one more than [i] *)
Fixpoint cwalk (fuel : nat) (x : list Q) (t : Q) (k : nat) : nat :=
  match fuel with
  | O => k
  | S fuel' => if qlt (nth k x 0) t && (k <? length x - 1)%nat then cwalk fuel' x t (S k) else k
  end.
Fixpoint ceval (x y b xo : list Q) (k : nat) : list Q :=
  match xo with
  | [] => []
  | t :: r => let k' := Nat.max 1 (cwalk (length x) x t k) in cubic x y b (k' - 1) t :: ceval x y b r k'
  end.
(** akima.c:92-105 ([None]: ValueError), 143-213. The coefficients of the segment after the last point,
    which lines 171-186 compute from what lies behind the arrays, are not used. *)
Definition cAkima (x y xo : list Q) : option (list Q) :=
  let n := length x in
  if (n <? 3)%nat then None
  else if negb (n =? length y)%nat then None
  else if existsb (fun d => qlt d (1 # 1000000000000)) (diffs x) then None
  else Some (ceval x y (cDerivs (extend (slopes x y)) n) xo 0).
(** The entries of the arrays [xi] and [yi] read by the loop of akima.c:165-186: [pxi] is advanced and read
    [si] times, starting from the first entry *)
Fixpoint cReads (i k : nat) : list nat := match i with O => [k] | S i' => k :: cReads i' (S k) end.

(** * The interpolated track *)
Record track := mkTrk { tt : list Q; tlon : list Q; tlat : list Q; tcp : list Q; tenv : list Q; trm : list Q }.
Inductive itype := Linear | Akima | Spline.

Section Interpolate.
  Variable spline : list Q -> list Q -> list Q -> option (list Q).
  (** distance of two positions in km, latLon2Azi *)
  Variable dist : Q * Q -> Q * Q -> Q.
  Variable compiled : bool.

  (** interpolateTracks.py:121-123, 142-161 *)
  Definition newPosition (ty : itype) (ts ys nt : list Q) : option (list Q) :=
    if (length ts <=? 3)%nat then interpAll ts ys nt
    else match ty with
         | Linear => interpAll ts ys nt
         | Akima => if compiled then cAkima ts ys nt else pyAkima ts ys nt
         | Spline => spline ts ys nt
         end.
  (** interpolateTracks.py:208-216, for at least two new times *)
  Fixpoint legs (ps : list (Q * Q)) : list Q :=
    match ps with
    | a :: ((b :: _) as r) => dist a b :: legs r
    | _ => []
    end.
  Definition speeds (delta : Q) (ps : list (Q * Q)) : list Q :=
    map (fun d => d / delta) (legs ps ++ [last (legs ps) 0]).

  (** interpolateTracks.py:53-243; the speed of a track with one new time (217-219) is not modelled *)
  Definition interpolate (ty : itype) (delta : Q) (t : track) : option (track * list Q) :=
    match newtimes (last (tt t) 0) delta with
    | None => None
    | Some nt =>
        match newPosition ty (tt t) (tlon t) nt, newPosition ty (tt t) (tlat t) nt, newPressure (tt t) (tcp t) nt,
              interpAll (tt t) (tenv t) nt, interpAll (tt t) (trm t) nt with
        | Some lon, Some lat, Some cp, Some env, Some rm =>
            Some (mkTrk nt lon lat (map maskPressure cp) env rm, speeds delta (combine lon lat))
        | _, _, _, _, _ => None
        end
    end.
End Interpolate.
