(** Landfall rates and intensities at coastal gates: Evaluate/landfallRates.py:78-131, 140-163,
    Evaluate/landfallIntensity.py:80-182, Evaluate/locationLandfallIntensity.py:124-150.
    Simplifications: coordinates and pressures are exact rationals; percentiles, plots, files and the exchange between
    processes are not modelled (EvalModel describes that exchange); the tables are lists. *)
From Coq Require Import List Arith ZArith Bool QArith.
From Verif Require Import CellModel GeomModel NumModel DensityModel.
Import ListNotations.
Close Scope Q_scope. Open Scope nat_scope.

Definition origin : pt := {| px := 0; py := 0 |}.
(** landfallRates.py:80-82: the gates, closed to a coast *)
Definition coastOf (gates : list pt) : list pt := gates ++ [nth 0 gates origin].
Definition isInt (s : status) : bool := match s with Intersects => true | _ => false end.
(** landfallRates.py:110-115, 120-125: [for j in range(1, len(self.gates) - 1)] *)
Definition hitGates (gates : list pt) (s e : pt) : list nat :=
  filter (fun j => isInt (fst (lineLine s e (nth (j - 1) gates origin) (nth j gates origin)))) (seq 1 (length gates - 2)).
(** landfallRates.py:96-125 *)
Definition segLandfall (gates : list pt) (g : pt * pt) : list nat :=
  if negb (inLand (fst g) (coastOf gates)) && inLand (snd g) (coastOf gates) then hitGates gates (fst g) (snd g) else [].
Definition segOffshore (gates : list pt) (g : pt * pt) : list nat :=
  if inLand (fst g) (coastOf gates) && negb (inLand (snd g) (coastOf gates)) then hitGates gates (fst g) (snd g) else [].
Definition landfall (gates : list pt) (tracks : list (list pt)) : list nat := flat_map (segLandfall gates) (flat_map edges tracks).
Definition offshore (gates : list pt) (tracks : list (list pt)) : list nat := flat_map (segOffshore gates) (flat_map edges tracks).
(** landfallRates.py:128-129: [numpy.histogram] with the bins [0, 1), ..., [n - 2, n - 1] and density; [None]: not a
    number *)
Definition binCount (n i : nat) (l : list nat) : nat := length (filter (fun v => (v =? i) || ((S (S i) =? n) && (v =? S i))) l).
Definition rates (n : nat) (l : list nat) : list (option Q) :=
  let counts := map (fun i => binCount n i l) (seq 0 (n - 1)) in
  let total := fold_right Nat.add 0 counts in
  map (fun c => if total =? 0 then None else Some (inject_Z (Z.of_nat c) / inject_Z (Z.of_nat total))%Q) counts.
Definition processTracks (gates : list pt) (tracks : list (list pt)) : list (option Q) * list (option Q) :=
  (rates (length gates) (landfall gates tracks), rates (length gates) (offshore gates tracks)).
(** landfallRates.py:154-155: the mean over the simulations; not a number if one of the values is not *)
Fixpoint allQ (l : list (option Q)) : option (list Q) :=
  match l with
  | [] => Some []
  | Some x :: r => match allQ r with Some v => Some (x :: v) | None => None end
  | None :: _ => None
  end.
Definition meanAt (rows : list (list (option Q))) (j : nat) : option Q :=
  match allQ (map (fun r => nth j r None) rows) with Some v => Some (meanq v) | None => None end.

(** * Intensities *)
(** A row of the table of segments: start, end and central pressure of the first record *)
Record seg := mkSeg { sfrom : pt; sto : pt; sp : Q }.
(** landfallIntensity.py:94-100: one row for each pair of successive records *)
Fixpoint segs (t : list (pt * Q)) : list seg :=
  match t with
  | (a, p) :: (((b, _) :: _) as r) => mkSeg a b p :: segs r
  | _ => []
  end.
(** landfallIntensity.py:101-103: [pandas.cut] with bins open below and closed above; [None]: no category *)
Definition category (p : Q) : option nat :=
  if Qle_bool p 0 then None else if Qle_bool p 930 then Some 5 else if Qle_bool p 955 then Some 4
  else if Qle_bool p 970 then Some 3 else if Qle_bool p 985 then Some 2 else if Qle_bool p 990 then Some 1
  else if Qle_bool p 1020 then Some 0 else None.
(** shapely's [crosses] for two line segments: they are not parallel and have a common point inside both *)
Definition crosses (s : seg) (b1 b2 : pt) : bool :=
  let a1 := sfrom s in let a2 := sto s in
  let ua_t := ((px b2 - px b1) * (py a1 - py b1) - (py b2 - py b1) * (px a1 - px b1))%Q in
  let ub_t := ((px a2 - px a1) * (py a1 - py b1) - (py a2 - py a1) * (px a1 - px b1))%Q in
  let u_b := ((py b2 - py b1) * (px a2 - px a1) - (px b2 - px b1) * (py a2 - py a1))%Q in
  negb (Qeq_bool u_b 0) && (qlt 0 (ua_t / u_b) && qlt (ua_t / u_b) 1 && qlt 0 (ub_t / u_b) && qlt (ub_t / u_b) 1).
(** landfallIntensity.py:108-122 *)
Definition leftOf (g1 g2 p : pt) : bool :=
  qlt 0 ((px g2 - px g1) * (py p - py g1) - (py g2 - py g1) * (px p - px g1))%Q.
(** landfallIntensity.py:124-143 *)
Definition isLandfall (g : pt * pt) (tracks : list seg) : list seg :=
  filter (fun s => leftOf (fst g) (snd g) (sfrom s)) (filter (fun s => crosses s (fst g) (snd g)) tracks).
Record gateRow := mkRow { gcount : nat; gmean : option Q; gmin : option Q; gcat : list nat }.
(** landfallIntensity.py:148-182: the columns count, meanlfintensity, minlfintensity and cat1 to cat5 of one gate *)
Definition catCount (l : list seg) (k : nat) : nat :=
  length (filter (fun s => match category (sp s) with Some c => c =? k | None => false end) l).
Definition countCrossings (g : pt * pt) (tracks : list seg) : gateRow :=
  let l := isLandfall g tracks in
  match map sp l with
  | [] => mkRow 0 None None [0; 0; 0; 0; 0]
  | a :: r => mkRow (length l) (Some (meanq (a :: r))) (Some (amin a r)) (map (catCount l) [0; 1; 2; 3; 4])
  end.
(** locationLandfallIntensity.py:124-150: for each crossing segment [enters] is given its first point, a sequence of
    one coordinate, and reads a second one; [None]: IndexError.  [crossesArea] is shapely's [crosses] of a segment and
    a polygon, [within] its test of a point. *)
Definition enters (coords : list pt) (within : pt -> bool) : option bool :=
  match coords with a :: _ :: _ => Some (negb (within a)) | _ => None end.
Fixpoint areaLandfall (within : pt -> bool) (crossing : list seg) : option (list seg) :=
  match crossing with
  | [] => Some []
  | s :: r => match enters [sfrom s] within, areaLandfall within r with
              | Some b, Some l => Some (if b then s :: l else l)
              | _, _ => None
              end
  end.
Definition isLandfallArea (crossesArea : seg -> bool) (within : pt -> bool) (tracks : list seg) : option (list seg) :=
  areaLandfall within (filter crossesArea tracks).
