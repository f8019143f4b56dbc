(** The extent of the local wind field: computeOutputExtentIfInvalid (ProcessMultipliers/processMultipliers.py:506-551)
    and build_combined_multipliers_for_all_directions (317-345).  Numbers are exact rationals; the log is left out. *)
From Coq Require Import List Arith ZArith Bool QArith.
From Verif Require Import NumModel.
Import ListNotations.
Open Scope Q_scope.

(** The extent of the settings: any of the four keys may be missing *)
Record given := { g_xMin : option Q; g_xMax : option Q; g_yMin : option Q; g_yMax : option Q }.
Record extent := { xMin : Q; xMax : Q; yMin : Q; yMax : Q }.
(** Line 515 *)
Definition complete (g : given) : option extent :=
  match g_xMin g, g_xMax g, g_yMin g, g_yMax g with
  | Some a, Some b, Some c, Some d => Some {| xMin := a; xMax := b; yMin := c; yMax := d |}
  | _, _, _, _ => None
  end.

(** The raster of multipliers: its size in cells and the six numbers of GetGeoTransform *)
Record raster := { width : nat; height : nat; gt0 : Q; gt1 : Q; gt2 : Q; gt3 : Q; gt4 : Q; gt5 : Q }.
Definition Qn (n : nat) : Q := inject_Z (Z.of_nat n).

(** Lines 519-525: [min] and [max] of the coordinates; [None] is the ValueError of an empty list *)
Definition gustExtent (lon lat : list Q) : option extent :=
  match lon, lat with
  | x :: xs, y :: ys => Some {| xMin := amin x xs; xMax := amax x xs; yMin := amin y ys; yMax := amax y ys |}
  | _, _ => None
  end.
(** Lines 532-539 *)
Definition rasterExtent (r : raster) : extent :=
  {| xMin := gt0 r;
     xMax := gt0 r + Qn (width r) * gt1 r + Qn (height r) * gt2 r;
     yMin := gt3 r + Qn (width r) * gt4 r + Qn (height r) * gt5 r;
     yMax := gt3 r |}.
Definition qmax (a b : Q) : Q := if Qle_bool a b then b else a.
Definition qmin (a b : Q) : Q := if Qle_bool a b then a else b.
(** Lines 546-549 *)
Definition overlap (a b : extent) : extent :=
  {| xMin := qmax (xMin a) (xMin b); xMax := qmin (xMax a) (xMax b);
     yMin := qmax (yMin a) (yMin b); yMax := qmin (yMax a) (yMax b) |}.

(** The function: [None] stands for a file that cannot be opened or has no coordinates *)
Definition computeExtent (g : given) (gust : option (list Q * list Q)) (wm : option raster) : option extent :=
  match complete g with
  | Some e => Some e
  | None => match gust with
            | None => None
            | Some (lon, lat) =>
                match gustExtent lon lat, wm with
                | Some a, Some r => Some (overlap a (rasterExtent r))
                | _, _ => None
                end
            end
  end.

(** Lines 317-345: which raster is used, and the window cut out of it ([projWin]: left, top, right, bottom) *)
Inductive use := AsItIs | Downloaded | Cut (left top right bottom : Q).
Definition combined (isTif extentApplied inS3 : bool) (e : extent) : use :=
  if isTif && extentApplied then if inS3 then Downloaded else AsItIs
  else Cut (xMin e) (yMax e) (xMax e) (yMin e).
