(** Files of observations for the statistics: DataProcess/DataProcess.py:357-420 (_lonLat), 519-557 (_pressure),
    645-686 (_speedRate), 688-702 (_windSpeed), 704-738 (_rmax), written by Utilities/files.py:94-117 (flSaveFile),
    read by files.py:77-91 (flLoadFile) in StatInterface/GenerateDistributions.py:138-165 (allDistributions), with
    stats.py:233-240 (statRemoveNum).  Exact rationals; 32 bit numbers, nan in the input and the log are not modelled.
    Bearings, speeds and pressure rates are in LoadModel, cells and their expansion in CellModel. *)
From Coq Require Import List Arith ZArith QArith Bool.
From Verif Require Import CellModel GenModel LoadModel.
Import ListNotations.
Local Open Scope Q_scope.

(** One row of a positions file: longitude, latitude, land flag. *)
Definition row := (Q * Q * Q)%type.

(** * Positions *)
(** 377-380: [mask]: the land mask grid at a position *)
Definition lsflag (mask : Q -> Q -> Q) (p : Q * Q) : Q := if qlt 0 (mask (fst p) (snd p)) then 1 else 0.
Definition positions (mask : Q -> Q -> Q) (pts : list (Q * Q)) : list row := map (fun p => (p, lsflag mask p)) pts.
(** 382-388: origins with the indicator, initial positions with initIndex *)
Definition originRows (mask : Q -> Q -> Q) (fl : list Z) (pts : list (Q * Q)) : list row :=
  compress (map nz fl) (positions mask pts).
Definition initRows (mask : Q -> Q -> Q) (fl : list Z) (pts : list (Q * Q)) : list row :=
  compress (initIndex fl) (positions mask pts).

(** * Values *)
(** 533-535, 716-718: pressures and radii: initial, and others that are not missing *)
Definition initOnly (fl : list Z) (v : list Q) : list Q := compress (map nz fl) v.
Definition withoutInit (fl : list Z) (v : list Q) : list Q :=
  filter (fun x => qlt x maxsize) (compress (map (fun f => (f =? 0)%Z) fl) v).
(** 662-680: [junk], [jdist], [jdt]: the contents of np.empty at the first record; a speed of [None] is nan or an
    infinity, and an infinity is masked like a speed above 200 if positive, below 0 if negative *)
Definition badSpeed (dist dt : Q) : bool :=
  match rate dist dt with
  | None => negb (Qeq_bool dist 0)
  | Some v => qlt v 0 || qlt 200 v
  end.
Definition optDiff (a b : option Q) : option Q := match a, b with Some x, Some y => Some (y - x) | _, _ => None end.
Fixpoint optDiffs (p : option Q) (l : list (option Q)) : list (option Q) :=
  match l with [] => [] | a :: r => optDiff p a :: optDiffs a r end.
Definition optRate (x : option Q) (dt : Q) : option Q := match x with None => None | Some v => rate v dt end.
Definition speedRate (junk : option Q) (dist dt : list Q) (fl : list Z) : list Q :=
  let speed := map2 rate dist dt in
  let change := match speed with [] => [] | a :: r => junk :: optDiffs a r end in
  let flagged := map2 (fun f b => if (b : bool) then 1%Z else f) fl (map2 badSpeed dist dt) in
  map settle (map2 (fun f x => mask (nz f) x) (shifted flagged)
                (map2 (fun f x => mask (nz f) x) flagged (map2 optRate change dt))).
(** 696; [junk]: without a column of winds, np.empty (289) *)
Definition windSpeeds (junk : list Q) (v : option (list Q)) : list Q :=
  map (fun x => if qlt 200 x then maxsize else x) (match v with Some l => l | None => junk end).

(** * Text *)
(** '%6.2f', '%7.2f': two decimals *)
Definition written (v : list Q) : list Q := map round2 v.
Definition writtenRows (l : list row) : list row := map (fun r => (round2 (fst (fst r)), round2 (snd (fst r)), round2 (snd r))) l.
(** numpy.genfromtxt of a file with one column or several: one row loses a dimension *)
Inductive loaded := Scalar (x : Q) | Vector (l : list Q) | Table (l : list row).
Definition loadColumn (l : list Q) : loaded := match l with [x] => Scalar x | _ => Vector l end.
Definition loadRows (l : list row) : loaded :=
  match l with [] => Vector [] | [(a, b, c)] => Vector [a; b; c] | _ => Table l end.
Definition len (v : loaded) : option nat :=
  match v with Scalar _ => None | Vector l => Some (length l) | Table l => Some (length l) end.

(** * allDistributions, 138-165, and the selection of extractParameter, 265-273 *)
(** 148-153: values with their positions; [None]: TypeError or IndexError *)
Definition paired (ll : list row) (v : list Q) : option (list (row * Q)) :=
  match len (loadColumn v), len (loadRows ll) with
  | Some n, Some m =>
      if (n =? m)%nat then
        match loadRows ll, loadColumn v with
        | Table rows, Vector l => Some (combine rows l)
        | _, _ => None
        end
      else None
  | _, _ => None
  end.
Definition inRect (w e s n : Q) (r : row) : bool :=
  Qle_bool s (snd (fst r)) && qlt (snd (fst r)) n && Qle_bool w (fst (fst r)) && qlt (fst (fst r)) e.
(** statRemoveNum with sys.maxsize *)
Definition removeMissing (l : list Q) : list Q :=
  filter (fun x => qlt x maxsize) (filter (fun x => negb (Qeq_bool x maxsize)) l).
Definition sample (w e s n : Q) (l : list (row * Q)) : list Q :=
  removeMissing (map snd (filter (fun p => inRect w e s n (fst p)) l)).
(** KDEOrigin.py:90: the positions of the density of genesis are those of init_lon_lat *)
Definition genesisPoints (mask : Q -> Q -> Q) (fl : list Z) (pts : list (Q * Q)) : list row :=
  writtenRows (initRows mask fl pts).
