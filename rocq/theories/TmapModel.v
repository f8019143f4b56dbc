(** Maps of tracks: makeSegments, colorline and subplot of PlotInterface/tracks.py:26-108, createMap of
    PlotInterface/maps.py:250-261.  The library: BoundaryNorm gives the number of the interval a value is in, -1 below
    and the number of intervals at or above the last bound; ListedColormap takes the first and the last colour for
    those two and draws nothing for NaN; LineCollection gives segment [i] the colour of value [i]. *)
From Coq Require Import List Arith ZArith Bool QArith String.
From Verif Require Import CellModel.
Import ListNotations.
Open Scope Q_scope.

(** makeSegments, 26-38: [None] is the error for coordinates of different number *)
Notation point := (Q * Q)%type.
Definition makeSegments (xx yy : list Q) : option (list (point * point)) :=
  if (List.length xx =? List.length yy)%nat
  then let points := combine xx yy in Some (combine (removelast points) (tl points))
  else None.

(** The defaults of colorline, 48-50, and the labels, 82-83 *)
Definition intervals : list Q := [0; 35 # 2; 49 # 2; 65 # 2; 221 # 5; 111 # 2; 1000].
Definition labels : list string := ["No data"; "Category 1"; "Category 2"; "Category 3"; "Category 4"; "Category 5"]%string.
(** [np.digitize]: how many bounds are not above the value *)
Definition digitize (v : Q) (bounds : list Q) : nat := List.length (filter (fun b => Qle_bool b v) bounds).
(** The number of the colour of a value, [None] for NaN *)
Definition colour (v : option Q) : option nat :=
  match v with
  | None => None
  | Some z => let k := digitize z intervals in
              Some (if (k =? 0)%nat then 0%nat else if (k =? List.length intervals)%nat then (List.length labels - 1)%nat else (k - 1)%nat)
  end.
(** [np.linspace(0.0, 1.0, n)], 68-69 *)
Definition linspace01 (n : nat) : list (option Q) :=
  map (fun i => Some (inject_Z (Z.of_nat i) / inject_Z (Z.of_nat (n - 1)))) (seq 0 n).
(** colorline, 47-90: the segments with their colours *)
Definition colorline (xx yy : list Q) (zz : option (list (option Q))) : option (list (point * point * option nat)) :=
  match makeSegments xx yy with
  | None => None
  | Some segs => let z := match zz with Some z => z | None => linspace01 (List.length xx) end in
                 Some (combine segs (map colour z))
  end.

(** subplot, 95-108: createMap gives the axes, which cannot be called (100) *)
Inductive drawn := Map (lines : list (list (point * point * option nat))) | TypeErr.
Definition subplot (tracks : list (list Q * list Q * list (option Q))) : drawn :=
  match tracks with
  | [] => Map []
  | _ :: _ => TypeErr
  end.
