(** Plane geometry over exact rationals: Utilities/Intersections.py:30-44 (inLand), 47-77 (_cnPnPoly),
    80-111 (_wnPnPoly), 114-132 (_isLeft), 264-303 (LineLine), 305-334 (LinePolygon);
    Evaluate/longitudeCrossing.py:102-160 (findCrossings, also in Evaluate/evaluate.py).
    Simplifications: coordinates are exact rationals instead of floating point numbers; the histograms of the
    crossing latitudes are not modelled, the lists they are made from are. *)
From Coq Require Import QArith.
From Verif Require Import Base CellModel.
Close Scope Q_scope. Open Scope list_scope. Open Scope nat_scope.

(** Intersections.py:337-349 (Point) *)
Record pt := { px : Q; py : Q }.

(** Intersections.py:114-132 *)
Definition isLeft (p0 p1 p2 : pt) : Q :=
  ((px p1 - px p0) * (py p2 - py p0) - (px p2 - px p0) * (py p1 - py p0))%Q.

(** The edges visited by [for i in range(len(V) - 1)]: (V[i], V[i+1]). *)
Fixpoint edges (v : list pt) : list (pt * pt) :=
  match v with
  | a :: (b :: _) as r => (a, b) :: edges r
  | _ => []
  end.

(** Intersections.py:67-76 *)
Definition cnEdge (p : pt) (e : pt * pt) : bool :=
  let (a, b) := e in
  if (Qle_bool (py a) (py p) && qlt (py p) (py b)) || (qlt (py p) (py a) && Qle_bool (py b) (py p))
  then let vt := ((py p - py a) / (py b - py a))%Q in qlt (px p) (px a + vt * (px b - px a))%Q
  else false.
Definition cnNumber (p : pt) (v : list pt) : nat := length (filter (cnEdge p) (edges v)).
Definition cnPnPoly (p : pt) (v : list pt) : bool := Nat.odd (cnNumber p v).

(** Intersections.py:102-110; the second test hangs on the first if, as in the source. *)
Definition wnEdge (p : pt) (e : pt * pt) : Z :=
  let (a, b) := e in
  if Qle_bool (py a) (py p) then
    if qlt (py p) (py b) then (if qlt 0 (isLeft a b p) then 1 else 0)%Z
    else if Qle_bool (py b) (py p) then (if qlt (isLeft a b p) 0 then -1 else 0)%Z
    else 0%Z
  else 0%Z.
Definition wnNumber (p : pt) (v : list pt) : Z := fold_left Z.add (map (wnEdge p) (edges v)) 0%Z.
Definition wnPnPoly (p : pt) (v : list pt) : bool := negb (wnNumber p v =? 0)%Z.
(** Intersections.py:44 *)
Definition inLand (p : pt) (v : list pt) : bool := cnPnPoly p v && wnPnPoly p v.

(** Intersections.py:135-152 and the status strings. *)
Inductive status := Intersects | NoIntersection | Coincident | Parallel.
(** Intersections.py:282-303 *)
Definition lineLine (a1 a2 b1 b2 : pt) : status * list pt :=
  let ua_t := ((px b2 - px b1) * (py a1 - py b1) - (py b2 - py b1) * (px a1 - px b1))%Q in
  let ub_t := ((px a2 - px a1) * (py a1 - py b1) - (py a2 - py a1) * (px a1 - px b1))%Q in
  let u_b := ((py b2 - py b1) * (px a2 - px a1) - (px b2 - px b1) * (py a2 - py a1))%Q in
  if negb (Qeq_bool u_b 0) then
    let ua := (ua_t / u_b)%Q in let ub := (ub_t / u_b)%Q in
    if Qle_bool 0 ua && Qle_bool ua 1 && Qle_bool 0 ub && Qle_bool ub 1
    then (Intersects, [{| px := (px a1 + ua * (px a2 - px a1))%Q; py := (py a1 + ua * (py a2 - py a1))%Q |}])
    else (NoIntersection, [])
  else if Qeq_bool ua_t 0 || Qeq_bool ub_t 0 then (Coincident, []) else (Parallel, []).

(** Intersections.py:316-334, both branches: one list of points for each edge of each part (a plain array is a
    single part). *)
Definition linePolygon (a1 a2 : pt) (parts : list (list pt)) : status * list (list pt) :=
  let points := map (fun e => snd (lineLine a1 a2 (fst e) (snd e))) (flat_map edges parts) in
  ((if 0 <? length points then Intersects else NoIntersection), points).

(** longitudeCrossing.py:117-139: one track segment against the gate of longitude [g] from latitude [hi] down to
    [lo]: no crossing, a crossing from west to east, from east to west, or a crossing in neither list. *)
Inductive crossing := WE (lat : Q) | EW (lat : Q) | Along (lat : Q).
Definition segCrossing (g lo hi : Q) (s e : pt) : option crossing :=
  let gs := {| px := g; py := hi |} in let ge := {| px := g; py := lo |} in
  match lineLine s e gs ge with
  | (Intersects, q :: _) =>
      let sd := isLeft gs ge s in let ed := isLeft gs ge e in
      Some (if (qlt sd 0 && Qle_bool 0 ed) || (Qle_bool sd 0 && qlt 0 ed) then WE (py q)
            else if (qlt 0 sd && Qle_bool ed 0) || (Qle_bool 0 sd && qlt ed 0) then EW (py q)
            else Along (py q))
  | _ => None
  end.
(** longitudeCrossing.py:122-143: the crossings of all segments of all tracks at one gate. *)
Definition somes {A} (l : list (option A)) : list A :=
  flat_map (fun o => match o with Some a => [a] | None => [] end) l.
Definition findCrossings (g lo hi : Q) (tracks : list (list pt)) : list crossing :=
  somes (map (fun e => segCrossing g lo hi (fst e) (snd e)) (flat_map edges tracks)).
