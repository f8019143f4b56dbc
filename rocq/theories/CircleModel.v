(** Circles against segments and polygons: Utilities/Intersections.py:165-213 (CircleLine), 215-249
    (CirclePolygon), 251-262 (lerp). Simplification: coordinates are real numbers instead of floating point
    numbers, so that math.sqrt is the exact square root. *)
From Coq Require Import Reals List Bool.
Import ListNotations.
Open Scope R_scope.

(** Intersections.py:337-349 *)
Record rpt := { rx : R; ry : R }.
Inductive cstatus := CNone | COutside | CTangent | CInside | CIntersects.

Definition rlt (a b : R) : bool := if Rlt_dec a b then true else false.
Definition rle (a b : R) : bool := if Rle_dec a b then true else false.
Definition req (a b : R) : bool := if Req_EM_T a b then true else false.

(** Intersections.py:251-262 *)
Definition lerp (a1 a2 : rpt) (u : R) : rpt :=
  {| rx := rx a1 + (rx a2 - rx a1) * u; ry := ry a1 + (ry a2 - ry a1) * u |}.

(** Intersections.py:185-213 *)
Definition circleLine (c : rpt) (r : R) (a1 a2 : rpt) : cstatus * list rpt :=
  let a := (rx a2 - rx a1) * (rx a2 - rx a1) + (ry a2 - ry a1) * (ry a2 - ry a1) in
  let b := 2 * ((rx a2 - rx a1) * (rx a1 - rx c) + (ry a2 - ry a1) * (ry a1 - ry c)) in
  let cc := rx c * rx c + ry c * ry c + rx a1 * rx a1 + ry a1 * ry a1
            - 2 * (rx c * rx a1 + ry c * ry a1) - r * r in
  let deter := b * b - 4 * a * cc in
  if rlt deter 0 then (COutside, [])
  else if req deter 0 then (CTangent, [])
  else
    let e := sqrt deter in
    let u1 := (- b + e) / (2 * a) in
    let u2 := (- b - e) / (2 * a) in
    if (rlt u1 0 || rlt 1 u1) && (rlt u2 0 || rlt 1 u2) then
      if (rlt u1 0 && rlt u2 0) || (rlt 1 u1 && rlt 1 u2) then (COutside, []) else (CInside, [])
    else
      (CIntersects, (if rle 0 u1 && rle u1 1 then [lerp a1 a2 u1] else []) ++
                    (if rle 0 u2 && rle u2 1 then [lerp a1 a2 u2] else [])).

(** The pairs (p[i], p[i+1]) and, for the branch for lists of parts, (p[i], p[i-1]) with p[-1] the last point,
    both for i in range(len(p) - 1). *)
Fixpoint redges (v : list rpt) : list (rpt * rpt) :=
  match v with a :: (b :: _) as r => (a, b) :: redges r | _ => [] end.
Definition backEdges (v : list rpt) : list (rpt * rpt) :=
  match v with
  | [] | [_] => []
  | a :: r => (a, last r a) :: map (fun e => (snd e, fst e)) (redges (removelast v))
  end.
(** Intersections.py:230-249: [inl] a list of parts, [inr] a single array of points. *)
Definition circlePolygon (c : rpt) (r : R) (points : list (list rpt) + list rpt) : cstatus * list (list rpt) :=
  let es := match points with inl parts => flat_map backEdges parts | inr v => redges v end in
  let hits := filter (fun x => match fst x with CIntersects => true | _ => false end)
                (map (fun e => circleLine c r (fst e) (snd e)) es) in
  (match hits with [] => CNone | _ => CIntersects end, map snd hits).
