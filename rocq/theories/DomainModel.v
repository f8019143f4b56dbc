(** Coordinates of the points of makeGridDomain and of meshLatLonDomain along one axis (Utilities/maputils.py:533-569,
    606-631), in thousandths of a degree over exact rationals.
    The distances and bearings computed for these points are those of gridLatLonDist and gridLatLonBear (SphereModel). *)
From Verif Require Import Base TileModel ExtremesModel MeshModel.
From Coq Require Import QArith.
Open Scope Z_scope.

(** numpy.arange with a step that may be zero: [None] is the ZeroDivisionError *)
Definition arangeO (a b s : Z) : option (list Z) := if s =? 0 then None else Some (arangeZ a b s).
(** makeGridDomain, 558-566; a negative resolution is not modelled *)
Definition domainAxis (lo hi margin res : Q) : option (list Z) :=
  let gridSize := qint (res * 1000) in
  arangeO (qint (1000 * lo) - qint (1000 * margin)) (qint (1000 * hi) + qint (1000 * margin) + 1) gridSize.
(** meshLatLonDomain, 620-628 *)
Definition meshDomainAxis (lo hi margin res : Q) : option (list Z) :=
  let gridSize := qint (1000 * res) in
  arangeO (qint (1000 * (lo - margin))) (qint (1000 * (hi + margin)) + gridSize) gridSize.
