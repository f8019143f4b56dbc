(** Coordinates of the points of makeGrid and of meshLatLon along one axis (Utilities/maputils.py:469-513,
    575-610), in thousandths of a degree over exact rationals. *)
From Verif Require Import Base TileModel ExtremesModel.
From Coq Require Import QArith.
Open Scope Z_scope.

(** numpy.arange(a, b, s) for integers and s > 0 *)
Definition arangeZ (a b s : Z) : list Z := map (fun k => a + Z.of_nat k * s) (seq 0 (Z.to_nat (arange_len a b s))).
(** makeGrid without limits, maputils.py:494-511 *)
Definition makeGridAxis (c margin res : Q) : list Z :=
  let gridSize := qint (res * 1000) in
  arangeZ (qint (1000 * c) - qint (1000 * margin)) (qint (1000 * c) + qint (1000 * margin) + 1) gridSize.
(** meshLatLon, maputils.py:594-606 *)
Definition meshAxis (c margin res : Q) : list Z :=
  let gridSize := qint (1000 * res) in
  arangeZ (qint (1000 * (c - margin))) (qint (1000 * (c + margin)) + gridSize) gridSize.
