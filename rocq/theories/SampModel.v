(** Tabulated distributions and inverse-transform sampling: Utilities/stats.py:44-86,
    StatInterface/SamplingOrigin.py:119-251, StatInterface/SamplingParameters.py:76-110,
    StatInterface/KDEParameters.py:71-163, StatInterface/GenerateDistributions.py:154-196,
    TrackGenerator/TrackGenerator.py:562-636, 1678-1686.
    Numbers are rationals; rounding is not modelled. *)
From Coq Require Import QArith Qabs Qround.
From Verif Require Import Base.
Close Scope Q_scope. Open Scope list_scope. Open Scope nat_scope.

Inductive serr := EIndex | EType | EValue.
Inductive sres (A : Type) := SOk (a : A) | SErr (e : serr).
Arguments SOk {A}. Arguments SErr {A}.
Definition sbind {A B} (r : sres A) (f : A -> sres B) : sres B :=
  match r with SOk a => f a | SErr e => SErr e end.

(** numpy's [cumsum] with a starting value. *)
Fixpoint cumsum (a : Q) (l : list Q) : list Q :=
  match l with [] => [] | y :: r => (a + y)%Q :: cumsum (a + y)%Q r end.

(** stats.py:44-58 cdf. IndexError for fewer than two abscissae or no ordinates. *)
Definition cdf (x y : list Q) : sres (list Q) :=
  match x with
  | x0 :: x1 :: _ =>
      let h := Qabs (x1 - x0)%Q in
      let cy := cumsum 0%Q (map (Qmult h) y) in
      match cy with
      | [] => SErr EIndex
      | _ => let t := last cy 0%Q in
             if Qeq_bool t 0%Q then SOk cy else SOk (map (fun c => (c / t)%Q) cy)
      end
  | _ => SErr EIndex
  end.

(** stats.py:72-80: rows of [cz] after the first. [row] fills columns 1.. from the left neighbour
    [c], the row above ([p] its previous entry) and the volumes. *)
Fixpoint cz_row (c p : Q) (up v : list Q) : list Q :=
  match up, v with
  | u :: up', w :: v' => let e := (u + c - p + w)%Q in e :: cz_row e u up' v'
  | _, _ => []
  end.
(** Column 0 is a plain cumulative sum (line 73). *)
Definition cz_next (up v : list Q) : list Q :=
  match up, v with
  | u :: up', w :: v' => let e := (u + w)%Q in e :: cz_row e u up' v'
  | _, _ => []
  end.
Fixpoint cz_rows (up : list Q) (vs : list (list Q)) : list (list Q) :=
  match vs with [] => [] | v :: r => let n := cz_next up v in n :: cz_rows n r end.
(** stats.py:61-86 cdf2d; [z] has one row per x. *)
Definition cdf2d (x y : list Q) (z : list (list Q)) : sres (list (list Q)) :=
  match x, y with
  | x0 :: x1 :: _, y0 :: y1 :: _ =>
      let area := (Qabs (x1 - x0) * Qabs (y1 - y0))%Q in
      match map (map (Qmult area)) z with
      | [] => SErr EIndex
      | v0 :: vs =>
          let r0 := cumsum 0%Q v0 in
          let cz := r0 :: cz_rows r0 vs in
          let t := last (last cz []) 0%Q in
          if Qeq_bool t 0%Q then SOk cz else SOk (map (map (fun c => (c / t)%Q)) cz)
      end
  | _, _ => SErr EType
  end.

(** numpy's [searchsorted] (side='left'): the number of leading entries below [q]. *)
Fixpoint searchsorted (l : list Q) (q : Q) : nat :=
  match l with
  | [] => 0
  | a :: r => if Qle_bool q a then 0 else S (searchsorted r q)
  end.

(** Reading an array entry. *)
Definition at_ {A} (l : list A) (i : nat) : sres A :=
  match nth_error l i with Some a => SOk a | None => SErr EIndex end.

(** SamplingOrigin.py:213-251 _calculateCDF. [z] has one row per y; its width is the number of x. *)
Definition colSum (z : list (list Q)) (i : nat) : Q :=
  fold_left (fun a row => (a + nth i row 0)%Q) z 0%Q.
Definition condPdf (z : list (list Q)) (p : Q) (i : nat) : list Q :=
  map (fun row => if Qeq_bool p 0%Q then 0%Q else (nth i row 0 / p)%Q) z.
Fixpoint traverse {A B} (f : A -> sres B) (l : list A) : sres (list B) :=
  match l with
  | [] => SOk []
  | a :: r => sbind (f a) (fun b => sbind (traverse f r) (fun bs => SOk (b :: bs)))
  end.
Definition calculateCDF (x y : list Q) (z : list (list Q)) : sres (list Q * list (list Q)) :=
  let px := map (colSum z) (seq 0 (length x)) in
  sbind (cdf x px) (fun cdfX =>
  sbind (traverse (fun i => cdf y (condPdf z (colSum z i) i)) (seq 0 (length x))) (fun cdfY =>
  SOk (cdfX, cdfY))).

(** SamplingOrigin.py:129-141 ppf (and generateOneSample 119-128, same text). *)
Definition originPpf (x y : list Q) (z : list (list Q)) (q1 q2 : Q) : sres (Q * Q) :=
  sbind (calculateCDF x y z) (fun c =>
  let xi := searchsorted (fst c) q1 in
  sbind (at_ (snd c) xi) (fun row =>
  let yj := searchsorted row q2 in
  sbind (at_ x xi) (fun a => sbind (at_ y yj) (fun b => SOk (a, b))))).
(** SamplingOrigin.py:159-211 generateSamples with the two vectors of random numbers. *)
Definition originSamples (x y : list Q) (z : list (list Q)) (ns : Z) (us : list (Q * Q)) : sres (list (Q * Q)) :=
  if (ns <=? 0)%Z then SErr EValue
  else traverse (fun u => originPpf x y z (fst u) (snd u)) (firstn (Z.to_nat ns) us).
(** SamplingOrigin.py:143-157 cdf: index -1 reads the last entry. *)
Definition at_py {A} (l : list A) (i : Z) : sres A :=
  if (i <? 0)%Z then (if (Z.of_nat (length l) + i <? 0)%Z then SErr EIndex else at_ l (Z.to_nat (Z.of_nat (length l) + i)))
  else at_ l (Z.to_nat i).
Definition originCdf (x y : list Q) (z : list (list Q)) (xx yy : Q) : sres (Q * Q) :=
  sbind (calculateCDF x y z) (fun c =>
  let xi := (Z.of_nat (searchsorted x xx) - 1)%Z in
  let yi := (Z.of_nat (searchsorted y yy) - 1)%Z in
  sbind (at_py (fst c) xi) (fun a =>
  sbind (at_py (snd c) xi) (fun row => sbind (at_py row yi) (fun b => SOk (a, b))))).

(** TrackGenerator.py:1678-1686 ppf and SamplingParameters.py:76-81: a table of (value, cumulative). *)
Definition ppf (q : Q) (tab : list (Q * Q)) : sres Q :=
  sbind (at_ tab (searchsorted (map snd tab) q)) (fun r => SOk (fst r)).
(** SamplingParameters.py:83-110 *)
Definition paramSamples (tab : list (Q * Q)) (ns : Z) (us : list Q) : sres (list Q) :=
  if (ns <=? 0)%Z then SErr EValue else traverse (fun u => ppf u tab) (firstn (Z.to_nat ns) us).

(** numpy's [arange]. *)
Definition arange (a b step : Q) : list Q :=
  map (fun k => (a + inject_Z (Z.of_nat k) * step)%Q) (seq 0 (Z.to_nat (Qceiling ((b - a) / step)))).
Fixpoint qmin (m : Q) (l : list Q) : Q := match l with [] => m | a :: r => qmin (if Qle_bool m a then m else a) r end.
Fixpoint qmax (m : Q) (l : list Q) : Q := match l with [] => m | a :: r => qmax (if Qle_bool a m then m else a) r end.

(** Python's slice [l\[a:b\]] for naturals. *)
Definition slice {A} (a b : nat) (l : list A) : list A := firstn (b - a) (skipn a l).

(** KDEParameters.py:112-163 generateKDE on an array of parameters, missing values already removed.
    [dens] is the kernel density estimate (statsmodels) of the data at each point of the grid, with
    NaN mapped to 0 (line 222); the bandwidth check is not modelled. Rows are (x, pdf, cdf). *)
Inductive kind := Plain | Angular | Periodic (p : Z).
Definition kdeGrid (k : kind) (params : list Q) (step : Q) : list Q :=
  match k with
  | Angular => arange 0 360 step
  | Periodic p => let x := arange 1 (inject_Z (p + 1)) step in
      map (fun v => v - inject_Z p)%Q x ++ x ++ map (fun v => v + inject_Z p)%Q x
  | Plain => match params with [] => [] | a :: r => arange (qmin a r) (qmax a r) step end
  end.
Definition generateKDE (dens : list Q -> Q -> Q) (k : kind) (params : list Q) (step : Q)
  : sres (list (Q * Q * Q)) :=
  if length params <=? 1 then SErr EIndex
  else
    let grid := kdeGrid k params step in
    if length grid <? 2 then SErr EValue
    else
      let pdf := map (dens params) grid in
      let '(grid, pdf) :=
        match k with
        | Periodic p =>
            let idx := Z.to_nat (Qfloor (inject_Z p / step)) in
            (slice idx (2 * idx) grid, map (Qmult 3) (slice idx (2 * idx) pdf))
        | _ => (grid, pdf)
        end in
      sbind (cdf grid pdf) (fun cy => SOk (combine (combine grid pdf) cy)).

(** GenerateDistributions.py:154-196 allDistributions: rows (cell, x, cdf) of all cells stacked. *)
Definition allDistributions (dens : list Q -> Q -> Q) (k : kind) (sample : nat -> list Q) (step : Q) (maxCell : nat)
  : sres (list (nat * Q * Q)) :=
  sbind (traverse (fun c => sbind (generateKDE dens k (sample c) step) (fun rows =>
                    SOk (map (fun r => (c, fst (fst r), snd r)) rows))) (seq 0 (S maxCell)))
        (fun blocks => SOk (concat blocks)).
(** TrackGenerator.py:584-586, 593-595, 603-605: rows of one cell, last two columns. *)
Definition cellTable (t : list (nat * Q * Q)) (c : nat) : list (Q * Q) :=
  map (fun r => (snd (fst r), snd r)) (filter (fun r => fst (fst r) =? c) t).

(** TrackGenerator.py:627-636: genesis pressure, sampled below the environmental pressure. [u] is the
    random number in [0,1) behind [uniform(0.0, upperProb)] = 0 + (upperProb - 0) * u. *)
Definition genesisPressure (tab : list (Q * Q)) (env u : Q) : sres Q :=
  let ix := (Z.of_nat (searchsorted (map fst tab) env) - 1)%Z in
  sbind (at_py tab ix) (fun r => ppf (snd r * u)%Q tab).
(** KDEOrigin.py:73-74: longitudes upwards from the west, latitudes downwards from the north. *)
Definition originGridX (xMin xMax step : Q) : list Q := arange xMin xMax step.
Definition originGridY (yMin yMax step : Q) : list Q := arange yMax yMin (- step)%Q.
