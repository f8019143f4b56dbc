(** Maps of the evaluations over all simulations: Evaluate/genesisDensity.py:79-391, 397-483,
    Evaluate/trackDensity.py:110-118, 216-375 and Evaluate/longitudeCrossing.py:85-88, 143-172.
    The kernel density estimate of statsmodels is a parameter, numbers are rationals; plots are modelled only by the
    simulations they need.  The results of the simulations are a list of matrices, the longitude being the first index. *)
From Coq Require Import List Arith ZArith Bool QArith Qround.
From Verif Require Import Base CellModel FitModel SampModel DensityModel StoreModel CurveModel.
Import ListNotations.
Close Scope Q_scope. Open Scope nat_scope.

Definition matrix := list (list Q).
Definition at2 (m : matrix) (i j : nat) : Q := nth j (nth i m []) 0%Q.
(** [np.transpose] of a matrix of [r] rows and [c] columns *)
Definition transpose (r c : nat) (m : matrix) : matrix := map (fun j => map (fun i => at2 m i j) (seq 0 r)) (seq 0 c).

(** A statistic along the axis of the simulations, genesisDensity.py:211-216, trackDensity.py:114-118 *)
Definition overSims (f : list Q -> Q) (nx ny : nat) (sims : list matrix) : matrix :=
  map (fun i => map (fun j => f (map (fun m => at2 m i j) sims)) (seq 0 ny)) (seq 0 nx).

(** What the file holds, genesisDensity.py:310-391, trackDensity.py:216-289 *)
Record emap := { e_lat : list Q; e_lon : list Q; e_hist : matrix; e_mean : matrix; e_upper : matrix; e_lower : matrix }.
(** The files written by [run], which draws the samples with the numbers [shown] first: [None] is the IndexError of
    the first missing simulation, before anything has been saved *)
Definition evalFile (shown : list nat) (lons lats : list Q) (hist : matrix) (sims : list matrix) : option emap :=
  let nx := length lons in let ny := length lats in
  if forallb (fun k => k <? length sims) shown then
    Some {| e_lat := lats; e_lon := lons; e_hist := transpose nx ny hist;
            e_mean := transpose nx ny (overSims meanq nx ny sims);
            e_upper := transpose nx ny (overSims (fun v => percentile v 95) nx ny sims);
            e_lower := transpose nx ny (overSims (fun v => percentile v 5) nx ny sims) |}
  else None.
(** genesisDensity.py:424-429 *)
Definition genesisShown : list nat := [0; 1; 2].
(** trackDensity.py:313-322 *)
Definition densityShown : list nat := [0; 10; 20; 30; 40].

(** * Genesis density *)
(** A record of a track: longitude, latitude and year *)
Record grec := { gr_lon : Q; gr_lat : Q; gr_year : Z }.
(** The limits of the domain: xMin, xMax, yMin, yMax *)
Record glim := { gxMin : Q; gxMax : Q; gyMin : Q; gyMax : Q }.
(** genesisDensity.py:178-188: the first position of each track that has one *)
Definition starts (tracks : list (list grec)) : list (Q * Q) :=
  flat_map (fun t => match t with [] => [] | r :: _ => [(gr_lon r, gr_lat r)] end) tracks.
(** genesisDensity.py:194-197 *)
Definition inLimits (g : glim) (p : Q * Q) : bool :=
  Qle_bool (gxMin g) (fst p) && Qle_bool (fst p) (gxMax g) && Qle_bool (gyMin g) (snd p) && Qle_bool (snd p) (gyMax g).
(** genesisDensity.py:96-101: a spacing of one degree *)
Definition gLons (g : glim) : list Q := arange (gxMin g) (gxMax g + (1 # 10)) 1.
Definition gLats (g : glim) : list Q := arange (gyMin g) (gyMax g + (1 # 10)) 1.
Section Genesis.
(** The density that KDEMultivariate estimates from points *)
Variable kde : list (Q * Q) -> Q * Q -> Q.
(** _calculate, genesisDensity.py:163-203; [None]: the ValueError of KDEMultivariate for no more than two points *)
Definition genesis (g : glim) (tracks : list (list grec)) : option matrix :=
  let nx := length (gLons g) in let ny := length (gLats g) in
  let values := filter (inLimits g) (starts tracks) in
  if length values <=? 2 then None
  else let xy := flat_map (fun lat => map (fun lon => (lon, lat)) (gLons g)) (gLats g) in
       match reshape ny nx (map (kde values) xy) with
       | Some z => Some (transpose ny nx z)
       | None => None
       end.
(** historic and synthetic, genesisDensity.py:219-305, and [run]; the first exception ends the evaluation *)
Fixpoint allMaps (g : glim) (sets : list (list (list grec))) : option (list matrix) :=
  match sets with
  | [] => Some []
  | s :: r => match genesis g s, allMaps g r with Some m, Some l => Some (m :: l) | _, _ => None end
  end.
Definition genesisFile (g : glim) (historic : list (list grec)) (sets : list (list (list grec))) : option emap :=
  match genesis g historic, allMaps g sets with
  | Some h, Some sims => evalFile genesisShown (gLons g) (gLats g) h sims
  | _, _ => None
  end.
End Genesis.

(** * Longitude crossings *)
(** longitudeCrossing.py:143-154: [np.histogram(lats, gateLats, density=True)] of the crossings of one gate; zeros
    without crossings, [None] (not a number) when no crossing lies between the gate latitudes *)
Definition crossingRate (edges : list Q) (lats : list Q) : list (option Q) :=
  let n := length edges - 1 in
  match lats with
  | [] => repeat (Some 0%Q) n
  | _ => let count i := length (filter (inBin edges i) lats) in
         let total := fold_right Nat.add 0 (map count (seq 0 n)) in
         map (fun i => if total =? 0 then None
                       else Some (inject_Z (Z.of_nat (count i)) / (inject_Z (Z.of_nat total) * (nth (S i) edges 0 - nth i edges 0)))%Q) (seq 0 n)
  end.
