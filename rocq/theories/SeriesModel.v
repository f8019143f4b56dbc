(** Statistics of the observed series that drive the simulated tracks: autocorrelation and autoregression
    coefficients (StatInterface/generateStats.py:27-41, 217-250), the noise of the simulated series
    (Utilities/tcrandom.py, TrackGenerator.py:1660-1664) and circular statistics (Utilities/stats.py:200-236).
    Numbers are reals. Complex numbers are pairs of real and imaginary part. *)
From Coq Require Import Reals List Arith.
From Verif Require Import CircleModel WindModel.
Import ListNotations.
Open Scope R_scope.

Definition sumR (l : list R) : R := fold_right Rplus 0 l.
Definition mean (l : list R) : R := sumR l / INR (length l).
Fixpoint dotR (a b : list R) : R := match a, b with x :: a', y :: b' => x * y + dotR a' b' | _, _ => 0 end.

(** [np.correlate(p, p, 'full')]: the sums of products at the lags from [-(n - 1)] to [n - 1] *)
Definition corr (p : list R) (k : nat) : R := dotR p (skipn k p).
Definition full (p : list R) : list R :=
  map (fun j => corr p (length p - 1 - j)) (seq 0 (length p - 1)) ++ map (corr p) (seq 0 (length p)).
Definition maxR (l : list R) : R := match l with [] => 0 | a :: r => fold_right Rmax a r end.
(** generateStats.py:27-41 *)
Definition acf (p : list R) (nlags : nat) : list R :=
  map (fun a => a / maxR (full p)) (firstn (nlags + 1) (skipn (length p - 1) (full p))).
(** generateStats.py:245-246 *)
Definition alphaOf (p : list R) : R := last (acf p 1) 0.
Definition phiOf (p : list R) : R := sqrt (1 - alphaOf p ^ 2).
(** TrackGenerator.py:1102, 1142, 1187, 1230 *)
Definition arStep (alpha phi chi noise : R) : R := alpha * chi + phi * noise.
(** tcrandom.py logisticvariate with location 0 and scale 1 for the uniform variate [u] *)
Definition logistic (u : R) : R := ln (u / (1 - u)).

(** stats.py:200-209 circmean, 223-231 circstd with the default range from 0 to 2 pi, where the conversion of
    the samples and of the result is the identity *)
Definition resultant (s : list R) : R * R := (mean (map cos s), mean (map sin s)).
Definition circmean (s : list R) : R :=
  let res := atan2 (snd (resultant s)) (fst (resultant s)) in
  if rlt res 0 then res + 2 * PI else res.
Definition modulus (z : R * R) : R := sqrt (fst z ^ 2 + snd z ^ 2).
Definition circstd (s : list R) : R := sqrt (1 - modulus (resultant s)).
