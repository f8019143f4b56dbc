(** Local wind fields at the resolution of the gusts: ProcessMultipliers/lowResProcessMultipliers.py:16-178.
    The sector table and the numbers of the bands (138-149) are those of processMultipliers.py and taken from MultModel.
    Reprojection by GDAL is a parameter; reading of the options and logging (70-116) are left out; the bearings
    (168-169), computed with arctan2, are given with the gust file ([None]: NaN). *)
From Coq Require Import List Arith Bool Ascii String QArith.
From Verif Require Import NamesModel TextModel S3Model MultModel.
Import ListNotations.
Close Scope Q_scope. Close Scope string_scope. Open Scope nat_scope. Local Open Scope list_scope.

(** A gust file: latitudes, longitudes, [vmax] and the bearing of the wind *)
Record gust := { g_lat : list Q; g_lon : list Q; g_wind : nat -> nat -> Q; g_bear : nat -> nat -> option Q }.
(** Eight bands of one shape *)
Record raster := { r_high : nat; r_wide : nat; r_band : list (nat -> nat -> Q) }.
Inductive error := ENotFound | EAttribute | EIndex | ELoad | EWrite.

(** 16-64 downscale_multipliers: the expression in line 32 has an attribute that no module os.path has, whatever the
    directory *)
Definition downscale (isfile : str -> bool) (src match_ dst : str) : error + raster :=
  if negb (isfile src) then inl ENotFound
  else if negb (isfile match_) then inl ENotFound
  else inl EAttribute.

(** 156-159: negative multipliers count as 1 *)
Definition cleaned (q : Q) : Q := if q_ltb q 0 then 1%Q else q.
Definition loadBands (r : raster) : list (nat -> nat -> Q) := map (fun f y x => cleaned (f y x)) (r_band r).

(** 172: comparisons with NaN are false *)
Definition masked (b : option Q) (s : sector) : bool := match b with Some b => in_sector b s | None => false end.
Definition cells (g : gust) : list (nat * nat) :=
  list_prod (seq 0 (List.length (g_lat g))) (seq 0 (List.length (g_lon g))).
(** 171-174: [None] is an IndexError, of the list of bands or of a selected cell outside the band *)
Fixpoint applySectors (ss : list (sector * nat)) (high wide : nat) (bands : list (nat -> nat -> Q)) (g : gust)
    (local : nat -> nat -> Q) : option (nat -> nat -> Q) :=
  match ss with
  | [] => Some local
  | (s, n) :: ss' =>
      match nth_error bands (n - 1) with
      | None => None
      | Some m4 =>
          if existsb (fun c => masked (g_bear g (fst c) (snd c)) s && negb ((fst c <? high) && (snd c <? wide))) (cells g)
          then None
          else applySectors ss' high wide bands g
                 (fun y x => if masked (g_bear g y x) s then (g_wind g y x * m4 y x)%Q else local y x)
      end
  end.
(** 164-174 *)
Definition localWind (r : raster) (g : gust) : option (nat -> nat -> Q) :=
  applySectors (combine indices band_numbers) (r_high r) (r_wide r) (loadBands r) g (g_wind g).

(** 178: [gust_file.replace("gust", "wm_gust")] *)
Definition outName (f : str) : str := sub (lit "gust") (lit "wm_gust") 0 f.
(** 163-178: the files written, and the exception that ended the loop *)
Fixpoint applyAll (load : str -> option gust) (writable : str -> bool) (r : raster) (fs : list str) :
    list (str * (nat -> nat -> Q)) * option error :=
  match fs with
  | [] => ([], None)
  | f :: fs' =>
      match load f with
      | None => ([], Some ELoad)
      | Some g =>
          match localWind r g with
          | None => ([], Some EIndex)
          | Some l => if writable (outName f)
                      then let (o, e) := applyAll load writable r fs' in ((outName f, l) :: o, e)
                      else ([], Some EWrite)
          end
      end
  end.

(** 130 *)
Definition gustFiles (dir : str) (listing : list str) : list str :=
  map (pjoin dir) (filter (starts_with (lit "gust")) listing).
(** 128-178 main *)
Definition main (isfile : str -> bool) (load : str -> option gust) (writable : str -> bool)
    (working dir mult : str) (listing : list str) : list (str * (nat -> nat -> Q)) * option error :=
  let fs := gustFiles dir listing in
  match fs with
  | [] => ([], Some EIndex)
  | f :: _ => match downscale isfile mult f (pjoin working (lit "low_res_m4.tif")) with
              | inl e => ([], Some e)
              | inr r => applyAll load writable r fs
              end
  end.
