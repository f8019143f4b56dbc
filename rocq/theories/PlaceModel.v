(** Places and their hazard in the database: the list of stations (database/__init__.py:214-259, 692-819), return
    levels (486-547), two queries (database/queries.py:74-96, 202-230) and the distance of a track from a place
    (Utilities/track.py:138-160).  Coordinates and speeds are exact rationals, distances real numbers.  Text columns
    are one opaque value, time stamps are left out.  Tables with an integer primary key are lists in the order of
    the keys. *)
From Coq Require Import List Arith ZArith Bool QArith Qround Reals.
From Verif Require Import NumModel GenModel CircleModel.
Import ListNotations.
Close Scope R_scope.
Local Open Scope Q_scope.

Section Places.
  Variable A : Type.                 (* code, name, elevation, country, comment *)
  Record place := { p_id : nat; p_lon : Q; p_lat : Q; p_info : A }.
  (** a point of the shape file with its record *)
  Record point := { x_lon : Q; x_lat : Q; x_rec : A }.

  (** buildLocationDatabase, 770-819: positions of a projected map (and empty files: [max] of nothing) raise
      ValueError, [None]; identifiers are given by the data base: 1, 2, ... in a new table *)
  Definition geographic (p : point) : bool :=
    Qle_bool (x_lon p) 721 && Qle_bool (-721) (x_lon p) && Qle_bool (x_lat p) 91 && Qle_bool (-91) (x_lat p).
  Definition buildLocations (points : list point) : option (list place) :=
    match points with
    | [] => None
    | _ => if forallb geographic points
           then Some (map (fun ip => {| p_id := S (fst ip); p_lon := qmod (x_lon (snd ip)) 360; p_lat := x_lat (snd ip);
                                        p_info := x_rec (snd ip) |}) (combine (seq 0 (length points)) points))
           else None
    end.
  (** run, 704-709: the file of stations is read only if there is no location data base in the output directory *)
  Definition locationDatabase (existing : option (list place)) (points : list point) : option (list place) :=
    match existing with Some d => Some d | None => buildLocations points end.

  (** definitions.py:57-59, 70-72: SELECTLOCATIONS and INSLOCATIONS (INSERT OR REPLACE) *)
  Record domain := { xMin : Q; xMax : Q; yMin : Q; yMax : Q }.
  Definition inDomain (d : domain) (p : place) : bool :=
    Qle_bool (xMin d) (p_lon p) && Qle_bool (p_lon p) (xMax d) && Qle_bool (yMin d) (p_lat p) && Qle_bool (p_lat p) (yMax d).
  Fixpoint put (r : place) (t : list place) : list place :=
    match t with
    | [] => [r]
    | x :: t' => if (p_id r <? p_id x)%nat then r :: t
                 else if (p_id r =? p_id x)%nat then r :: t' else x :: put r t'
    end.
  (** setLocations, 214-237, and getLocations, 239-259, on tblLocations of the hazard data base *)
  Definition setLocations (d : domain) (locdb table : list place) : list place :=
    fold_left (fun t r => put r t) (filter (inDomain d) locdb) table.

  (** * Return levels *)
  (** the columns of tblHazard, definitions.py:35-41 *)
  Record level := { h_loc : nat; h_years : Z; h_wspd : Q; h_upper : Q; h_lower : Q; h_location : Q; h_scale : Q; h_shape : Q }.
  (** hazard.nc; arrays by layer, row and column *)
  Record hazard := { z_lon : list Q; z_lat : list Q; z_years : list Q;
                     z_wspd : nat -> nat -> nat -> Q; z_upper : nat -> nat -> nat -> Q; z_lower : nat -> nat -> nat -> Q;
                     z_loc : nat -> nat -> Q; z_scale : nat -> nat -> Q; z_shape : nat -> nat -> Q }.
  (** Python's int *)
  Definition toInt (x : Q) : Z := if Qle_bool 0 x then Qfloor x else Qceiling x.
  (** processHazard, 513-547; [None]: an exception of find_index on an empty axis *)
  Definition levelOf (h : hazard) (k : nat) (year : Q) (p : place) : option level :=
    match findIndex (z_lon h) (p_lon p), findIndex (z_lat h) (p_lat p) with
    | Some i, Some j =>
        Some {| h_loc := p_id p; h_years := toInt year; h_wspd := z_wspd h k j i; h_upper := z_upper h k j i;
                h_lower := z_lower h k j i; h_location := z_loc h j i; h_scale := z_scale h j i; h_shape := z_shape h j i |}
    | _, _ => None
    end.
  Fixpoint allSome {B} (l : list (option B)) : option (list B) :=
    match l with
    | [] => Some []
    | None :: _ => None
    | Some x :: r => option_map (cons x) (allSome r)
    end.
  Definition processHazard (h : hazard) (places : list place) (table : list level) : option (list level) :=
    option_map (app table)
      (allSome (flat_map (fun ky => map (levelOf h (fst ky) (snd ky)) places) (combine (seq 0 (length (z_years h))) (z_years h)))).

  (** * Queries *)
  (** ORDER BY: a stable sort *)
  Section Order.
    Context {B : Type}.
    Variable le : B -> B -> bool.
    Fixpoint insert (x : B) (l : list B) : list B :=
      match l with [] => [x] | y :: r => if le x y then x :: l else y :: insert x r end.
    Definition orderBy (l : list B) : list B := fold_right insert [] l.
  End Order.
  (** locationAllReturnLevels, queries.py:216-230: INNER JOIN with the places; name, years, speed, lower and upper *)
  Definition allReturnLevels (places : list place) (levels : list level) (loc : nat) : list (A * Z * Q * Q * Q) :=
    map (fun ph => (p_info (fst ph), h_years (snd ph), h_wspd (snd ph), h_lower (snd ph), h_upper (snd ph)))
      (orderBy (fun a b => (h_years (snd a) <=? h_years (snd b))%Z)
        (filter (fun ph => (p_id (fst ph) =? h_loc (snd ph))%nat && (p_id (fst ph) =? loc)%nat) (list_prod places levels))).
  (** locationRecords, queries.py:86-96: the wind speeds of one place, weakest first; a row: place, event, speed *)
  Definition locationRecords (places : list place) (winds : list (nat * nat * Q)) (loc : nat) : list (nat * Q) :=
    map (fun pw => (snd (fst (snd pw)), snd (snd pw)))
      (orderBy (fun a b => Qle_bool (snd (snd a)) (snd (snd b)))
        (filter (fun pw => (p_id (fst pw) =? fst (fst (snd pw)))%nat && (p_id (fst pw) =? loc)%nat) (list_prod places winds))).
End Places.
Arguments p_id {A}. Arguments p_lon {A}. Arguments p_lat {A}. Arguments p_info {A}.
Arguments x_lon {A}. Arguments x_lat {A}. Arguments x_rec {A}.

(** * The name of the track file in tblEvents, windfieldAttributes, 98-125: encoded, hence bytes, which sqlite keeps
    as a blob in a text column *)
Inductive cell := Text (s : nat) | Blob (s : nat).
Definition trackFileCell (name : nat) : cell := Blob name.
Definition cell_eqb (a b : cell) : bool :=
  match a, b with Text x, Text y => (x =? y)%nat | Blob x, Blob y => (x =? y)%nat | _, _ => false end.

(** * Distance of a track from a place, track.py:138-160: shapely's planar distance in degrees, times 111.1251 *)
Local Open Scope R_scope.
Definition pt := (R * R)%type.
Definition pdist (a b : pt) : R := sqrt ((fst a - fst b) ^ 2 + (snd a - snd b) ^ 2).
Definition along (a b : pt) (t : R) : pt := (fst a + t * (fst b - fst a), snd a + t * (snd b - snd a)).
(** shapely: the distance from a segment is that from the foot of the perpendicular, or from an end *)
Definition foot (a b q : pt) : R :=
  let dx := fst b - fst a in let dy := snd b - snd a in
  let d2 := dx ^ 2 + dy ^ 2 in
  if Req_EM_T d2 0 then 0
  else Rmax 0 (Rmin 1 (((fst q - fst a) * dx + (snd q - snd a) * dy) / d2)).
Definition segDist (a b q : pt) : R := pdist q (along a b (foot a b q)).
Fixpoint lineDist (a : pt) (l : list pt) (q : pt) : R :=
  match l with
  | [] => pdist a q
  | b :: [] => segDist a b q
  | b :: r => Rmin (segDist a b q) (lineDist b r q)
  end.
(** [None]: an empty track *)
Definition minimumDistance (track : list pt) (q : pt) : option R :=
  match track with [] => None | a :: l => Some (lineDist a l q * (1111251 / 10000)) end.
