(** Collecting the tiles of the wind multipliers: checkOutputFolders, copyTranslateMultipliers and mergeWindMultipliers,
    ProcessMultipliers/processMultipliers.py:194-276, and their older versions in Utilities/get_multipliers.py:106-197.
    (Multiplying the merged layers, combineDirections, is in RasterModel.)
    Simplifications: paths are the lists of their components, all relative to one directory; names and tiles contain no
    wild cards, blanks or slashes and do not start with a dot; whether gdal_translate succeeds is a parameter (its failure
    is not noticed by the program); gdal_merge.py succeeds if it is given files and else writes nothing; an exception is
    reported without the files written before it. *)
From Coq Require Import List Arith Bool Ascii String.
From Verif Require Import NamesModel TextModel S3Model.
Import ListNotations.
Close Scope string_scope. Open Scope nat_scope. Local Open Scope list_scope.

Definition path := list str.
(** The directory meant by a path: empty components do not count *)
Definition norm (p : str) : path := filter (fun x => negb (str_eqb x [])) (split p).
Fixpoint path_eqb (a b : path) : bool :=
  match a, b with [], [] => true | x :: a', y :: b' => str_eqb x y && path_eqb a' b' | _, _ => false end.
Definition key := (path * str)%type.
Definition key_eqb (a b : key) : bool := path_eqb (fst a) (fst b) && str_eqb (snd a) (snd b).

(** What a file contains: anything, a copy of a file, a variable of a file as geotiff, or merged geotiffs *)
Inductive content := Old (n : nat) | Copy (of : key) | Tif (of : key) (var : str) | Merge (of : list str).
Record disk := mk { dirs : list path; files : list (key * content) }.
Inductive error := EExists | ENotFound | ESame.

Definition isDir (d : disk) (p : path) : bool := existsb (path_eqb p) (dirs d).
Definition get (d : disk) (k : key) : option content :=
  match find (fun e => key_eqb (fst e) k) (files d) with Some (_, c) => Some c | None => None end.
Definition put (k : key) (c : content) (d : disk) : disk :=
  mk (dirs d) ((k, c) :: filter (fun e => negb (key_eqb (fst e) k)) (files d)).
(** os.makedirs *)
Definition makedirs (d : disk) (p : path) : error + disk :=
  if isDir d p then inl EExists else inr (mk (map (fun n => firstn n p) (seq 1 (List.length p)) ++ dirs d) (files d)).
(** The pattern [pre + '*' + suf] *)
Definition globMatch (pre suf s : str) : bool :=
  starts_with pre s && starts_with (rev suf) (rev (skipn (List.length pre) s)).
(** [glob(dir + pre + '*' + suf)]: the keys of the files *)
Definition globAt (d : disk) (dir : path) (pre suf : str) : list key :=
  filter (fun k => path_eqb (fst k) dir && globMatch pre suf (snd k)) (map fst (files d)).

(** 1167-1168 *)
Definition types : list (str * str) :=
  [(lit "shielding", lit "Ms"); (lit "terrain", lit "Mz"); (lit "topographic", lit "Mt")].
Definition dirns : list str := map lit ["e"; "n"; "ne"; "nw"; "s"; "se"; "sw"; "w"]%string.

(** 214-217 *)
Fixpoint makeAll (working : str) (wms : list str) (d : disk) : error + disk :=
  match wms with
  | [] => inr d
  | wm :: wms' => match makedirs d (norm (working ++ [slash] ++ wm)) with
                  | inl e => inl e
                  | inr d' => makeAll working wms' d'
                  end
  end.
(** 222-225 *)
Definition clean (working : str) (wm : str) (d : disk) : disk :=
  mk (dirs d) (filter (fun e => negb (path_eqb (fst (fst e)) (norm (working ++ [slash] ++ wm)))) (files d)).
(** 194-225 (without combined multipliers): checkOutputFolders *)
Definition checkFolders (working : str) (d : disk) : error + disk :=
  match (if isDir d (norm working) then inr d else makedirs d (norm working)) with
  | inl e => inl e
  | inr d1 =>
      if isDir d1 (norm (working ++ lit "/shielding"))
      then inr (fold_left (fun d wm => clean working wm d) (map fst types) d1)
      else makeAll working (map fst types) d1
  end.
(** get_multipliers.py:106-124: existing folders are left as they are *)
Definition checkFoldersOld (working : str) (d : disk) : error + disk :=
  match (if isDir d (norm working) then inr d else makedirs d (norm working)) with
  | inl e => inl e
  | inr d1 =>
      if isDir d1 (norm (working ++ lit "/shielding")) then inr d1
      else makeAll working (map fst types) d1
  end.

(** 252-253: the name without its last three characters *)
Definition tifName (name : str) : str := firstn (List.length name - 3) name ++ lit ".tif".
(** 245-253: one file *)
Definition copyOne (translates : key -> str -> bool) (working wm var : str) (k : key) (d : disk) : error + disk :=
  let dst := norm (working ++ wm ++ [slash]) in
  if key_eqb k (dst, snd k) then inl ESame
  else if isDir d dst
  then let d1 := put (dst, snd k) (Copy k) d in
       inr (if translates k var then put (dst, tifName (snd k)) (Tif k var) d1 else d1)
  else inl ENotFound.
Fixpoint copyFiles (translates : key -> str -> bool) (working wm var : str) (ks : list key) (d : disk) : error + disk :=
  match ks with
  | [] => inr d
  | k :: ks' => match copyOne translates working wm var k d with
                | inl e => inl e
                | inr d' => copyFiles translates working wm var ks' d'
                end
  end.
(** 238-245 *)
Fixpoint copyTypes (translates : key -> str -> bool) (raw working tile : str) (ts : list (str * str)) (d : disk) : error + disk :=
  match ts with
  | [] => inr d
  | (wm, var) :: ts' =>
      match copyFiles translates working wm var (globAt d (norm (raw ++ wm ++ [slash])) tile []) d with
      | inl e => inl e
      | inr d' => copyTypes translates raw working tile ts' d'
      end
  end.
(** 227-255: copyTranslateMultipliers *)
Fixpoint copyTiles (translates : key -> str -> bool) (raw working : str) (tiles : list str) (d : disk) : error + disk :=
  match tiles with
  | [] => inr d
  | tile :: tiles' =>
      match copyTypes translates raw working tile types d with
      | inl e => inl e
      | inr d' => copyTiles translates raw working tiles' d'
      end
  end.

(** 269-275 *)
Definition mergeOne (working wm dirn : str) (d : disk) : disk :=
  let dst := norm (working ++ wm ++ [slash]) in
  match globAt d dst [] (lit "_" ++ dirn ++ lit ".tif") with
  | [] => d
  | ks => put (dst, dirn ++ lit "_" ++ wm ++ lit ".tif") (Merge (map snd ks)) d
  end.
(** 257-276: mergeWindMultipliers *)
Definition mergeAll (working : str) (d : disk) : disk :=
  fold_left (fun d wd => mergeOne working (fst wd) (snd wd) d) (list_prod (map fst types) dirns) d.

(** 194-276 *)
Definition collect (translates : key -> str -> bool) (raw working : str) (tiles : list str) (d : disk) : error + disk :=
  match checkFolders working d with
  | inl e => inl e
  | inr d1 => match copyTiles translates raw working tiles d1 with
              | inl e => inl e
              | inr d2 => inr (mergeAll working d2)
              end
  end.
(** get_multipliers.py:106-197 *)
Definition collectOld (translates : key -> str -> bool) (raw working : str) (tiles : list str) (d : disk) : error + disk :=
  match checkFoldersOld working d with
  | inl e => inl e
  | inr d1 => match copyTiles translates raw working tiles d1 with
              | inl e => inl e
              | inr d2 => inr (mergeAll working d2)
              end
  end.

(** get_multipliers.py:145-146: the tiles of the configuration *)
Fixpoint commas (s : str) : list str :=
  match s with
  | [] => [[]]
  | c :: s' => if Ascii.eqb c ","%char then [] :: commas s'
               else match commas s' with x :: r => (c :: x) :: r | [] => [[c]] end
  end.
Fixpoint lstrip (s : str) : str := match s with c :: s' => if Ascii.eqb c " "%char then lstrip s' else s | [] => [] end.
Definition strip (s : str) : str := rev (lstrip (rev (lstrip s))).
Definition tilesOf (s : str) : list str := map strip (commas s).
