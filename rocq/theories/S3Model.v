(** Wind multipliers kept in S3 buckets: ProcessMultipliers/processMultipliers.py:347-503 and the beginning of
    main (1184-1206), with AsyncRun (Utilities/AsyncRun.py:34-56).  Texts are lists of characters.  A bucket is a
    table of objects; [dirs] are the local directories, written without a slash at the end.  The creation of the
    client, the log and the time measurement are left out; every failed call of the client raises and every
    upload is accepted. *)
From Coq Require Import List Arith Bool Ascii String.
From Verif Require Import NamesModel TextModel.
Import ListNotations.
Open Scope list_scope.

Definition slash : ascii := "/"%char.
(** [s.split('/')] and ['/'.join(l)] *)
Fixpoint split (s : str) : list str :=
  match s with
  | [] => [[]]
  | c :: s' => if Ascii.eqb c slash then [] :: split s'
               else match split s' with x :: r => (c :: x) :: r | [] => [[c]] end
  end.
Fixpoint join (l : list str) : str :=
  match l with
  | [] => []
  | [x] => x
  | x :: r => x ++ slash :: join r
  end.

(** s3_path_segments_from_vsis3, 490-503: the parts, ValueError, or the IndexError of a path with too few parts *)
Inductive seg := SegOk (bucket key file : str) | SegValue | SegIndex.
Definition segments (path : str) : seg :=
  match split path with
  | [] => SegIndex
  | s0 :: r0 =>
      if negb (str_eqb s0 []) then SegValue
      else match r0 with
           | [] => SegIndex
           | s1 :: r1 => if negb (str_eqb s1 (lit "vsis3")) then SegValue
                         else match r1 with
                              | [] => SegIndex
                              | b :: r2 => SegOk b (join r2) (last (split path) [])
                              end
           end
  end.

(** [s.endswith('/')] *)
Definition endsSlash (s : str) : bool := match rev s with c :: _ => Ascii.eqb c slash | [] => false end.
(** posixpath.join *)
Definition pjoin (d f : str) : str :=
  match f with
  | c :: _ => if Ascii.eqb c slash then f
              else if endsSlash d || str_eqb d [] then d ++ f else d ++ slash :: f
  | [] => if endsSlash d || str_eqb d [] then d else d ++ [slash]
  end.
Definition withSlash (s : str) : str := if endsSlash s then s else s ++ [slash].
(** A directory by its name with or without a slash at the end *)
Definition isDir (dirs : list str) (d : str) : bool := existsb (fun x => str_eqb x d || str_eqb (x ++ [slash]) d) dirs.

Section S3.
Variable V : Type.
(** Local files and buckets: the entry written last counts *)
Definition files := list (str * V).
Fixpoint look (p : str) (fs : files) : option V :=
  match fs with
  | [] => None
  | (q, v) :: fs' => if str_eqb q p then Some v else look p fs'
  end.
Definition bucketOf := list (str * str * V).
Fixpoint object (b k : str) (st : bucketOf) : option V :=
  match st with
  | [] => None
  | (b', k', v) :: st' => if str_eqb b' b && str_eqb k' k then Some v else object b k st'
  end.

Inductive err := EValue | EIndex | EClient | EOs | EUnbound.
Definition ofSeg (s : seg) : str * str * str + err :=
  match s with SegOk b k f => inl (b, k, f) | SegValue => inr EValue | SegIndex => inr EIndex end.

(** [s3_client.download_file(bucket, key, path)] into a directory, as used in 459-462 and 484-488 *)
Definition fetch (dirs : list str) (st : bucketOf) (b k dest name : str) (fs : files) : files + err :=
  match object b k st with
  | None => inr EClient
  | Some v => if isDir dirs dest && negb (str_eqb name []) then inl ((pjoin dest name, v) :: fs) else inr EOs
  end.

(** download_from_s3, 448-465 *)
Definition download (dirs : list str) (st : bucketOf) (path dest : str) (fs : files) : files * (str + err) :=
  match ofSeg (segments path) with
  | inr e => (fs, inr e)
  | inl (b, k, f) => match fetch dirs st b k dest f fs with
                     | inl fs' => (fs', inl (pjoin dest f))
                     | inr e => (fs, inr e)
                     end
  end.

(** check_if_gust_file_from_s3, 390-402 *)
Definition vsis3 : str := lit "/vsis3/".
Definition gustFile (dirs : list str) (st : bucketOf) (gust wd : str) (fs : files) : files * (str + err) :=
  if starts_with vsis3 gust then download dirs st gust wd fs else (fs, inl gust).

(** download_files_from_s3, 467-488: the last path is returned *)
Fixpoint fetchAll (dirs : list str) (st : bucketOf) (b k dest : str) (names : list str) (ret : str + err) (fs : files)
    : files * (str + err) :=
  match names with
  | [] => (fs, ret)
  | n :: ns => match fetch dirs st b (k ++ n) dest n fs with
               | inl fs' => fetchAll dirs st b k dest ns (inl (pjoin dest n)) fs'
               | inr e => (fs, inr e)
               end
  end.
Definition downloadAll (dirs : list str) (st : bucketOf) (path dest : str) (names : list str) (fs : files) : files * (str + err) :=
  match ofSeg (segments (withSlash path)) with
  | inr e => (fs, inr e)
  | inl (b, k, _) => fetchAll dirs st b k dest names (inr EUnbound) fs
  end.

(** upload_files_to_s3, 426-446 *)
Fixpoint putAll (b k dir : str) (names : list str) (fs : files) (st : bucketOf) : bucketOf * option err :=
  match names with
  | [] => (st, None)
  | n :: ns => match look (pjoin dir n) fs with
               | None => (st, Some EOs)
               | Some v => putAll b k dir ns fs ((b, k ++ n, v) :: st)
               end
  end.
Definition upload (dir path : str) (names : list str) (fs : files) (st : bucketOf) : bucketOf * option err :=
  match ofSeg (segments (withSlash path)) with
  | inr e => (st, Some e)
  | inl (b, k, _) => putAll b k dir names fs st
  end.

(** check_if_working_dir_in_s3, 404-423: the configured temporary directory or the one made before, and the path
    for the upload; [fresh] is the name the system gives to a new temporary directory *)
Record work := { tmpName : option str; uploadPath : option str; wdirs : list str }.
Definition workDir (fresh : str) (w : work) (wd : str) : work * str :=
  if starts_with vsis3 wd then
    let '(t, ds) := match tmpName w with Some t => (t, wdirs w) | None => (fresh, fresh :: wdirs w) end in
    ({| tmpName := Some t; uploadPath := Some wd; wdirs := ds |}, withSlash t)
  else (w, wd).

(** The beginning of main, 1193-1196: the working directory, the gust file, and only then the directories
    (checkOutputFolders, 194-212) *)
Definition start (fresh : str) (w : work) (st : bucketOf) (wd gust : str) (fs : files) : work * str * files * (str + err) :=
  let '(w1, wd1) := workDir fresh w wd in
  let '(fs1, r) := gustFile (wdirs w1) st gust wd1 fs in
  match r with
  | inr e => (w1, wd1, fs1, inr e)
  | inl g => ({| tmpName := tmpName w1; uploadPath := uploadPath w1; wdirs := wd1 :: wdirs w1 |}, wd1, fs1, inl g)
  end.

(** check_if_wm_source_from_s3, 347-388: one thread for each type, each a sequence of downloads *)
Record action := { a_bucket : str; a_key : str; a_dest : str; a_name : str }.
Definition thread (path dest : str) (names : list str) : list action :=
  match segments (withSlash path) with
  | SegOk b k _ => map (fun n => {| a_bucket := b; a_key := k ++ n; a_dest := dest; a_name := n |}) names
  | _ => []
  end.
(** ['{0}_{1}_{2}.nc'] of tile, suffix and direction *)
Definition tileFile (tile suffix dir : str) : str := tile ++ lit "_" ++ suffix ++ lit "_" ++ dir ++ lit ".nc".
Definition wanted (suffix : str) (tiles dirns : list str) : list str :=
  flat_map (fun t => map (tileFile t suffix) dirns) tiles.
Definition threads (wm tmp : str) (types : list (str * str)) (tiles dirns : list str) : list (list action) :=
  map (fun ts => thread (withSlash wm ++ fst ts ++ [slash]) (pjoin tmp (fst ts)) (wanted (snd ts) tiles dirns)) types.
(** Any order in which the threads take their turns; an exception ends the thread and no other (AsyncRun.py:55-56) *)
Inductive runs (dirs : list str) (st : bucketOf) : list (list action) -> files -> files -> Prop :=
| AllDone ts fs : (forall t, In t ts -> t = []) -> runs dirs st ts fs fs
| Fetched pre a t post fs fs1 fs2 :
    fetch dirs st (a_bucket a) (a_key a) (a_dest a) (a_name a) fs = inl fs1 ->
    runs dirs st (pre ++ t :: post) fs1 fs2 -> runs dirs st (pre ++ (a :: t) :: post) fs fs2
| Failed pre a t post fs fs2 e :
    fetch dirs st (a_bucket a) (a_key a) (a_dest a) (a_name a) fs = inr e ->
    runs dirs st (pre ++ [] :: post) fs fs2 -> runs dirs st (pre ++ (a :: t) :: post) fs fs2.
(** The function as a whole: the new path of the multipliers, and the directories made for it *)
Definition rawSource (wm tmp : str) : str := if starts_with vsis3 wm then tmp ++ [slash] else wm.
Definition rawDirs (tmp : str) (types : list (str * str)) (dirs : list str) : list str :=
  map (fun ts => pjoin tmp (fst ts)) types ++ tmp :: dirs.
End S3.
Arguments look {V}. Arguments object {V}. Arguments fetch {V}. Arguments download {V}. Arguments gustFile {V}.
Arguments fetchAll {V}. Arguments downloadAll {V}. Arguments putAll {V}. Arguments upload {V}. Arguments start {V}.
Arguments runs {V}.
