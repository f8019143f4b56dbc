(** Static division of work and the region filter:
    wind/__init__.py:713-731, 772-837, 876-886; TrackGenerator/TrackGenerator.py:1689-1699. *)
From Verif Require Import Base.
From Coq Require Import QArith Qminmax Qround.

(** [itertools.islice(iterable, p, None, P)] (wind/__init__.py:885-886,
    TrackGenerator/TrackGenerator.py:1698-1699): skip [k] elements, take one, then skip
    [P-1] between the elements taken.  [P >= 1]. *)
Fixpoint islice {A} (P : nat) (k : nat) (l : list A) : list A :=
  match l with
  | [] => []
  | x :: l' => match k with
               | O => x :: islice P (P - 1) l'
               | S k' => islice P k' l'
               end
  end.
Definition balanced {A} (size rank : nat) (l : list A) : list A := islice size rank l.

(** Track positions (longitude, latitude); the identifier stands for the rest of a Track. *)
Record track := { tid : Z; pts : list (Q * Q) }.

(** numpy [x.max()] / [x.min()]; [None] is the ValueError on an empty array. *)
Fixpoint qmaximum (l : list Q) : option Q :=
  match l with
  | [] => None
  | x :: l' => match qmaximum l' with None => Some x | Some m => Some (Qmax x m) end
  end.
Fixpoint qminimum (l : list Q) : option Q :=
  match l with
  | [] => None
  | x :: l' => match qminimum l' with None => Some x | Some m => Some (Qmin x m) end
  end.

Record region := { xMin : Q; xMax : Q; yMin : Q; yMax : Q }.

(** wind/__init__.py:772-786 *)
Definition inRegion (t : track) (r : region) (margin : Q) : option bool :=
  let x0 := xMin r - margin in let x1 := xMax r + margin in
  let y0 := yMin r - margin in let y1 := yMax r + margin in
  match qmaximum (map fst (pts t)), qminimum (map fst (pts t)),
        qmaximum (map snd (pts t)), qminimum (map snd (pts t)) with
  | Some lonmax, Some lonmin, Some latmax, Some latmin =>
      Some (Qle_bool x0 lonmax && Qle_bool lonmin x1 && Qle_bool y0 latmax && Qle_bool latmin y1)
  | _, _, _, _ => None
  end.

(** wind/__init__.py:788-806; [None] is an exception raised by [inRegion]. *)
Fixpoint filter_opt (f : track -> option bool) (l : list track) : option (list track) :=
  match l with
  | [] => Some []
  | t :: l' => match f t, filter_opt f l' with
               | Some b, Some r => Some (if b then t :: r else r)
               | _, _ => None
               end
  end.
Definition filterTracks (ts : list track) (r : option region) (margin : Q) : option (list track) :=
  match r with
  | Some r => filter_opt (fun t => inRegion t r margin) ts
  | None => Some ts
  end.

(** [sorted(trackfiles)] (wind/__init__.py:729). *)
Fixpoint ins {F} (leb : F -> F -> bool) (x : F) (l : list F) : list F :=
  match l with
  | [] => [x]
  | y :: l' => if leb x y then x :: l else y :: ins leb x l'
  end.
Fixpoint isort {F} (leb : F -> F -> bool) (l : list F) : list F :=
  match l with [] => [] | x :: l' => ins leb x (isort leb l') end.

Inductive load_error := IndexError | ValueError.

(** wind/__init__.py:808-837 loadTracksFromFiles on process [rank] of [size];
    [load] is loadTracks (wind/__init__.py:840-855). *)
Fixpoint load_all (load : Z -> list track) (r : option region) (margin : Q) (fs : list Z)
  : option (list track) :=
  match fs with
  | [] => Some []
  | f :: fs' => match filterTracks (load f) r margin, load_all load r margin fs' with
                | Some a, Some b => Some (a ++ b)
                | _, _ => None
                end
  end.
Definition loadTracksFromFiles (load : Z -> list track) (r : option region) (margin : Q)
    (size rank : nat) (files : list Z) : list track + load_error :=
  match files with
  | [] => inr IndexError                                   (* trackfiles[0], line 832 *)
  | [f] => match filterTracks (load f) r margin with
           | Some ts => inl (balanced size rank ts)
           | None => inr ValueError
           end
  | _ => match load_all load r margin (balanced size rank files) with
         | Some ts => inl ts
         | None => inr ValueError
         end
  end.

(** wind/__init__.py:729: the list is sorted on every process before it is divided. *)
Definition rank_tracks load r margin size rank (leb : Z -> Z -> bool) (listing : list Z) :=
  loadTracksFromFiles load r margin size rank (isort leb listing).

(** wind/__init__.py:416-435 setGridLimit. [None]: no positions. *)
Definition setGridLimit (t : track) : option region :=
  match qmaximum (map fst (pts t)), qminimum (map fst (pts t)),
        qmaximum (map snd (pts t)), qminimum (map snd (pts t)) with
  | Some lonmax, Some lonmin, Some latmax, Some latmin =>
      Some {| xMin := inject_Z (Qfloor (Qmin 9999 lonmin));
              xMax := inject_Z (Qceiling (Qmax (-9999 # 1) lonmax));
              yMin := inject_Z (Qfloor (Qmin 9999 latmin));
              yMax := inject_Z (Qceiling (Qmax (-9999 # 1) latmax)) |}
  | _, _, _, _ => None
  end.

(** wind/__init__.py:437-476, the part that decides the domain: the generator keeps the
    domain of the first track it meets. Returns the domains used for the tracks in order. *)
Fixpoint domains_used (lim : option region) (ts : list track) : list (option region) :=
  match ts with
  | [] => []
  | t :: ts' => let lim' := match lim with Some _ => lim | None => setGridLimit t end in
                lim' :: domains_used lim' ts'
  end.
