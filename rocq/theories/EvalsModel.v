(** The evaluation of track sets in one module: Evaluate/evaluate.py:385-446 (the grid), 504-549 (pressures), 574-617
    (simulations) and 1406-1461 (ages).
    Simplifications: coordinates and pressures are exact rationals; plots, percentiles and the NetCDF output are left out;
    reading a track file is a parameter, [None] stands for a TypeError, IOError or ValueError. *)
From Coq Require Import List Arith ZArith Bool QArith.
From Verif Require Import NumModel SampModel DensityModel.
Import ListNotations.
Close Scope Q_scope. Open Scope nat_scope.

Inductive err := EAttribute | EIndex | EUnbound | EValue.

(** 425-446: the cells are appended to a list that no statement creates, so the first cell is an AttributeError.  The
    grid has the same spacing in both directions *)
Definition square (x0 x1 y0 y1 size : Q) : dom := mkDom x0 x1 y0 y1 size size.
Definition initCells (gridCells : option (list (nat * nat))) (d : dom) : err + option (list (nat * nat)) :=
  fold_left (fun acc c => match acc with
               | inl e => inl e
               | inr None => inl EAttribute
               | inr (Some l) => inr (Some (l ++ [c]))
               end)
    (list_prod (seq 0 (length (lonRange d) - 1)) (seq 0 (length (latRange d) - 1))) (inr gridCells).
(** 392-446: no class attribute of that name *)
Definition init (d : dom) : err + option (list (nat * nat)) := initCells None d.

(** 504-530 processPressureData: the loop over the tracks for the cell in column [k] and row [l]; [None] is masked *)
Definition lastStats (d : dom) (tracks : list (list rec)) (k l : nat) : option pstats :=
  fold_left (fun acc t => match cellStats d [t] k l with Some s => Some s | None => acc end) tracks None.

(** A track with the first part of its id *)
Definition track := (nat * list rec)%type.
Fixpoint setAt (l : list Q) (n : nat) (x : Q) : option (list Q) :=
  match l, n with
  | [], _ => None
  | _ :: r, 0 => Some (x :: r)
  | a :: r, S n => match setAt r n x with Some r' => Some (a :: r') | None => None end
  end.
(** 532-549: [None] is an IndexError, or the minimum of no pressures *)
Fixpoint fillMin (tracks : list track) (a : list Q) : option (list Q) :=
  match tracks with
  | [] => Some a
  | (i, t) :: r => match map rp t with
                   | [] => None
                   | p :: ps => match setAt a i (amin p ps) with Some a' => fillMin r a' | None => None end
                   end
  end.
(** 449: [np.arange(800., 1020., 5.)] *)
Definition minCpRange : list Q := map (fun i => (800 + 5 * inject_Z (Z.of_nat i))%Q) (seq 0 44).
Definition calcMinPressure (tracks : list track) : option (list nat) :=
  match fillMin tracks (repeat 0%Q (length tracks)) with
  | None => None
  | Some v => Some (map (fun i => length (filter (inBin minCpRange i) v)) (seq 0 43))
  end.

(** 595-617 synthetic: [rows] are the rows filled so far, the last first; [prev] are the local variables [tracks] and
    those with the statistics, which keep the values of the iteration before.  The block under finally is run in every
    case; a return in the block under except waits for it. *)
Section Synthetic.
Variables (Tr St Mn : Type).
Variable load : nat -> option Tr.
Variable stats : Tr -> St.
Variable minima : Tr -> option Mn.
Fixpoint loop (todo n : nat) (prev : option Tr) (rows : list (Mn * St)) : list (Mn * St) * (err + bool) :=
  match todo with
  | 0 => (rows, inr true)
  | S todo' =>
      match load n with
      | None => match prev with
                | None => (rows, inl EUnbound)
                | Some t => match minima t with
                            | None => (rows, inl EIndex)
                            | Some m => ((m, stats t) :: rows, inr false)
                            end
                end
      | Some t => match minima t with
                  | None => (rows, inl EIndex)
                  | Some m => loop todo' (S n) (Some t) ((m, stats t) :: rows)
                  end
      end
  end.
Definition synthetic (sims : nat) : list (Mn * St) * (err + bool) := loop sims 0 None [].
End Synthetic.
Arguments loop {Tr St Mn}. Arguments synthetic {Tr St Mn}.

(** 1406-1429 calculateAge: [np.empty] holds floats, which are no indices of arrays *)
Inductive index := IInt (n : nat) | IFloat (n : nat).
Definition getItem {A} (l : list A) (i : index) : option A := match i with IInt n => nth_error l n | IFloat _ => None end.
Definition starts (ids : list Z) : list nat :=
  match ids with
  | [] => []
  | a :: _ => filter (fun i => if i =? 0 then true else (nth i ids 0 - nth (i - 1) ids 0 =? 1)%Z) (seq 0 (length ids))
  end.
Definition ends (ids : list Z) : list index :=
  map (fun n => IFloat (n - 1)) (tl (starts ids)) ++ [IFloat (length ids - 1)].
Fixpoint getAll {A} (l : list A) (is : list index) : option (list A) :=
  match is with
  | [] => Some []
  | i :: r => match getItem l i, getAll l r with Some a, Some b => Some (a :: b) | _, _ => None end
  end.
(** [times]: the dates of the records in hours; the ages before they are counted *)
Definition calculateAge (ids : list Z) (times : list Q) : err + list Q :=
  match starts ids with
  | [] => inl EIndex
  | s => match getAll times (map IInt s), getAll times (ends ids) with
         | Some a, Some b => inr (map (fun p => (snd p - fst p)%Q) (combine a b))
         | _, _ => inl EIndex
         end
  end.
(** 1431-1440 and 1450-1459: the list of tracks is taken apart into fourteen arrays; [ids] and [times] take the place of
    what is then done with them.  The first is not caught, the second is taken for a file that cannot be read. *)
Definition historicAge {T} (tracks : list T) (age : list T -> err + list Q) : err + list Q :=
  if length tracks =? 14 then age tracks else inl EValue.
Fixpoint syntheticAge {T} (load : nat -> option (list T)) (age : list T -> err + list Q) (todo n : nat) : err + bool :=
  match todo with
  | 0 => inr true
  | S todo' => match load n with
               | None => inr false
               | Some ts => if length ts =? 14
                            then match age ts with inl e => inl e | inr _ => syntheticAge load age todo' (S n) end
                            else inr false
               end
  end.
