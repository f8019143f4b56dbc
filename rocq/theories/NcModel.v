(** Grids in netCDF files: Utilities/nctools.py:87-144 (ncGetDims, ncGetData), 166-199 (ncGetTimes), 201-253 (ncCreateDim,
    ncCreateVar) and 255-395 (ncSaveGrid).
    Simplifications: names are numbers and values exact rationals (least significant digits and single precision are
    not modelled); of attributes only their presence counts; the netCDF4 library keeps for each file its dimensions
    and variables, refuses a second dimension or variable of the same name and a variable on an unknown dimension, and
    extends an assigned array along axes of length one. *)
From Coq Require Import List Arith Bool QArith.
Import ListNotations.
Close Scope Q_scope. Open Scope nat_scope.

(** A numpy array: its shape and its values by index *)
Record array := mkArray { shape : list nat; at_ : list nat -> Q }.
Record ncvar := mkVar { v_dims : list nat; v_data : list nat -> Q }.
(** [finished]: the global attributes have been written and the file is closed *)
Record ncfile := mkFile { f_dims : list (nat * nat); f_vars : list (nat * ncvar); finished : bool }.
Definition assoc {A} (k : nat) (l : list (nat * A)) : option A := option_map snd (find (fun e => fst e =? k) l).
Definition disk := nat -> option ncfile.
Definition put (fs : disk) (name : nat) (f : ncfile) : disk := fun n => if n =? name then Some f else fs n.

(** The dictionaries given by the caller; [None] is a missing key *)
Record dimDict := mkDim { d_name : option nat; d_values : option (list Q); d_dtype : bool; d_atts : bool }.
(** The values of a variable may be None *)
Record varDict := mkVD { w_name : option nat; w_dims : option (list nat); w_values : option (option array); w_dtype : bool; w_atts : bool }.
Inductive result := Saved | KeyError | ValueError | LibraryError | TypeError.

Definition vec (l : list Q) : list nat -> Q := fun idx => nth (nth 0 idx 0) l 0%Q.
(** nctools.py:214-219: dimension and coordinate variable *)
Definition createDim (f : ncfile) (name : nat) (values : list Q) : option ncfile :=
  match assoc name (f_dims f), assoc name (f_vars f) with
  | None, None => Some (mkFile (f_dims f ++ [(name, length values)]) (f_vars f ++ [(name, mkVar [name] (vec values))]) false)
  | _, _ => None
  end.
(** nctools.py:344-351; [inr]: the exception and the file as far as it was written *)
Fixpoint saveDims (f : ncfile) (ds : list dimDict) : ncfile + (result * ncfile) :=
  match ds with
  | [] => inl f
  | d :: r =>
      match d_name d, d_values d, d_dtype d && d_atts d with
      | Some n, Some v, true => match createDim f n v with Some f' => saveDims f' r | None => inr (LibraryError, f) end
      | _, _, _ => inr (KeyError, f)
      end
  end.
(** The sizes of the named dimensions; [None]: an unknown dimension *)
Fixpoint sizes (f : ncfile) (names : list nat) : option (list nat) :=
  match names with
  | [] => Some []
  | n :: r => match assoc n (f_dims f), sizes f r with Some k, Some l => Some (k :: l) | _, _ => None end
  end.
(** Assigning an array of shape [s] to a variable of shape [n] *)
Fixpoint fits (s n : list nat) : bool :=
  match s, n with
  | [], [] => true
  | a :: s', b :: n' => ((a =? b) || (a =? 1)) && fits s' n'
  | _, _ => false
  end.
Fixpoint spread (s idx : list nat) : list nat :=
  match s, idx with a :: s', i :: idx' => (if a =? 1 then 0 else i) :: spread s' idx' | _, _ => [] end.
(** nctools.py:353-379 *)
Definition saveVar (nodata : Q) (writedata : bool) (f : ncfile) (v : varDict) : ncfile + (result * ncfile) :=
  match w_name v, w_dims v, w_values v, w_dtype v && w_atts v with
  | Some n, Some ds, Some vals, true =>
      match vals with
      | Some a => if negb (length ds =? length (shape a)) then inr (ValueError, f)
                  else match assoc n (f_vars f), sizes f ds with
                       | None, Some sz =>
                           if writedata
                           then if fits (shape a) sz then inl (mkFile (f_dims f) (f_vars f ++ [(n, mkVar ds (fun idx => at_ a (spread (shape a) idx)))]) false)
                                else inr (LibraryError, mkFile (f_dims f) (f_vars f ++ [(n, mkVar ds (fun _ => nodata))]) false)
                           else inl (mkFile (f_dims f) (f_vars f ++ [(n, mkVar ds (fun _ => nodata))]) false)
                       | _, _ => inr (LibraryError, f)
                       end
      | None => match assoc n (f_vars f), sizes f ds with
                | None, Some _ => inl (mkFile (f_dims f) (f_vars f ++ [(n, mkVar ds (fun _ => nodata))]) false)
                | _, _ => inr (LibraryError, f)
                end
      end
  | _, _, _, _ => inr (KeyError, f)
  end.
Fixpoint saveVars (nodata : Q) (writedata : bool) (f : ncfile) (vs : list varDict) : ncfile + (result * ncfile) :=
  match vs with
  | [] => inl f
  | v :: r => match saveVar nodata writedata f v with inl f' => saveVars nodata writedata f' r | inr e => inr e end
  end.
(** nctools.py:334-395; [gatts] is false for None, which the documentation allows *)
Definition ncSaveGrid (fs : disk) (name : nat) (ds : list dimDict) (vs : list varDict) (nodata : Q) (writedata gatts : bool) : result * disk :=
  match saveDims (mkFile [] [] false) ds with
  | inr (e, f) => (e, put fs name f)
  | inl f =>
      match saveVars nodata writedata f vs with
      | inr (e, f') => (e, put fs name f')
      | inl f' => if gatts then (Saved, put fs name (mkFile (f_dims f') (f_vars f') true)) else (TypeError, put fs name f')
      end
  end.

(** nctools.py:102-108: the values of a dimension; [None]: KeyError *)
Definition ncGetDims (f : ncfile) (dim : nat) : option (list Q) :=
  match assoc dim (f_vars f) with
  | Some v => match v_dims v with
              | [d] => option_map (fun n => map (fun i => v_data v [i]) (seq 0 n)) (assoc d (f_dims f))
              | _ => None
              end
  | None => None
  end.
(** nctools.py:129-144: shape and values. The array is not masked, missing values appear as the fill value. *)
Definition ncGetData (f : ncfile) (var : nat) : option array :=
  match assoc var (f_vars f) with
  | Some v => option_map (fun sz => mkArray sz (v_data v)) (sizes f (v_dims v))
  | None => None
  end.

(** nctools.py:247-248, [if data:] for a numpy array; [None]: ValueError *)
Definition createVarData (old : list Q) (data : list Q) : option (list Q) :=
  match data with
  | [] => Some old
  | [x] => Some (if Qeq_bool x 0 then old else [x])
  | _ => None
  end.
(** nctools.py:181-188: which variable holds the times; [None]: UnboundLocalError. [convention]: the attribute of the
    file, [Some true] if it is COARDS. *)
Definition timeVariable (convention : option bool) (dims : list nat) (time name : nat) : option nat :=
  match convention with
  | Some true => Some time
  | Some false => None
  | None => if existsb (Nat.eqb name) dims then Some name else None
  end.
