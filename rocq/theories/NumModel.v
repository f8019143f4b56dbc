(** Grid index search (Utilities/maputils.py) and unit and humidity conversions
    (Utilities/metutils.py), over exact rationals. *)
From Coq Require Import List Arith ZArith Lia Bool QArith Qabs String.
From Verif Require Import CellModel.
Import ListNotations.
Open Scope Q_scope.

(** * Grid index *)
(** [a.max()], [a.min()] of a non-empty array [x :: l]. *)
Definition amax (x : Q) (l : list Q) : Q := fold_left (fun m y => if qlt m y then y else m) l x.
Definition amin (x : Q) (l : list Q) : Q := fold_left (fun m y => if qlt y m then y else m) l x.

(** [a.argmin()]: index of the first smallest entry of [l], given the best index [b]
    with value [v] so far and the index [i] of the head. *)
Fixpoint argminFrom (l : list Q) (i b : nat) (v : Q) : nat :=
  match l with
  | [] => b
  | y :: l' => if qlt y v then argminFrom l' (S i) i y else argminFrom l' (S i) b v
  end.
Definition argmin (l : list Q) : nat :=
  match l with [] => 0%nat | y :: l' => argminFrom l' 1 0 y end.

(** find_index, maputils.py:687-719; [None]: ValueError of [max] of an empty array. *)
Definition findIndex (a : list Q) (value : Q) : option nat :=
  match a with
  | [] => None
  | x :: l =>
      if qlt (amax x l) value then Some (List.length a - 1)%nat
      else if qlt value (amin x l) then Some 0%nat
      else Some (argmin (map (fun y => Qabs (y - value)) a))
  end.

(** find_nearest, maputils.py:721-753 *)
Definition findNearest (a : list Q) (value : Q) : option Q :=
  match findIndex a value with Some i => nth_error a i | None => None end.

(** * Units *)
Open Scope string_scope.
Section Units.
  (** math.pi, a floating-point number, hence rational. *)
  Variable pi : Q.

  (** The conversion factors, metutils.py:397-434. *)
  Definition mps := [("kph", 3.6); ("kts", 1.944); ("mph", 2.2369)].
  Definition mph := [("kph", 1.60934); ("kts", 0.86898); ("mps", 0.44704)].
  Definition kph := [("kts", 0.539957); ("mps", 0.2777778); ("mph", 0.621371)].
  Definition kts := [("kph", 1.852); ("mps", 0.5144); ("mph", 1.15)].
  Definition tC := [("F", 1.8); ("K", 1)].
  Definition tF := [("C", 0.5556)].
  Definition tK := [("C", 1)].
  Definition kPa := [("hPa", 10); ("Pa", 1000); ("inHg", 0.295299831); ("mmHg", 7.500615613); ("Pascals", 1000)].
  Definition hPa := [("kPa", 0.1); ("Pa", 100); ("inHg", 0.02953); ("mmHg", 0.750061561); ("Pascals", 100)].
  Definition Pa := [("kPa", 0.001); ("hPa", 0.01); ("inHg", 0.0002953); ("mmHg", 0.007500616); ("Pascals", 1)].
  Definition inHg := [("kPa", 3.386388667); ("hPa", 33.863886667); ("Pa", 3386.388666667); ("mmHg", 25.4)].
  Definition mmHg := [("kPa", 0.13332239); ("hPa", 1.3332239); ("Pa", 133.32239); ("inHg", 0.0394)].
  Definition pascals := [("kPa", 0.001); ("hPa", 0.01); ("inHg", 0.0002953); ("mmHg", 0.007500616); ("Pa", 1)].
  Definition km := [("m", 1000); ("mi", 0.621371192); ("deg", 0.00899886); ("nm", 0.539957); ("rad", 0.0001570783)].
  Definition deg := [("km", 111.1251); ("m", 111125.1); ("mi", 69.0499358); ("nm", 60); ("rad", pi / 180)].
  Definition m := [("km", 0.001); ("mi", 0.000621371); ("deg", 0.00000899886); ("nm", 0.000539957); ("rad", 0.0000001570783)].
  Definition mi := [("km", 1.60934); ("m", 1609.34); ("deg", 0.014482)].
  Definition nm := [("km", 1.852); ("m", 1852); ("deg", 0.01666); ("rad", pi / 10800)].
  Definition rad := [("nm", 10800 / pi); ("km", 6366.248653); ("deg", 180 / pi)].
  Definition gkg := [("kgkg", 0.001)].
  Definition kgkg := [("gkg", 1000)].

  (** metutils.py:436-456 *)
  Definition tables : list (string * list (string * Q)) :=
    [("mps", mps); ("mph", mph); ("kph", kph); ("kts", kts); ("kPa", kPa); ("hPa", hPa);
     ("Pa", Pa); ("Pascals", pascals); ("inHg", inHg); ("mmHg", mmHg); ("C", tC); ("F", tF);
     ("K", tK); ("km", km); ("m", m); ("deg", deg); ("mi", mi); ("nm", nm); ("rad", rad);
     ("gkg", gkg); ("kgkg", kgkg)].
  (** metutils.py:459-462 *)
  Definition preTables : list (string * list (string * Q)) := [("F", [("C", -(32))])].
  Definition postTables : list (string * list (string * Q)) :=
    [("C", [("K", 273); ("F", 32)]); ("K", [("C", -(273))])].

  Fixpoint assoc {V} (k : string) (l : list (string * V)) : option V :=
    match l with [] => None | (k', v) :: l' => if String.eqb k k' then Some v else assoc k l' end.
  Definition lookup2 (t : list (string * list (string * Q))) (u w : string) : option Q :=
    match assoc u t with Some r => assoc w r | None => None end.

  (** metutils.py:391-394: two spellings are accepted for the input unit only. *)
  Definition alias (u : string) : string :=
    if String.eqb u "kmh" then "kph" else if String.eqb u "m/s" then "mps" else u.

  (** convert, metutils.py:377-477; masked arrays are not modelled. *)
  Definition convert (value : Q) (inunits outunits : string) : Q :=
    if String.eqb inunits outunits then value else
    let u := alias inunits in
    let v1 := match lookup2 preTables u outunits with Some a => value + a | None => value end in
    let v2 := match lookup2 tables u outunits with Some f => v1 * f | None => v1 end in
    match lookup2 postTables u outunits with Some a => v2 + a | None => v2 end.
End Units.
Close Scope string_scope.

(** * Humidity *)
(** metutils.py:19 *)
Definition gEps : Q := 0.622.
(** metutils.py:165-190 *)
Definition vapPrToRH (vp sat_vp : Q) : Q :=
  let rh := if Qeq_bool sat_vp 0 then 100 else (vp / sat_vp) * 100 in
  if qlt 100 rh then 100 else if qlt rh 0 then 0 else rh.
(** metutils.py:265-280, 282-293, 295-306, 308-324 *)
Definition vapPrToMixRat (es prs : Q) : Q := gEps * es / (prs - es).
Definition mixRatToVapPr (rat prs : Q) : Q := rat * prs / (gEps + rat).
Definition vapPrToSpHum (es prs : Q) : Q := gEps * es / prs.
Definition spHumToMixRat (pi q : Q) (units : string) : Q :=
  let q := convert pi q units "kgkg"%string in gEps * q / (gEps - q).
(** rHToMixRat, metutils.py:326-343, with [es] the saturation vapour pressure at the temperature *)
Definition rHToMixRat (rh es prs : Q) : Q := vapPrToMixRat ((rh / 100) * es) prs.
(** spHumToRH, metutils.py:345-360, with [es] the saturation vapour pressure at the temperature *)
Definition spHumToRH (q es prs : Q) : Q := 100 * q / (gEps * es / prs).
