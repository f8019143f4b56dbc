(** Selection of the profile and field models by name (wind/__init__.py:143-210,
    wind/windmodels.py:1158-1222, PressureInterface/pressureProfile.py). *)
From Coq Require Import List Bool String.
Import ListNotations.
Open Scope string_scope.

(** The keys of PROFILES and FIELDS, windmodels.py:1214-1222: lower-case class names without the
    suffix, over all direct and indirect subclasses. *)
Definition profileKeys : list string :=
  ["jelesnianski"; "holland"; "rankine"; "doubleholland"; "newholland"; "willoughby"; "schloemer"; "powell"].
Definition fieldKeys : list string := ["hubbert"; "mcconochie"; "kepert"].
(** The methods of PrsProfile that take no argument beyond self: pressureProfile.py:146, 166, 182, 191,
    243 (the Rankine and Jelesnianski methods are commented out). Attributes that are not methods
    (R, beta, ...) are not profile names. *)
Definition pressureMethods : list string := ["holland"; "willoughby"; "schloemer"; "doubleHolland"; "powell"].
(** vorticity of NewHollandWindProfile raises (windmodels.py:886-898); KepertWindField calls vorticity,
    the other fields do not. The speed model of NewHolland needs the attribute beta, which it lacks. *)

Definition has (l : list string) (k : string) : bool := existsb (String.eqb k) l.

Inductive outcome := Computed | KeyError | UnboundLocalError.
(** localWindField, wind/__init__.py:172-210: the wind profile is looked up first (line 190), then the
    pressure profile (line 197; pressureProfile catches AttributeError, logs it, and then returns the
    value of a name that was never bound, lines 165-170), then the field (line 200). What the selected
    profile and field compute is in WindModel. *)
Definition localWindField (profileType windFieldType : string) : outcome :=
  if negb (has profileKeys profileType) then KeyError else
  if negb (has pressureMethods profileType) then UnboundLocalError else
  if negb (has fieldKeys windFieldType) then KeyError else Computed.

(** docs/setup.rst:217-239: the values listed as valid *)
Definition documentedProfiles : list string :=
  ["holland"; "powell"; "schloemer"; "willoughby"; "jelesnianski"; "doubleHolland"].
Definition documentedFields : list string := ["kepert"; "hubbert"; "mcconochie"].
