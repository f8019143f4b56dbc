(** What a user expects of the regional swath (C07, C08, C58); no model helpers except the
    data types. *)
From Verif Require Import Base ExtremesModel.
From Coq Require Import QArith.
Open Scope Z_scope.

(** [r] summarises the local values [vals] (in time order) met at one grid point. *)
Definition swath_of (env : Q) (vals : list cell) (r : cell) : Prop :=
  (   (* some gust exceeds zero: the earliest strongest value is kept as a whole *)
   (exists pre m post, vals = pre ++ m :: post /\ (0 < g m)%Q /\
      (forall c, In c pre -> (g c < g m)%Q) /\ (forall c, In c post -> (g c <= g m)%Q) /\
      g r = g m /\ b r = b m /\ u r = u m /\ v r = v m)
   \/ (* otherwise all zero *)
   ((forall c, In c vals -> (g c <= 0)%Q) /\ g r = 0%Q /\ b r = 0%Q /\ u r = 0%Q /\ v r = 0%Q)) /\
  (* pressure: the minimum of the environmental and the local values *)
  (p r = env \/ exists c, In c vals /\ p r = p c) /\
  (p r <= env)%Q /\ (forall c, In c vals -> (p r <= p c)%Q).

(** In domain 'bounded' a storm centre at [c] centidegrees reaches the regional points whose
    coordinate lies within the margin (and less than one step below it). *)
Definition reaches (c margin step coord : Z) : Prop := c - margin - step < coord <= c + margin.

(** [q] is the local index whose coordinate [c - margin + q * step] is the first one not below
    the regional coordinate. *)
Definition local_index (c margin step coord q : Z) : Prop :=
  coord <= c - margin + q * step < coord + step.

(** [vals] are, in time order, the local values that apply to the regional point with
    coordinates ([clat], [clon]). *)
Inductive values_at (xMin xMax yMin yMax : Q) (margin step clat clon : Z) :
    list ((Q * Q) * (Z -> Z -> cell)) -> list cell -> Prop :=
| VA_nil : values_at xMin xMax yMin yMax margin step clat clon [] []
| VA_take lon lat f tr vals q r :
    (xMin <= lon <= xMax)%Q -> (yMin <= lat <= yMax)%Q ->
    reaches (qint (100 * lat)) margin step clat -> reaches (qint (100 * lon)) margin step clon ->
    local_index (qint (100 * lat)) margin step clat q ->
    local_index (qint (100 * lon)) margin step clon r ->
    values_at xMin xMax yMin yMax margin step clat clon tr vals ->
    values_at xMin xMax yMin yMax margin step clat clon (((lon, lat), f) :: tr) (f q r :: vals)
| VA_skip lon lat f tr vals :
    ~ ((xMin <= lon <= xMax)%Q /\ (yMin <= lat <= yMax)%Q /\
       reaches (qint (100 * lat)) margin step clat /\
       reaches (qint (100 * lon)) margin step clon) ->
    values_at xMin xMax yMin yMax margin step clat clon tr vals ->
    values_at xMin xMax yMin yMax margin step clat clon (((lon, lat), f) :: tr) vals.

(** Domain 'full': every time step in the region applies to every grid point. *)
Inductive values_full (xMin xMax yMin yMax : Q) (j i : Z) :
    list ((Q * Q) * (Z -> Z -> cell)) -> list cell -> Prop :=
| VF_nil : values_full xMin xMax yMin yMax j i [] []
| VF_take lon lat f tr vals :
    (xMin <= lon <= xMax)%Q -> (yMin <= lat <= yMax)%Q ->
    values_full xMin xMax yMin yMax j i tr vals ->
    values_full xMin xMax yMin yMax j i (((lon, lat), f) :: tr) (f j i :: vals)
| VF_skip lon lat f tr vals :
    ~ ((xMin <= lon <= xMax)%Q /\ (yMin <= lat <= yMax)%Q) ->
    values_full xMin xMax yMin yMax j i tr vals ->
    values_full xMin xMax yMin yMax j i (((lon, lat), f) :: tr) vals.

(** Several tracks (C08): gust maximum, pressure minimum, components of the strongest track. *)
Definition strongest_gust (l : list cell) (r : cell) : Prop :=
  (exists m, In m l /\ g r = g m) /\ (forall c, In c l -> (g c <= g r)%Q) /\
  (exists c, In c l /\ p r = p c) /\ (forall c, In c l -> (p r <= p c)%Q).
Definition components_match (l : list cell) (r : cell) : Prop :=
  exists m, In m l /\ g r = g m /\ u r = u m /\ v r = v m /\ b r = b m.
