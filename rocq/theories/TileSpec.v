(** What a user expects of tiles and of the parallel hazard run. *)
From Verif Require Import Base.
Open Scope Z_scope.

(** Half-open index rectangle (x1, x2, y1, y2) contains (x, y). *)
Definition in_rect (t : Z * Z * Z * Z) (x y : Z) : Prop :=
  let '(x1, x2, y1, y2) := t in x1 <= x < x2 /\ y1 <= y < y2.

(** [ts] tiles the inclusive window [x0..x1] x [y0..y1] with tiles of at most [w] x [h]. *)
Record tiling (x0 x1 y0 y1 w h : Z) (ts : list (Z * Z * Z * Z)) : Prop := {
  (* every point is in exactly one tile *)
  t_cover : forall x y, x0 <= x <= x1 -> y0 <= y <= y1 ->
    exists k t, nth_error ts k = Some t /\ in_rect t x y /\
      forall k' t', nth_error ts k' = Some t' -> in_rect t' x y -> k' = k;
  (* no tile leaves the window *)
  t_inside : forall t x y, In t ts -> in_rect t x y -> x0 <= x <= x1 /\ y0 <= y <= y1;
  (* no tile is empty or larger than the step *)
  t_size : forall a b c d, In (a, b, c, d) ts -> 0 < b - a <= w /\ 0 < d - c <= h }.

(** A system given by an initial state and a step relation always terminates, without
    getting stuck, in a state satisfying [Q]: no infinite execution exists and every state
    that has no successor satisfies [Q]. *)
Record always_ends_in {St : Type} (start : St) (step : St -> St -> Prop) (Q : St -> Prop) : Prop := {
  e_finite : ~ exists run : nat -> St, run O = start /\ forall n, step (run n) (run (S n));
  e_result : forall s, star step start s -> (forall s', ~ step s s') -> Q s }.
