(** Properties of the circle routines: C38, C84. *)
From Coq Require Import Reals Lra List.
From Verif Require Import CircleModel CircleProofs.
Import ListNotations.
Open Scope R_scope.

(** C38: the meaning of each status for a segment of positive length. Tangent speaks of the whole line. *)
Theorem c38_statuses_partial : forall c a1 a2 r, ~ rpt_eq a1 a2 ->
  match circleLine c r a1 a2 with
  | (COutside, []) => forall p, rseg p a1 a2 -> r * r < dist2 c p
  | (CInside, []) => forall p, rseg p a1 a2 -> dist2 c p < r * r
  | (CTangent, []) => exists q, rline q a1 a2 /\ dist2 c q = r * r /\
      (forall p, rline p a1 a2 -> r * r <= dist2 c p /\ (dist2 c p = r * r -> rpt_eq p q))
  | (CIntersects, qs) => qs <> [] /\ (forall q, In q qs -> rseg q a1 a2 /\ dist2 c q = r * r) /\
      (forall p, rseg p a1 a2 -> dist2 c p = r * r -> exists q, In q qs /\ rpt_eq p q) /\
      (exists p, rline p a1 a2 /\ dist2 c p < r * r)
  | _ => False
  end.
Proof. exact circle_cases. Qed.
Print Assumptions c38_statuses_partial.
Example c38_ex : ~ rpt_eq (P 0 8) (P 0 0).
Proof. intros [_ Y]. cbn in Y. lra. Qed.
(** C38, false: Tangent for a segment that does not reach the circle, and for every segment of length zero. *)
Theorem c38_tangent_refuted : ~ forall c r a1 a2, 0 < r -> ~ rpt_eq a1 a2 -> circleLine c r a1 a2 = (CTangent, []) ->
  exists p, rseg p a1 a2 /\ dist2 c p = r * r.
Proof.
  intros H. destruct tangent_away as [T D]. destruct (H (P 0 0) 1 (P 5 1) (P 6 1)) as (p & S & E).
  - lra.
  - intros [X _]. cbn in X. lra.
  - exact T.
  - specialize (D p S). lra.
Qed.
Print Assumptions c38_tangent_refuted.
Theorem c38_still_refuted : forall c r a, circleLine c r a a = (CTangent, []).
Proof. exact degenerate_tangent. Qed.
Print Assumptions c38_still_refuted.

(** C84: a single array of points is treated correctly; a list of parts is not. *)
Theorem c84_array_partial : forall c r v,
  (fst (circlePolygon c r (inr v)) = CIntersects <->
   exists e, In e (redges v) /\ fst (circleLine c r (fst e) (snd e)) = CIntersects) /\
  snd (circlePolygon c r (inr v)) =
    map (fun e => snd (circleLine c r (fst e) (snd e)))
      (filter (fun e => if cstat_eq_dec (fst (circleLine c r (fst e) (snd e))) CIntersects then true else false) (redges v)).
Proof. exact polygon_array. Qed.
Print Assumptions c84_array_partial.
Theorem c84_parts_refuted : ~ forall c r v,
  (exists e, In e (redges v) /\ fst (circleLine c r (fst e) (snd e)) = CIntersects) ->
  fst (circlePolygon c r (inl [v])) = CIntersects.
Proof.
  intros H. destruct list_branch_misses as (A & _ & B). apply polygon_array in B. apply H in B. congruence.
Qed.
Print Assumptions c84_parts_refuted.
