(** Details of the scale bar. *)
From Coq Require Import List Arith ZArith Bool QArith Qabs Lqa Lia.
From Verif Require Import CellModel CellProofs ScaleModel ScaleProps.
Import ListNotations.
Local Open Scope Q_scope.

(** The distance is known up to [edge] only *)
Definition upTo (edge : Q) (g : Q -> Q) (p : Q) : option Q := if Qle_bool p edge then Some (g p) else None.

Lemma upTo_below edge g distance p : below (upTo edge g p) distance = true -> p <= edge /\ g p < distance.
Proof.
  unfold upTo. destruct (Qle_bool p edge) eqn:E; [|discriminate]. cbn [below]. intros H. apply qlt_iff in H. apply Qle_bool_iff in E. auto.
Qed.
Lemma grow_edge edge (g : Q -> Q) distance far : (forall p, far <= p -> p <= edge -> distance <= g p) -> forall n len, far <= len * inject_Z (2 ^ Z.of_nat n) ->
  exists e, growLoop n (upTo edge g) distance len = Some e.
Proof.
  intros G. induction n as [|n IH]; intros len H; cbn [growLoop]; destruct (below (upTo edge g len) distance) eqn:B; eauto.
  - exfalso. apply upTo_below in B as [B1 B2]. change (inject_Z (2 ^ Z.of_nat 0)) with 1 in H. specialize (G len). lra.
  - apply IH. rewrite pow2_S in H. lra.
Qed.
Lemma halve_edge edge (g : Q -> Q) distance tol K far : 0 < distance -> 0 < tol -> far < edge ->
  (forall a b, a <= b -> g b - g a <= K * (b - a)) -> (forall p, far <= p -> p <= edge -> distance <= g p) ->
  forall n l r, l <= r -> l <= far -> g l <= distance -> below (upTo edge g r) distance = false ->
  K * (r - l) <= tol * distance * inject_Z (2 ^ Z.of_nat n) -> r - l <= (edge - far) * inject_Z (2 ^ Z.of_nat n) ->
  exists x, halveLoop n (upTo edge g) distance tol l r = Some x.
Proof.
  intros D T FE L F. induction n as [|n IH]; intros l r LR LF Gl Br H1 H2; cbn [halveLoop].
  - change (inject_Z (2 ^ Z.of_nat 0)) with 1 in *. unfold upTo in *.
    destruct (Qle_bool r edge) eqn:E; [|apply qle_no in E; lra]. cbn [below isclose] in *. apply qlt_no in Br.
    destruct (Qle_bool (Qabs (g r - distance)) _) eqn:C; [eauto|]. exfalso. apply qle_no in C.
    rewrite Qabs_pos in C by lra. rewrite Qabs_pos in C by lra. specialize (L l r LR). lra.
  - destruct (isclose _ _ _); [eauto|].
    assert (M2 : (l + r) / 2 == (l + r) * (1 # 2)) by field. rewrite pow2_S in H1, H2.
    destruct (below (upTo edge g ((l + r) / 2)) distance) eqn:B.
    + pose proof (upTo_below _ _ _ _ B) as [B1 B2].
      apply IH; try assumption; try (rewrite M2; lra); [|lra].
      apply Qnot_lt_le. intros C. specialize (F _ (Qlt_le_weak _ _ C) B1). lra.
    + apply IH; try assumption; rewrite M2; lra.
Qed.
(** The bar is found too if doubling its length leads beyond the edge of the projection, where no distance is known *)
Theorem c192_found_inside : forall (g : Q -> Q) edge distance tol K far, 0 < distance -> 0 < tol -> g 0 == 0 -> 0 <= far -> far < edge ->
  (forall a b, a <= b -> g b - g a <= K * (b - a)) -> (forall p, far <= p -> p <= edge -> distance <= g p) ->
  exists fuel x, forall more, (fuel <= more)%nat -> pointAlong more (upTo edge g) distance tol = Some (Point x).
Proof.
  intros g edge distance tol K far D T Z0 F0 FE L F. destruct (pow2_big (10 * far)) as [n N]. destruct (grow_edge edge g distance far F n (1 # 10)) as [e E]; [lra|].
  pose proof (grow_spec _ _ _ _ _ E) as B. pose proof (grow_pos _ _ _ _ _ (eq_refl : 0 < 1 # 10) E) as P.
  destruct (pow2_big (K * e / (tol * distance))) as [m1 M1]. destruct (pow2_big (e / (edge - far))) as [m2 M2].
  assert (TD : 0 < tol * distance) by (apply Qmult_lt_0_compat; assumption).
  assert (EF : 0 < edge - far) by lra.
  assert (Up : forall a b, (a <= b)%nat -> inject_Z (2 ^ Z.of_nat a) <= inject_Z (2 ^ Z.of_nat b)).
  { intros a b H. rewrite <- Zle_Qle. apply Z.pow_le_mono_r; lia. }
  set (m := Nat.max m1 m2).
  destruct (halve_edge edge g distance tol K far D T FE L F m 0 e) as [x X].
  - lra.
  - exact F0.
  - rewrite Z0. lra.
  - exact B.
  - setoid_replace (K * (e - 0)) with (tol * distance * (K * e / (tol * distance))) by (field; split; lra). apply Qmult_le_l; [assumption|].
    apply Qle_trans with (1 := M1). apply Up. unfold m. lia.
  - setoid_replace (e - 0) with ((edge - far) * (e / (edge - far))) by (field; lra). apply Qmult_le_l; [assumption|].
    apply Qle_trans with (1 := M2). apply Up. unfold m. lia.
  - exists (Nat.max n m), x. intros more Mo. unfold pointAlong. destruct (Qle_bool distance 0) eqn:Q; [apply Qle_bool_iff in Q; lra|].
    rewrite (grow_more _ _ n more _ _ ltac:(lia) E). rewrite B. destruct (Qle_bool tol 0) eqn:Q'; [apply Qle_bool_iff in Q'; lra|].
    rewrite (halve_more _ _ _ m more _ _ _ ltac:(lia) X). reflexivity.
Qed.
Example c192_found_inside_met : exists x, pointAlong 20 (upTo (35 # 100) (fun p => 1000000 * p)) 300000 (1 # 100) = Some (Point x) /\ x < 35 # 100.
Proof. eexists. split; vm_compute; reflexivity. Qed.

(** The first point tried is taken as soon as it is within the tolerance, the 1e-8 of numpy included *)
Theorem c192_accepted : forall fuel (g : Q -> Q) distance tol, 0 < distance -> 0 < tol ->
  distance <= g (1 # 10) -> g (1 # 10) <= distance + (1 # 100000000) + tol * distance ->
  pointAlong fuel (fun p => Some (g p)) distance tol = Some (Point (1 # 10)).
Proof.
  intros fuel g distance tol D T L U. unfold pointAlong. destruct (Qle_bool distance 0) eqn:E; [apply Qle_bool_iff in E; lra|].
  assert (B : qlt (g (1 # 10)) distance = false) by now apply qlt_no.
  replace (growLoop fuel (fun p => Some (g p)) distance (1 # 10)) with (Some (1 # 10)) by (destruct fuel; cbn [growLoop below]; rewrite B; reflexivity).
  cbn [below]. rewrite B. destruct (Qle_bool tol 0) eqn:E'; [apply Qle_bool_iff in E'; lra|].
  assert (C : isclose (Some (g (1 # 10))) distance tol = true).
  { cbn [isclose]. apply Qle_bool_iff. rewrite Qabs_pos by lra. rewrite Qabs_pos by lra. lra. }
  destruct fuel; cbn [halveLoop]; rewrite C; reflexivity.
Qed.
(** The bar is as long as its number of units *)
Theorem c192_units : forall fuel (g : Q -> Q) len metres tol x,
  scaleBar fuel (fun p => Some (g p)) len metres tol = Some (Point x) ->
  len * metres <= g x /\ g x <= len * metres * (1 + tol) + (1 # 100000000).
Proof. intros. apply c192_length in H. intuition. Qed.
Example c192_units_met : exists x, scaleBar 20 (fun p => Some (1000000 * p)) 300 1000 (1 # 100) = Some (Point x).
Proof. eexists. vm_compute. reflexivity. Qed.
Print Assumptions c192_found_inside.
Print Assumptions c192_accepted.
Print Assumptions c192_units.
