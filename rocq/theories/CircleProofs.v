(** Proofs about circles and segments. *)
From Coq Require Import Reals Lra Psatz List Bool.
From Verif Require Import CircleModel.
Import ListNotations.
Open Scope R_scope.

(** Squared distance to the centre. *)
Definition dist2 (c p : rpt) : R := (rx p - rx c) * (rx p - rx c) + (ry p - ry c) * (ry p - ry c).
Definition rpt_eq (p q : rpt) : Prop := rx p = rx q /\ ry p = ry q.
(** A point of the segment from a to b; of the line. *)
Definition rat (p a b : rpt) (t : R) : Prop :=
  rx p = (1 - t) * rx a + t * rx b /\ ry p = (1 - t) * ry a + t * ry b.
Definition rseg (p a b : rpt) : Prop := exists t, 0 <= t <= 1 /\ rat p a b t.
Definition rline (p a b : rpt) : Prop := exists t, rat p a b t.

Lemma rlt_true a b : rlt a b = true <-> a < b.
Proof. unfold rlt. destruct (Rlt_dec a b); split; intros; try lra; try discriminate; reflexivity. Qed.
Lemma rlt_false a b : rlt a b = false <-> b <= a.
Proof. unfold rlt. destruct (Rlt_dec a b); split; intros; try lra; try discriminate; reflexivity. Qed.
Lemma rle_true a b : rle a b = true <-> a <= b.
Proof. unfold rle. destruct (Rle_dec a b); split; intros; try lra; try discriminate; reflexivity. Qed.
Lemma req_true a b : req a b = true <-> a = b.
Proof. unfold req. destruct (Req_EM_T a b); split; intros; try lra; try discriminate; try contradiction; reflexivity. Qed.

Section Quadratic.
  Variables (c a1 a2 : rpt) (r : R).
  Let a := (rx a2 - rx a1) * (rx a2 - rx a1) + (ry a2 - ry a1) * (ry a2 - ry a1).
  Let b := 2 * ((rx a2 - rx a1) * (rx a1 - rx c) + (ry a2 - ry a1) * (ry a1 - ry c)).
  Let cc := rx c * rx c + ry c * ry c + rx a1 * rx a1 + ry a1 * ry a1
            - 2 * (rx c * rx a1 + ry c * ry a1) - r * r.
  Let deter := b * b - 4 * a * cc.

  Lemma quad p t : rat p a1 a2 t -> dist2 c p - r * r = a * (t * t) + b * t + cc.
  Proof. intros [X Y]. unfold dist2. rewrite X, Y. unfold a, b, cc. ring. Qed.
  Lemma a_pos : ~ rpt_eq a1 a2 -> 0 < a.
  Proof.
    intros N. unfold a.
    destruct (Req_EM_T (rx a2 - rx a1) 0) as [X|X]; destruct (Req_EM_T (ry a2 - ry a1) 0) as [Y|Y].
    - exfalso. apply N. split; lra.
    - pose proof (Rsqr_pos_lt _ Y) as H. unfold Rsqr in H. nra.
    - pose proof (Rsqr_pos_lt _ X) as H. unfold Rsqr in H. nra.
    - pose proof (Rsqr_pos_lt _ X) as H. pose proof (Rsqr_pos_lt _ Y) as H'. unfold Rsqr in *. nra.
  Qed.
  Lemma disc_neg t : 0 < a -> deter < 0 -> 0 < a * (t * t) + b * t + cc.
  Proof.
    intros A D. assert (E : 4 * a * (a * (t * t) + b * t + cc) = (2 * a * t + b) * (2 * a * t + b) - deter)
      by (unfold deter; ring).
    pose proof (Rle_0_sqr (2 * a * t + b)) as H. unfold Rsqr in H.
    apply (Rmult_lt_reg_l (4 * a)); lra.
  Qed.
  Lemma disc_zero t : 0 < a -> deter = 0 -> 0 <= a * (t * t) + b * t + cc /\
    (a * (t * t) + b * t + cc = 0 <-> t = - b / (2 * a)).
  Proof.
    intros A D. assert (E : a * (t * t) + b * t + cc = a * ((t - - b / (2 * a)) * (t - - b / (2 * a)))).
    { assert (C : cc = b * b / (4 * a)) by (unfold deter in D; field_simplify_eq; [lra|lra]).
      rewrite C. field. lra. }
    rewrite E. set (w := t - - b / (2 * a)). pose proof (Rle_0_sqr w) as H. unfold Rsqr in H.
    split; [apply Rmult_le_pos; lra|]. split.
    - intros Z. apply Rmult_integral in Z. destruct Z as [Z|Z]; [lra|].
      apply Rmult_integral in Z. unfold w in Z. lra.
    - intros T. replace w with 0 by (unfold w; lra). ring.
  Qed.
  Lemma factor t : 0 < a -> 0 < deter ->
    a * (t * t) + b * t + cc = a * ((t - (- b + sqrt deter) / (2 * a)) * (t - (- b - sqrt deter) / (2 * a))).
  Proof.
    intros A D. assert (S : sqrt deter * sqrt deter = deter) by (apply sqrt_sqrt; lra).
    set (e := sqrt deter) in *.
    replace (a * ((t - (- b + e) / (2 * a)) * (t - (- b - e) / (2 * a))))
      with (a * (t * t) + b * t + (b * b - e * e) / (4 * a)) by (field; lra).
    rewrite S. unfold deter. field. lra.
  Qed.
  Lemma roots_order : 0 < a -> 0 < deter -> (- b - sqrt deter) / (2 * a) < (- b + sqrt deter) / (2 * a).
  Proof.
    intros A D. assert (S : 0 < sqrt deter) by (apply sqrt_lt_R0; lra).
    unfold Rdiv. apply Rmult_lt_compat_r; [apply Rinv_0_lt_compat; lra|lra].
  Qed.
  Lemma lerp_at u : rat (lerp a1 a2 u) a1 a2 u.
  Proof. split; cbn; ring. Qed.
  Lemma at_lerp p u : rat p a1 a2 u -> rpt_eq p (lerp a1 a2 u).
  Proof. intros [X Y]. split; cbn; rewrite ?X, ?Y; ring. Qed.

  Lemma circle_cases : ~ rpt_eq a1 a2 ->
    match circleLine c r a1 a2 with
    | (COutside, []) => forall p, rseg p a1 a2 -> r * r < dist2 c p
    | (CInside, []) => forall p, rseg p a1 a2 -> dist2 c p < r * r
    | (CTangent, []) => exists q, rline q a1 a2 /\ dist2 c q = r * r /\
        (forall p, rline p a1 a2 -> r * r <= dist2 c p /\ (dist2 c p = r * r -> rpt_eq p q))
    | (CIntersects, qs) => qs <> [] /\ (forall q, In q qs -> rseg q a1 a2 /\ dist2 c q = r * r) /\
        (forall p, rseg p a1 a2 -> dist2 c p = r * r -> exists q, In q qs /\ rpt_eq p q) /\
        (exists p, rline p a1 a2 /\ dist2 c p < r * r)
    | _ => False
    end.
  Proof.
    intros N. pose proof (a_pos N) as A. unfold circleLine. fold a b cc. fold deter.
    destruct (rlt deter 0) eqn:D1.
    - apply rlt_true in D1. intros p (t & T & P). pose proof (quad p t P). pose proof (disc_neg t A D1). lra.
    - apply rlt_false in D1. destruct (req deter 0) eqn:D2.
      + apply req_true in D2. exists (lerp a1 a2 (- b / (2 * a))). split; [exists (- b / (2 * a)); apply lerp_at|]. split.
        * pose proof (quad _ _ (lerp_at (- b / (2 * a)))) as Q. pose proof (proj2 (disc_zero (- b / (2 * a)) A D2)) as Z.
          rewrite (proj2 Z eq_refl) in Q. lra.
        * intros p (t & P). pose proof (quad p t P) as Q. destruct (disc_zero t A D2) as [G Z]. split; [lra|].
          intros E. assert (T : t = - b / (2 * a)) by (apply Z; lra). rewrite <- T. now apply at_lerp.
      + assert (D : 0 < deter).
        { destruct (Req_EM_T deter 0) as [E|E]; [apply req_true in E; congruence|lra]. }
        pose proof (fun t => factor t A D) as F. pose proof (roots_order A D) as O.
        set (u1 := (- b + sqrt deter) / (2 * a)) in *. set (u2 := (- b - sqrt deter) / (2 * a)) in *.
        assert (V : forall p t, rat p a1 a2 t -> dist2 c p - r * r = a * ((t - u1) * (t - u2))).
        { intros p t P. rewrite (quad p t P). apply F. }
        destruct ((rlt u1 0 || rlt 1 u1) && (rlt u2 0 || rlt 1 u2)) eqn:B1.
        * rewrite andb_true_iff, !orb_true_iff, !rlt_true in B1.
          destruct ((rlt u1 0 && rlt u2 0) || (rlt 1 u1 && rlt 1 u2)) eqn:B2.
          -- rewrite orb_true_iff, !andb_true_iff, !rlt_true in B2.
             intros p (t & T & P). pose proof (V p t P) as Q.
             assert (K : 0 < (t - u1) * (t - u2)).
             { destruct B2; [apply Rmult_lt_0_compat; lra|].
               replace ((t - u1) * (t - u2)) with ((u1 - t) * (u2 - t)) by ring. apply Rmult_lt_0_compat; lra. }
             pose proof (Rmult_lt_0_compat _ _ A K). lra.
          -- rewrite <- Bool.not_true_iff_false, orb_true_iff, !andb_true_iff, !rlt_true in B2.
             assert (U : u2 < 0 /\ 1 < u1) by lra.
             intros p (t & T & P). pose proof (V p t P) as Q.
             assert (K : 0 < (u1 - t) * (t - u2)) by (apply Rmult_lt_0_compat; lra).
             pose proof (Rmult_lt_0_compat _ _ A K).
             replace ((t - u1) * (t - u2)) with (- ((u1 - t) * (t - u2))) in Q by ring. lra.
        * rewrite <- Bool.not_true_iff_false, andb_true_iff, !orb_true_iff, !rlt_true in B1.
          assert (I1 : rle 0 u1 && rle u1 1 = true <-> 0 <= u1 <= 1) by (rewrite andb_true_iff, !rle_true; tauto).
          assert (I2 : rle 0 u2 && rle u2 1 = true <-> 0 <= u2 <= 1) by (rewrite andb_true_iff, !rle_true; tauto).
          assert (Z1 : dist2 c (lerp a1 a2 u1) = r * r).
          { pose proof (V _ _ (lerp_at u1)) as Q. replace (u1 - u1) with 0 in Q by ring. lra. }
          assert (Z2 : dist2 c (lerp a1 a2 u2) = r * r).
          { pose proof (V _ _ (lerp_at u2)) as Q. replace (u2 - u2) with 0 in Q by ring. lra. }
          repeat apply conj.
          -- destruct (rle 0 u1 && rle u1 1); [discriminate|]. destruct (rle 0 u2 && rle u2 1); [discriminate|].
             exfalso. assert (~ 0 <= u1 <= 1) by (rewrite <- I1; discriminate).
             assert (~ 0 <= u2 <= 1) by (rewrite <- I2; discriminate). lra.
          -- intros q H. apply in_app_or in H. destruct H as [H|H].
             ++ destruct (rle 0 u1 && rle u1 1); [|destruct H]. destruct H as [<-|[]].
                split; [|exact Z1]. exists u1. split; [tauto|apply lerp_at].
             ++ destruct (rle 0 u2 && rle u2 1); [|destruct H]. destruct H as [<-|[]].
                split; [|exact Z2]. exists u2. split; [tauto|apply lerp_at].
          -- intros p (t & T & P) E. pose proof (V p t P) as Q.
             assert (K : (t - u1) * (t - u2) = 0).
             { assert (a * ((t - u1) * (t - u2)) = 0) by lra. apply Rmult_integral in H. destruct H; lra. }
             apply Rmult_integral in K. destruct K as [K|K].
             ++ exists (lerp a1 a2 u1). split.
                ** apply in_or_app. left. rewrite (proj2 I1) by lra. now left.
                ** replace u1 with t by lra. now apply at_lerp.
             ++ exists (lerp a1 a2 u2). split.
                ** apply in_or_app. right. rewrite (proj2 I2) by lra. now left.
                ** replace u2 with t by lra. now apply at_lerp.
          -- set (m := (u1 + u2) / 2). exists (lerp a1 a2 m). split; [exists m; apply lerp_at|].
             pose proof (V _ _ (lerp_at m)) as Q.
             assert (K : 0 < (u1 - m) * (m - u2)) by (apply Rmult_lt_0_compat; unfold m; lra).
             pose proof (Rmult_lt_0_compat _ _ A K).
             replace ((m - u1) * (m - u2)) with (- ((u1 - m) * (m - u2))) in Q by ring. lra.
  Qed.
End Quadratic.

(** A segment of length zero is always reported as tangent. *)
Lemma degenerate_tangent c r a : circleLine c r a a = (CTangent, []).
Proof.
  unfold circleLine.
  assert (D : 2 * ((rx a - rx a) * (rx a - rx c) + (ry a - ry a) * (ry a - ry c)) *
     (2 * ((rx a - rx a) * (rx a - rx c) + (ry a - ry a) * (ry a - ry c))) -
     4 * ((rx a - rx a) * (rx a - rx a) + (ry a - ry a) * (ry a - ry a)) *
     (rx c * rx c + ry c * ry c + rx a * rx a + ry a * ry a - 2 * (rx c * rx a + ry c * ry a) - r * r) = 0) by ring.
  rewrite D. unfold rlt, req. destruct (Rlt_dec 0 0); [lra|]. destruct (Req_EM_T 0 0); [reflexivity|contradiction].
Qed.
(** Tangent to the line far from the segment. *)
Definition P (x y : R) : rpt := {| rx := x; ry := y |}.
Lemma tangent_away : circleLine (P 0 0) 1 (P 5 1) (P 6 1) = (CTangent, []) /\
  forall p, rseg p (P 5 1) (P 6 1) -> 25 < dist2 (P 0 0) p.
Proof.
  split.
  - unfold circleLine, P; cbn [rx ry].
    match goal with |- context [rlt ?d 0] => replace d with 0 by ring end.
    unfold rlt, req. destruct (Rlt_dec 0 0); [lra|]. destruct (Req_EM_T 0 0); [reflexivity|contradiction].
  - intros p (t & T & X & Y). unfold dist2. cbn in *. rewrite X, Y. nra.
Qed.

Lemma cstat_eq_dec (s t : cstatus) : {s = t} + {s <> t}. Proof. decide equality. Qed.
(** The array branch reports an intersection exactly when some edge is cut. *)
Lemma polygon_array c r v :
  (fst (circlePolygon c r (inr v)) = CIntersects <->
   exists e, In e (redges v) /\ fst (circleLine c r (fst e) (snd e)) = CIntersects) /\
  snd (circlePolygon c r (inr v)) =
    map (fun e => snd (circleLine c r (fst e) (snd e)))
      (filter (fun e => if cstat_eq_dec (fst (circleLine c r (fst e) (snd e))) CIntersects then true else false) (redges v)).
Proof.
  unfold circlePolygon. generalize (redges v) as es. intros es. cbn [fst snd]. split.
  - split.
    + destruct (filter _ _) as [|x l] eqn:F; [discriminate|]. intros _.
      assert (I : In x (filter (fun x => match fst x with CIntersects => true | _ => false end)
                  (map (fun e => circleLine c r (fst e) (snd e)) es))) by (rewrite F; now left).
      apply filter_In in I. destruct I as [I E]. apply in_map_iff in I. destruct I as (e & <- & I).
      exists e. split; [exact I|]. destruct (fst (circleLine c r (fst e) (snd e))); congruence.
    + intros (e & I & E).
      assert (J : In (circleLine c r (fst e) (snd e)) (filter (fun x => match fst x with CIntersects => true | _ => false end)
                  (map (fun e => circleLine c r (fst e) (snd e)) es))).
      { apply filter_In. split; [apply in_map_iff; now exists e|]. now rewrite E. }
      destruct (filter _ _); [destruct J|reflexivity].
  - induction es as [|e es IH]; [reflexivity|]. cbn [map filter].
    destruct (cstat_eq_dec (fst (circleLine c r (fst e) (snd e))) CIntersects) as [E|E].
    + rewrite E. cbn [map]. now rewrite IH.
    + destruct (fst (circleLine c r (fst e) (snd e))); try congruence; exact IH.
Qed.
(** The list branch misses the last edge of a part: a closed triangle cut by the circle in its last edge only. *)
Lemma outside_neg c r a b : ~ rpt_eq a b -> 0 < r ->
  (forall p, rseg p a b -> r * r < dist2 c p) -> fst (circleLine c r a b) <> CIntersects.
Proof.
  intros N _ H E. pose proof (circle_cases c a b r N) as C. destruct (circleLine c r a b) as [s l]. cbn in E. subst s.
  destruct C as (NE & Q & _). destruct l as [|q l]; [congruence|]. destruct (Q q (or_introl eq_refl)) as [S D].
  specialize (H q S). lra.
Qed.
Definition tri : list rpt := [P 0 0; P 8 0; P 0 8; P 0 0].
Lemma list_branch_misses : fst (circlePolygon (P 0 4) 1 (inl [tri])) = CNone /\
  (forall p, p = P 0 5 \/ p = P 0 3 -> rseg p (P 0 8) (P 0 0) /\ dist2 (P 0 4) p = 1 * 1) /\
  fst (circlePolygon (P 0 4) 1 (inr tri)) = CIntersects.
Proof.
  assert (S : forall p, p = P 0 5 \/ p = P 0 3 -> rseg p (P 0 8) (P 0 0) /\ dist2 (P 0 4) p = 1 * 1).
  { intros p [-> | ->].
    - split; [exists (3 / 8); split; [lra|split; cbn; lra]|unfold dist2; cbn; ring].
    - split; [exists (5 / 8); split; [lra|split; cbn; lra]|unfold dist2; cbn; ring]. }
  split; [|split; [exact S|]].
  - unfold circlePolygon, tri. cbn [flat_map backEdges removelast redges map last app fst snd filter].
    rewrite degenerate_tangent. cbn [fst].
    assert (E1 : fst (circleLine (P 0 4) 1 (P 8 0) (P 0 0)) <> CIntersects).
    { apply outside_neg; [intros [X _]; cbn in X; lra|lra|]. intros p (t & T & X & Y).
      unfold dist2. cbn in *. rewrite X, Y. nra. }
    assert (E2 : fst (circleLine (P 0 4) 1 (P 0 8) (P 8 0)) <> CIntersects).
    { apply outside_neg; [intros [X _]; cbn in X; lra|lra|]. intros p (t & T & X & Y).
      unfold dist2. cbn in *. rewrite X, Y. nra. }
    destruct (fst (circleLine (P 0 4) 1 (P 8 0) (P 0 0))); try congruence;
      destruct (fst (circleLine (P 0 4) 1 (P 0 8) (P 8 0))); try congruence; reflexivity.
  - apply polygon_array. exists (P 0 8, P 0 0). split; [cbn; auto|]. cbn [fst snd].
    assert (N : ~ rpt_eq (P 0 8) (P 0 0)) by (intros [_ Y]; cbn in Y; lra).
    pose proof (circle_cases (P 0 4) (P 0 8) (P 0 0) 1 N) as C.
    destruct (S (P 0 5) (or_introl eq_refl)) as [A D]. destruct (S (P 0 3) (or_intror eq_refl)) as [A' D'].
    destruct (circleLine (P 0 4) 1 (P 0 8) (P 0 0)) as [s l]. destruct s; try reflexivity; cbn [fst]; exfalso.
    + exact C.
    + destruct l; [|exact C]. specialize (C _ A). lra.
    + destruct l; [|exact C]. destruct C as (q & _ & _ & U).
      assert (L : rline (P 0 5) (P 0 8) (P 0 0)) by (destruct A as (t & _ & H); now exists t).
      assert (L' : rline (P 0 3) (P 0 8) (P 0 0)) by (destruct A' as (t & _ & H); now exists t).
      destruct (proj2 (U _ L) D) as [_ Y]. destruct (proj2 (U _ L') D') as [_ Y']. cbn in Y, Y'. lra.
    + destruct l; [|exact C]. specialize (C _ A). lra.
Qed.
