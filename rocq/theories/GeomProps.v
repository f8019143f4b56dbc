(** Properties of the geometry routines: C35, C36, C37, C85, C86. *)
From Coq Require Import QArith Lqa Lia.
From Verif Require Import Base CellModel CellProofs GenProofs GeomModel GeomProofs GeomProofs2 GeomProofs3.
Close Scope Q_scope. Open Scope list_scope. Open Scope nat_scope.

Definition pq (x y : Q) : pt := {| px := x; py := y |}.

(** C35: segments that are not parallel: exactly one common point is reported, or none exists. *)
Theorem c35_crossing : forall a1 a2 b1 b2, ~ parallel a1 a2 b1 b2 ->
  match lineLine a1 a2 b1 b2 with
  | (Intersects, [q]) => on_seg q a1 a2 /\ on_seg q b1 b2 /\
                         forall p, on_seg p a1 a2 -> on_seg p b1 b2 -> pt_eq p q
  | (NoIntersection, []) => forall p, on_seg p a1 a2 -> ~ on_seg p b1 b2
  | _ => False
  end.
Proof. exact c35_crossing_l. Qed.
Print Assumptions c35_crossing.
Example c35_crossing_ex : ~ parallel (pq 0 0) (pq 2 2) (pq 0 2) (pq 2 0) /\
  fst (lineLine (pq 0 0) (pq 2 2) (pq 0 2) (pq 2 0)) = Intersects /\
  ~ parallel (pq 0 0) (pq 2 2) (pq 5 2) (pq 7 0) /\
  fst (lineLine (pq 0 0) (pq 2 2) (pq 5 2) (pq 7 0)) = NoIntersection.
Proof. unfold parallel. repeat split; vm_compute; try reflexivity; discriminate. Qed.

(** C35: parallel segments of positive length: Coincident exactly when the lines through them coincide. *)
Theorem c35_parallel : forall a1 a2 b1 b2, parallel a1 a2 b1 b2 -> ~ pt_eq a1 a2 -> ~ pt_eq b1 b2 ->
  snd (lineLine a1 a2 b1 b2) = [] /\
  (fst (lineLine a1 a2 b1 b2) = Coincident <-> exists p, on_line p a1 a2 /\ on_line p b1 b2) /\
  (fst (lineLine a1 a2 b1 b2) = Parallel <-> forall p, on_line p a1 a2 -> ~ on_line p b1 b2).
Proof. exact c35_parallel_l. Qed.
Print Assumptions c35_parallel.
Example c35_parallel_ex : parallel (pq 0 0) (pq 2 2) (pq 1 0) (pq 2 1) /\ ~ pt_eq (pq 0 0) (pq 2 2) /\
  ~ pt_eq (pq 1 0) (pq 2 1) /\ fst (lineLine (pq 0 0) (pq 2 2) (pq 1 0) (pq 2 1)) = Parallel /\
  fst (lineLine (pq 0 0) (pq 2 2) (pq 1 1) (pq 3 3)) = Coincident.
Proof. unfold parallel, pt_eq. repeat split; vm_compute; try reflexivity; intros [A B]; discriminate. Qed.

(** C35, false: Coincident is also reported for segments of one line that do not overlap, and for a segment of
    length zero anywhere. *)
Lemma apart_line p : on_seg p (pq 0 0) (pq 1 0) -> ~ on_seg p (pq 2 0) (pq 3 0).
Proof. intros (s & S & X & _) (t & T & X' & _). cbn in *. rewrite X in X'. lra. Qed.
Lemma apart_point p : on_seg p (pq 5 7) (pq 5 7) -> ~ on_seg p (pq 0 0) (pq 1 0).
Proof. intros (s & S & _ & Y) (t & T & _ & Y'). cbn in *. rewrite Y in Y'. lra. Qed.
Theorem c35_coincident_refuted :
  ~ forall a1 a2 b1 b2, fst (lineLine a1 a2 b1 b2) = Coincident -> exists p, on_seg p a1 a2 /\ on_seg p b1 b2.
Proof.
  intros H. destruct (H (pq 0 0) (pq 1 0) (pq 2 0) (pq 3 0) eq_refl) as (p & A & B). exact (apart_line p A B).
Qed.
Print Assumptions c35_coincident_refuted.
Theorem c35_still_refuted :
  ~ forall a b1 b2, ~ pt_eq b1 b2 -> fst (lineLine a a b1 b2) = Coincident -> exists p, on_seg p a a /\ on_line p b1 b2.
Proof.
  intros H. destruct (H (pq 5 7) (pq 0 0) (pq 1 0)) as (p & (s & _ & _ & Y) & (t & _ & Y')).
  - intros [A _]. discriminate.
  - reflexivity.
  - cbn in *. rewrite Y in Y'. lra.
Qed.
Print Assumptions c35_still_refuted.

(** C36, false: every polygon with at least one edge is reported as crossed. What holds: the reported points are
    the intersection points with the edges in order. *)
Theorem c36_points_partial : forall a1 a2 parts,
  snd (linePolygon a1 a2 parts) = map (fun e => snd (lineLine a1 a2 (fst e) (snd e))) (flat_map edges parts) /\
  ((exists e q, In e (flat_map edges parts) /\ ~ parallel a1 a2 (fst e) (snd e) /\
               on_seg q a1 a2 /\ on_seg q (fst e) (snd e)) ->
   fst (linePolygon a1 a2 parts) = Intersects /\ exists l q, In l (snd (linePolygon a1 a2 parts)) /\ In q l).
Proof.
  intros a1 a2 parts. split; [reflexivity|]. intros ([b1 b2] & q & I & N & A & B). cbn [fst snd] in *.
  unfold linePolygon; cbn [fst snd]. rewrite map_length. split.
  - destruct (flat_map edges parts); [destruct I|reflexivity].
  - pose proof (c35_crossing_l a1 a2 b1 b2 N) as C. destruct (lineLine a1 a2 b1 b2) as [s l] eqn:E.
    destruct s; try contradiction.
    + destruct l as [|q' [|]]; try contradiction. exists [q'], q'. split; [|now left].
      apply in_map_iff. exists (b1, b2). cbn [fst snd]. rewrite E. auto.
    + destruct l; [|contradiction]. destruct (C q A B).
Qed.
Print Assumptions c36_points_partial.
Definition square : list pt := [pq 0 0; pq 1 0; pq 1 1; pq 0 1; pq 0 0].
Theorem c36_refuted :
  ~ forall a1 a2 v, fst (linePolygon a1 a2 [v]) = Intersects ->
      exists e q, In e (edges v) /\ on_seg q a1 a2 /\ on_seg q (fst e) (snd e).
Proof.
  intros H. destruct (H (pq 5 5) (pq 6 7) square eq_refl) as (e & q & I & (s & S & X & Y) & (t & T & X' & Y')).
  cbn in X, Y. rewrite X in X'. rewrite Y in Y'. cbn in I.
  destruct I as [<-|[<-|[<-|[<-|[]]]]]; cbn in X', Y'; lra.
Qed.
Print Assumptions c36_refuted.
Example c36_ex : exists e q, In e (flat_map edges [square]) /\ ~ parallel (pq (-1) (1#2)) (pq 2 (1#2)) (fst e) (snd e) /\
  on_seg q (pq (-1) (1#2)) (pq 2 (1#2)) /\ on_seg q (fst e) (snd e).
Proof.
  exists (pq 1 0, pq 1 1), (pq 1 (1#2)). split; [cbn; auto|]. split; [unfold parallel; vm_compute; discriminate|].
  split; [exists (2#3)%Q|exists (1#2)%Q]; repeat split; vm_compute; congruence || reflexivity.
Qed.

(** C37: for a polygon seen counterclockwise from the point and crossing its level once on the way up, both tests
    say inside; for counterclockwise rectangles the combined test is exact, with the west and south edges in. *)
Theorem c37_counterclockwise_partial : forall p v, all_left p v -> count (up p) (edges v) = 1 ->
  cnPnPoly p v = true /\ wnPnPoly p v = true /\ inLand p v = true.
Proof.
  intros p v L U. pose proof (c37_ccw_l p v L U) as H. split; [|split; [|exact H]];
    unfold inLand in H; apply andb_true_iff in H; tauto.
Qed.
Print Assumptions c37_counterclockwise_partial.
Theorem c37_rectangle : forall x0 x1 y0 y1 p, (x0 < x1)%Q -> (y0 < y1)%Q ->
  (inLand p (rect x0 x1 y0 y1) = true <-> (x0 <= px p /\ px p < x1)%Q /\ (y0 <= py p /\ py p < y1)%Q) /\
  (cnPnPoly p (rect x0 x1 y0 y1) = true <-> (x0 <= px p /\ px p < x1)%Q /\ (y0 <= py p /\ py p < y1)%Q).
Proof. exact c37_rectangle_l. Qed.
Print Assumptions c37_rectangle.
Example c37_ccw_ex : all_left (pq (1#2) (1#2)) square /\ count (up (pq (1#2) (1#2))) (edges square) = 1.
Proof.
  split; [|reflexivity]. intros e I. cbn in I. destruct I as [<-|[<-|[<-|[<-|[]]]]]; vm_compute; reflexivity.
Qed.
(** C37, false: the winding test fails for the centre of a clockwise triangle, and for a point of a simple
    counterclockwise polygon that has an edge running west below it; left of a square it reports inside. *)
Definition cwTriangle : list pt := [pq 0 2; pq 2 2; pq 1 0; pq 0 2].
Definition bay : list pt := [pq 0 0; pq 3 0; pq 1 1; pq 4 2; pq 4 4; pq 0 4; pq 0 0].
Theorem c37_winding_refuted :
  in_triangle (pq 1 1) (pq 0 2, pq 2 2, pq 1 0) = true /\
  cnPnPoly (pq 1 1) cwTriangle = true /\ wnPnPoly (pq 1 1) cwTriangle = false /\ inLand (pq 1 1) cwTriangle = false /\
  cnPnPoly (pq 2 3) bay = true /\ wnPnPoly (pq 2 3) bay = false /\ inLand (pq 2 3) bay = false /\
  cnPnPoly (pq (-3) (1#2)) square = false /\ wnPnPoly (pq (-3) (1#2)) square = true.
Proof. vm_compute. repeat split. Qed.
Print Assumptions c37_winding_refuted.

(** C86: the crossing number test. *)
Theorem c86_reverse : forall p v, cnPnPoly p (rev v) = cnPnPoly p v.
Proof. intros. unfold cnPnPoly. now rewrite c37_reverse_l. Qed.
Print Assumptions c86_reverse.
Theorem c86_turn : forall p a v, cnPnPoly p (closed (v ++ [a])) = cnPnPoly p (closed (a :: v)).
Proof. intros. unfold cnPnPoly. rewrite !cn_count. now rewrite closed_turn. Qed.
Print Assumptions c86_turn.
Theorem c86_inside : forall v ts p, triangulated v ts ->
  (forall t e, In t ts -> In e (tri_edges t) -> ~ on_seg p (fst e) (snd e)) ->
  (forall i j t u, nth_error ts i = Some t -> nth_error ts j = Some u ->
     in_triangle p t = true -> in_triangle p u = true -> i = j) ->
  (cnPnPoly p (closed v) = true <-> exists t, In t ts /\ in_triangle p t = true).
Proof. exact c37_inside_l. Qed.
Print Assumptions c86_inside.
Theorem c86_outside_box : forall p v, out_of_box p v ->
  cnPnPoly p (closed v) = false /\ inLand p (closed v) = false.
Proof. exact c37_box_l. Qed.
Print Assumptions c86_outside_box.
(** Along a segment that has no point in common with the polygon the answer does not change, and a point that can be
    joined by such a path with a point outside the bounding box is outside. *)
Theorem c86_constant : forall s e v, (forall g, In g (edges (closed v)) -> ~ exists q, on_seg q s e /\ on_seg q (fst g) (snd g)) ->
  cnPnPoly s (closed v) = cnPnPoly e (closed v).
Proof. exact cn_constant. Qed.
Print Assumptions c86_constant.
Theorem c86_reachable : forall s w v,
  (forall h g, In h (edges (s :: w)) -> In g (edges (closed v)) -> ~ exists q, on_seg q (fst h) (snd h) /\ on_seg q (fst g) (snd g)) ->
  out_of_box (last w s) v -> cnPnPoly s (closed v) = false /\ inLand s (closed v) = false.
Proof.
  intros s w v H O. assert (E : cnPnPoly s (closed v) = false) by (rewrite (cn_path v w s H); now apply c37_box_l).
  split; [exact E|]. unfold inLand. now rewrite E.
Qed.
Print Assumptions c86_reachable.
(** A segment that meets the polygon only in crossings inside its edges: the answer changes exactly when the number
    of crossed edges is odd. *)
Theorem c86_crossings : forall s e v (crossed : pt * pt -> bool),
  (forall g, In g (edges (closed v)) ->
     if crossed g then (isLeft s e (fst g) * isLeft s e (snd g) < 0)%Q /\ (isLeft (fst g) (snd g) s * isLeft (fst g) (snd g) e < 0)%Q
     else ~ exists q, on_seg q s e /\ on_seg q (fst g) (snd g)) ->
  xorb (cnPnPoly s (closed v)) (cnPnPoly e (closed v)) = Nat.odd (length (filter crossed (edges (closed v)))).
Proof. exact cn_crossings. Qed.
Print Assumptions c86_crossings.
Definition first_edge_only (g : pt * pt) : bool := Qeq_bool (px (fst g)) 1 && Qeq_bool (px (snd g)) 1.
Example c86_constant_ex : let v := [pq 0 0; pq 1 0; pq 1 1; pq 0 1] in
  (forall g, In g (edges (closed v)) -> ~ exists q, on_seg q (pq (1#4) (1#2)) (pq (1#2) (1#2)) /\ on_seg q (fst g) (snd g)) /\
  (forall g, In g (edges (closed v)) ->
     if first_edge_only g then (isLeft (pq (1#2) (1#2)) (pq 2 1) (fst g) * isLeft (pq (1#2) (1#2)) (pq 2 1) (snd g) < 0)%Q /\
                               (isLeft (fst g) (snd g) (pq (1#2) (1#2)) * isLeft (fst g) (snd g) (pq 2 1) < 0)%Q
     else ~ exists q, on_seg q (pq (1#2) (1#2)) (pq 2 1) /\ on_seg q (fst g) (snd g)) /\
  out_of_box (pq 2 1) v.
Proof.
  cbv zeta. split; [|split].
  - intros g I. cbn in I. destruct I as [<-|[<-|[<-|[<-|[]]]]]; intros (q & (t & T & X & Y) & (u & U & X' & Y')); cbn in X, Y, X', Y'; lra.
  - intros g I. cbn in I. destruct I as [<-|[<-|[<-|[<-|[]]]]]; cbn [first_edge_only]; try (split; vm_compute; reflexivity);
      intros (q & (t & T & X & Y) & (u & U & X' & Y')); cbn in X, Y, X', Y'; lra.
  - left. intros a I. cbn in I. destruct I as [<-|[<-|[<-|[<-|[]]]]]; reflexivity.
Qed.
Example c86_ex : let v := [pq 0 0; pq 3 0; pq 1 1; pq 4 2; pq 4 4; pq 0 4] in
  let ts := [(pq 0 0, pq 3 0, pq 1 1); (pq 0 0, pq 1 1, pq 0 4); (pq 1 1, pq 4 2, pq 0 4); (pq 4 2, pq 4 4, pq 0 4)] in
  let p := pq 1 3 in
  triangulated v ts /\ (forall t e, In t ts -> In e (tri_edges t) -> ~ on_seg p (fst e) (snd e)) /\
  map (in_triangle p) ts = [false; false; true; false].
Proof.
  cbv zeta. split; [|split].
  - apply (tri_cut (pq 0 0) [pq 3 0] (pq 1 1) [pq 4 2; pq 4 4; pq 0 4]
             [(pq 0 0, pq 3 0, pq 1 1)] [(pq 0 0, pq 1 1, pq 0 4); (pq 1 1, pq 4 2, pq 0 4); (pq 4 2, pq 4 4, pq 0 4)]).
    + apply tri_one.
    + cbn [app]. do 3 (apply tri_turn; cbn [app]).
      apply (tri_cut (pq 0 4) [pq 0 0] (pq 1 1) [pq 4 2; pq 4 4] [(pq 0 0, pq 1 1, pq 0 4)]
               [(pq 1 1, pq 4 2, pq 0 4); (pq 4 2, pq 4 4, pq 0 4)]).
      * apply tri_turn. apply tri_one.
      * cbn [app]. do 3 (apply tri_turn; cbn [app]).
        apply (tri_cut (pq 0 4) [pq 1 1] (pq 4 2) [pq 4 4] [(pq 1 1, pq 4 2, pq 0 4)] [(pq 4 2, pq 4 4, pq 0 4)]).
        -- apply tri_turn. apply tri_one.
        -- apply tri_one.
  - intros t e I J. cbn in I. destruct I as [<-|[<-|[<-|[<-|[]]]]]; cbn in J; destruct J as [<-|[<-|[<-|[]]]];
      intros (s & S & X & Y); cbn in X, Y; lra.
  - reflexivity.
Qed.

(** C85: tracks without a point on the gate, within its latitudes: one record for each change of side, in the list
    of its direction; the lists balance. *)
Theorem c85_crossings_partial : forall g lo hi v, (lo < hi)%Q -> good_track g lo hi v ->
  let cs := findCrossings g lo hi [v] in
  we_count cs = sides_changed true (map (east g) v) /\ ew_count cs = sides_changed false (map (east g) v) /\
  Z.of_nat (length cs) = (we_count cs + ew_count cs)%Z.
Proof. exact c85_track_l. Qed.
Print Assumptions c85_crossings_partial.
Theorem c85_net_partial : forall g lo hi a v, (lo < hi)%Q -> good_track g lo hi (a :: v) ->
  let cs := findCrossings g lo hi [a :: v] in
  (we_count cs - ew_count cs = b2z (east g (last v a)) - b2z (east g a))%Z.
Proof. exact c85_net_l. Qed.
Print Assumptions c85_net_partial.
Theorem c85_tracks : forall g lo hi a b,
  findCrossings g lo hi (a ++ b) = findCrossings g lo hi a ++ findCrossings g lo hi b.
Proof. exact find_app. Qed.
Print Assumptions c85_tracks.
(** Every segment, also one ending on the gate: recorded exactly when it meets the gate, at the latitude of the
    meeting point and in the direction of its motion. *)
Theorem c85_segment : forall g lo hi s e, (lo < hi)%Q -> ~ (px s == px e)%Q ->
  (exists c, segCrossing g lo hi s e = Some c /\ (lat_of c == lat_at g s e)%Q /\
     ((px s < px e)%Q -> exists y, c = WE y) /\ ((px e < px s)%Q -> exists y, c = EW y)) /\
  ((px s <= g /\ g <= px e) \/ (px e <= g /\ g <= px s))%Q /\ (lo <= lat_at g s e /\ lat_at g s e <= hi)%Q \/
  segCrossing g lo hi s e = None /\
  ~ (((px s <= g /\ g <= px e) \/ (px e <= g /\ g <= px s))%Q /\ (lo <= lat_at g s e /\ lat_at g s e <= hi)%Q).
Proof. exact seg_spec. Qed.
Print Assumptions c85_segment.
Example c85_ex : good_track 10 (-30) 0 [pq 8 (-10); pq 12 (-11); pq 9 (-12)] /\
  map lat_of (findCrossings 10 (-30) 0 [[pq 8 (-10); pq 12 (-11); pq 9 (-12)]]) <> [].
Proof.
  split; [|vm_compute; discriminate].
  intros p I. cbn in I. destruct I as [<-|[<-|[<-|[]]]]; repeat split; vm_compute; congruence.
Qed.
(** C85, false: a track passing the gate with a point on it is counted twice. *)
Theorem c85_refuted :
  ~ forall g lo hi v, (lo < hi)%Q -> (forall p, In p v -> lo <= py p /\ py p <= hi)%Q ->
      we_count (findCrossings g lo hi [v]) = sides_changed true (map (east g) v).
Proof.
  intros H. specialize (H 10%Q (-30)%Q 0%Q [pq 9 (-10); pq 10 (-10); pq 11 (-10)]).
  assert (A : ((-30) < 0)%Q) by reflexivity. specialize (H A). clear A.
  assert (B : forall p, In p [pq 9 (-10); pq 10 (-10); pq 11 (-10)] -> (-(30) <= py p /\ py p <= 0)%Q).
  { intros p I. cbn in I. destruct I as [<-|[<-|[<-|[]]]]; split; vm_compute; congruence. }
  specialize (H B). vm_compute in H. discriminate.
Qed.
Print Assumptions c85_refuted.
