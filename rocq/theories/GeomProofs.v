(** Proofs about segments and polygons. *)
From Coq Require Import QArith Lqa Lia ZifyBool ZifyNat Permutation Btauto.
From Verif Require Import Base CellModel CellProofs GeomModel.
From Verif Require Import GenProofs.
Close Scope Q_scope. Open Scope list_scope. Open Scope nat_scope.

(** * Specification *)
(** The point [p] of the line through a and b at parameter t. *)
Definition at_param (p a b : pt) (t : Q) : Prop :=
  (px p == px a + t * (px b - px a) /\ py p == py a + t * (py b - py a))%Q.
Definition on_line (p a b : pt) : Prop := exists t, at_param p a b t.
Definition on_seg (p a b : pt) : Prop := exists t, (0 <= t /\ t <= 1)%Q /\ at_param p a b t.
Definition pt_eq (p q : pt) : Prop := (px p == px q /\ py p == py q)%Q.
(** The directions b - a and d - c are parallel (or one of them is zero). *)
Definition parallel (a b c d : pt) : Prop :=
  ((px b - px a) * (py d - py c) == (py b - py a) * (px d - px c))%Q.

Lemma qeqb_false a b : Qeq_bool a b = false <-> ~ (a == b)%Q.
Proof. rewrite <- Qeq_bool_iff. destruct (Qeq_bool a b); intuition congruence. Qed.

Lemma params_unique a1 a2 b1 b2 s t p :
  ~ parallel a1 a2 b1 b2 -> at_param p a1 a2 s -> at_param p b1 b2 t ->
  let ua_t := ((px b2 - px b1) * (py a1 - py b1) - (py b2 - py b1) * (px a1 - px b1))%Q in
  let ub_t := ((px a2 - px a1) * (py a1 - py b1) - (py a2 - py a1) * (px a1 - px b1))%Q in
  let u_b := ((py b2 - py b1) * (px a2 - px a1) - (px b2 - px b1) * (py a2 - py a1))%Q in
  (s == ua_t / u_b /\ t == ub_t / u_b)%Q.
Proof.
  unfold parallel, at_param. destruct a1 as [ax ay], a2 as [cx cy], b1 as [bx by_], b2 as [dx dy], p as [x y]. cbn.
  intros N [X1 Y1] [X2 Y2].
  rewrite X1 in X2. rewrite Y1 in Y2.
  assert (U : ~ ((dy - by_) * (cx - ax) - (dx - bx) * (cy - ay) == 0)%Q) by (intros E; apply N; lra).
  set (u := ((dy - by_) * (cx - ax) - (dx - bx) * (cy - ay))%Q) in *.
  assert (E1 : (s * u == (dx - bx) * (ay - by_) - (dy - by_) * (ax - bx))%Q).
  { unfold u.
    assert (A : ((ax + s * (cx - ax) - bx) * (dy - by_) == t * (dx - bx) * (dy - by_))%Q)
      by (setoid_replace (ax + s * (cx - ax) - bx)%Q with (t * (dx - bx))%Q by lra; ring).
    assert (B : ((ay + s * (cy - ay) - by_) * (dx - bx) == t * (dx - bx) * (dy - by_))%Q)
      by (setoid_replace (ay + s * (cy - ay) - by_)%Q with (t * (dy - by_))%Q by lra; ring).
    lra. }
  assert (E2 : (t * u == (cx - ax) * (ay - by_) - (cy - ay) * (ax - bx))%Q).
  { unfold u.
    assert (A : ((bx + t * (dx - bx) - ax) * (cy - ay) == s * (cx - ax) * (cy - ay))%Q)
      by (setoid_replace (bx + t * (dx - bx) - ax)%Q with (s * (cx - ax))%Q by lra; ring).
    assert (B : ((by_ + t * (dy - by_) - ay) * (cx - ax) == s * (cx - ax) * (cy - ay))%Q)
      by (setoid_replace (by_ + t * (dy - by_) - ay)%Q with (s * (cy - ay))%Q by lra; ring).
    lra. }
  rewrite <- E1, <- E2. split; field; assumption.
Qed.

Lemma c35_crossing_l a1 a2 b1 b2 : ~ parallel a1 a2 b1 b2 ->
  match lineLine a1 a2 b1 b2 with
  | (Intersects, [q]) => on_seg q a1 a2 /\ on_seg q b1 b2 /\
                         forall p, on_seg p a1 a2 -> on_seg p b1 b2 -> pt_eq p q
  | (NoIntersection, []) => forall p, on_seg p a1 a2 -> ~ on_seg p b1 b2
  | _ => False
  end.
Proof.
  intros N. pose proof (fun s t p => params_unique a1 a2 b1 b2 s t p N) as U.
  unfold lineLine.
  set (ua_t := ((px b2 - px b1) * (py a1 - py b1) - (py b2 - py b1) * (px a1 - px b1))%Q) in *.
  set (ub_t := ((px a2 - px a1) * (py a1 - py b1) - (py a2 - py a1) * (px a1 - px b1))%Q) in *.
  set (u_b := ((py b2 - py b1) * (px a2 - px a1) - (px b2 - px b1) * (py a2 - py a1))%Q) in *.
  cbv zeta in U.
  assert (UB : ~ (u_b == 0)%Q) by (intros E; apply N; unfold parallel, u_b in *; lra).
  rewrite (proj2 (qeqb_false _ _) UB). cbn [negb].
  destruct (Qle_bool 0 (ua_t / u_b) && Qle_bool (ua_t / u_b) 1 && Qle_bool 0 (ub_t / u_b) && Qle_bool (ub_t / u_b) 1) eqn:E.
  - rewrite !andb_true_iff, !Qle_bool_iff in E. destruct E as [[[A B] C] D].
    set (q := {| px := (px a1 + ua_t / u_b * (px a2 - px a1))%Q; py := (py a1 + ua_t / u_b * (py a2 - py a1))%Q |}).
    split; [|split].
    + exists (ua_t / u_b)%Q. split; [split; assumption|]. split; cbn; reflexivity.
    + exists (ub_t / u_b)%Q. split; [split; assumption|]. unfold q, ua_t, ub_t, u_b in *.
      split; cbn; field; exact UB.
    + intros p (s & _ & Hs) (t & _ & Ht). destruct (U s t p Hs Ht) as [Es _].
      destruct Hs as [X Y]. split; cbn; [rewrite X|rewrite Y]; rewrite Es; reflexivity.
  - intros p (s & S & Hs) (t & T & Ht). destruct (U s t p Hs Ht) as [Es Et].
    rewrite <- not_true_iff_false in E. apply E. rewrite !andb_true_iff, !Qle_bool_iff, <- Es, <- Et. tauto.
Qed.

Lemma c35_parallel_l a1 a2 b1 b2 : parallel a1 a2 b1 b2 -> ~ pt_eq a1 a2 -> ~ pt_eq b1 b2 ->
  snd (lineLine a1 a2 b1 b2) = [] /\
  (fst (lineLine a1 a2 b1 b2) = Coincident <-> exists p, on_line p a1 a2 /\ on_line p b1 b2) /\
  (fst (lineLine a1 a2 b1 b2) = Parallel <-> forall p, on_line p a1 a2 -> ~ on_line p b1 b2).
Proof.
  intros P Na Nb. unfold lineLine.
  set (ua_t := ((px b2 - px b1) * (py a1 - py b1) - (py b2 - py b1) * (px a1 - px b1))%Q) in *.
  set (ub_t := ((px a2 - px a1) * (py a1 - py b1) - (py a2 - py a1) * (px a1 - px b1))%Q) in *.
  set (u_b := ((py b2 - py b1) * (px a2 - px a1) - (px b2 - px b1) * (py a2 - py a1))%Q) in *.
  assert (UB : (u_b == 0)%Q) by (unfold parallel, u_b in *; lra).
  rewrite (proj2 (Qeq_bool_iff _ _) UB). cbn [negb].
  assert (AB : ((px a2 - px a1) * ua_t == (px b2 - px b1) * ub_t /\
                (py a2 - py a1) * ua_t == (py b2 - py b1) * ub_t)%Q).
  { unfold parallel, ua_t, ub_t in *. destruct a1 as [ax ay], a2 as [cx cy], b1 as [bx by_], b2 as [dx dy]. cbn in *.
    split.
    - assert (K : ((cx - ax) * (dy - by_) * (ax - bx) == (cy - ay) * (dx - bx) * (ax - bx))%Q) by now rewrite P.
      lra.
    - assert (K : ((cx - ax) * (dy - by_) * (ay - by_) == (cy - ay) * (dx - bx) * (ay - by_))%Q) by now rewrite P.
      lra. }
  destruct AB as [AX AY].
  assert (Z1 : (ua_t == 0 <-> ub_t == 0)%Q).
  { split; intros E; rewrite E in AX, AY.
    - destruct (Qeq_dec ub_t 0) as [|N]; [assumption|]. exfalso. apply Nb. split.
      + assert (K : ((px b2 - px b1) * ub_t == 0)%Q) by lra. apply Qmult_integral in K. destruct K; [lra|contradiction].
      + assert (K : ((py b2 - py b1) * ub_t == 0)%Q) by lra. apply Qmult_integral in K. destruct K; [lra|contradiction].
    - destruct (Qeq_dec ua_t 0) as [|N]; [assumption|]. exfalso. apply Na. split.
      + assert (K : ((px a2 - px a1) * ua_t == 0)%Q) by lra. apply Qmult_integral in K. destruct K; [lra|contradiction].
      + assert (K : ((py a2 - py a1) * ua_t == 0)%Q) by lra. apply Qmult_integral in K. destruct K; [lra|contradiction]. }
  assert (Z2 : (ua_t == 0)%Q <-> exists p, on_line p a1 a2 /\ on_line p b1 b2).
  { split.
    - intros E. exists a1. split; [exists 0%Q; split; ring|].
      unfold ua_t in E.
      destruct (Qeq_dec (px b2 - px b1) 0) as [X|X].
      + assert (Y : ~ (py b2 - py b1 == 0)%Q) by (intros Y; apply Nb; split; lra).
        exists ((py a1 - py b1) / (py b2 - py b1))%Q. split.
        * rewrite X in E. assert (K : ((py b2 - py b1) * (px a1 - px b1) == 0)%Q) by lra.
          apply Qmult_integral in K. destruct K as [K|K]; [contradiction|]. rewrite X. lra.
        * field. exact Y.
      + exists ((px a1 - px b1) / (px b2 - px b1))%Q. split; [field; exact X|].
        assert (K : ((py a1 - py b1) * (px b2 - px b1) == (px a1 - px b1) * (py b2 - py b1))%Q) by lra.
        assert (K2 : (py a1 - py b1 == (px a1 - px b1) * (py b2 - py b1) / (px b2 - px b1))%Q)
          by (rewrite <- K; field; exact X).
        assert (K3 : ((px a1 - px b1) / (px b2 - px b1) * (py b2 - py b1) == py a1 - py b1)%Q)
          by (rewrite K2; field; exact X).
        rewrite K3. ring.
    - intros (p & (s & X1 & Y1) & (t & X2 & Y2)).
      rewrite X1 in X2. rewrite Y1 in Y2. unfold ua_t, parallel in *.
      setoid_replace (py a1 - py b1)%Q with (t * (py b2 - py b1) - s * (py a2 - py a1))%Q by lra.
      setoid_replace (px a1 - px b1)%Q with (t * (px b2 - px b1) - s * (px a2 - px a1))%Q by lra.
      assert (K : (s * ((px a2 - px a1) * (py b2 - py b1)) == s * ((py a2 - py a1) * (px b2 - px b1)))%Q) by now rewrite P.
      lra. }
  destruct (Qeq_bool ua_t 0 || Qeq_bool ub_t 0) eqn:E; cbn.
  - rewrite orb_true_iff, !Qeq_bool_iff in E. assert (E' : (ua_t == 0)%Q) by (destruct E; [|apply Z1]; assumption).
    pose proof (proj1 Z2 E') as W.
    split; [reflexivity|]. split; [tauto|]. split; [discriminate|].
    intros H. destruct W as (p & A & B). destruct (H p A B).
  - rewrite orb_false_iff, !qeqb_false in E. split; [reflexivity|]. split.
    + split; [discriminate|]. intros W. apply Z2 in W. tauto.
    + split; [|reflexivity]. intros _ p A B. apply (proj1 E). apply Z2. now exists p.
Qed.

(** * Points in polygons *)

Lemma cnEdge_spec p a b : cnEdge p (a, b) =
  ((Qle_bool (py a) (py p) && qlt (py p) (py b) && qlt 0 (isLeft a b p)) ||
   (qlt (py p) (py a) && Qle_bool (py b) (py p) && qlt (isLeft a b p) 0)).
Proof.
  unfold cnEdge, isLeft. destruct p as [x y], a as [ax ay], b as [bx by_]. cbn.
  assert (M : forall d, ~ (d == 0)%Q -> d = (by_ - ay)%Q ->
     (d * (ax + (y - ay) / d * (bx - ax) - x) == (bx - ax) * (y - ay) - (x - ax) * (by_ - ay))%Q).
  { intros d D ->. field. exact D. }
  specialize (M (by_ - ay)%Q).
  destruct (Qle_bool ay y) eqn:A; cbn.
  - destruct (qlt y by_) eqn:B; cbn.
    + apply Qle_bool_iff in A. apply qlt_iff in B.
      assert (C : qlt y ay = false) by (apply qlt_false_iff; assumption).
      rewrite C. cbn. rewrite orb_false_r.
      assert (D : (0 < by_ - ay)%Q) by lra.
      assert (M' := M (fun E => Qlt_not_eq _ _ D (Qeq_sym _ _ E)) eq_refl).
      set (I := (ax + (y - ay) / (by_ - ay) * (bx - ax))%Q) in *.
      apply eq_iff_eq_true. rewrite !qlt_iff, <- M'.
      split; intros H.
      * apply Qmult_lt_0_compat; lra.
      * destruct (Qlt_le_dec x I); [assumption|exfalso].
        assert (K : (0 <= (by_ - ay) * (x - I))%Q) by (apply Qmult_le_0_compat; lra). lra.
    + destruct (qlt y ay) eqn:C; cbn; [|reflexivity].
      apply Qle_bool_iff in A. apply qlt_iff in C. lra.
  - assert (A' : (y < ay)%Q) by (apply qlt_iff; unfold qlt; now rewrite A).
    rewrite (proj2 (qlt_iff _ _) A'). cbn.
    destruct (Qle_bool by_ y) eqn:B; cbn; [|reflexivity].
    apply Qle_bool_iff in B.
    assert (D : (by_ - ay < 0)%Q) by lra.
    assert (M' := M (fun E => Qlt_not_eq _ _ D E) eq_refl).
    set (I := (ax + (y - ay) / (by_ - ay) * (bx - ax))%Q) in *.
    apply eq_iff_eq_true. rewrite !qlt_iff, <- M'.
    split; intros H.
    + assert (K : (0 < (ay - by_) * (I - x))%Q) by (apply Qmult_lt_0_compat; lra). lra.
    + destruct (Qlt_le_dec x I); [assumption|exfalso].
      assert (K : (0 <= (ay - by_) * (x - I))%Q) by (apply Qmult_le_0_compat; lra). lra.
Qed.

Definition low (p a : pt) : bool := Qle_bool (py a) (py p).
Definition sideL (p : pt) (e : pt * pt) : bool := qlt 0 (isLeft (fst e) (snd e) p).
Definition sideR (p : pt) (e : pt * pt) : bool := qlt (isLeft (fst e) (snd e) p) 0.
Definition up (p : pt) (e : pt * pt) : bool := low p (fst e) && negb (low p (snd e)).
Definition down (p : pt) (e : pt * pt) : bool := negb (low p (fst e)) && low p (snd e).
Lemma cnEdge_alt p e : cnEdge p e = (up p e && sideL p e) || (down p e && sideR p e).
Proof. destruct e as [a b]. now rewrite cnEdge_spec. Qed.

Lemma isLeft_swap a b p : (isLeft b a p == - isLeft a b p)%Q.
Proof. unfold isLeft. ring. Qed.
Lemma qlt_proper a b c d : (a == c)%Q -> (b == d)%Q -> qlt a b = qlt c d.
Proof. intros E F. apply eq_iff_eq_true. now rewrite !qlt_iff, E, F. Qed.
Lemma side_swap p a b : sideL p (b, a) = sideR p (a, b) /\ sideR p (b, a) = sideL p (a, b).
Proof.
  unfold sideL, sideR; cbn. split; apply eq_iff_eq_true; rewrite !qlt_iff, isLeft_swap; split; lra.
Qed.
Lemma cnEdge_swap p a b : cnEdge p (b, a) = cnEdge p (a, b).
Proof.
  rewrite !cnEdge_alt. destruct (side_swap p a b) as [-> ->]. unfold up, down; cbn.
  destruct (low p a), (low p b), (sideL p (a, b)), (sideR p (a, b)); reflexivity.
Qed.

(** The number of elements satisfying a test. *)
Definition count {A} (f : A -> bool) (l : list A) : nat := length (filter f l).
Lemma count_cons {A} (f : A -> bool) a l : count f (a :: l) = (if f a then 1 else 0) + count f l.
Proof. unfold count; cbn. now destruct (f a). Qed.
Lemma count_app {A} (f : A -> bool) l m : count f (l ++ m) = count f l + count f m.
Proof. unfold count. now rewrite filter_app, app_length. Qed.
Lemma cn_count p v : cnNumber p v = count (cnEdge p) (edges v).
Proof. reflexivity. Qed.

Lemma edges_app l x m : edges (l ++ x :: m) = edges (l ++ [x]) ++ edges (x :: m).
Proof.
  induction l as [|a [|b l] IH]; [reflexivity|destruct m; reflexivity|].
  change ((a :: b :: l) ++ x :: m) with (a :: (b :: l) ++ x :: m).
  change (edges (a :: (b :: l) ++ x :: m)) with ((a, b) :: edges ((b :: l) ++ x :: m)).
  rewrite IH. reflexivity.
Qed.
Lemma edges_rev v : edges (rev v) = rev (map (fun e => (snd e, fst e)) (edges v)).
Proof.
  induction v as [|a [|b v] IH]; [reflexivity|reflexivity|].
  change (edges (a :: b :: v)) with ((a, b) :: edges (b :: v)). cbn [map rev fst snd].
  rewrite <- IH. cbn [rev]. rewrite <- app_assoc. cbn [app].
  rewrite edges_app. reflexivity.
Qed.
Lemma count_rev {A} (f : A -> bool) l : count f (rev l) = count f l.
Proof. induction l; cbn [rev]; [reflexivity|]. rewrite count_app, !count_cons, IHl. cbn. lia. Qed.
Lemma count_map {A B} (f : B -> bool) (g : A -> B) l : count f (map g l) = count (fun a => f (g a)) l.
Proof. induction l; [reflexivity|]. cbn [map]. rewrite !count_cons. lia. Qed.
Lemma count_ext {A} (f g : A -> bool) l : (forall a, In a l -> f a = g a) -> count f l = count g l.
Proof.
  induction l; intros H; [reflexivity|]. rewrite !count_cons, IHl by (intros; apply H; now right).
  now rewrite H by now left.
Qed.
Lemma c37_reverse_l p v : cnNumber p (rev v) = cnNumber p v.
Proof.
  rewrite !cn_count, edges_rev, count_rev, count_map. apply count_ext. intros [a b] _. apply cnEdge_swap.
Qed.

(** A closed list of vertices: the last is the first. *)
Definition closed (v : list pt) : list pt := match v with [] => [] | a :: _ => v ++ [a] end.

(** Upward and downward crossings of a level alternate. *)
Definition b2n (b : bool) : nat := if b then 1 else 0.
Lemma b2n_lia b : b2n b = if b then 1 else 0. Proof. reflexivity. Qed.
Lemma ups_downs p a v : count (up p) (edges (a :: v)) + b2n (low p (last v a)) =
                        count (down p) (edges (a :: v)) + b2n (low p a).
Proof.
  revert a. induction v as [|b v IH]; intros a; [reflexivity|].
  change (edges (a :: b :: v)) with ((a, b) :: edges (b :: v)). rewrite !count_cons.
  assert (L : last (b :: v) a = last v b).
  { clear. revert a b. induction v as [|c v IH]; intros a b; [reflexivity|].
    change (last (c :: v) a = last (c :: v) b) in IH || idtac.
    change (last (b :: c :: v) a) with (last (c :: v) a). rewrite (IH a c). now rewrite (IH b c). }
  rewrite L. specialize (IH b). unfold up at 1, down at 1; cbn [fst snd].
  destruct (low p a), (low p b); cbn in *; lia.
Qed.
Lemma last_app_one {A} (l : list A) x d : last (l ++ [x]) d = x.
Proof. induction l as [|a [|b l] IH]; [reflexivity|reflexivity|exact IH]. Qed.
Lemma ups_downs_closed p v : count (up p) (edges (closed v)) = count (down p) (edges (closed v)).
Proof.
  destruct v as [|a v]; [reflexivity|]. cbn [closed app]. pose proof (ups_downs p a (v ++ [a])) as H.
  rewrite last_app_one in H. lia.
Qed.

(** * Winding number *)
Lemma wn_sum p v : wnNumber p v = fold_right Z.add 0%Z (map (wnEdge p) (edges v)).
Proof.
  unfold wnNumber. generalize (map (wnEdge p) (edges v)) as l.
  assert (H : forall l a, fold_left Z.add l a = (a + fold_right Z.add 0 l)%Z).
  { induction l; intros; cbn; [lia|]. rewrite IHl. lia. }
  intros l. now rewrite H.
Qed.

(** Every point of the polygon is seen from [p] in counterclockwise order. *)
Definition all_left (p : pt) (v : list pt) : Prop := forall e, In e (edges v) -> (0 < isLeft (fst e) (snd e) p)%Q.

Lemma ccw_counts p v : all_left p v ->
  cnNumber p v = count (up p) (edges v) /\ wnNumber p v = Z.of_nat (count (up p) (edges v)).
Proof.
  unfold all_left. rewrite wn_sum, cn_count. induction (edges v) as [|[a b] l IH]; intros H; [now split|].
  cbn [map fold_right]. rewrite !count_cons. specialize (IH (fun e I => H e (or_intror I))). destruct IH as [-> ->].
  specialize (H (a, b) (or_introl eq_refl)). cbn [fst snd] in H.
  rewrite cnEdge_alt. unfold wnEdge, sideL, sideR, up, down, low; cbn [fst snd].
  rewrite (proj2 (qlt_iff _ _) H). rewrite (proj2 (qlt_false_iff (isLeft a b p) 0)) by lra.
  unfold qlt. destruct (Qle_bool (py a) (py p)), (Qle_bool (py b) (py p)); cbn -[Z.of_nat Z.add]; try (split; [reflexivity|]); lia.
Qed.
Lemma c37_ccw_l p v : all_left p v -> count (up p) (edges v) = 1 -> inLand p v = true.
Proof.
  intros H U. destruct (ccw_counts p v H) as [A B]. unfold inLand, cnPnPoly, wnPnPoly. rewrite A, B, U. reflexivity.
Qed.

(** * Outside the bounding box *)
Lemma edges_in v e : In e (edges v) -> In (fst e) v /\ In (snd e) v.
Proof.
  induction v as [|a [|b v] IH]; [intros []|intros []|].
  intros [<-|I]; [cbn; auto|]. destruct (IH I). cbn in *. tauto.
Qed.
Lemma closed_in v a : In a (closed v) -> In a v.
Proof. destruct v as [|b v]; [intros []|]. cbn [closed]. rewrite in_app_iff. cbn. intuition. Qed.
Lemma count_zero {A} (f : A -> bool) l : (forall a, In a l -> f a = false) -> count f l = 0.
Proof.
  induction l; intros H; [reflexivity|]. rewrite count_cons, H by now left. apply IHl. intros; apply H; now right.
Qed.
Definition out_of_box (p : pt) (v : list pt) : Prop :=
  ((forall a, In a v -> px a < px p) \/ (forall a, In a v -> px p < px a) \/
   (forall a, In a v -> py a < py p) \/ (forall a, In a v -> py p < py a))%Q.

Lemma left_sign p a b : (px p < px a)%Q -> (px p < px b)%Q ->
  (up p (a, b) = true -> sideL p (a, b) = true) /\ (down p (a, b) = true -> sideR p (a, b) = true).
Proof.
  unfold up, down, low, sideL, sideR, isLeft; cbn. rewrite !andb_true_iff, !qlt_iff, !negb_true_iff.
  intros A B. split; intros [U D].
  - apply Qle_bool_iff in U. assert (D' : (py p < py b)%Q) by (apply qlt_iff; unfold qlt; now rewrite D).
    assert (K1 : (0 < (px a - px p) * (py b - py p))%Q) by (apply Qmult_lt_0_compat; lra).
    assert (K2 : (0 <= (px b - px p) * (py p - py a))%Q) by (apply Qmult_le_0_compat; lra).
    lra.
  - apply Qle_bool_iff in D. assert (U' : (py p < py a)%Q) by (apply qlt_iff; unfold qlt; now rewrite U).
    assert (K1 : (0 < (px b - px p) * (py a - py p))%Q) by (apply Qmult_lt_0_compat; lra).
    assert (K2 : (0 <= (px a - px p) * (py p - py b))%Q) by (apply Qmult_le_0_compat; lra).
    lra.
Qed.
Lemma right_sign p a b : (px a < px p)%Q -> (px b < px p)%Q -> cnEdge p (a, b) = false.
Proof.
  intros A B. rewrite cnEdge_alt. apply not_true_is_false.
  unfold up, down, low, sideL, sideR, isLeft; cbn. rewrite orb_true_iff, !andb_true_iff, !qlt_iff, !negb_true_iff.
  intros [[[U D] S]|[[U D] S]].
  - apply Qle_bool_iff in U. assert (D' : (py p < py b)%Q) by (apply qlt_iff; unfold qlt; now rewrite D).
    assert (K1 : (0 < (px p - px a) * (py b - py p))%Q) by (apply Qmult_lt_0_compat; lra).
    assert (K2 : (0 <= (px p - px b) * (py p - py a))%Q) by (apply Qmult_le_0_compat; lra).
    lra.
  - apply Qle_bool_iff in D. assert (U' : (py p < py a)%Q) by (apply qlt_iff; unfold qlt; now rewrite U).
    assert (K1 : (0 < (px p - px b) * (py a - py p))%Q) by (apply Qmult_lt_0_compat; lra).
    assert (K2 : (0 <= (px p - px a) * (py p - py b))%Q) by (apply Qmult_le_0_compat; lra).
    lra.
Qed.
Lemma count_or {A} (f g : A -> bool) l : (forall a, In a l -> f a = true -> g a = false) ->
  count (fun a => f a || g a) l = count f l + count g l.
Proof.
  induction l; intros H; [reflexivity|]. rewrite !count_cons, IHl by (intros; apply H; [now right|assumption]).
  specialize (H a (or_introl eq_refl)). destruct (f a), (g a); cbn; try lia.
Qed.
Lemma c37_box_l p v : out_of_box p v -> cnPnPoly p (closed v) = false /\ inLand p (closed v) = false.
Proof.
  intros H. assert (E : cnPnPoly p (closed v) = false).
  { unfold cnPnPoly. rewrite cn_count.
    assert (I : forall e, In e (edges (closed v)) -> In (fst e) v /\ In (snd e) v).
    { intros e I. apply edges_in in I. destruct I. split; now apply closed_in. }
    destruct H as [H|[H|[H|H]]].
    - rewrite count_zero; [reflexivity|]. intros [a b] J. destruct (I _ J). apply right_sign; now apply H.
    - assert (C : count (cnEdge p) (edges (closed v)) = count (fun e => up p e || down p e) (edges (closed v))).
      { apply count_ext. intros [a b] J. destruct (I _ J) as [A B]. apply H in A, B. cbn [fst snd] in A, B.
        destruct (left_sign p a b A B) as [U D]. rewrite cnEdge_alt.
        destruct (up p (a, b)) eqn:EU, (down p (a, b)) eqn:ED; cbn;
          rewrite ?U, ?D by reflexivity; reflexivity. }
      rewrite C, count_or, ups_downs_closed.
      + rewrite Nat.odd_add. apply xorb_nilpotent.
      + intros [a b] _. unfold up, down; cbn. destruct (low p a), (low p b); cbn; congruence.
    - rewrite count_zero; [reflexivity|]. intros [a b] J. destruct (I _ J) as [A B]. apply H in A, B. cbn [fst snd] in A, B.
      rewrite cnEdge_alt. unfold up, down, low; cbn.
      rewrite !(proj2 (Qle_bool_iff _ _)) by lra. reflexivity.
    - rewrite count_zero; [reflexivity|]. intros [a b] J. destruct (I _ J) as [A B]. apply H in A, B. cbn [fst snd] in A, B.
      rewrite cnEdge_alt. unfold up, down, low; cbn.
      apply qlt_iff in A, B. unfold qlt in A, B. apply negb_true_iff in A, B. rewrite A, B. reflexivity. }
  split; [exact E|]. unfold inLand. now rewrite E.
Qed.

(** * Triangles and triangulated polygons *)
Definition triangle := (pt * pt * pt)%type.
(** Strictly inside: on the same side of the three edges. *)
Definition in_triangle (p : pt) (t : triangle) : bool :=
  match t with (a, b, c) =>
    (sideL p (a, b) && sideL p (b, c) && sideL p (c, a)) || (sideR p (a, b) && sideR p (b, c) && sideR p (c, a))
  end.
Definition off_edge (p : pt) (e : pt * pt) : Prop := ~ (isLeft (fst e) (snd e) p == 0)%Q.

Lemma off_sides p e : off_edge p e -> sideR p e = negb (sideL p e).
Proof.
  unfold off_edge, sideL, sideR. set (z := isLeft _ _ _). intros N.
  apply eq_iff_eq_true. rewrite negb_true_iff, qlt_iff, qlt_false_iff. split; intros H; [lra|].
  destruct (Qlt_le_dec z 0); [assumption|]. exfalso. apply N. lra.
Qed.
Lemma sideL_iff p e : sideL p e = true <-> (0 < isLeft (fst e) (snd e) p)%Q.
Proof. apply qlt_iff. Qed.
Lemma low_true p a : low p a = true <-> (py a <= py p)%Q.
Proof. apply Qle_bool_iff. Qed.
Lemma low_false p a : low p a = false <-> (py p < py a)%Q.
Proof. unfold low. rewrite <- qlt_iff. unfold qlt. destruct (Qle_bool (py a) (py p)); cbn; intuition congruence. Qed.
Lemma bary p a b c : (isLeft b c p * (py a - py p) + isLeft c a p * (py b - py p) + isLeft a b p * (py c - py p) == 0)%Q.
Proof. unfold isLeft. ring. Qed.
Lemma mulpp x y : (0 < x -> 0 < y -> 0 < x * y)%Q. Proof. apply Qmult_lt_0_compat. Qed.
Lemma mulpn x y : (0 < x -> y <= 0 -> x * y <= 0)%Q.
Proof. intros A B. assert (0 <= x * (- y))%Q by (apply Qmult_le_0_compat; lra). lra. Qed.
Lemma mulnp x y : (x < 0 -> 0 < y -> x * y < 0)%Q.
Proof. intros A B. assert (0 < (- x) * y)%Q by (apply Qmult_lt_0_compat; lra). lra. Qed.
Lemma mulnn x y : (x < 0 -> y <= 0 -> 0 <= x * y)%Q.
Proof. intros A B. assert (0 <= (- x) * (- y))%Q by (apply Qmult_le_0_compat; lra). lra. Qed.

(** All three vertices on the level line: no point is off the edges. *)
Lemma flat_zero p a b : (py a == py p)%Q -> (py b == py p)%Q -> (isLeft a b p == 0)%Q.
Proof. unfold isLeft. intros A B. rewrite A, B. ring. Qed.

Definition side_of (l : bool) (x : Q) : Prop := if l then (x <= 0)%Q else (0 < x)%Q.
Definition sign_of (s : bool) (z : Q) : Prop := if s then (0 < z)%Q else (z < 0)%Q.
Definition prod_of (l s : bool) (w : Q) : Prop :=
  match l, s with
  | true, true => (w <= 0)%Q | true, false => (0 <= w)%Q | false, true => (0 < w)%Q | false, false => (w < 0)%Q
  end.
Lemma prod_sign l s x z : side_of l x -> sign_of s z -> prod_of l s (z * x)%Q.
Proof. destruct l, s; cbn; intros X Z; [now apply mulpn|now apply mulnn|now apply mulpp|now apply mulnp]. Qed.
Lemma prod_zero s x z : sign_of s z -> (z * x == 0)%Q -> (x == 0)%Q.
Proof. intros S E. apply Qmult_integral in E. destruct s, E; cbn in S; try assumption; exfalso; lra. Qed.
Definition edge_hit (l m s : bool) : bool := (l && negb m && s) || (negb l && m && negb s).
Lemma no_sum (la lb lc s1 s2 s3 : bool) w1 w2 w3 : (w2 + w3 + w1 == 0)%Q ->
  prod_of la s2 w2 -> prod_of lb s3 w3 -> prod_of lc s1 w1 -> ~ (w2 == 0 /\ w3 == 0)%Q ->
  xorb (edge_hit la lb s1) (xorb (edge_hit lb lc s2) (edge_hit lc la s3)) =
  (s1 && s2 && s3) || (negb s1 && negb s2 && negb s3).
Proof.
  intros E W2 W3 W1 N. destruct la, lb, lc, s1, s2, s3; try reflexivity; exfalso; cbn in W1, W2, W3;
    (lra || (apply N; split; lra)).
Qed.
Lemma triangle_cn p a b c : off_edge p (a, b) -> off_edge p (b, c) -> off_edge p (c, a) ->
  Nat.odd (count (cnEdge p) [(a, b); (b, c); (c, a)]) = in_triangle p (a, b, c).
Proof.
  intros N1 N2 N3. rewrite !count_cons, !cnEdge_alt. unfold in_triangle.
  rewrite !(off_sides _ _ N1), !(off_sides _ _ N2), !(off_sides _ _ N3).
  assert (S : forall e, off_edge p e -> sign_of (sideL p e) (isLeft (fst e) (snd e) p)).
  { intros e N. apply off_sides in N. unfold sign_of. destruct (sideL p e) eqn:L; [now apply sideL_iff|].
    now apply qlt_iff in N. }
  assert (L : forall v, side_of (low p v) (py v - py p)).
  { intros v. unfold side_of. destruct (low p v) eqn:E; [apply low_true in E|apply low_false in E]; lra. }
  pose proof (S _ N1) as S1. pose proof (S _ N2) as S2. pose proof (S _ N3) as S3. cbn [fst snd] in S1, S2, S3.
  rewrite <- (no_sum (low p a) (low p b) (low p c) (sideL p (a, b)) (sideL p (b, c)) (sideL p (c, a))
    (isLeft a b p * (py c - py p)) (isLeft b c p * (py a - py p)) (isLeft c a p * (py b - py p)) (bary p a b c)
    (prod_sign _ _ _ _ (L a) S2) (prod_sign _ _ _ _ (L b) S3) (prod_sign _ _ _ _ (L c) S1)).
  - unfold up, down, edge_hit; cbn [fst snd].
    destruct (low p a), (low p b), (low p c), (sideL p (a, b)), (sideL p (b, c)), (sideL p (c, a)); reflexivity.
  - intros [A B]. apply (prod_zero _ _ _ S2) in A. apply (prod_zero _ _ _ S3) in B.
    apply N1. apply flat_zero; cbn [fst snd]; lra.
Qed.

(** The same for points on the extension of an edge. *)
Lemma same_ray p a b : (isLeft a b p == 0)%Q -> ~ on_seg p a b ->
  exists k, (0 < k /\ px b - px p == k * (px a - px p) /\ py b - py p == k * (py a - py p))%Q.
Proof.
  intros Z N. unfold isLeft in Z.
  assert (Na : ~ (px a == px p /\ py a == py p)%Q).
  { intros [A B]. apply N. exists 0%Q. split; [lra|]. split; lra. }
  assert (Nb : ~ (px b == px p /\ py b == py p)%Q).
  { intros [A B]. apply N. exists 1%Q. split; [lra|]. split; lra. }
  assert (Z' : ((px a - px p) * (py b - py p) == (py a - py p) * (px b - px p))%Q) by lra.
  assert (K : exists k, (px b - px p == k * (px a - px p) /\ py b - py p == k * (py a - py p))%Q).
  { destruct (Qeq_dec (px a - px p) 0) as [X|X].
    - assert (Y : ~ (py a - py p == 0)%Q) by (intros Y; apply Na; split; lra).
      exists ((py b - py p) / (py a - py p))%Q. split; [|field; exact Y].
      rewrite X in Z'. assert (W : ((py a - py p) * (px b - px p) == 0)%Q) by lra.
      apply Qmult_integral in W. destruct W as [W|W]; [contradiction|]. rewrite W, X. ring.
    - exists ((px b - px p) / (px a - px p))%Q. split; [field; exact X|].
      assert (W : (py b - py p == (py a - py p) * (px b - px p) / (px a - px p))%Q) by (rewrite <- Z'; field; exact X).
      rewrite W. field. exact X. }
  destruct K as (k & X & Y). exists k. split; [|split; assumption].
  destruct (Qlt_le_dec 0 k) as [|L]; [assumption|exfalso].
  destruct (Qeq_dec k 0) as [E|E].
  - apply Nb. rewrite E in X, Y. split; lra.
  - apply N. exists (1 / (1 - k))%Q. assert (D : (0 < 1 - k)%Q) by lra. split.
    + split; [apply Qle_shift_div_l; lra|apply Qle_shift_div_r; lra].
    + assert (H : (1 / (1 - k) * (1 - k) == 1)%Q) by (field; lra).
      set (t := (1 / (1 - k))%Q) in *. split.
      * setoid_replace (px b - px a)%Q with ((k - 1) * (px a - px p))%Q by lra.
        setoid_replace (px a + t * ((k - 1) * (px a - px p)))%Q
          with (px a - (t * (1 - k)) * (px a - px p))%Q by ring. rewrite H. ring.
      * setoid_replace (py b - py a)%Q with ((k - 1) * (py a - py p))%Q by lra.
        setoid_replace (py a + t * ((k - 1) * (py a - py p)))%Q
          with (py a - (t * (1 - k)) * (py a - py p))%Q by ring. rewrite H. ring.
Qed.
Lemma scaled_edge p a b c k : (0 < k)%Q -> (px b - px p == k * (px a - px p))%Q -> (py b - py p == k * (py a - py p))%Q ->
  cnEdge p (b, c) = cnEdge p (a, c).
Proof.
  intros K X Y. rewrite !cnEdge_alt.
  assert (L : low p b = low p a).
  { apply eq_iff_eq_true. rewrite !low_true. split; intros H.
    - destruct (Qlt_le_dec (py p) (py a)); [|assumption]. exfalso.
      assert (0 < k * (py a - py p))%Q by (apply Qmult_lt_0_compat; lra). lra.
    - assert (0 <= k * (py p - py a))%Q by (apply Qmult_le_0_compat; lra). lra. }
  assert (I : (isLeft b c p == k * isLeft a c p)%Q).
  { unfold isLeft.
    setoid_replace (px c - px b)%Q with ((px c - px p) - k * (px a - px p))%Q by lra.
    setoid_replace (py p - py b)%Q with (- (k * (py a - py p)))%Q by lra.
    setoid_replace (px p - px b)%Q with (- (k * (px a - px p)))%Q by lra.
    setoid_replace (py c - py b)%Q with ((py c - py p) - k * (py a - py p))%Q by lra. ring. }
  assert (SL : sideL p (b, c) = sideL p (a, c)).
  { unfold sideL; cbn [fst snd]. apply eq_iff_eq_true. rewrite !qlt_iff, I. split; intros H.
    - destruct (Qlt_le_dec 0 (isLeft a c p)); [assumption|exfalso].
      assert (0 <= k * (- isLeft a c p))%Q by (apply Qmult_le_0_compat; lra). lra.
    - now apply Qmult_lt_0_compat. }
  assert (SR : sideR p (b, c) = sideR p (a, c)).
  { unfold sideR; cbn [fst snd]. apply eq_iff_eq_true. rewrite !qlt_iff, I. split; intros H.
    - destruct (Qlt_le_dec (isLeft a c p) 0); [assumption|exfalso].
      assert (0 <= k * isLeft a c p)%Q by (apply Qmult_le_0_compat; lra). lra.
    - assert (0 < k * (- isLeft a c p))%Q by (apply Qmult_lt_0_compat; lra). lra. }
  rewrite SL, SR. unfold up, down; cbn [fst snd]. now rewrite L.
Qed.
Lemma triangle_flat p a b c : (isLeft a b p == 0)%Q -> ~ on_seg p a b ->
  Nat.odd (count (cnEdge p) [(a, b); (b, c); (c, a)]) = false /\ in_triangle p (a, b, c) = false.
Proof.
  intros Z N. destruct (same_ray p a b Z N) as (k & K & X & Y).
  assert (L : sideL p (a, b) = false) by (apply qlt_false_iff; cbn; lra).
  assert (R : sideR p (a, b) = false) by (apply qlt_false_iff; cbn; lra).
  split; [|unfold in_triangle; rewrite L, R; reflexivity].
  rewrite !count_cons. rewrite (scaled_edge p a b c k K X Y), (cnEdge_swap p a c), (cnEdge_alt p (a, b)), L, R.
  rewrite !andb_false_r. change (count (cnEdge p) []) with 0. now destruct (cnEdge p (a, c)).
Qed.
Lemma in_triangle_turn p a b c : in_triangle p (b, c, a) = in_triangle p (a, b, c).
Proof. unfold in_triangle. btauto. Qed.
Lemma triangle_cn_all p a b c : ~ on_seg p a b -> ~ on_seg p b c -> ~ on_seg p c a ->
  Nat.odd (count (cnEdge p) [(a, b); (b, c); (c, a)]) = in_triangle p (a, b, c).
Proof.
  intros N1 N2 N3.
  destruct (Qeq_dec (isLeft a b p) 0) as [Z1|Z1].
  { destruct (triangle_flat p a b c Z1 N1) as [-> ->]. reflexivity. }
  destruct (Qeq_dec (isLeft b c p) 0) as [Z2|Z2].
  { destruct (triangle_flat p b c a Z2 N2) as [A B]. rewrite <- in_triangle_turn, B, <- A. f_equal.
    rewrite !count_cons. lia. }
  destruct (Qeq_dec (isLeft c a p) 0) as [Z3|Z3].
  { destruct (triangle_flat p c a b Z3 N3) as [A B]. rewrite <- (in_triangle_turn p c a b) in B. rewrite B, <- A. f_equal.
    rewrite !count_cons. lia. }
  now apply triangle_cn.
Qed.

(** A polygon cut along chords into triangles. Vertex lists are cyclic, without the repeated first vertex. *)
Inductive triangulated : list pt -> list triangle -> Prop :=
| tri_one a b c : triangulated [a; b; c] [(a, b, c)]
| tri_turn a v ts : triangulated (v ++ [a]) ts -> triangulated (a :: v) ts
| tri_cut x l y m ts us : triangulated (x :: l ++ [y]) ts -> triangulated (y :: m ++ [x]) us ->
                          triangulated (x :: l ++ y :: m) (ts ++ us).

Definition tri_edges (t : triangle) : list (pt * pt) := match t with (a, b, c) => [(a, b); (b, c); (c, a)] end.

Lemma count_perm {A} (f : A -> bool) l m : Permutation l m -> count f l = count f m.
Proof. induction 1; rewrite ?count_cons; lia. Qed.
Lemma closed_turn p a v : count (cnEdge p) (edges (closed (v ++ [a]))) = count (cnEdge p) (edges (closed (a :: v))).
Proof.
  destruct v as [|b v]; [reflexivity|]. cbn [closed app].
  rewrite <- app_assoc. cbn [app].
  change (b :: v ++ [a; b]) with ((b :: v) ++ a :: [b]). rewrite edges_app, count_app.
  change (edges (a :: b :: v ++ [a])) with ((a, b) :: edges (b :: v ++ [a])). rewrite count_cons.
  change (edges [a; b]) with [(a, b)]. rewrite count_cons. cbn. lia.
Qed.
Lemma closed_cut p x l y m :
  count (cnEdge p) (edges (closed (x :: l ++ [y]))) + count (cnEdge p) (edges (closed (y :: m ++ [x]))) =
  count (cnEdge p) (edges (closed (x :: l ++ y :: m))) + 2 * b2n (cnEdge p (x, y)).
Proof.
  cbn [closed app]. rewrite <- !app_assoc. cbn [app].
  change (x :: l ++ [y; x]) with ((x :: l) ++ y :: [x]).
  change (y :: m ++ [x; y]) with ((y :: m) ++ x :: [y]).
  change (x :: l ++ y :: m ++ [x]) with ((x :: l) ++ y :: (m ++ [x])).
  rewrite (edges_app (x :: l) y [x]), (edges_app (y :: m) x [y]), (edges_app (x :: l) y (m ++ [x])), !count_app.
  change (edges [y; x]) with [(y, x)]. change (edges [x; y]) with [(x, y)]. rewrite !count_cons, cnEdge_swap.
  change ((y :: m) ++ [x]) with (y :: m ++ [x]).
  unfold b2n. change (count (cnEdge p) []) with 0.
  destruct (cnEdge p (x, y)); lia.
Qed.
Lemma odd_cut a b c k : a + b = c + 2 * k -> Nat.odd c = xorb (Nat.odd a) (Nat.odd b).
Proof. intros H. rewrite <- Nat.odd_add, H, Nat.odd_add, Nat.odd_mul. cbn. now rewrite xorb_false_r. Qed.

Lemma c37_triangulated_l v ts p : triangulated v ts ->
  (forall t e, In t ts -> In e (tri_edges t) -> ~ on_seg p (fst e) (snd e)) ->
  cnPnPoly p (closed v) = Nat.odd (count (in_triangle p) ts).
Proof.
  unfold cnPnPoly. rewrite cn_count. induction 1; intros N.
  - rewrite count_cons. change (edges (closed [a; b; c])) with [(a, b); (b, c); (c, a)].
    assert (M : forall e, In e (tri_edges (a, b, c)) -> ~ on_seg p (fst e) (snd e)) by (intros e I; apply (N (a, b, c) e); [now left|exact I]).
    rewrite (triangle_cn_all p a b c (M (a, b) (or_introl eq_refl)) (M (b, c) (or_intror (or_introl eq_refl)))
               (M (c, a) (or_intror (or_intror (or_introl eq_refl))))).
    change (count (in_triangle p) []) with 0. now destruct (in_triangle p (a, b, c)).
  - rewrite <- closed_turn. now apply IHtriangulated.
  - rewrite count_app, Nat.odd_add, <- IHtriangulated1, <- IHtriangulated2
      by (intros t e I J; apply (N t e); [apply in_app_iff; auto|assumption]).
    apply odd_cut with (k := b2n (cnEdge p (x, y))). apply closed_cut.
Qed.
(** With triangles that do not overlap at p: inside exactly when in one of them. *)
Lemma c37_inside_l v ts p : triangulated v ts ->
  (forall t e, In t ts -> In e (tri_edges t) -> ~ on_seg p (fst e) (snd e)) ->
  (forall i j t u, nth_error ts i = Some t -> nth_error ts j = Some u ->
     in_triangle p t = true -> in_triangle p u = true -> i = j) ->
  (cnPnPoly p (closed v) = true <-> exists t, In t ts /\ in_triangle p t = true).
Proof.
  intros T N D. rewrite (c37_triangulated_l v ts p T N).
  assert (C : count (in_triangle p) ts <= 1 /\ (0 < count (in_triangle p) ts <-> exists t, In t ts /\ in_triangle p t = true)).
  { clear T N. induction ts as [|t ts IH].
    - cbn. split; [lia|]. split; [lia|intros (t & [] & _)].
    - rewrite count_cons. destruct IH as [A B].
      { intros i j u w I J U W. specialize (D (S i) (S j) u w I J U W). lia. }
      destruct (in_triangle p t) eqn:E.
      + assert (Z : count (in_triangle p) ts = 0).
        { destruct (count (in_triangle p) ts) eqn:K; [reflexivity|]. destruct B as [B _].
          destruct B as (u & I & U); [lia|]. apply In_nth_error in I. destruct I as (j & J).
          specialize (D 0 (S j) t u eq_refl J E U). lia. }
        rewrite Z. split; [lia|]. split; [intros _; exists t; cbn; auto|lia].
      + split; [lia|]. cbn. rewrite B. split; intros (u & I & U); exists u.
        * auto.
        * destruct I as [<-|I]; [congruence|auto]. }
  destruct C as [C1 C2]. rewrite <- C2.
  destruct (count (in_triangle p) ts) as [|[|n]]; cbn; split; try lia; congruence.
Qed.
