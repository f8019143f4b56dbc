From Coq Require Import QArith Qabs Qround Lqa Setoid Sorted.
From Verif Require Import Base NamesProofs SampModel.
Close Scope Q_scope. Open Scope list_scope. Open Scope nat_scope.

(** Sum of a list of rationals. *)
Fixpoint qsum (l : list Q) : Q := match l with [] => 0%Q | a :: r => (a + qsum r)%Q end.
Definition nonneg (l : list Q) : Prop := forall i, (0 <= nth i l 0)%Q.
Definition nondecr (l : list Q) : Prop := forall i j, i <= j -> j < length l -> (nth i l 0 <= nth j l 0)%Q.
Definition distinct (l : list Q) : Prop := forall i j, i < j -> j < length l -> ~ (nth i l 0 == nth j l 0)%Q.
Definition incr (l : list Q) : Prop := forall i j, i < j -> j < length l -> (nth i l 0 < nth j l 0)%Q.

Lemma qsum_app a b : (qsum (a ++ b) == qsum a + qsum b)%Q.
Proof. induction a; simpl; lra. Qed.
Lemma nonneg_cons a l : nonneg (a :: l) <-> (0 <= a)%Q /\ nonneg l.
Proof.
  split.
  - intros H. split; [apply (H 0)|intros i; apply (H (S i))].
  - intros [H1 H2] [|i]; simpl; auto.
Qed.
Lemma qsum_nonneg l : nonneg l -> (0 <= qsum l)%Q.
Proof.
  induction l as [|a l IH]; intros H; simpl; [lra|].
  apply nonneg_cons in H as [H1 H2]. specialize (IH H2). lra.
Qed.
Lemma nonneg_firstn n l : nonneg l -> nonneg (firstn n l).
Proof.
  intros H i. revert n i H. induction l as [|a l IH]; intros [|n] [|i] H; simpl; try lra.
  - apply (H 0).
  - apply IH. now apply nonneg_cons in H.
Qed.
Lemma nonneg_skipn n l : nonneg l -> nonneg (skipn n l).
Proof.
  revert l. induction n as [|n IH]; intros [|a l] H; simpl; auto. apply IH. now apply nonneg_cons in H.
Qed.
Lemma qsum_firstn_le n l : nonneg l -> (qsum (firstn n l) <= qsum l)%Q.
Proof.
  intros H. rewrite <- (firstn_skipn n l) at 2. rewrite qsum_app.
  pose proof (qsum_nonneg _ (nonneg_skipn n l H)). lra.
Qed.
Lemma qsum_firstn_mono n m l : nonneg l -> n <= m -> (qsum (firstn n l) <= qsum (firstn m l))%Q.
Proof.
  intros H L. replace n with (Nat.min n m) by lia. rewrite <- firstn_firstn.
  apply qsum_firstn_le. now apply nonneg_firstn.
Qed.
Lemma qsum_firstn_S n l : (qsum (firstn (S n) l) == qsum (firstn n l) + nth n l 0)%Q.
Proof.
  revert n. induction l as [|a l IH]; intros [|n]; simpl; try lra.
  specialize (IH n). simpl in IH. rewrite IH. lra.
Qed.
Lemma qsum_scale h l : (qsum (map (Qmult h) l) == h * qsum l)%Q.
Proof. induction l; simpl; [lra|rewrite IHl; lra]. Qed.
Lemma firstn_map {A B} (f : A -> B) n l : firstn n (map f l) = map f (firstn n l).
Proof. revert l. induction n; intros [|a l]; simpl; auto. now rewrite IHn. Qed.

Lemma cumsum_length a l : length (cumsum a l) = length l.
Proof. revert a. induction l; intros; simpl; auto. Qed.
Lemma cumsum_nth l : forall a i, i < length l -> (nth i (cumsum a l) 0 == a + qsum (firstn (S i) l))%Q.
Proof.
  induction l as [|y l IH]; intros a i L; simpl in L; [lia|].
  destruct i as [|i]; simpl.
  - lra.
  - rewrite (IH (a + y)%Q i) by lia. simpl. lra.
Qed.
Lemma last_nth {A} (l : list A) d : last l d = nth (length l - 1) l d.
Proof.
  induction l as [|a l IH]; auto. destruct l as [|b l]; auto.
  change (last (a :: b :: l) d) with (last (b :: l) d). rewrite IH. simpl. now rewrite Nat.sub_0_r.
Qed.
Lemma cumsum_last a l : l <> [] -> (last (cumsum a l) 0 == a + qsum l)%Q.
Proof.
  intros H. rewrite last_nth, cumsum_length, cumsum_nth; [|destruct l; simpl; congruence || lia].
  destruct l as [|b l]; [congruence|]. rewrite firstn_all2 by (simpl; lia). reflexivity.
Qed.

Lemma Qeq_bool_false a b : Qeq_bool a b = false <-> ~ (a == b)%Q.
Proof. rewrite <- Qeq_bool_iff. destruct (Qeq_bool a b); split; congruence. Qed.

Lemma nth_map_lt {A B} (f : A -> B) l i d d' : i < length l -> nth i (map f l) d = f (nth i l d').
Proof. intros H. rewrite (nth_indep _ d (f d')) by now rewrite map_length. apply map_nth. Qed.

(** The closed form of [cdf]: cumulative fraction of the total. *)
Lemma cdf_spec x y : 2 <= length x -> (~ nth 0 x 0 == nth 1 x 0)%Q -> y <> [] ->
  exists c, cdf x y = SOk c /\ length c = length y /\
    ((qsum y == 0)%Q -> forall i, i < length y ->
       (nth i c 0 == Qabs (nth 1 x 0 - nth 0 x 0) * qsum (firstn (S i) y))%Q) /\
    (~ (qsum y == 0)%Q -> forall i, i < length y -> (nth i c 0 == qsum (firstn (S i) y) / qsum y)%Q).
Proof.
  intros L D NE. destruct x as [|x0 [|x1 xs]]; simpl in L; try lia.
  simpl in D. unfold cdf. simpl nth. set (h := Qabs (x1 - x0)).
  assert (Hh : ~ (h == 0)%Q).
  { unfold h. intros E. apply D. assert (P : (0 <= h)%Q) by apply Qabs_nonneg.
    unfold h in *. revert E. apply Qabs_case; intros; lra. }
  set (cy := cumsum 0 (map (Qmult h) y)).
  assert (Lc : length cy = length y) by (unfold cy; rewrite cumsum_length; now rewrite map_length).
  assert (Nth : forall i, i < length y -> (nth i cy 0 == h * qsum (firstn (S i) y))%Q).
  { intros i Hi. unfold cy. rewrite cumsum_nth by now rewrite map_length.
    rewrite firstn_map, qsum_scale. lra. }
  assert (T : (last cy 0 == h * qsum y)%Q).
  { unfold cy. rewrite cumsum_last; [rewrite qsum_scale; lra|]. destruct y; simpl; congruence. }
  destruct cy as [|c0 cy'] eqn:Ec; [destruct y; simpl in Lc; congruence|].
  destruct (Qeq_bool (last (c0 :: cy') 0%Q) 0%Q) eqn:E.
  - apply Qeq_bool_iff in E. eexists; split; [reflexivity|]. split; [exact Lc|].
    split; intros Z i Hi.
    + now apply Nth.
    + exfalso. apply Z. rewrite T in E. apply Qmult_integral in E as [E|E]; [now elim Hh|exact E].
  - apply Qeq_bool_false in E. eexists; split; [reflexivity|]. split; [now rewrite map_length|].
    assert (Z : ~ (qsum y == 0)%Q). { intros Z. apply E. rewrite T, Z. lra. }
    split; intros Z' i Hi; [contradiction|].
    erewrite nth_map_lt by (rewrite Lc; exact Hi). rewrite (Nth i Hi), T. field. split; auto.
Qed.

Lemma div_le a b t : (0 < t -> a <= b -> a / t <= b / t)%Q.
Proof. intros. unfold Qdiv. apply Qmult_le_compat_r; auto. apply Qlt_le_weak, Qinv_lt_0_compat; auto. Qed.
Lemma div_lt a b t : (0 < t -> a < b -> a / t < b / t)%Q.
Proof. intros. unfold Qdiv. apply Qmult_lt_compat_r; auto. apply Qinv_lt_0_compat; auto. Qed.
Lemma div_self t : (0 < t -> t / t == 1)%Q.
Proof. intros. field. lra. Qed.
Lemma div_nonneg a t : (0 < t -> 0 <= a -> 0 <= a / t)%Q.
Proof. intros H1 H2. apply (div_le 0 a t) in H2; auto. unfold Qdiv at 1 in H2. lra. Qed.

Lemma c18_cdf_l x y : 2 <= length x -> (~ nth 0 x 0 == nth 1 x 0)%Q -> nonneg y -> (0 < qsum y)%Q ->
  exists c, cdf x y = SOk c /\ length c = length y /\ nondecr c /\
    (forall i, i < length y -> (0 <= nth i c 0 /\ nth i c 0 <= 1)%Q) /\ (nth (length y - 1) c 0 == 1)%Q.
Proof.
  intros L D N P. assert (NE : y <> []) by (intros ->; simpl in P; lra).
  destruct (cdf_spec x y L D NE) as (c & E & Lc & _ & S). exists c. split; [exact E|]. split; [exact Lc|].
  specialize (S ltac:(lra)).
  split; [|split].
  - intros i j H1 H2. rewrite Lc in H2. rewrite !S by lia. apply div_le; auto. apply qsum_firstn_mono; auto. lia.
  - intros i Hi. rewrite !S by lia. split.
    + apply div_nonneg; auto. apply qsum_nonneg. now apply nonneg_firstn.
    + rewrite <- (div_self (qsum y)) by auto. apply div_le; auto. now apply qsum_firstn_le.
  - assert (0 < length y) by (destruct y; simpl; [congruence|lia]). rewrite S by lia.
    rewrite firstn_all2 by lia. now apply div_self.
Qed.
Lemma c18_zero_l x y : 2 <= length x -> (~ nth 0 x 0 == nth 1 x 0)%Q -> y <> [] -> (forall i, (nth i y 0 == 0)%Q) ->
  exists c, cdf x y = SOk c /\ length c = length y /\ (forall i, i < length y -> (nth i c 0 == 0)%Q).
Proof.
  intros L D NE Z. destruct (cdf_spec x y L D NE) as (c & E & Lc & S & _). exists c. split; auto. split; auto.
  assert (A : forall l, (forall i, (nth i l 0 == 0)%Q) -> (qsum l == 0)%Q).
  { induction l as [|a l IH]; intros H; simpl; [lra|]. rewrite IH by (intros i; apply (H (Datatypes.S i))).
    pose proof (H 0) as H0. simpl in H0. lra. }
  intros i Hi. rewrite S by auto. rewrite (A (firstn _ _)); [lra|].
  intros k. destruct (Nat.lt_ge_cases k (Datatypes.S i)) as [G|G].
  - assert (EN : nth k (firstn (Datatypes.S i) y) 0%Q = nth k y 0%Q); [|rewrite EN; apply Z].
    rewrite <- (firstn_skipn (Datatypes.S i) y) at 2.
    destruct (Nat.lt_ge_cases k (length (firstn (Datatypes.S i) y))) as [G'|G'].
    + now rewrite app_nth1.
    + rewrite firstn_length in G'. assert (k >= length y) by lia.
      rewrite !nth_overflow; auto; try (rewrite firstn_length; lia).
      rewrite firstn_skipn. lia.
  - rewrite nth_overflow; [lra|]. rewrite firstn_length. lia.
Qed.

(** ** Two dimensions *)
Definition rect (nx ny : nat) (z : list (list Q)) : Prop := length z = nx /\ Forall (fun r => length r = ny) z.
(** Sum of the entries in rows 0..i and columns 0..j. *)
Definition boxsum (z : list (list Q)) (i j : nat) : Q := qsum (map (fun r => qsum (firstn (S j) r)) (firstn (S i) z)).

Lemma cz_row_len : forall up v c p, length up = length v -> length (cz_row c p up v) = length v.
Proof. induction up as [|u up IH]; intros [|w v] c p L; simpl in *; try lia. injection L as L. f_equal. now apply IH. Qed.
Lemma cz_next_len up v : length up = length v -> length (cz_next up v) = length v.
Proof. destruct up, v; simpl; intros H; try lia. injection H as H. f_equal. now apply cz_row_len. Qed.
Lemma cz_row_nth : forall up v c p j, length up = length v -> j < length v ->
  (nth j (cz_row c p up v) 0 == nth j up 0 - p + c + qsum (firstn (S j) v))%Q.
Proof.
  induction up as [|u up IH]; intros [|w v] c p j L Hj; simpl in L, Hj; try lia.
  cbn [cz_row]. destruct j as [|j]; [simpl; lra|]. cbn [nth]. rewrite IH by lia.
  change (firstn (S (S j)) (w :: v)) with (w :: firstn (S j) v). cbn [qsum]. lra.
Qed.
Lemma cz_next_nth up v j : length up = length v -> j < length v ->
  (nth j (cz_next up v) 0 == nth j up 0 + qsum (firstn (S j) v))%Q.
Proof.
  destruct up as [|u up], v as [|w v]; cbn [length cz_next]; intros L Hj; try lia.
  destruct j as [|j]; [simpl; lra|]. cbn [nth]. rewrite cz_row_nth by lia.
  change (firstn (S (S j)) (w :: v)) with (w :: firstn (S j) v). cbn [qsum]. lra.
Qed.
Lemma cz_rows_nth : forall vs up i j n, length up = n -> Forall (fun r => length r = n) vs -> i < length vs -> j < n ->
  (nth j (nth i (cz_rows up vs) []) 0 == nth j up 0 + boxsum vs i j)%Q.
Proof.
  induction vs as [|v vs IH]; intros up i j n L F Hi Hj; simpl in Hi; [lia|].
  inversion F; subst. destruct i as [|i].
  - cbn [cz_rows nth]. rewrite cz_next_nth by lia. unfold boxsum. simpl. lra.
  - cbn [cz_rows nth]. rewrite (IH (cz_next up v) i j (length up)); [|rewrite cz_next_len; lia|auto|lia|lia].
    rewrite cz_next_nth by lia. unfold boxsum.
    change (firstn (S (S i)) (v :: vs)) with (v :: firstn (S i) vs). cbn [map qsum]. lra.
Qed.
Lemma cz_rows_len vs : forall up, length (cz_rows up vs) = length vs.
Proof. induction vs; intros; simpl; auto. Qed.
Lemma cz_rows_rect vs : forall up n, length up = n -> Forall (fun r => length r = n) vs ->
  Forall (fun r => length r = n) (cz_rows up vs).
Proof.
  induction vs as [|v vs IH]; intros up n L F; simpl; constructor; inversion F; subst.
  - rewrite cz_next_len; auto.
  - apply IH; auto. rewrite cz_next_len; auto.
Qed.
Definition nonneg2 (z : list (list Q)) : Prop := Forall nonneg z.
Lemma Forall_nth_in {A} (P : A -> Prop) l i d : Forall P l -> i < length l -> P (nth i l d).
Proof. intros F H. rewrite Forall_forall in F. apply F. now apply nth_In. Qed.
Lemma Forall_firstn {A} (P : A -> Prop) n l : Forall P l -> Forall P (firstn n l).
Proof. revert l. induction n; intros [|a l] H; simpl; auto. inversion H; subst. constructor; auto. Qed.
Lemma nonneg_map (f : list Q -> Q) z : Forall (fun r => 0 <= f r)%Q z -> nonneg (map f z).
Proof.
  intros F. induction F; intros i; simpl; [destruct i; simpl; lra|]. destruct i; simpl; auto.
Qed.
Lemma rows_nonneg j z : nonneg2 z -> nonneg (map (fun r => qsum (firstn (S j) r)) z).
Proof.
  intros N. apply nonneg_map. eapply Forall_impl; [|exact N]. intros r Hr. apply qsum_nonneg. now apply nonneg_firstn.
Qed.
Lemma boxsum_alt z i j : boxsum z i j = qsum (firstn (S i) (map (fun r => qsum (firstn (S j) r)) z)).
Proof. unfold boxsum. now rewrite firstn_map. Qed.
Lemma qsum_map_le {A} (f g : A -> Q) z : Forall (fun r => f r <= g r)%Q z -> (qsum (map f z) <= qsum (map g z))%Q.
Proof. induction 1; simpl; lra. Qed.
Lemma boxsum_mono z i j i' j' : nonneg2 z -> i <= i' -> j <= j' -> (boxsum z i j <= boxsum z i' j')%Q.
Proof.
  intros N Hi Hj. apply Qle_trans with (boxsum z i' j).
  - rewrite !boxsum_alt. apply qsum_firstn_mono; [now apply rows_nonneg|lia].
  - unfold boxsum. apply qsum_map_le. apply Forall_firstn. eapply Forall_impl; [|exact N].
    intros r Hr. apply qsum_firstn_mono; auto; lia.
Qed.
Lemma boxsum_nonneg z i j : nonneg2 z -> (0 <= boxsum z i j)%Q.
Proof. intros N. rewrite boxsum_alt. apply qsum_nonneg, nonneg_firstn. now apply rows_nonneg. Qed.
Lemma boxsum_scale h z i j : (boxsum (map (map (Qmult h)) z) i j == h * boxsum z i j)%Q.
Proof.
  unfold boxsum. rewrite firstn_map, map_map.
  induction (firstn (S i) z) as [|r l IH]; [simpl; lra|].
  cbn [map qsum]. rewrite IH. rewrite firstn_map, qsum_scale. lra.
Qed.

Lemma cdf2d_spec x y z nx ny : 2 <= nx -> 2 <= ny -> length x = nx -> length y = ny -> rect nx ny z ->
  (~ nth 0 x 0 == nth 1 x 0)%Q -> (~ nth 0 y 0 == nth 1 y 0)%Q -> ~ (boxsum z (nx - 1) (ny - 1) == 0)%Q ->
  exists c, cdf2d x y z = SOk c /\ rect nx ny c /\
    forall i j, i < nx -> j < ny -> (nth j (nth i c []) 0 == boxsum z i j / boxsum z (nx - 1) (ny - 1))%Q.
Proof.
  intros Hx Hy Lx Ly [Lz Rz] Dx Dy T.
  destruct x as [|x0 [|x1 xs]]; simpl in Lx; try lia. destruct y as [|y0 [|y1 ys]]; simpl in Ly; try lia.
  unfold cdf2d. simpl in Dx, Dy. set (area := (Qabs (x1 - x0) * Qabs (y1 - y0))%Q).
  assert (A : forall a b, ~ (a == b)%Q -> ~ (Qabs (b - a) == 0)%Q).
  { intros a b D E. apply D. revert E. apply Qabs_case; intros; lra. }
  assert (Ha : ~ (area == 0)%Q).
  { unfold area. intros E. apply Qmult_integral in E as [E|E]; [exact (A _ _ Dx E)|exact (A _ _ Dy E)]. }
  set (g := map (map (Qmult area)) z).
  assert (Lg : length g = nx) by (unfold g; now rewrite map_length).
  assert (Rg : Forall (fun r => length r = ny) g).
  { unfold g. rewrite Forall_map. eapply Forall_impl; [|exact Rz]. intros r Hr. now rewrite map_length. }
  assert (Bg : forall i j, (boxsum g i j == area * boxsum z i j)%Q) by (intros; apply boxsum_scale).
  destruct g as [|v0 vs] eqn:Eg; [simpl in Lg; lia|].
  pose proof (Forall_inv Rg) as Hv0. pose proof (Forall_inv_tail Rg) as Hvs. simpl in Hv0.
  set (r0 := cumsum 0 v0). set (cz := r0 :: cz_rows r0 vs).
  assert (Lr0 : length r0 = ny) by (unfold r0; rewrite cumsum_length; exact Hv0).
  assert (Lcz : length cz = nx). { unfold cz. simpl. rewrite cz_rows_len. simpl in Lg. lia. }
  assert (Rcz : Forall (fun r => length r = ny) cz).
  { unfold cz. constructor; auto. now apply cz_rows_rect. }
  assert (N : forall i j, i < nx -> j < ny -> (nth j (nth i cz []) 0 == area * boxsum z i j)%Q).
  { intros i j Hi Hj. rewrite <- Bg. unfold cz. destruct i as [|i].
    - simpl. unfold r0. rewrite cumsum_nth by lia. unfold boxsum. simpl. lra.
    - cbn [nth]. rewrite (cz_rows_nth vs r0 i j ny Lr0 Hvs); [|simpl in Lg; lia|exact Hj].
      unfold r0. rewrite cumsum_nth by lia. unfold boxsum.
      change (firstn (S (S i)) (v0 :: vs)) with (v0 :: firstn (S i) vs). cbn [map qsum]. lra. }
  assert (Lt : (last (last cz []) 0 == area * boxsum z (nx - 1) (ny - 1))%Q).
  { rewrite (last_nth cz), last_nth.
    assert (Q : length (nth (length cz - 1) cz []) = ny).
    { apply (Forall_nth_in (fun r => length r = ny)); auto. rewrite Lcz. lia. }
    rewrite Q, Lcz. apply N; lia. }
  destruct (Qeq_bool _ _) eqn:E.
  - exfalso. apply Qeq_bool_iff in E. fold r0 in E. fold cz in E. rewrite Lt in E.
    apply Qmult_integral in E as [E|E]; [now apply Ha|now apply T].
  - apply Qeq_bool_false in E. fold r0 in E. fold cz in E. fold r0. fold cz.
    eexists. split; [reflexivity|]. split.
    + split; [now rewrite map_length|]. rewrite Forall_map. eapply Forall_impl; [|exact Rcz].
      intros r Hr. now rewrite map_length.
    + intros i j Hi Hj.
      erewrite (nth_map_lt (map (fun c : Q => (c / last (last cz []) 0)%Q))) by lia.
      erewrite nth_map_lt.
      2:{ rewrite (Forall_nth_in (fun r => length r = ny) cz i []); auto. lia. }
      rewrite (N i j Hi Hj), Lt. field. split; auto.
Qed.
Lemma c18_cdf2d_l x y z nx ny : 2 <= nx -> 2 <= ny -> length x = nx -> length y = ny -> rect nx ny z ->
  (~ nth 0 x 0 == nth 1 x 0)%Q -> (~ nth 0 y 0 == nth 1 y 0)%Q -> nonneg2 z -> (0 < boxsum z (nx - 1) (ny - 1))%Q ->
  exists c, cdf2d x y z = SOk c /\ rect nx ny c /\
    (forall i j i' j', i <= i' -> j <= j' -> i' < nx -> j' < ny -> (nth j (nth i c []) 0 <= nth j' (nth i' c []) 0)%Q) /\
    (forall i j, i < nx -> j < ny -> (0 <= nth j (nth i c []) 0 /\ nth j (nth i c []) 0 <= 1)%Q) /\
    (nth (ny - 1) (nth (nx - 1) c []) 0 == 1)%Q.
Proof.
  intros Hx Hy Lx Ly R Dx Dy N P.
  destruct (cdf2d_spec x y z nx ny Hx Hy Lx Ly R Dx Dy ltac:(lra)) as (c & E & Rc & S).
  exists c. split; auto. split; auto. split; [|split].
  - intros. rewrite !S by lia. apply div_le; auto. now apply boxsum_mono.
  - intros i j Hi Hj. rewrite !S by lia. split.
    + apply div_nonneg; auto. now apply boxsum_nonneg.
    + rewrite <- (div_self (boxsum z (nx - 1) (ny - 1))) by auto. apply div_le; auto. apply boxsum_mono; auto; lia.
  - rewrite S by lia. now apply div_self.
Qed.

(** ** searchsorted *)
Lemma ss_le l q : searchsorted l q <= length l.
Proof. induction l; simpl; [lia|]. destruct (Qle_bool q a); simpl; lia. Qed.
Lemma ss_below l q : forall i, i < searchsorted l q -> (nth i l 0 < q)%Q.
Proof.
  induction l as [|a l IH]; simpl; intros i H; [lia|]. destruct (Qle_bool q a) eqn:E; [lia|].
  destruct i as [|i]; [|apply IH; lia]. apply Qnot_le_lt. intros C. apply Qle_bool_iff in C. congruence.
Qed.
Lemma ss_at l q : searchsorted l q < length l -> (q <= nth (searchsorted l q) l 0)%Q.
Proof.
  induction l as [|a l IH]; simpl; [lia|]. destruct (Qle_bool q a) eqn:E; simpl; intros H.
  - now apply Qle_bool_iff.
  - apply IH. lia.
Qed.
Lemma ss_unique l q i : nondecr l -> i < length l ->
  (searchsorted l q = i <-> (forall k, k < i -> (nth k l 0 < q)%Q) /\ (q <= nth i l 0)%Q).
Proof.
  intros S H. split.
  - intros <-. split; [apply ss_below|now apply ss_at].
  - intros [B A]. destruct (Nat.lt_trichotomy (searchsorted l q) i) as [G|[G|G]]; auto; exfalso.
    + pose proof (ss_at l q ltac:(lia)). specialize (B _ G). lra.
    + pose proof (ss_below l q i G). lra.
Qed.
Lemma ss_mono l q q' : (q <= q')%Q -> searchsorted l q <= searchsorted l q'.
Proof.
  intros H. induction l as [|a l IH]; simpl; [lia|].
  destruct (Qle_bool q a) eqn:E, (Qle_bool q' a) eqn:E'; try lia.
  apply Qle_bool_iff in E'. assert (Qle_bool q a = true); [|congruence]. apply Qle_bool_iff. lra.
Qed.

(** ** Parameter tables *)
(** A table of (value, cumulative probability): values increase, probabilities do not decrease and
    end at 1. *)
Definition table_ok (tab : list (Q * Q)) : Prop :=
  incr (map fst tab) /\ nondecr (map snd tab) /\ tab <> [] /\ (nth (length tab - 1) (map snd tab) 0 == 1)%Q.
(** Probability of the i-th value. *)
Definition tprob (tab : list (Q * Q)) (i : nat) : Q :=
  match i with 0 => nth 0 (map snd tab) 0%Q | S k => (nth (S k) (map snd tab) 0 - nth k (map snd tab) 0)%Q end.
Lemma at_ok {A} (l : list A) i d : i < length l -> at_ l i = SOk (nth i l d).
Proof. intros H. unfold at_. now rewrite (nth_error_nth' l d H). Qed.
Lemma at_err {A} (l : list A) i : length l <= i -> at_ l i = SErr EIndex.
Proof. intros H. unfold at_. rewrite (proj2 (nth_error_None l i) H). reflexivity. Qed.

Lemma table_index tab q : table_ok tab -> (q <= 1)%Q -> searchsorted (map snd tab) q < length tab.
Proof.
  intros (_ & S & NE & L1) H. destruct tab as [|r tab]; [congruence|].
  destruct (Nat.lt_ge_cases (searchsorted (map snd (r :: tab)) q) (length (r :: tab))) as [G|G]; auto. exfalso.
  pose proof (ss_below (map snd (r :: tab)) q (length (r :: tab) - 1)).
  rewrite L1 in H0. simpl length in *. lapply H0; [lra|lia].
Qed.
Lemma ppf_ok tab q : table_ok tab -> (q <= 1)%Q ->
  ppf q tab = SOk (nth (searchsorted (map snd tab) q) (map fst tab) 0%Q).
Proof.
  intros T H. pose proof (table_index tab q T H) as L. unfold ppf.
  rewrite (at_ok _ _ (0, 0)%Q L). simpl. f_equal. now rewrite (nth_map_lt fst tab _ 0%Q (0, 0)%Q L).
Qed.
Lemma c21_total_l tab q : table_ok tab -> (0 <= q)%Q -> (q <= 1)%Q -> exists v, ppf q tab = SOk v /\ In v (map fst tab).
Proof.
  intros T H1 H2. rewrite (ppf_ok tab q T H2). eexists; split; [reflexivity|]. apply nth_In. rewrite map_length. now apply table_index.
Qed.
Lemma c21_monotone_l tab q q' v v' : table_ok tab -> (q <= q')%Q -> (q' <= 1)%Q ->
  ppf q tab = SOk v -> ppf q' tab = SOk v' -> (v <= v')%Q.
Proof.
  intros T H1 H2. rewrite !ppf_ok by (auto; lra). intros [= <-] [= <-].
  pose proof (ss_mono (map snd tab) q q' H1) as M. pose proof (table_index tab q' T H2) as L.
  destruct T as (I & _). apply Nat.lt_eq_cases in M as [M|M].
  - apply Qlt_le_weak, I; auto. now rewrite map_length.
  - rewrite M. lra.
Qed.
Lemma incr_inj l i j : incr l -> i < length l -> j < length l -> nth i l 0%Q = nth j l 0%Q -> i = j.
Proof.
  intros I Hi Hj E. destruct (Nat.lt_trichotomy i j) as [G|[G|G]]; auto; exfalso.
  - pose proof (I i j G Hj) as X. rewrite E in X. lra.
  - pose proof (I j i G Hi) as X. rewrite E in X. lra.
Qed.
(** The i-th value is drawn exactly for the random numbers in an interval of length its probability. *)
Lemma c21_exact_l tab i q : table_ok tab -> i < length tab -> (0 < q)%Q -> (q <= 1)%Q ->
  (ppf q tab = SOk (nth i (map fst tab) 0%Q) <->
   (nth i (map snd tab) 0 - tprob tab i < q /\ q <= nth i (map snd tab) 0)%Q).
Proof.
  intros T Hi H0 H1. pose proof T as (I & S & NE & L1). rewrite ppf_ok by auto.
  assert (Hi' : i < length (map snd tab)) by now rewrite map_length.
  transitivity (searchsorted (map snd tab) q = i).
  - split; [|intros ->; reflexivity]. intros [= E]. revert E. apply incr_inj; auto; rewrite map_length; auto. now apply table_index.
  - rewrite (ss_unique _ q i S Hi'). unfold tprob. destruct i as [|k].
    + split; [intros [_ A]; split; [lra|auto]|intros [_ A]; split; [intros k Hk; lia|auto]].
    + split.
      * intros [B A]. split; [|auto]. specialize (B k ltac:(lia)). lra.
      * intros [B A]. split; [|auto]. intros k' Hk'. pose proof (S k' k ltac:(lia) ltac:(lia)). lra.
Qed.
Lemma c21_positive_l tab q v : table_ok tab -> (0 < q)%Q -> (q <= 1)%Q -> ppf q tab = SOk v ->
  exists i, i < length tab /\ v = nth i (map fst tab) 0%Q /\ (0 < tprob tab i)%Q.
Proof.
  intros T H0 H1 E. pose proof (table_index tab q T H1) as L. exists (searchsorted (map snd tab) q).
  split; [exact L|]. pose proof E as E'. rewrite ppf_ok in E by auto. injection E as <-. split; [reflexivity|].
  apply c21_exact_l in E'; auto. lra.
Qed.
Lemma traverse_ok {A B} (f : A -> sres B) (g : A -> B) l : (forall a, In a l -> f a = SOk (g a)) -> traverse f l = SOk (map g l).
Proof.
  induction l as [|a l IH]; intros H; simpl; auto. rewrite H by (left; auto). simpl. rewrite IH by (intros; apply H; right; auto). reflexivity.
Qed.
Lemma traverse_spec {A B} (f : A -> sres B) l r : traverse f l = SOk r <-> Forall2 (fun a b => f a = SOk b) l r.
Proof.
  revert r. induction l as [|a l IH]; intros r; simpl.
  - split; [intros [= <-]; constructor|]. intros H; inversion H; auto.
  - split.
    + destruct (f a) eqn:E; simpl; [|discriminate]. destruct (traverse f l) eqn:E2; simpl; [|discriminate].
      intros [= <-]. constructor; auto. now apply IH.
    + intros H; inversion H; subst. rewrite H2. simpl. rewrite (proj2 (IH _) H4). reflexivity.
Qed.
Lemma c21_samples_l tab ns us : table_ok tab ->
  ((ns <= 0)%Z -> paramSamples tab ns us = SErr EValue) /\
  ((0 < ns)%Z -> (Z.to_nat ns <= length us) -> Forall (fun u => 0 <= u /\ u < 1)%Q us ->
   exists vs, paramSamples tab ns us = SOk vs /\ length vs = Z.to_nat ns /\ Forall (fun v => In v (map fst tab)) vs /\
     forall i, i < length vs -> ppf (nth i us 0%Q) tab = SOk (nth i vs 0%Q)).
Proof.
  intros T. split; intros H; unfold paramSamples.
  - rewrite (proj2 (Z.leb_le ns 0) H). reflexivity.
  - intros L F. destruct (Z.leb_spec ns 0); [lia|]. set (n := Z.to_nat ns) in *.
    set (g := fun u => nth (searchsorted (map snd tab) u) (map fst tab) 0%Q).
    assert (A : forall u, In u us -> ppf u tab = SOk (g u)).
    { intros u Hu. rewrite Forall_forall in F. specialize (F u Hu). apply ppf_ok; auto. lra. }
    rewrite (traverse_ok _ g).
    2:{ intros u Hu. apply A. rewrite <- (firstn_skipn n us). apply in_or_app. auto. }
    eexists; split; [reflexivity|]. rewrite map_length, firstn_length_le by auto. split; [reflexivity|]. split.
    + rewrite Forall_map, Forall_forall. intros u Hu.
      assert (Iu : In u us) by (rewrite <- (firstn_skipn n us); apply in_or_app; auto).
      unfold g. apply nth_In. rewrite map_length. apply table_index; auto.
      rewrite Forall_forall in F. specialize (F u Iu). lra.
    + intros i Hi. assert (EN : nth i (firstn n us) 0%Q = nth i us 0%Q).
      { rewrite <- (firstn_skipn n us) at 2. rewrite app_nth1; auto. rewrite firstn_length_le; auto. }
      rewrite (nth_map_lt g _ i 0%Q 0%Q) by (rewrite firstn_length_le; auto). rewrite EN. apply A. apply nth_In. lia.
Qed.

(** ** Origins *)
Definition column (z : list (list Q)) (i : nat) : list Q := map (fun r => nth i r 0%Q) z.
(** The total of column i, and of everything. *)
Definition colTotal (z : list (list Q)) (i : nat) : Q := qsum (column z i).
Definition colTotals (nx : nat) (z : list (list Q)) : list Q := map (colTotal z) (seq 0 nx).
Definition total (nx : nat) (z : list (list Q)) : Q := qsum (colTotals nx z).
Record origin_ok (x y : list Q) (z : list (list Q)) : Prop := {
  o_nx : 2 <= length x; o_ny : 2 <= length y; o_z : rect (length y) (length x) z;
  o_x : incr x; o_y : distinct y; o_pos : nonneg2 z; o_tot : (0 < total (length x) z)%Q }.

Lemma fold_sum l : forall (f : list Q -> Q) a, (fold_left (fun a r => (a + f r)%Q) l a == a + qsum (map f l))%Q.
Proof. induction l as [|r l IH]; intros f a; simpl; [lra|]. rewrite IH. lra. Qed.
Lemma colSum_ok z i : (colSum z i == colTotal z i)%Q.
Proof. unfold colSum, colTotal, column. rewrite (fold_sum z (fun r => nth i r 0%Q)). lra. Qed.
Lemma qsum_Forall2 l l' : Forall2 Qeq l l' -> (qsum l == qsum l')%Q.
Proof. induction 1; simpl; [lra|]. lra. Qed.
Lemma Forall2_firstn {A B} (R : A -> B -> Prop) n l l' : Forall2 R l l' -> Forall2 R (firstn n l) (firstn n l').
Proof. intros H. revert n. induction H; intros [|n]; simpl; constructor; auto. Qed.
Lemma Forall2_map {A B} (f g : A -> B) (R : B -> B -> Prop) l : (forall a, R (f a) (g a)) -> Forall2 R (map f l) (map g l).
Proof. intros H. induction l; simpl; constructor; auto. Qed.
Lemma column_nonneg z i : nonneg2 z -> nonneg (column z i).
Proof. intros N. unfold column. apply nonneg_map. eapply Forall_impl; [|exact N]. intros r Hr. apply Hr. Qed.
Lemma colTotals_nonneg nx z : nonneg2 z -> nonneg (colTotals nx z).
Proof.
  intros N i. unfold colTotals. destruct (Nat.lt_ge_cases i nx) as [G|G].
  - rewrite (nth_map_lt _ _ i 0%Q 0) by (rewrite seq_length; auto). apply qsum_nonneg, column_nonneg; auto.
  - rewrite nth_overflow by (rewrite map_length, seq_length; auto). lra.
Qed.
Lemma colTotals_nth nx z i : i < nx -> nth i (colTotals nx z) 0%Q = colTotal z i.
Proof. intros H. unfold colTotals. rewrite (nth_map_lt _ _ i 0%Q 0) by (rewrite seq_length; auto). now rewrite seq_nth. Qed.
Lemma incr_ne x : 2 <= length x -> incr x -> (~ nth 0 x 0 == nth 1 x 0)%Q.
Proof. intros L I E. pose proof (I 0 1 ltac:(lia) ltac:(lia)). lra. Qed.

Lemma incr_distinct l : incr l -> distinct l.
Proof. intros I i j H1 H2 E. pose proof (I i j H1 H2). lra. Qed.
Lemma distinct_inj l i j : distinct l -> i < length l -> j < length l -> nth i l 0%Q = nth j l 0%Q -> i = j.
Proof.
  intros I Hi Hj E. destruct (Nat.lt_trichotomy i j) as [G|[G|G]]; auto; exfalso.
  - apply (I i j G Hj). rewrite E. reflexivity.
  - apply (I j i G Hi). rewrite E. reflexivity.
Qed.
Lemma distinct_ne x : 2 <= length x -> distinct x -> (~ nth 0 x 0 == nth 1 x 0)%Q.
Proof. intros L I. apply I; lia. Qed.

Lemma condPdf_sum z p i n : ~ (p == 0)%Q -> (qsum (firstn n (condPdf z p i)) == qsum (firstn n (column z i)) / p)%Q.
Proof.
  intros H. unfold condPdf, column. rewrite !firstn_map.
  assert (E : Qeq_bool p 0%Q = false) by now apply Qeq_bool_false. rewrite E.
  induction (firstn n z) as [|r l IH]; simpl; [field; auto|]. rewrite IH. field. auto.
Qed.
(** The tables used for sampling. *)
Lemma calc_ok x y z : origin_ok x y z ->
  exists cx cy, calculateCDF x y z = SOk (cx, cy) /\ length cx = length x /\ length cy = length x /\
    (forall i, i < length x -> (nth i cx 0 == qsum (firstn (S i) (colTotals (length x) z)) / total (length x) z)%Q) /\
    (forall i, i < length x -> length (nth i cy []) = length y /\
       ((colTotal z i == 0)%Q -> forall j, (nth j (nth i cy []) 0 == 0)%Q) /\
       ((0 < colTotal z i)%Q -> forall j, j < length y ->
          (nth j (nth i cy []) 0 == qsum (firstn (S j) (column z i)) / colTotal z i)%Q)).
Proof.
  intros [Nx Ny [Lz Rz] Ix Iy N P].
  unfold calculateCDF. set (px := map (colSum z) (seq 0 (length x))).
  assert (F : Forall2 Qeq px (colTotals (length x) z)).
  { unfold px, colTotals. apply Forall2_map. intros; apply colSum_ok. }
  assert (Lp : length px = length x) by (unfold px; now rewrite map_length, seq_length).
  assert (NE : px <> []) by (intros E; rewrite E in Lp; simpl in Lp; lia).
  destruct (cdf_spec x px Nx (incr_ne x Nx Ix) NE) as (cx & E & Lc & _ & S).
  assert (T : (qsum px == total (length x) z)%Q) by (apply qsum_Forall2; auto).
  rewrite E. simpl.
  set (f := fun i => cdf y (condPdf z (colSum z i) i)).
  assert (Ty : forall i, exists c, f i = SOk c /\ length c = length y /\
       ((colTotal z i == 0)%Q -> forall j, (nth j c 0 == 0)%Q) /\
       ((0 < colTotal z i)%Q -> forall j, j < length y -> (nth j c 0 == qsum (firstn (Datatypes.S j) (column z i)) / colTotal z i)%Q)).
  { intros i. unfold f. set (pi := condPdf z (colSum z i) i).
    assert (Lpi : length pi = length y) by (unfold pi, condPdf; rewrite map_length; auto).
    assert (NEi : pi <> []) by (intros E'; rewrite E' in Lpi; simpl in Lpi; lia).
    destruct (cdf_spec y pi Ny (distinct_ne y Ny Iy) NEi) as (c & Ec & Lc' & S0 & S1).
    exists c. split; auto. split; [congruence|]. split.
    - intros Z j. assert (Z' : (colSum z i == 0)%Q) by (rewrite colSum_ok; auto).
      assert (A : pi = map (fun _ => 0%Q) z).
      { unfold pi, condPdf. apply Qeq_bool_iff in Z'. rewrite Z'. reflexivity. }
      assert (Zs : forall n, (qsum (firstn n pi) == 0)%Q).
      { intros n. rewrite A, firstn_map. induction (firstn n z); simpl; lra. }
      destruct (Nat.lt_ge_cases j (length y)) as [G|G]; [|rewrite nth_overflow by lia; lra].
      rewrite S0; [rewrite Zs; lra| |lia]. rewrite <- (Zs (length pi)). rewrite firstn_all. lra.
    - intros Pz j Hj. assert (Pn : ~ (colSum z i == 0)%Q) by (intros EQ; rewrite colSum_ok in EQ; lra).
      assert (Q1 : (qsum pi == 1)%Q).
      { pose proof (condPdf_sum z (colSum z i) i (length z) Pn) as K. fold pi in K.
        rewrite (firstn_all2 pi) in K by lia.
        rewrite (firstn_all2 (column z i)) in K by (unfold column; rewrite map_length; lia).
        rewrite K, colSum_ok. unfold colTotal in *. field. lra. }
      rewrite S1; [|lra|lia]. unfold pi at 1. rewrite condPdf_sum by auto. rewrite Q1, colSum_ok. field. lra. }
  assert (G : exists cy, traverse f (seq 0 (length x)) = SOk cy).
  { generalize (seq 0 (length x)). induction l as [|i l [cy IH]]; [exists []; auto|].
    destruct (Ty i) as (c & Ec & _). exists (c :: cy). simpl. rewrite Ec. simpl. now rewrite IH. }
  destruct G as [cy G]. rewrite G. simpl. exists cx, cy. split; auto.
  apply traverse_spec in G.
  assert (Lcy : length cy = length x) by (apply Forall2_len in G; rewrite seq_length in G; auto).
  split; [congruence|]. split; [auto|]. split.
  - intros i Hi. rewrite S by (try lia; rewrite T; lra). rewrite T.
    rewrite (qsum_Forall2 _ _ (Forall2_firstn _ (Datatypes.S i) _ _ F)). reflexivity.
  - intros i Hi. assert (X : f i = SOk (nth i cy [])).
    { assert (X : forall l l' k d, Forall2 (fun a b => f a = SOk b) l l' -> k < length l -> f (nth k l 0) = SOk (nth k l' d)).
      { intros l l' k d F2. revert k. induction F2; intros [|k] Hk; simpl in *; try lia; auto. apply IHF2. lia. }
      specialize (X _ _ i [] G). rewrite seq_length in X. specialize (X Hi). rewrite seq_nth in X; auto. }
    destruct (Ty i) as (c & Ec & A & B & C). rewrite X in Ec. injection Ec as ->. auto.
Qed.

(** The point (x_i, y_j) is drawn exactly for q1 in an interval of length (column total)/(total) and
    q2 in one of length z_ij/(column total). *)
Lemma cx_nondecr x y z cx : origin_ok x y z -> length cx = length x ->
  (forall i, i < length x -> (nth i cx 0 == qsum (firstn (S i) (colTotals (length x) z)) / total (length x) z)%Q) ->
  nondecr cx.
Proof.
  intros O L H i j Hij Hj. rewrite L in Hj. rewrite !H by lia. apply div_le; [apply O|].
  apply qsum_firstn_mono; [apply colTotals_nonneg; apply O|lia].
Qed.
Lemma pre_last l n : (qsum (firstn (n + 1) l) == qsum (firstn n l) + nth n l 0)%Q.
Proof. rewrite Nat.add_1_r. apply qsum_firstn_S. Qed.
Lemma div_plus a b t : ((a + b) / t == a / t + b / t)%Q.
Proof. unfold Qdiv. ring. Qed.

(** Membership of the interval ending at the cumulative fraction of entry [i]. *)
Definition in_slot (l : list Q) (i : nat) (q : Q) : Prop :=
  (qsum (firstn i l) / qsum l < q /\ q <= (qsum (firstn i l) + nth i l 0) / qsum l)%Q.
Lemma ss_slot l c q i : nonneg l -> (0 < qsum l)%Q -> length c = length l -> i < length l -> (0 < q)%Q ->
  (forall k, k < length l -> (nth k c 0 == qsum (firstn (S k) l) / qsum l)%Q) ->
  (searchsorted c q = i <-> in_slot l i q).
Proof.
  intros N P L Hi Q0 C.
  assert (ND : nondecr c).
  { intros a b H1 H2. rewrite L in H2. rewrite !C by lia. apply div_le; auto. apply qsum_firstn_mono; auto; lia. }
  rewrite (ss_unique c q i ND) by lia. unfold in_slot. rewrite (C i Hi), qsum_firstn_S. split.
  - intros [B A]. split; auto. destruct i as [|k].
    + simpl. unfold Qdiv. lra.
    + specialize (B k ltac:(lia)). rewrite C in B by lia. exact B.
  - intros [B A]. split; auto. intros k Hk. rewrite C by lia. eapply Qle_lt_trans; [|exact B].
    apply div_le; auto. apply qsum_firstn_mono; auto; lia.
Qed.
Lemma ss_in l c q : nonneg l -> (0 < qsum l)%Q -> length c = length l -> (0 < q)%Q -> (q <= 1)%Q ->
  (forall k, k < length l -> (nth k c 0 == qsum (firstn (S k) l) / qsum l)%Q) ->
  searchsorted c q < length l /\ (0 < nth (searchsorted c q) l 0)%Q.
Proof.
  intros N P L Q0 Q1 C.
  assert (H : searchsorted c q < length l).
  { destruct (Nat.lt_ge_cases (searchsorted c q) (length l)) as [G|G]; auto. exfalso.
    destruct l as [|a l]; [simpl in P; lra|].
    pose proof (ss_below c q (length (a :: l) - 1) ltac:(simpl in *; lia)) as B.
    rewrite C in B by (simpl; lia). rewrite firstn_all2 in B by (simpl; lia). rewrite div_self in B by auto. lra. }
  split; auto. pose proof (proj1 (ss_slot l c q _ N P L H Q0 C) eq_refl) as [B A].
  rewrite div_plus in A. destruct (Qlt_le_dec 0 (nth (searchsorted c q) l 0%Q)) as [G|G]; auto. exfalso.
  assert (nth (searchsorted c q) l 0 / qsum l <= 0 / qsum l)%Q by (apply div_le; auto).
  assert (0 / qsum l == 0)%Q by (unfold Qdiv; ring). lra.
Qed.

Lemma column_len z i : length (column z i) = length z.
Proof. unfold column. apply map_length. Qed.
Lemma column_nth z i j : (nth j (column z i) 0 == nth i (nth j z []) 0)%Q.
Proof.
  unfold column. destruct (Nat.lt_ge_cases j (length z)) as [G|G].
  - rewrite (nth_map_lt _ z j 0%Q []) by auto. reflexivity.
  - rewrite nth_overflow by now rewrite map_length. rewrite (nth_overflow z) by auto. destruct i; reflexivity.
Qed.
Lemma origin_eval x y z q1 q2 : origin_ok x y z -> (0 < q1)%Q -> (q1 <= 1)%Q -> (0 < q2)%Q -> (q2 <= 1)%Q ->
  exists i j, i < length x /\ j < length y /\ originPpf x y z q1 q2 = SOk (nth i x 0%Q, nth j y 0%Q) /\
    (0 < colTotal z i)%Q /\ (0 < nth i (nth j z []) 0)%Q /\
    (forall i', i' < length x -> (i = i' <-> in_slot (colTotals (length x) z) i' q1)) /\
    (forall j', j' < length y -> (j = j' <-> in_slot (column z i) j' q2)).
Proof.
  intros O A1 A2 B1 B2. destruct (calc_ok x y z O) as (cx & cy & E & Lx & Ly & Hx & Hy).
  destruct O as [Nx Ny [Lz Rz] Ix Iy N P].
  assert (Lt : length (colTotals (length x) z) = length x) by (unfold colTotals; now rewrite map_length, seq_length).
  assert (Nt : nonneg (colTotals (length x) z)) by now apply colTotals_nonneg.
  destruct (ss_in _ cx q1 Nt P ltac:(lia) A1 A2) as [I1 I2]; [intros; apply Hx; lia|].
  rewrite Lt in I1. set (i := searchsorted cx q1) in *. rewrite colTotals_nth in I2 by auto.
  destruct (Hy i I1) as (Lr & _ & Hr). specialize (Hr I2).
  assert (Lc : length (column z i) = length y) by (rewrite column_len; auto).
  assert (Nc : nonneg (column z i)) by now apply column_nonneg.
  destruct (ss_in _ (nth i cy []) q2 Nc I2 ltac:(lia) B1 B2) as [J1 J2]; [intros; apply Hr; lia|].
  rewrite Lc in J1. exists i, (searchsorted (nth i cy []) q2). split; auto. split; auto. split.
  { unfold originPpf. rewrite E. cbn [sbind fst snd]. fold i. rewrite (at_ok cy i []) by lia. cbn [sbind].
    rewrite (at_ok x i 0%Q) by auto. cbn [sbind]. rewrite (at_ok y _ 0%Q) by auto. reflexivity. }
  split; auto. split. { rewrite <- column_nth. exact J2. }
  split.
  - intros i' Hi'. unfold i. rewrite (ss_slot (colTotals (length x) z) cx q1 i'); auto; try lia; try reflexivity.
    intros; apply Hx; lia.
  - intros j' Hj'. rewrite (ss_slot (column z i) _ q2 j'); auto; try lia; try reflexivity.
    intros; apply Hr; lia.
Qed.
Lemma c19_possible_l x y z q1 q2 : origin_ok x y z -> (0 < q1)%Q -> (q1 <= 1)%Q -> (0 < q2)%Q -> (q2 <= 1)%Q ->
  exists i j, i < length x /\ j < length y /\ originPpf x y z q1 q2 = SOk (nth i x 0%Q, nth j y 0%Q) /\
    (0 < nth i (nth j z []) 0)%Q.
Proof.
  intros O A1 A2 B1 B2. destruct (origin_eval x y z q1 q2 O A1 A2 B1 B2) as (i & j & Hi & Hj & E & _ & Hz & _).
  exists i, j. auto.
Qed.
Lemma c19_exact_l x y z q1 q2 i j : origin_ok x y z -> (0 < q1)%Q -> (q1 <= 1)%Q -> (0 < q2)%Q -> (q2 <= 1)%Q ->
  i < length x -> j < length y ->
  (originPpf x y z q1 q2 = SOk (nth i x 0%Q, nth j y 0%Q) <->
   in_slot (colTotals (length x) z) i q1 /\ in_slot (column z i) j q2).
Proof.
  intros O A1 A2 B1 B2 Hi Hj.
  destruct (origin_eval x y z q1 q2 O A1 A2 B1 B2) as (i0 & j0 & Hi0 & Hj0 & E & Pc & Hz & S1 & S2).
  rewrite E. split.
  - intros [= E1 E2]. apply incr_inj in E1; [|apply O|auto|auto]. apply distinct_inj in E2; [|apply O|auto|auto].
    subst i0 j0. split; [now apply S1|now apply S2].
  - intros [H1 H2]. apply S1 in H1; auto. subst i0. apply S2 in H2; auto. now subst j0.
Qed.
(** The two intervals together have size z_ij / total. *)
Lemma c19_size_l z nx i j : i < nx -> nonneg2 z -> (0 < total nx z)%Q -> (0 < colTotal z i)%Q ->
  (((qsum (firstn i (colTotals nx z)) + nth i (colTotals nx z) 0) / total nx z - qsum (firstn i (colTotals nx z)) / total nx z) *
   ((qsum (firstn j (column z i)) + nth j (column z i) 0) / qsum (column z i) - qsum (firstn j (column z i)) / qsum (column z i))
   == nth i (nth j z []) 0 / total nx z)%Q.
Proof.
  intros Hi N P C. rewrite colTotals_nth by auto. rewrite column_nth. unfold colTotal in *. field. split; lra.
Qed.
Lemma c19_samples_l x y z ns us : origin_ok x y z ->
  ((ns <= 0)%Z -> originSamples x y z ns us = SErr EValue) /\
  ((0 < ns)%Z -> (Z.to_nat ns <= length us) -> Forall (fun u => 0 < fst u /\ fst u <= 1 /\ 0 < snd u /\ snd u <= 1)%Q us ->
   exists vs, originSamples x y z ns us = SOk vs /\ length vs = Z.to_nat ns /\
     Forall (fun v => exists i j, i < length x /\ j < length y /\ v = (nth i x 0%Q, nth j y 0%Q) /\ (0 < nth i (nth j z []) 0)%Q) vs).
Proof.
  intros O. split; intros H; unfold originSamples.
  - rewrite (proj2 (Z.leb_le ns 0) H). reflexivity.
  - intros L F. destruct (Z.leb_spec ns 0); [lia|].
    assert (F' : Forall (fun u => 0 < fst u /\ fst u <= 1 /\ 0 < snd u /\ snd u <= 1)%Q (firstn (Z.to_nat ns) us))
      by now apply Forall_firstn.
    assert (G : forall l, Forall (fun u => 0 < fst u /\ fst u <= 1 /\ 0 < snd u /\ snd u <= 1)%Q l ->
      exists vs, traverse (fun u => originPpf x y z (fst u) (snd u)) l = SOk vs /\ length vs = length l /\
        Forall (fun v => exists i j, i < length x /\ j < length y /\ v = (nth i x 0%Q, nth j y 0%Q) /\ (0 < nth i (nth j z []) 0)%Q) vs).
    { clear - O. intros l F'.
    induction F' as [|[u1 u2] l Hu _ (vs & E & Lv & Fv)].
    + exists []. simpl. auto.
    + simpl in Hu. destruct Hu as (U1 & U2 & U3 & U4).
      destruct (c19_possible_l x y z u1 u2 O U1 U2 U3 U4) as (i & j & Hi & Hj & Ej & Hz).
      exists ((nth i x 0%Q, nth j y 0%Q) :: vs). cbn [traverse fst snd]. rewrite Ej. cbn [sbind]. rewrite E. cbn [sbind length].
      split; auto. split; auto.
      constructor; auto. exists i, j. auto. }
    destruct (G _ F') as (vs & E & Lv & Fv). exists vs. rewrite (firstn_length_le us L) in Lv. auto.
Qed.
(** A random number of exactly zero picks the first column even if it is impossible, and then fails. *)
Lemma c19_zero_l x y z q2 : origin_ok x y z -> (colTotal z 0 == 0)%Q -> (0 < q2)%Q -> originPpf x y z 0 q2 = SErr EIndex.
Proof.
  intros O Z Q2. destruct (calc_ok x y z O) as (cx & cy & E & Lx & Ly & Hx & Hy).
  pose proof O as [Nx Ny [Lz Rz] Ix Iy N P]. unfold originPpf. rewrite E. cbn [sbind fst snd].
  assert (S0 : searchsorted cx 0 = 0).
  { rewrite (ss_unique cx 0 0); [|eapply cx_nondecr; eauto|lia]. split; [intros; lia|].
    rewrite Hx by lia. apply div_nonneg; auto. apply qsum_nonneg, nonneg_firstn, colTotals_nonneg; auto. }
  rewrite S0. rewrite (at_ok cy 0 []) by lia. cbn [sbind]. rewrite (at_ok x 0 0%Q) by lia. cbn [sbind].
  destruct (Hy 0 ltac:(lia)) as (Lr & Hz & _). specialize (Hz Z).
  assert (S1 : searchsorted (nth 0 cy []) q2 = length y).
  { destruct (Nat.lt_ge_cases (searchsorted (nth 0 cy []) q2) (length y)) as [G|G].
    - exfalso. pose proof (ss_at (nth 0 cy []) q2 ltac:(lia)) as B. rewrite Hz in B. lra.
    - pose proof (ss_le (nth 0 cy []) q2). lia. }
  rewrite S1, at_err by lia. reflexivity.
Qed.

(** ** The distribution function of origins *)
(** Weight of the grid values strictly below [v]. *)
Fixpoint massBelow (g w : list Q) (v : Q) : Q :=
  match g, w with
  | a :: g', b :: w' => ((if Qlt_le_dec a v then b else 0) + massBelow g' w' v)%Q
  | _, _ => 0%Q
  end.
Lemma incr_tail a l : incr (a :: l) -> incr l.
Proof. intros I i j H1 H2. apply (I (S i) (S j)); simpl; lia. Qed.
Lemma massBelow_none g : forall w v, (forall i, i < length g -> (v <= nth i g 0)%Q) -> (massBelow g w v == 0)%Q.
Proof.
  induction g as [|a g IH]; intros [|b w] v H; simpl; try lra.
  rewrite IH by (intros i Hi; apply (H (S i)); simpl; lia).
  pose proof (H 0 ltac:(simpl; lia)) as H0. simpl in H0. destruct (Qlt_le_dec a v); lra.
Qed.
Lemma massBelow_ss g : forall w v, incr g -> length g = length w -> (massBelow g w v == qsum (firstn (searchsorted g v) w))%Q.
Proof.
  induction g as [|a g IH]; intros [|b w] v I L; simpl in L; try lia; [reflexivity|].
  cbn [searchsorted massBelow]. destruct (Qle_bool v a) eqn:E.
  - apply Qle_bool_iff in E. destruct (Qlt_le_dec a v); [lra|]. cbn [firstn qsum].
    rewrite massBelow_none; [lra|]. intros i Hi. pose proof (I 0 (S i) ltac:(lia) ltac:(simpl; lia)) as X. simpl in X. lra.
  - assert (~ v <= a)%Q by (rewrite <- Qle_bool_iff; congruence). destruct (Qlt_le_dec a v); [|lra].
    cbn [firstn qsum]. rewrite IH; [lra|eapply incr_tail; eauto|lia].
Qed.
Lemma ss_pos g v : g <> [] -> (nth 0 g 0 < v)%Q -> 0 < searchsorted g v.
Proof.
  destruct g as [|a g]; [congruence|]. simpl. intros _ H. destruct (Qle_bool v a) eqn:E; [|lia].
  apply Qle_bool_iff in E. lra.
Qed.
Lemma ss_zero g v : g <> [] -> (v <= nth 0 g 0)%Q -> searchsorted g v = 0.
Proof. destruct g as [|a g]; [congruence|]. simpl. intros _ H. apply Qle_bool_iff in H. now rewrite H. Qed.
Lemma at_py_pred {A} (l : list A) n d : 0 < n -> n <= length l -> at_py l (Z.of_nat n - 1) = SOk (nth (n - 1) l d).
Proof.
  intros H1 H2. unfold at_py. destruct (Z.ltb_spec (Z.of_nat n - 1) 0); [lia|].
  replace (Z.to_nat (Z.of_nat n - 1)) with (n - 1) by lia. apply at_ok. lia.
Qed.
Lemma at_py_last {A} (l : list A) d : l <> [] -> at_py l (Z.of_nat 0 - 1) = SOk (nth (length l - 1) l d).
Proof.
  intros H. assert (0 < length l) by (destruct l; simpl; [congruence|lia]). unfold at_py.
  destruct (Z.ltb_spec (Z.of_nat 0 - 1) 0); [|lia]. destruct (Z.ltb_spec (Z.of_nat (length l) + (Z.of_nat 0 - 1)) 0); [lia|].
  replace (Z.to_nat (Z.of_nat (length l) + (Z.of_nat 0 - 1))) with (length l - 1) by lia. apply at_ok. lia.
Qed.
Lemma len_ne {A} (l : list A) n : S n <= length l -> l <> [].
Proof. destruct l; simpl; [lia|congruence]. Qed.

(** Above the first grid point the first component is the mass strictly below, and the second the
    conditional mass strictly below within the column of the largest x below the point. *)
Lemma c20_above_l x y z xx yy : origin_ok x y z -> incr y -> (nth 0 x 0 < xx)%Q -> (nth 0 y 0 < yy)%Q ->
  exists a b i, originCdf x y z xx yy = SOk (a, b) /\
    (a == massBelow x (colTotals (length x) z) xx / total (length x) z)%Q /\
    i < length x /\ (nth i x 0 < xx)%Q /\ (forall k, k < length x -> i < k -> (xx <= nth k x 0)%Q) /\
    ((0 < colTotal z i)%Q -> (b == massBelow y (column z i) yy / colTotal z i)%Q).
Proof.
  intros O Iy Hxx Hyy. destruct (calc_ok x y z O) as (cx & cy & E & Lx & Ly & Hx & Hy).
  pose proof O as [Nx Ny [Lz Rz] Ix _ N P].
  pose proof (ss_pos x xx (len_ne x 1 Nx) Hxx) as P1. pose proof (ss_le x xx) as Q1.
  pose proof (ss_pos y yy (len_ne y 1 Ny) Hyy) as P2. pose proof (ss_le y yy) as Q2.
  set (i := searchsorted x xx - 1).
  destruct (Hy i ltac:(lia)) as (Lr & _ & Hr).
  unfold originCdf. rewrite E. cbn [sbind fst snd].
  rewrite (at_py_pred cx _ 0%Q) by lia. cbn [sbind]. rewrite (at_py_pred cy _ []) by lia. cbn [sbind].
  fold i. rewrite (at_py_pred (nth i cy []) _ 0%Q) by lia. cbn [sbind].
  exists (nth i cx 0%Q), (nth (searchsorted y yy - 1) (nth i cy []) 0%Q), i. split; [reflexivity|]. split; [|split; [lia|split; [|split]]].
  - rewrite massBelow_ss; [|exact Ix|unfold colTotals; now rewrite map_length, seq_length].
    rewrite Hx by lia. unfold i. replace (S (searchsorted x xx - 1)) with (searchsorted x xx) by lia. reflexivity.
  - apply ss_below. unfold i. lia.
  - intros k Hk Hik. destruct (Nat.lt_ge_cases (searchsorted x xx) (length x)) as [G|G]; [|lia].
    apply Qle_trans with (nth (searchsorted x xx) x 0)%Q; [now apply ss_at|].
    destruct (Nat.eq_dec (searchsorted x xx) k) as [->|D]; [lra|]. apply Qlt_le_weak, Ix; lia.
  - intros Pc. rewrite massBelow_ss; [|exact Iy|rewrite column_len; lia].
    rewrite (Hr Pc) by lia. replace (S (searchsorted y yy - 1)) with (searchsorted y yy) by lia. reflexivity.
Qed.
Lemma c20_monotone_l x y z xx xx' yy yy' a b a' b' : origin_ok x y z -> incr y -> (nth 0 x 0 < xx)%Q -> (nth 0 y 0 < yy)%Q ->
  (xx <= xx')%Q -> (nth 0 y 0 < yy')%Q -> originCdf x y z xx yy = SOk (a, b) -> originCdf x y z xx' yy' = SOk (a', b') -> (a <= a')%Q.
Proof.
  intros O Iy H1 H2 H3 H4 E E'. pose proof O as [Nx Ny [Lz Rz] Ix _ N P].
  destruct (c20_above_l x y z xx yy O Iy H1 H2) as (a0 & b0 & i0 & E0 & A0 & _).
  destruct (c20_above_l x y z xx' yy' O Iy ltac:(lra) H4) as (a1 & b1 & i1 & E1 & A1 & _).
  rewrite E0 in E. injection E as <- <-. rewrite E1 in E'. injection E' as <- <-.
  rewrite A0, A1. apply div_le; auto.
  rewrite !massBelow_ss; auto; try (unfold colTotals; now rewrite map_length, seq_length).
  apply qsum_firstn_mono; [now apply colTotals_nonneg|now apply ss_mono].
Qed.
Lemma c20_refuted_l x y z xx yy : origin_ok x y z -> (xx <= nth 0 x 0)%Q -> (nth 0 y 0 < yy)%Q ->
  (massBelow x (colTotals (length x) z) xx == 0)%Q /\
  exists a b, originCdf x y z xx yy = SOk (a, b) /\ (a == 1)%Q.
Proof.
  intros O Hxx Hyy. destruct (calc_ok x y z O) as (cx & cy & E & Lx & Ly & Hx & Hy).
  pose proof O as [Nx Ny [Lz Rz] Ix Iy N P].
  pose proof (ss_zero x xx (len_ne x 1 Nx) Hxx) as S0.
  split. { rewrite massBelow_ss; [|exact Ix|unfold colTotals; now rewrite map_length, seq_length]. rewrite S0. reflexivity. }
  pose proof (ss_pos y yy (len_ne y 1 Ny) Hyy) as P2. pose proof (ss_le y yy) as Q2.
  unfold originCdf. rewrite E, S0. cbn [sbind fst snd].
  rewrite (at_py_last cx 0%Q) by (apply (len_ne cx 0); lia). cbn [sbind].
  rewrite (at_py_last cy []) by (apply (len_ne cy 0); lia). cbn [sbind].
  destruct (Hy (length cy - 1) ltac:(lia)) as (Lr & _).
  rewrite (at_py_pred (nth (length cy - 1) cy []) _ 0%Q) by lia. cbn [sbind].
  eexists _, _. split; [reflexivity|]. rewrite Hx by lia. rewrite firstn_all2.
  - now apply div_self.
  - unfold colTotals. rewrite map_length, seq_length. lia.
Qed.

(** ** Genesis pressure *)
Lemma genesis_pressure_l tab env u : table_ok tab -> nonneg (map snd tab) -> (nth 0 (map fst tab) 0 < env)%Q -> (0 <= u)%Q -> (u < 1)%Q ->
  exists p, genesisPressure tab env u = SOk p /\ In p (map fst tab) /\ (p < env)%Q.
Proof.
  intros T NN H U0 U1. pose proof T as (I & S & NE & L1).
  assert (NE' : map fst tab <> []) by (destruct tab; simpl; congruence).
  pose proof (ss_pos _ env NE' H) as P1. pose proof (ss_le (map fst tab) env) as Q1. rewrite map_length in Q1.
  set (n := searchsorted (map fst tab) env) in *.
  unfold genesisPressure. fold n. rewrite (at_py_pred tab n (0, 0)%Q) by lia. cbn [sbind].
  set (up := snd (nth (n - 1) tab (0, 0)%Q)).
  assert (Eup : up = nth (n - 1) (map snd tab) 0%Q) by (unfold up; rewrite (nth_map_lt snd tab _ 0%Q (0, 0)%Q); auto; lia).
  assert (Up0 : (0 <= up)%Q) by (rewrite Eup; apply NN).
  assert (Up1 : (up <= 1)%Q).
  { rewrite Eup, <- L1. apply S; [lia|]. rewrite map_length. lia. }
  assert (Uu : (up * u <= up)%Q) by nra.
  rewrite ppf_ok by (auto; nra). eexists; split; [reflexivity|].
  pose proof (table_index tab (up * u)%Q T ltac:(nra)) as Lt.
  split. { apply nth_In. now rewrite map_length. }
  assert (G : searchsorted (map snd tab) (up * u) <= n - 1).
  { destruct (Nat.le_gt_cases (searchsorted (map snd tab) (up * u)) (n - 1)) as [G|G]; auto. exfalso.
    pose proof (ss_below _ _ _ G) as B. rewrite <- Eup in B. lra. }
  apply Qle_lt_trans with (nth (n - 1) (map fst tab) 0%Q).
  - apply Nat.lt_eq_cases in G as [G| ->]; [|lra]. apply Qlt_le_weak, I; auto. rewrite map_length. lia.
  - apply ss_below. fold n. lia.
Qed.
(** When no tabulated pressure is below the environmental pressure, the whole table is sampled. *)
Lemma genesis_pressure_refuted_l tab env u : table_ok tab -> (env <= nth 0 (map fst tab) 0)%Q -> (0 <= u)%Q -> (u < 1)%Q ->
  exists p, genesisPressure tab env u = SOk p /\ (env <= p)%Q.
Proof.
  intros T H U0 U1. pose proof T as (I & S & NE & L1).
  assert (NE' : map fst tab <> []) by (destruct tab; simpl; congruence).
  unfold genesisPressure. rewrite (ss_zero _ env NE' H). rewrite (at_py_last tab (0, 0)%Q NE). cbn [sbind].
  assert (0 < length tab) by (destruct tab; simpl; [congruence|lia]).
  assert (Eup : (snd (nth (length tab - 1) tab (0, 0)%Q) == 1)%Q).
  { rewrite <- L1. rewrite (nth_map_lt snd tab _ 0%Q (0, 0)%Q); [reflexivity|lia]. }
  set (up := snd (nth (length tab - 1) tab (0, 0)%Q)) in *.
  assert (Hu : (up * u <= 1)%Q) by (rewrite Eup; lra).
  rewrite ppf_ok by auto. eexists; split; [reflexivity|].
  pose proof (table_index tab _ T Hu) as Lt. eapply Qle_trans; [exact H|].
  destruct (searchsorted (map snd tab) (up * u)) as [|k]; [lra|]. apply Qlt_le_weak, I; [lia|now rewrite map_length].
Qed.

(** ** Kernel density tables *)
Lemma arange_len a b s : length (arange a b s) = Z.to_nat (Qceiling ((b - a) / s)).
Proof. unfold arange. now rewrite map_length, seq_length. Qed.
Lemma arange_nth a b s i : i < length (arange a b s) -> nth i (arange a b s) 0%Q = (a + inject_Z (Z.of_nat i) * s)%Q.
Proof. intros H. rewrite arange_len in H. unfold arange. rewrite (nth_map_lt _ _ i 0%Q 0) by now rewrite seq_length. now rewrite seq_nth. Qed.
Lemma inj_lt i j : i < j -> (inject_Z (Z.of_nat i) < inject_Z (Z.of_nat j))%Q.
Proof. intros H. rewrite <- Zlt_Qlt. lia. Qed.
Lemma arange_incr a b s : (0 < s)%Q -> incr (arange a b s).
Proof.
  intros P i j H1 H2. rewrite !arange_nth by lia.
  assert (inject_Z (Z.of_nat i) * s < inject_Z (Z.of_nat j) * s)%Q by (apply Qmult_lt_compat_r; auto; now apply inj_lt). lra.
Qed.
Lemma arange_lo a b s i : (0 < s)%Q -> i < length (arange a b s) -> (a <= nth i (arange a b s) 0)%Q.
Proof.
  intros P H. rewrite arange_nth by auto.
  assert (0 <= inject_Z (Z.of_nat i))%Q by (change 0%Q with (inject_Z 0); rewrite <- Zle_Qle; lia).
  assert (0 <= inject_Z (Z.of_nat i) * s)%Q by (apply Qmult_le_0_compat; lra). lra.
Qed.
Lemma arange_hi a b s i : (0 < s)%Q -> i < length (arange a b s) -> (nth i (arange a b s) 0 < b)%Q.
Proof.
  intros P H. rewrite arange_nth by auto. rewrite arange_len in H.
  assert (G : (inject_Z (Z.of_nat i) < (b - a) / s)%Q).
  { apply Qnot_le_lt. intros C.
    assert (Qceiling ((b - a) / s) <= Z.of_nat i)%Z; [|lia].
    rewrite <- (Qceiling_Z (Z.of_nat i)). now apply Qceiling_resp_le. }
  assert (inject_Z (Z.of_nat i) * s < (b - a) / s * s)%Q by (apply Qmult_lt_compat_r; auto).
  assert ((b - a) / s * s == b - a)%Q by (field; lra). lra.
Qed.

Lemma combine_split_table (g p c : list Q) : length p = length g -> length c = length g ->
  map fst (map (fun r : Q * Q * Q => (fst (fst r), snd r)) (combine (combine g p) c)) = g /\
  map snd (map (fun r : Q * Q * Q => (fst (fst r), snd r)) (combine (combine g p) c)) = c.
Proof.
  revert p c. induction g as [|a g IH]; intros [|b p] [|d c] L1 L2; simpl in *; try lia; auto.
  destruct (IH p c ltac:(lia) ltac:(lia)) as [E1 E2]. now rewrite E1, E2.
Qed.
(** The (x, cumulative) columns of the rows returned. *)
Definition xcdf (rows : list (Q * Q * Q)) : list (Q * Q) := map (fun r => (fst (fst r), snd r)) rows.
Lemma qsum_pos l i : nonneg l -> i < length l -> (0 < nth i l 0)%Q -> (0 < qsum l)%Q.
Proof.
  revert i. induction l as [|a l IH]; intros i N H P; simpl in H; [lia|].
  apply nonneg_cons in N as [N1 N2]. destruct i as [|i]; simpl in P |- *.
  - pose proof (qsum_nonneg l N2). lra.
  - specialize (IH i N2 ltac:(lia) P). lra.
Qed.
(** Rows built on an increasing grid with a non-negative density positive somewhere form a table. *)
Lemma table_from g pdf : 2 <= length g -> incr g -> length pdf = length g -> nonneg pdf ->
  (exists i, i < length g /\ (0 < nth i pdf 0)%Q) ->
  exists cy, cdf g pdf = SOk cy /\ length cy = length g /\ map fst (xcdf (combine (combine g pdf) cy)) = g /\
    table_ok (xcdf (combine (combine g pdf) cy)) /\ nonneg (map snd (xcdf (combine (combine g pdf) cy))) .
Proof.
  intros L I Lp N (i & Hi & Pi).
  assert (P : (0 < qsum pdf)%Q) by (eapply qsum_pos; eauto; lia).
  destruct (c18_cdf_l g pdf L (incr_ne g L I) N P) as (cy & E & Lc & ND & B & L1).
  exists cy. split; auto. rewrite Lp in Lc. split; auto. destruct (combine_split_table g pdf cy Lp Lc) as [E1 E2].
  split; [exact E1|]. unfold table_ok, xcdf. rewrite E1, E2. split; [|].
  - split; auto. split; auto.
    assert (LL : length (map (fun r : Q * Q * Q => (fst (fst r), snd r)) (combine (combine g pdf) cy)) = length g).
    { rewrite <- (map_length fst), E1. reflexivity. }
    split; [intros E0; rewrite E0 in LL; simpl in LL; lia|]. rewrite LL, <- Lp. exact L1.
  - intros k. destruct (Nat.lt_ge_cases k (length cy)) as [G|G]; [apply B; lia|]. rewrite nth_overflow by auto. lra.
Qed.

Definition kde_range (k : kind) (params : list Q) : option (Q * Q) :=
  match k, params with
  | Plain, a :: r => Some (qmin a r, qmax a r)
  | Angular, _ => Some (0, 360)%Q
  | Periodic p, _ => Some (1%Q, inject_Z (p + 1))
  | _, _ => None
  end.
(** For a period the step must divide it. *)
Definition step_fits (k : kind) (step : Q) : Prop :=
  match k with Periodic p => exists n : Z, (inject_Z p / step == inject_Z n)%Q | _ => True end.

Lemma skipn_len {A} (a b : list A) : skipn (length a) (a ++ b) = b.
Proof. rewrite skipn_app, skipn_all, Nat.sub_diag. reflexivity. Qed.
Lemma slice_mid {A} (a b c : list A) n : length a = n -> length b = n -> slice n (2 * n) (a ++ b ++ c) = b.
Proof.
  intros <- L. unfold slice. rewrite skipn_len. replace (2 * length a - length a) with (length b) by lia.
  rewrite firstn_app, firstn_all, Nat.sub_diag. simpl. apply app_nil_r.
Qed.
Lemma arange_period p step n : (0 < step)%Q -> (inject_Z p / step == inject_Z n)%Q ->
  length (arange 1 (inject_Z (p + 1)) step) = Z.to_nat n.
Proof.
  intros P E. rewrite arange_len. f_equal. rewrite <- (Qceiling_Z n). apply Qceiling_comp. rewrite <- E, inject_Z_plus.
  apply Qdiv_comp; [|reflexivity]. change (inject_Z 1) with 1%Q. lra.
Qed.
Lemma floor_period p step n : (inject_Z p / step == inject_Z n)%Q -> Qfloor (inject_Z p / step) = n.
Proof. intros E. rewrite <- (Qfloor_Z n). now apply Qfloor_comp. Qed.

(** The grid of the table returned. *)
Definition one_grid (k : kind) (params : list Q) (step : Q) : list Q :=
  match kde_range k params with Some (lo, hi) => arange lo hi step | None => [] end.
Lemma kde_eval dens k params step : (0 < step)%Q -> 2 <= length params -> step_fits k step ->
  2 <= length (one_grid k params step) ->
  generateKDE dens k params step =
    let g := one_grid k params step in
    let pdf := map (fun v => match k with Periodic _ => (3 * dens params v)%Q | _ => dens params v end) g in
    sbind (cdf g pdf) (fun cy => SOk (combine (combine g pdf) cy)).
Proof.
  intros P L2 F G. unfold generateKDE. destruct (Nat.leb_spec (length params) 1); [lia|].
  destruct k as [| |p].
  - destruct params as [|a r]; [simpl in L2; lia|]. unfold one_grid, kde_range in *. cbn [kdeGrid].
    destruct (Nat.ltb_spec (length (arange (qmin a r) (qmax a r) step)) 2); [lia|]. reflexivity.
  - unfold one_grid, kde_range in *. cbn [kdeGrid].
    destruct params as [|a r]; [simpl in L2; lia|].
    destruct (Nat.ltb_spec (length (arange 0 360 step)) 2); [lia|]. reflexivity.
  - destruct F as [n En]. assert (Eg : one_grid (Periodic p) params step = arange 1 (inject_Z (p + 1)) step).
    { unfold one_grid, kde_range. destruct params; reflexivity. }
    rewrite Eg in *. cbn [kdeGrid]. set (x := arange 1 (inject_Z (p + 1)) step) in *.
    pose proof (arange_period p step n P En) as Lx. fold x in Lx.
    destruct (Nat.ltb_spec (length (map (fun v => (v - inject_Z p)%Q) x ++ x ++ map (fun v => (v + inject_Z p)%Q) x)) 2) as [C|_].
    { rewrite !app_length, !map_length in C. lia. }
    rewrite (floor_period p step n En). rewrite !map_app.
    rewrite !slice_mid by (rewrite ?map_length; auto).
    cbv zeta. rewrite map_map. reflexivity.
Qed.
Lemma kde_table_l dens k params step : (0 < step)%Q -> 2 <= length params -> step_fits k step ->
  2 <= length (one_grid k params step) -> (forall v, 0 <= dens params v)%Q ->
  (exists v, In v (one_grid k params step) /\ (0 < dens params v)%Q) ->
  exists rows lo hi, generateKDE dens k params step = SOk rows /\ kde_range k params = Some (lo, hi) /\
    table_ok (xcdf rows) /\ nonneg (map snd (xcdf rows)) /\
    Forall (fun v => lo <= v /\ v < hi)%Q (map fst (xcdf rows)).
Proof.
  intros P L2 F G D (v & Hv & Dv). rewrite kde_eval by auto. cbv zeta.
  assert (R : exists lo hi, kde_range k params = Some (lo, hi)).
  { destruct k, params; simpl in *; try lia; eauto. }
  destruct R as (lo & hi & R). unfold one_grid in *. rewrite R in *. set (g := arange lo hi step) in *.
  set (f := fun v => match k with Periodic _ => (3 * dens params v)%Q | _ => dens params v end).
  assert (Df : forall v, (0 <= f v)%Q) by (intros w; specialize (D w); unfold f; destruct k; lra).
  destruct (In_nth g v 0%Q Hv) as (i & Hi & Ei).
  destruct (table_from g (map f g)) as (cy & E & Lc & E1 & T & N); auto.
  - now apply arange_incr.
  - now rewrite map_length.
  - intros j. destruct (Nat.lt_ge_cases j (length g)) as [Q|Q].
    + rewrite (nth_map_lt f g j 0%Q 0%Q) by auto. apply Df.
    + rewrite nth_overflow by now rewrite map_length. lra.
  - exists i. split; auto. rewrite (nth_map_lt f g i 0%Q 0%Q) by auto. rewrite Ei. unfold f. destruct k; lra.
  - rewrite E. cbn [sbind]. eexists _, lo, hi. split; [reflexivity|]. split; auto. split; auto. split; auto.
    rewrite E1. rewrite Forall_forall. intros w Hw. destruct (In_nth g w 0%Q Hw) as (j & Hj & <-).
    split; [now apply arange_lo|now apply arange_hi].
Qed.
(** A step that does not divide the period puts a value before the first day in the table. *)
Lemma kde_period_l dens p params step rows : (0 < p)%Z -> (0 < step)%Q -> ~ step_fits (Periodic p) step ->
  (step < inject_Z p)%Q ->
  generateKDE dens (Periodic p) params step = SOk rows ->
  exists v, In v (map fst (xcdf rows)) /\ (v < 1)%Q.
Proof.
  intros Pp P F Sp. set (r := (inject_Z p / step)%Q). set (n := Qfloor r).
  assert (r0 : (1 <= r)%Q).
  { unfold r. assert (1 == step / step)%Q by (field; lra). rewrite H. apply div_le; auto. lra. }
  assert (n0 : (1 <= n)%Z). { unfold n. change 1%Z with (Qfloor 1). now apply Qfloor_resp_le. }
  assert (nr : (inject_Z n < r)%Q).
  { pose proof (Qfloor_le r) as G. apply Qle_lteq in G as [G|G]; auto.
    exfalso. apply F. exists n. fold r. rewrite <- G. reflexivity. }
  assert (nc : Qceiling r = (n + 1)%Z).
  { assert (n < Qceiling r)%Z. { rewrite Zlt_Qlt. eapply Qlt_le_trans; [exact nr|apply Qle_ceiling]. }
    assert (Qceiling r <= n + 1)%Z; [|lia].
    rewrite <- (Qceiling_Z (n + 1)). apply Qceiling_resp_le. apply Qlt_le_weak, Qlt_floor. }
  unfold generateKDE. destruct (Nat.leb_spec (length params) 1); [discriminate|]. cbn [kdeGrid].
  set (x := arange 1 (inject_Z (p + 1)) step).
  assert (Lx : length x = S (Z.to_nat n)).
  { unfold x. rewrite arange_len. rewrite (Qceiling_comp _ r); [rewrite nc; lia|]. unfold r.
    apply Qdiv_comp; [|reflexivity]. rewrite inject_Z_plus. change (inject_Z 1) with 1%Q. lra. }
  set (gr := map (fun v => (v - inject_Z p)%Q) x ++ x ++ map (fun v => (v + inject_Z p)%Q) x).
  destruct (length gr <? 2); [discriminate|]. fold r. fold n.
  set (g := slice (Z.to_nat n) (2 * Z.to_nat n) gr).
  assert (G0 : exists g', g = ((1 + inject_Z (Z.of_nat (Z.to_nat n)) * step) - inject_Z p)%Q :: g').
  { unfold g, slice, gr. set (f := fun v => (v - inject_Z p)%Q).
    assert (Es : map f x = firstn (Z.to_nat n) (map f x) ++ [f (nth (Z.to_nat n) x 0%Q)]).
    { rewrite <- (firstn_skipn (Z.to_nat n) (map f x)) at 1. f_equal.
      assert (Ls : length (skipn (Z.to_nat n) (map f x)) = 1) by (rewrite skipn_length, map_length; lia).
      assert (E0 : nth 0 (skipn (Z.to_nat n) (map f x)) 0%Q = f (nth (Z.to_nat n) x 0%Q)).
      { rewrite <- (nth_map_lt f x (Z.to_nat n) 0%Q 0%Q) by lia.
        rewrite <- (firstn_skipn (Z.to_nat n) (map f x)) at 2. rewrite app_nth2; rewrite firstn_length_le; rewrite ?map_length; try lia.
        now rewrite Nat.sub_diag. }
      destruct (skipn (Z.to_nat n) (map f x)) as [|a [|b s]]; simpl in Ls, E0; try lia. now subst. }
    rewrite Es. assert (Lf : length (firstn (Z.to_nat n) (map f x)) = Z.to_nat n) by (rewrite firstn_length_le; rewrite ?map_length; lia).
    rewrite <- app_assoc.
    assert (SK : forall R, skipn (Z.to_nat n) (firstn (Z.to_nat n) (map f x) ++ R) = R).
    { intros R. pose proof (skipn_len (firstn (Z.to_nat n) (map f x)) R) as K. rewrite Lf in K. exact K. }
    rewrite SK.
    destruct (2 * Z.to_nat n - Z.to_nat n) as [|m] eqn:Em; [lia|]. cbn [app firstn].
    unfold f, x at 1. rewrite arange_nth by (fold x; lia). eauto. }
  destruct G0 as [g' Eg]. rewrite Eg.
  set (pdf := map (Qmult 3) _). assert (Np : pdf <> []).
  { unfold pdf. intros E0. apply (f_equal (@length Q)) in E0.
    assert (length g = 0).
    { unfold g, slice in *. rewrite map_length in E0. rewrite firstn_length, skipn_length in *. rewrite map_length in E0. simpl in E0. exact E0. }
    rewrite Eg in H0. simpl in H0. lia. }
  destruct (cdf _ pdf) as [cy|e] eqn:Ec; [|discriminate]. cbn [sbind]. intros [= <-].
  assert (Nc : cy <> []).
  { unfold cdf in Ec. destruct g' as [|g1 g'']; [discriminate|].
    destruct pdf as [|p0 pdf']; [congruence|]. cbn [map cumsum] in Ec.
    match type of Ec with (if ?b then _ else _) = _ => destruct b end; injection Ec as <-; simpl; congruence. }
  destruct pdf as [|p0 pdf']; [congruence|]. destruct cy as [|c0 cy']; [congruence|].
  exists ((1 + inject_Z (Z.of_nat (Z.to_nat n)) * step) - inject_Z p)%Q. split; [left; reflexivity|].
  rewrite Z2Nat.id by lia.
  assert (inject_Z n * step < r * step)%Q by (apply Qmult_lt_compat_r; auto).
  assert (r * step == inject_Z p)%Q by (unfold r; field; lra). lra.
Qed.

Lemma filter_map_const {A B} (f : A -> B) (q : B -> bool) l (b : bool) : (forall a, q (f a) = b) ->
  filter q (map f l) = if b then map f l else [].
Proof. intros H. induction l as [|a l IH]; simpl; [now destruct b|]. rewrite H, IH. now destruct b. Qed.
Lemma all_cells_l dens k sample step maxCell t : allDistributions dens k sample step maxCell = SOk t ->
  forall c, c <= maxCell -> exists rows, generateKDE dens k (sample c) step = SOk rows /\ cellTable t c = xcdf rows.
Proof.
  unfold allDistributions. set (F := fun c => sbind _ _).
  destruct (traverse F (seq 0 (S maxCell))) as [blocks|e] eqn:E; [|discriminate]. cbn [sbind]. intros [= <-].
  apply traverse_spec in E.
  assert (G : forall n start bl, Forall2 (fun a b => F a = SOk b) (seq start n) bl ->
    (forall c, c < start -> cellTable (concat bl) c = []) /\
    forall c, start <= c < start + n -> exists rows, generateKDE dens k (sample c) step = SOk rows /\ cellTable (concat bl) c = xcdf rows).
  { clear E. induction n as [|n IH]; intros start bl H; inversion H as [|? b ? bl' Hb Hbl]; subst; clear H.
    - split; [reflexivity|]. intros; lia.
    - destruct (IH (S start) bl' Hbl) as [I1 I2].
      unfold F in Hb. destruct (generateKDE dens k (sample start) step) as [rows|e] eqn:Ek; [|discriminate].
      cbn [sbind] in Hb. injection Hb as <-.
      assert (Cc : forall c, cellTable (concat (map (fun r : Q * Q * Q => (start, fst (fst r), snd r)) rows :: bl')) c =
                   (if start =? c then xcdf rows else []) ++ cellTable (concat bl') c).
      { intros c. unfold cellTable. cbn [concat]. rewrite filter_app, map_app. f_equal.
        rewrite (filter_map_const _ _ rows (start =? c)) by reflexivity.
        destruct (start =? c); [|reflexivity]. rewrite map_map. reflexivity. }
      split.
      + intros c Hc. rewrite Cc. destruct (Nat.eqb_spec start c); [lia|]. apply I1. lia.
      + intros c Hc. destruct (Nat.eq_dec start c) as [<-|D].
        * exists rows. split; auto. rewrite Cc, Nat.eqb_refl. rewrite (I1 start) by lia. apply app_nil_r.
        * destruct (I2 c ltac:(lia)) as (rows' & E1 & E2). exists rows'. split; auto. rewrite Cc.
          destruct (Nat.eqb_spec start c); [lia|]. exact E2. }
  intros c Hc. destruct (G (S maxCell) 0 blocks E) as [_ G2]. apply G2. lia.
Qed.

(** ** Origins lie in the domain *)
Lemma gridY_flip yMin yMax step i : (0 < step)%Q -> i < length (originGridY yMin yMax step) ->
  i < length (arange (- yMax) (- yMin) step) /\
  (nth i (originGridY yMin yMax step) 0 == - nth i (arange (- yMax) (- yMin) step) 0)%Q.
Proof.
  intros P H. unfold originGridY in *.
  assert (L : length (arange yMax yMin (- step)) = length (arange (- yMax) (- yMin) step)).
  { rewrite !arange_len. f_equal. apply Qceiling_comp. field. lra. }
  split; [lia|]. rewrite !arange_nth by lia. ring.
Qed.
Lemma gridY_distinct yMin yMax step : (0 < step)%Q -> distinct (originGridY yMin yMax step).
Proof.
  intros P i j H1 H2 E. destruct (gridY_flip yMin yMax step i P ltac:(lia)) as [L1 E1].
  destruct (gridY_flip yMin yMax step j P H2) as [L2 E2].
  pose proof (arange_incr (- yMax) (- yMin) step P i j H1 L2). lra.
Qed.
Lemma origin_in_domain_l xMin xMax yMin yMax step z q1 q2 :
  (0 < step)%Q ->
  let x := originGridX xMin xMax step in let y := originGridY yMin yMax step in
  2 <= length x -> 2 <= length y -> rect (length y) (length x) z -> nonneg2 z -> (0 < total (length x) z)%Q ->
  (0 < q1)%Q -> (q1 <= 1)%Q -> (0 < q2)%Q -> (q2 <= 1)%Q ->
  exists lon lat, originPpf x y z q1 q2 = SOk (lon, lat) /\ (xMin <= lon /\ lon < xMax /\ yMin < lat /\ lat <= yMax)%Q.
Proof.
  intros P x y Lx Ly R N T A1 A2 B1 B2.
  assert (O : origin_ok x y z).
  { split; auto; [now apply arange_incr|now apply gridY_distinct]. }
  destruct (c19_possible_l x y z q1 q2 O A1 A2 B1 B2) as (i & j & Hi & Hj & E & _).
  exists (nth i x 0%Q), (nth j y 0%Q). split; auto.
  destruct (gridY_flip yMin yMax step j P Hj) as [L1 E1]. fold y in E1.
  pose proof (arange_lo xMin xMax step i P Hi) as X1. pose proof (arange_hi xMin xMax step i P Hi) as X2.
  pose proof (arange_lo (- yMax) (- yMin) step j P L1). pose proof (arange_hi (- yMax) (- yMin) step j P L1).
  unfold x, originGridX. repeat split; auto; lra.
Qed.
