From Coq Require Import String QArith.
From Verif Require Import Base MWModel MWProofs TileModel TileSpec TileProofs MultModel MultProofs.
Close Scope Q_scope. Close Scope string_scope. Open Scope list_scope. Open Scope Z_scope.
Ltac Zify.zify_post_hook ::= Z.div_mod_to_equations.

(** ** Segments *)
Definition rect (s : segment) : Z * Z * Z * Z :=
  (x_offset s, x_offset s + width s, y_offset s, y_offset s + height s).
Definition seg_grid (cols rows size : Z) : tgrid :=
  {| imin := 0; imax := rows - 1; jmin := 0; jmax := cols - 1; xstep := size; ystep := size |}.
Definition swap4 (t : Z * Z * Z * Z) : Z * Z * Z * Z := let '(a, b, c, d) := t in (c, d, a, b).

Lemma flat_map_map {A B C} (f : A -> B) (g : B -> list C) l : flat_map g (map f l) = flat_map (fun x => g (f x)) l.
Proof. induction l; cbn; congruence. Qed.
Lemma map_flat_map {A B C} (f : A -> list B) (g : B -> C) l : map g (flat_map f l) = flat_map (fun x => map g (f x)) l.
Proof. induction l; cbn; [reflexivity|]. rewrite map_app. congruence. Qed.
Lemma pair4 {A B C D} (a a' : A) (b b' : B) (c c' : C) (d d' : D) :
  a = a' -> b = b' -> c = c' -> d = d' -> (a, b, c, d) = (a', b', c', d').
Proof. congruence. Qed.
Lemma boxes_tiles cols rows size : 0 < cols -> 0 < rows -> 0 < size ->
  map (fun b => let '(x, y, w, h) := b in (x, x + w, y, y + h)) (seg_boxes cols rows size) =
  map swap4 (get_tiles (seg_grid cols rows size)).
Proof.
  intros Hc Hr Hs. unfold seg_boxes, get_tiles, tile_arrays, zrange.
  rewrite !map_flat_map, flat_map_map.
  unfold maxcols, maxrows, xdim, ydim. cbn [imin imax jmin jmax xstep ystep seg_grid].
  replace (rows - 1 - 0 + 1) with rows by lia. replace (cols - 1 - 0 + 1) with cols by lia.
  rewrite !flat_map_concat_map. f_equal. apply map_ext_in. intros i Hi.
  rewrite !map_map. apply map_ext_in. intros j Hj.
  pose proof (zceil_spec rows size Hs). pose proof (zceil_spec cols size Hs).
  apply in_seq in Hi, Hj. cbn. unfold xdim, ydim. cbn.
  assert (Hi' : Z.of_nat i < zceil rows size) by lia. assert (Hj' : Z.of_nat j < zceil cols size) by lia.
  destruct (Z.gtb_spec (Z.of_nat j * size + size) cols), (Z.gtb_spec (Z.of_nat i * size + size) rows);
    apply pair4; nia.
Qed.
Lemma combine_fst {A B} (l : list A) : forall (r : list B), length l = length r -> map fst (combine l r) = l.
Proof. induction l as [|a l IH]; intros [|b r] H; cbn in *; try discriminate; f_equal; auto. Qed.
Lemma seg_rects cols rows size : 0 < cols -> 0 < rows -> 0 < size ->
  map rect (segments cols rows size) = map swap4 (get_tiles (seg_grid cols rows size)).
Proof.
  intros Hc Hr Hs. rewrite <- boxes_tiles by assumption. unfold segments. rewrite map_map.
  transitivity (map (fun b => let '(x, y, w, h) := b in (x, x + w, y, y + h))
    (map fst (combine (seg_boxes cols rows size) (seq 1 (length (seg_boxes cols rows size)))))).
  - rewrite map_map. apply map_ext. intros [[[[x y] w] h] k]. reflexivity.
  - rewrite combine_fst by now rewrite seq_length. reflexivity.
Qed.
Lemma in_rect_swap t x y : in_rect (swap4 t) x y <-> in_rect t y x.
Proof. destruct t as [[[a b] c] d]. cbn. tauto. Qed.
Lemma c12_tiling cols rows size : 0 < cols -> 0 < rows -> 0 < size ->
  tiling 0 (cols - 1) 0 (rows - 1) size size (map rect (segments cols rows size)).
Proof.
  intros Hc Hr Hs. rewrite seg_rects by assumption.
  destruct (tiling_ok (seg_grid cols rows size)) as [A B C]; cbn [imin imax jmin jmax xstep ystep seg_grid]; try lia.
  cbn [imin imax jmin jmax xstep ystep seg_grid] in A, B, C.
  split.
  - intros x y Hx Hy. destruct (A y x Hy Hx) as (k & t & Hk & Hin & Hu).
    exists k, (swap4 t). rewrite nth_error_map, Hk. split; [reflexivity|].
    split; [now apply in_rect_swap|]. intros k' t' Hk' Hin'.
    rewrite nth_error_map in Hk'. destruct (nth_error (get_tiles (seg_grid cols rows size)) k') as [u|] eqn:E; [|discriminate].
    injection Hk' as <-. exact (Hu k' u E (proj1 (in_rect_swap u x y) Hin')).
  - intros t x y Ht Hin. apply in_map_iff in Ht as (u & <- & Hu). destruct (B u y x Hu (proj1 (in_rect_swap u x y) Hin)). tauto.
  - intros a b c d H. apply in_map_iff in H as ([[[a' b'] c'] d'] & E & Hu). injection E as -> -> -> ->.
    destruct (C _ _ _ _ Hu). tauto.
Qed.
Lemma c12_ids cols rows size : map segment_id (segments cols rows size) = seq 1 (length (segments cols rows size)).
Proof.
  unfold segments. rewrite map_map, map_length.
  generalize (seg_boxes cols rows size) as l. intros l. rewrite combine_length, seq_length, Nat.min_id.
  generalize 1%nat as n. induction l as [|[[[x y] w] h] l IH]; intros n; cbn; [reflexivity|]. f_equal. apply IH.
Qed.
Lemma c12_total cols rows size : 0 < cols -> 0 < rows -> 0 < size ->
  Z.of_nat (length (segments cols rows size)) = total_segments cols rows size.
Proof.
  intros Hc Hr Hs. pose proof (seg_rects cols rows size Hc Hr Hs) as E.
  apply (f_equal (@length _)) in E. rewrite !map_length in E. rewrite E.
  unfold get_tiles. rewrite map_length. unfold tile_arrays.
  assert (L : forall (f : nat -> nat -> Z * Z * Z * Z) m n a,
    length (flat_map (fun i => map (f i) (seq 0 m)) (seq a n)) = (n * m)%nat).
  { intros f m n. induction n as [|n IH]; intros a; cbn; [reflexivity|].
    rewrite app_length, map_length, seq_length, IH. reflexivity. }
  rewrite (L (fun i j => tile_at (seg_grid cols rows size) (Z.of_nat i) (Z.of_nat j))).
  unfold maxcols, maxrows, xdim, ydim, total_segments. cbn [imin imax jmin jmax xstep ystep seg_grid].
  replace (rows - 1 - 0 + 1) with rows by lia. replace (cols - 1 - 0 + 1) with cols by lia.
  pose proof (zceil_pos rows size Hr Hs). pose proof (zceil_pos cols size Hc Hs). nia.
Qed.

(** ** Threads *)
Section T.
  Variables wind bear : Z -> Z -> Q.
  Variable m4 : Z -> Z -> list Q.
  Variable nt : nat.
  Variable segs : list segment.
  Notation step := (tstep wind bear m4 nt).
  Notation wr := (fun o g => write_block o g (seg_block wind bear m4 g)).

  Definition held (p : tpc) : list segment := match p with TWork g => [g] | _ => [] end.
  Record TInv (s : tst) : Prop := {
    ti_perm : Permutation (done_segs s ++ flat_map (fun i => held (th s i)) (seq 1 nt) ++ queue s) segs;
    ti_img : img s = fold_left wr (done_segs s) (fun _ _ => None);
    ti_done : forall i, (1 <= i <= nt)%nat -> th s i = TDone -> queue s = [] }.

  Lemma ti_init : TInv (tinit segs).
  Proof.
    split; cbn; [|reflexivity|discriminate].
    assert (E : flat_map (fun _ : nat => @nil segment) (seq 1 nt) = []).
    { induction (seq 1 nt); cbn; auto. }
    rewrite E. reflexivity.
  Qed.
  Lemma held_upd (t : nat -> tpc) i p : (1 <= i <= nt)%nat ->
    exists rest, Permutation (flat_map (fun i => held (t i)) (seq 1 nt)) (held (t i) ++ rest) /\
      Permutation (flat_map (fun j => held (upd t i p j)) (seq 1 nt)) (held p ++ rest).
  Proof.
    intros Hi. destruct (flat_map_upd_split (fun i => held (t i)) nt i Hi) as (rest & H1 & H2).
    exists rest. split; [exact H1|]. rewrite <- (H2 (held p)).
    rewrite !flat_map_concat_map.
    erewrite map_ext; [reflexivity|]. intros j. unfold upd. now destruct (Nat.eqb j i).
  Qed.
  Lemma ti_step s s' : TInv s -> step s s' -> TInv s'.
  Proof.
    intros [Hp Hi Hd] St. inversion St as [s0 i Ht E Hq|s0 i Ht E Hq|s0 i g rest Ht E Hq|s0 i g Ht E]; subst s0 s'; clear St.
    - destruct (held_upd (th s) i TGet Ht) as (r & P1 & P2). rewrite E in P1.
      split; cbn [queue th img done_segs].
      + rewrite P2. rewrite P1 in Hp. exact Hp.
      + exact Hi.
      + intros j Hj Ej. unfold upd in Ej. destruct (Nat.eqb j i); [discriminate|eauto].
    - destruct (held_upd (th s) i TDone Ht) as (r & P1 & P2). rewrite E in P1.
      split; cbn [queue th img done_segs].
      + rewrite P2. rewrite P1 in Hp. exact Hp.
      + exact Hi.
      + intros; assumption.
    - destruct (held_upd (th s) i (TWork g) Ht) as (r & P1 & P2). rewrite E in P1.
      split; cbn [queue th img done_segs].
      + rewrite P2. rewrite P1, Hq in Hp. rewrite <- Hp. cbn [held]. perm_solve.
      + exact Hi.
      + intros j Hj Ej. unfold upd in Ej. destruct (Nat.eqb j i); [discriminate|].
        specialize (Hd j Hj Ej). congruence.
    - destruct (held_upd (th s) i TCheck Ht) as (r & P1 & P2). rewrite E in P1.
      split; cbn [queue th img done_segs].
      + rewrite P2. rewrite P1 in Hp. rewrite <- Hp. cbn [held]. perm_solve.
      + rewrite Hi, fold_left_app. reflexivity.
      + intros j Hj Ej. unfold upd in Ej. destruct (Nat.eqb j i); [discriminate|eauto].
  Qed.
  Lemma ti_reach s : star step (tinit segs) s -> TInv s.
  Proof. apply star_inv; [apply ti_init|apply ti_step]. Qed.

  Definition twt (p : tpc) : nat := match p with TCheck => 1 | TWork _ => 2 | _ => 0 end.
  Definition tmeas (s : tst) : nat := sumf (fun i => twt (th s i)) (seq 1 nt) + 4 * length (queue s).
  Lemma tm_step s s' : step s s' -> (tmeas s' < tmeas s)%nat.
  Proof.
    intros St. unfold tmeas.
    assert (U : forall i p, (1 <= i <= nt)%nat ->
      (sumf (fun j => twt (upd (th s) i p j)) (seq 1 nt) + twt (th s i) =
       sumf (fun j => twt (th s j)) (seq 1 nt) + twt p)%nat).
    { intros i p Hi. pose proof (sumf_one (fun j => twt (th s j)) nt i Hi (fun j => twt (upd (th s) i p j))) as H.
      rewrite H; [now rewrite upd_same|]. intros j Hj. now rewrite upd_other. }
    inversion St as [s0 i Ht E Hq|s0 i Ht E Hq|s0 i g rest Ht E Hq|s0 i g Ht E]; subst s0 s'; cbn [queue th].
    - specialize (U i TGet Ht). rewrite E in U. cbn in U. lia.
    - specialize (U i TDone Ht). rewrite E in U. cbn in U. lia.
    - specialize (U i (TWork g) Ht). rewrite E in U. cbn in U. rewrite Hq. cbn [length]. lia.
    - specialize (U i TCheck Ht). rewrite E in U. cbn in U. lia.
  Qed.
  Lemma t_finite : ~ exists run : nat -> tst, run O = tinit segs /\ forall n, step (run n) (run (S n)).
  Proof.
    intros (run & _ & Hr).
    assert (Hm : forall k, (tmeas (run k) + k <= tmeas (run O))%nat).
    { induction k as [|k IH]; [lia|]. pose proof (tm_step _ _ (Hr k)). lia. }
    specialize (Hm (S (tmeas (run O)))). lia.
  Qed.
  Lemma t_stuck s : (1 <= nt)%nat -> TInv s -> (forall s', ~ step s s') ->
    queue s = [] /\ Permutation (done_segs s) segs /\
    forall i, (1 <= i <= nt)%nat -> th s i = TDone \/ th s i = TGet.
  Proof.
    intros Hnt [Hp Hi Hd] Hs.
    assert (T : forall i, (1 <= i <= nt)%nat -> th s i = TDone \/ th s i = TGet).
    { intros i Ht. destruct (th s i) eqn:E; auto; exfalso.
      - destruct (queue s) eqn:Q; eapply Hs; [eapply ts_empty; eauto|eapply ts_nonempty; eauto; congruence].
      - eapply Hs. eapply ts_work; eauto. }
    assert (Q : queue s = []).
    { destruct (T 1%nat ltac:(lia)) as [E|E]; [apply (Hd 1%nat); [lia|exact E]|].
      destruct (queue s) eqn:Q; [reflexivity|]. exfalso. eapply Hs. eapply (ts_get _ _ _ _ s 1%nat); eauto; lia. }
    split; [exact Q|]. split; [|exact T].
    rewrite Q, app_nil_r in Hp.
    assert (E : flat_map (fun i => held (th s i)) (seq 1 nt) = []).
    { assert (G : forall l, (forall i, In i l -> (1 <= i <= nt)%nat) -> flat_map (fun i => held (th s i)) l = []).
      { induction l as [|a l IH]; intros H; cbn; [reflexivity|].
        rewrite IH by (intros; apply H; now right).
        destruct (T a) as [E|E]; [apply H; now left| |]; now rewrite E. }
      apply G. intros i H. apply in_seq in H. lia. }
    now rewrite E, app_nil_r in Hp.
  Qed.

  Definition covers (s : segment) (y x : Z) : bool :=
    (y_offset s <=? y) && (y <? y_offset s + height s) && (x_offset s <=? x) && (x <? x_offset s + width s).
  Lemma img_value l : forall o y x,
    fold_left wr l o y x = if existsb (fun s => covers s y x) l
      then seg_cell (wind y x) (bear y x) (m4 y x) else o y x.
  Proof.
    induction l as [|s l IH]; intros o y x; cbn [fold_left existsb]; [reflexivity|].
    rewrite IH. destruct (existsb (fun s => covers s y x) l); [now rewrite orb_true_r|].
    rewrite orb_false_r. unfold write_block. fold (covers s y x). destruct (covers s y x); [|reflexivity].
    unfold seg_block. now replace (y_offset s + (y - y_offset s)) with y by lia;
      replace (x_offset s + (x - x_offset s)) with x by lia.
  Qed.
End T.
  Lemma existsb_perm {A} (p : A -> bool) l l' : Permutation l l' -> existsb p l = existsb p l'.
  Proof.
    induction 1; cbn; auto; try congruence. destruct (p x), (p y); reflexivity.
  Qed.
Lemma covers_rect s y x : covers s y x = true <-> in_rect (rect s) x y.
Proof. unfold covers, rect, in_rect. lia. Qed.

Lemma c13_main wind bear m4 nt cols rows size : 0 < cols -> 0 < rows -> 0 < size -> (1 <= nt)%nat ->
  always_ends_in (tinit (segments cols rows size)) (tstep wind bear m4 nt) (fun s =>
    Permutation (done_segs s) (segments cols rows size) /\
    (forall y x, img s y x = if (0 <=? y) && (y <? rows) && (0 <=? x) && (x <? cols)
                             then seg_cell (wind y x) (bear y x) (m4 y x) else None) /\
    forall i, (1 <= i <= nt)%nat -> th s i = TDone \/ (th s i = TGet /\ queue s = [])).
Proof.
  intros Hc Hr Hs Hnt. split; [apply t_finite|]. intros s Hst Hstuck.
  pose proof (ti_reach wind bear m4 nt _ s Hst) as HI.
  destruct (t_stuck wind bear m4 nt _ s Hnt HI Hstuck) as (Q & P & T).
  split; [exact P|]. split.
  - intros y x. rewrite (ti_img _ _ _ _ _ _ HI), img_value, (existsb_perm _ _ _ P).
    destruct (c12_tiling cols rows size Hc Hr Hs) as [A B _].
    assert (E : existsb (fun g => covers g y x) (segments cols rows size) =
                ((0 <=? y) && (y <? rows) && (0 <=? x) && (x <? cols))).
    { apply eq_true_iff_eq. rewrite existsb_exists. split.
      - intros (g & Hg & Hcv). apply covers_rect in Hcv.
        destruct (B (rect g) x y (in_map rect _ _ Hg) Hcv). lia.
      - intros H. destruct (A x y) as (k & t & Hk & Hin & _); [lia|lia|].
        apply nth_error_In in Hk. apply in_map_iff in Hk as (g & <- & Hg). exists g.
        split; [exact Hg|]. now apply covers_rect. }
    rewrite E. reflexivity.
  - intros i Hi. destruct (T i Hi); auto.
Qed.

(** One thread: nothing to race with. *)
Lemma one_thread wind bear m4 segs s : star (tstep wind bear m4 1) (tinit segs) s ->
  th s 1 = TGet -> queue s <> [].
Proof.
  intros H. apply (star_inv (tstep wind bear m4 1) (fun s => th s 1%nat = TGet -> queue s <> []) (tinit segs));
    [discriminate| |exact H].
  clear. intros s s' IH St E.
  inversion St as [s0 i Ht E' Hq|s0 i Ht E' Hq|s0 i g rest Ht E' Hq|s0 i g Ht E']; subst s0 s'; cbn in *;
    assert (i = 1%nat) as -> by lia; rewrite upd_same in E; congruence.
Qed.
Lemma c13_single wind bear m4 cols rows size : 0 < cols -> 0 < rows -> 0 < size ->
  always_ends_in (tinit (segments cols rows size)) (tstep wind bear m4 1) (fun s =>
    all_returned 1 s /\ Permutation (done_segs s) (segments cols rows size) /\
    (forall y x, img s y x = if (0 <=? y) && (y <? rows) && (0 <=? x) && (x <? cols)
                             then seg_cell (wind y x) (bear y x) (m4 y x) else None)).
Proof.
  intros Hc Hr Hs. destruct (c13_main wind bear m4 1 cols rows size Hc Hr Hs (le_n _)) as [A B].
  split; [exact A|]. intros s H1 H2. destruct (B s H1 H2) as (P & I & T).
  split; [|auto]. intros i Hi. assert (i = 1%nat) as -> by lia.
  destruct (T 1%nat ltac:(lia)) as [?|[G Q]]; [assumption|]. exfalso. eapply one_thread; eauto.
Qed.

(** Two or more threads: a worker can wait for ever. *)
Lemma star_trans {S} (st : S -> S -> Prop) a b c : star st a b -> star st b c -> star st a c.
Proof. intros H1 H2. induction H2 as [|b t u _ IH St]; [exact H1|]. exact (star_step _ _ _ _ (IH H1) St). Qed.
Lemma star_one {S} (st : S -> S -> Prop) a b : st a b -> star st a b.
Proof. intros H. exact (star_step _ _ _ _ (star_refl _ _) H). Qed.
Section D.
  Variables wind bear : Z -> Z -> Q.
  Variable m4 : Z -> Z -> list Q.
  Variable nt : nat.
  Hypothesis Hnt : (2 <= nt)%nat.
  Notation step := (tstep wind bear m4 nt).
  Lemma eat s g q : queue s = g :: q -> (forall i, th s i = TCheck) ->
    exists s', star step s s' /\ queue s' = q /\ forall i, th s' i = TCheck.
  Proof.
    intros Hq Hc. eexists. split.
    - eapply star_step; [eapply star_step; [eapply star_one|]|].
      + apply (ts_nonempty _ _ _ _ s 1%nat); [lia|apply Hc|rewrite Hq; discriminate].
      + eapply (ts_get _ _ _ _ _ 1%nat); [lia|apply upd_same|cbn; exact Hq].
      + eapply (ts_work _ _ _ _ _ 1%nat); [lia|apply upd_same].
    - cbn. split; [reflexivity|]. intros i. unfold upd. destruct (Nat.eqb i 1); auto.
  Qed.
  Lemma eat_all q : forall s g, queue s = q ++ [g] -> (forall i, th s i = TCheck) ->
    exists s', star step s s' /\ queue s' = [g] /\ forall i, th s' i = TCheck.
  Proof.
    induction q as [|h q IH]; intros s g Hq Hc; cbn in Hq.
    - exists s. split; [constructor|auto].
    - destruct (eat s h (q ++ [g]) Hq Hc) as (s1 & S1 & Q1 & C1).
      destruct (IH s1 g Q1 C1) as (s2 & S2 & Q2 & C2). exists s2. split; [|auto]. eapply star_trans; eauto.
  Qed.
  Lemma waits_for_ever s s' : th s 2%nat = TGet -> queue s = [] -> star step s s' ->
    th s' 2%nat = TGet /\ queue s' = [].
  Proof.
    intros T Q H. apply (star_inv step (fun s => th s 2%nat = TGet /\ queue s = []) s); auto.
    clear. intros s s' [T Q] St.
    inversion St as [s0 i Ht E' Hq|s0 i Ht E' Hq|s0 i g rest Ht E' Hq|s0 i g Ht E']; subst s0 s'; cbn;
      try congruence;
      (split; [|congruence]); (destruct (Nat.eq_dec 2 i) as [<-|Hn]; [congruence|now rewrite upd_other by exact Hn]).
  Qed.
  Lemma c13_hang segs : segs <> [] -> exists s, star step (tinit segs) s /\
    Permutation (done_segs s) segs /\ forall s', star step s s' -> th s' 2%nat = TGet /\ ~ all_returned nt s'.
  Proof.
    intros Hn. destruct (exists_last Hn) as (q & g & ->).
    destruct (eat_all q (tinit (q ++ [g])) g eq_refl (fun _ => eq_refl)) as (s1 & S1 & Q1 & C1).
    assert (E : exists s, star step s1 s /\ th s 2%nat = TGet /\ queue s = [] /\ (forall i, i <> 2%nat -> th s i = TCheck)).
    { eexists. split.
      - eapply star_step; [eapply star_step; [eapply star_step; [eapply star_one|]|]|].
        + apply (ts_nonempty _ _ _ _ s1 1%nat); [lia|apply C1|rewrite Q1; discriminate].
        + eapply (ts_nonempty _ _ _ _ _ 2%nat); [lia|apply C1|cbn; rewrite Q1; discriminate].
        + eapply (ts_get _ _ _ _ _ 1%nat); [lia|reflexivity|cbn; exact Q1].
        + eapply (ts_work _ _ _ _ _ 1%nat); [lia|apply upd_same].
      - cbn [th queue].
        split; [reflexivity|]. split; [reflexivity|]. intros i Hi. unfold upd.
        destruct (Nat.eqb_spec i 1), (Nat.eqb_spec i 2); auto; lia. }
    destruct E as (s2 & S2 & T2 & Q2 & C2). exists s2.
    assert (R : star step (tinit (q ++ [g])) s2) by (eapply star_trans; eauto).
    split; [exact R|]. split.
    - destruct (ti_reach _ _ _ _ _ _ R) as [P _ _]. rewrite Q2, app_nil_r in P.
      assert (G : flat_map (fun i => held (th s2 i)) (seq 1 nt) = []).
      { clear P. induction (seq 1 nt) as [|a l IH]; cbn; [reflexivity|]. rewrite IH.
        destruct (Nat.eq_dec a 2) as [->|Ha]; [rewrite T2; reflexivity|rewrite (C2 a Ha); reflexivity]. }
      now rewrite G, app_nil_r in P.
    - intros s' H. destruct (waits_for_ever s2 s' T2 Q2 H) as [T' _]. split; [exact T'|].
      intros A. specialize (A 2%nat ltac:(lia)). congruence.
  Qed.
End D.
