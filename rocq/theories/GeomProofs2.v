(** Proofs about the longitude gates and rectangles. *)
From Coq Require Import QArith Lqa Lia ZifyBool ZifyNat.
From Verif Require Import Base CellModel CellProofs GenProofs GeomModel GeomProofs.
Close Scope Q_scope. Open Scope list_scope. Open Scope nat_scope.

(** The latitude at which the segment from [s] to [e] meets longitude [g]. *)
Definition lat_at (g : Q) (s e : pt) : Q := (py s + (g - px s) / (px e - px s) * (py e - py s))%Q.
Definition is_we (o : option crossing) : bool := match o with Some (WE _) => true | _ => false end.
Definition is_ew (o : option crossing) : bool := match o with Some (EW _) => true | _ => false end.
Definition lat_of (c : crossing) : Q := match c with WE y | EW y | Along y => y end.

Lemma gate_side g lo hi s : (isLeft {| px := g; py := hi |} {| px := g; py := lo |} s == (px s - g) * (hi - lo))%Q.
Proof. unfold isLeft; cbn. ring. Qed.
Lemma pos_mul x y : (0 < y)%Q -> ((0 < x * y <-> 0 < x) /\ (x * y < 0 <-> x < 0) /\ (0 <= x * y <-> 0 <= x) /\ (x * y <= 0 <-> x <= 0))%Q.
Proof.
  intros Y.
  assert (A : (0 < x -> 0 < x * y)%Q) by (intros; now apply Qmult_lt_0_compat).
  assert (B : (x < 0 -> x * y < 0)%Q) by (intros; now apply mulnp).
  assert (C : (x == 0 -> x * y == 0)%Q) by (intros E; rewrite E; ring).
  destruct (Q_dec x 0) as [[L|L]|L]; [specialize (B L)|specialize (A L)|specialize (C L)];
    repeat split; intros; lra.
Qed.

Lemma seg_spec g lo hi s e : (lo < hi)%Q -> ~ (px s == px e)%Q ->
  (exists c, segCrossing g lo hi s e = Some c /\ (lat_of c == lat_at g s e)%Q /\
     ((px s < px e)%Q -> exists y, c = WE y) /\ ((px e < px s)%Q -> exists y, c = EW y)) /\
  ((px s <= g /\ g <= px e) \/ (px e <= g /\ g <= px s))%Q /\ (lo <= lat_at g s e /\ lat_at g s e <= hi)%Q \/
  segCrossing g lo hi s e = None /\
  ~ (((px s <= g /\ g <= px e) \/ (px e <= g /\ g <= px s))%Q /\ (lo <= lat_at g s e /\ lat_at g s e <= hi)%Q).
Proof.
  intros LH NV.
  set (gs := {| px := g; py := hi |}). set (ge := {| px := g; py := lo |}).
  assert (NP : ~ parallel s e gs ge).
  { unfold parallel; cbn. intros E. assert (K : ((px e - px s) * (lo - hi) == 0)%Q) by lra.
    apply Qmult_integral in K. destruct K; lra. }
  pose proof (c35_crossing_l s e gs ge NP) as H.
  unfold segCrossing. fold gs ge.
  destruct (lineLine s e gs ge) as [st ps]. destruct st; try contradiction.
  - destruct ps as [|q [|]]; try contradiction. destruct H as ((t & T & X & Y) & (u & U & X' & Y') & _).
    cbn in X', Y'.
    assert (G : (px q == g)%Q) by (rewrite X'; ring).
    assert (Et : (t == (g - px s) / (px e - px s))%Q).
    { rewrite <- G, X. field. lra. }
    assert (Ly : (py q == lat_at g s e)%Q) by (unfold lat_at; rewrite Y, Et; reflexivity).
    assert (Lb : (lo <= py q /\ py q <= hi)%Q).
    { rewrite Y'. assert (0 <= u * (hi - lo))%Q by (apply Qmult_le_0_compat; lra).
      assert (0 <= (1 - u) * (hi - lo))%Q by (apply Qmult_le_0_compat; lra). split; lra. }
    assert (Lx : ((px s <= g /\ g <= px e) \/ (px e <= g /\ g <= px s))%Q).
    { rewrite <- G, X. destruct (Qlt_le_dec (px s) (px e)).
      - left. assert (0 <= t * (px e - px s))%Q by (apply Qmult_le_0_compat; lra).
        assert (0 <= (1 - t) * (px e - px s))%Q by (apply Qmult_le_0_compat; lra). split; lra.
      - right. assert (0 <= t * (px s - px e))%Q by (apply Qmult_le_0_compat; lra).
        assert (0 <= (1 - t) * (px s - px e))%Q by (apply Qmult_le_0_compat; lra). split; lra. }
    left. split; [|split; [assumption|rewrite <- Ly; assumption]].
    assert (D : (0 < hi - lo)%Q) by lra.
    pose proof (gate_side g lo hi s) as Ss. pose proof (gate_side g lo hi e) as Se. fold gs ge in Ss, Se.
    destruct (pos_mul (px s - g) (hi - lo) D) as (S1 & S2 & S3 & S4).
    destruct (pos_mul (px e - g) (hi - lo) D) as (E1 & E2 & E3 & E4).
    rewrite <- Ss in S1, S2, S3, S4. rewrite <- Se in E1, E2, E3, E4.
    eexists. split; [reflexivity|]. split.
    { destruct (_ || _); [exact Ly|]. destruct (_ || _); exact Ly. }
    destruct ((qlt (isLeft gs ge s) 0 && Qle_bool 0 (isLeft gs ge e))
              || (Qle_bool (isLeft gs ge s) 0 && qlt 0 (isLeft gs ge e))) eqn:EE.
    + rewrite orb_true_iff, !andb_true_iff, !qlt_iff, !Qle_bool_iff in EE.
      split; [now eexists|]. intros L. exfalso. destruct EE as [[A B]|[A B]]; intuition lra.
    + rewrite <- not_true_iff_false, orb_true_iff, !andb_true_iff, !qlt_iff, !Qle_bool_iff in EE.
      split.
      * intros L. exfalso. apply EE.
        assert (Q1 : (px s <= g /\ g <= px e)%Q) by (destruct Lx; lra).
        destruct (Qlt_le_dec (px s) g).
        -- left. split; [apply S2; lra|apply E3; lra].
        -- right. split; [apply S4; lra|apply E1; lra].
      * intros L. destruct ((qlt 0 (isLeft gs ge s) && Qle_bool (isLeft gs ge e) 0)
              || (Qle_bool 0 (isLeft gs ge s) && qlt (isLeft gs ge e) 0)) eqn:EF; [now eexists|].
        exfalso. rewrite <- not_true_iff_false, orb_true_iff, !andb_true_iff, !qlt_iff, !Qle_bool_iff in EF.
        apply EF. assert (Q1 : (px e <= g /\ g <= px s)%Q) by (destruct Lx; lra).
        destruct (Qlt_le_dec g (px s)).
        -- left. split; [apply S1; lra|apply E4; lra].
        -- right. split; [apply S3; lra|apply E2; lra].
  - destruct ps; [|contradiction]. right. split; [reflexivity|]. intros [Lx Ly].
    set (q := {| px := g; py := lat_at g s e |}).
    apply (H q).
    + exists ((g - px s) / (px e - px s))%Q. split.
      * assert (K : (0 <= (g - px s) / (px e - px s) /\ 0 <= (px e - g) / (px e - px s))%Q).
        { destruct (Qlt_le_dec (px s) (px e)) as [C|C].
          - split; apply Qle_shift_div_l; lra.
          - setoid_replace ((g - px s) / (px e - px s))%Q with ((px s - g) / (px s - px e))%Q by (field; split; lra).
            setoid_replace ((px e - g) / (px e - px s))%Q with ((g - px e) / (px s - px e))%Q by (field; split; lra).
            assert (C' : (px e < px s)%Q) by (destruct (Qlt_le_dec (px e) (px s)); [assumption|exfalso; apply NV; lra]).
            split; apply Qle_shift_div_l; lra. }
        assert (K2 : ((px e - g) / (px e - px s) == 1 - (g - px s) / (px e - px s))%Q) by (field; lra).
        rewrite K2 in K. lra.
      * split; cbn; [field; lra|unfold lat_at; reflexivity].
    + exists ((hi - lat_at g s e) / (hi - lo))%Q. split.
      * split; [apply Qle_shift_div_l; lra|apply Qle_shift_div_r; lra].
      * split; cbn; [ring|field; lra].
Qed.

(** Vertical segments never count as crossings. *)
Lemma seg_vertical g lo hi s e : (px s == px e)%Q -> segCrossing g lo hi s e = None.
Proof.
  intros E. unfold segCrossing, lineLine; cbn.
  assert (Z : Qeq_bool ((lo - hi) * (px e - px s) - (g - g) * (py e - py s)) 0 = true).
  { apply Qeq_bool_iff. rewrite E. ring. }
  rewrite Z; cbn. now destruct (_ || _).
Qed.

(** The latitude of a point of a segment lies between those of its ends. *)
Lemma lat_between g s e lo hi : ((px s <= g /\ g <= px e) \/ (px e <= g /\ g <= px s))%Q -> ~ (px s == px e)%Q ->
  (lo <= py s /\ py s <= hi)%Q -> (lo <= py e /\ py e <= hi)%Q -> (lo <= lat_at g s e /\ lat_at g s e <= hi)%Q.
Proof.
  intros Lx NV Ls Le. unfold lat_at. set (t := ((g - px s) / (px e - px s))%Q).
  assert (T : (0 <= t /\ t <= 1)%Q).
  { assert (K : (0 <= (g - px s) / (px e - px s) /\ 0 <= (px e - g) / (px e - px s))%Q).
    { destruct (Qlt_le_dec (px s) (px e)) as [C|C].
      - split; apply Qle_shift_div_l; lra.
      - setoid_replace ((g - px s) / (px e - px s))%Q with ((px s - g) / (px s - px e))%Q by (field; split; lra).
        setoid_replace ((px e - g) / (px e - px s))%Q with ((g - px e) / (px s - px e))%Q by (field; split; lra).
        assert (C' : (px e < px s)%Q) by (destruct (Qlt_le_dec (px e) (px s)); [assumption|exfalso; apply NV; lra]).
        split; apply Qle_shift_div_l; lra. }
    assert (K2 : ((px e - g) / (px e - px s) == 1 - t)%Q) by (unfold t; field; lra).
    rewrite K2 in K. fold t in K. lra. }
  assert (A : (0 <= t * (py e - lo))%Q) by (apply Qmult_le_0_compat; lra).
  assert (B : (0 <= (1 - t) * (py s - lo))%Q) by (apply Qmult_le_0_compat; lra).
  assert (C : (0 <= t * (hi - py e))%Q) by (apply Qmult_le_0_compat; lra).
  assert (D : (0 <= (1 - t) * (hi - py s))%Q) by (apply Qmult_le_0_compat; lra).
  split; lra.
Qed.

Definition east (g : Q) (p : pt) : bool := qlt g (px p).
Definition we_count (cs : list crossing) : Z := Z.of_nat (count (fun c => match c with WE _ => true | _ => false end) cs).
Definition ew_count (cs : list crossing) : Z := Z.of_nat (count (fun c => match c with EW _ => true | _ => false end) cs).

Lemma we_app a b : we_count (a ++ b) = (we_count a + we_count b)%Z.
Proof. unfold we_count. rewrite count_app. lia. Qed.
Lemma ew_app a b : ew_count (a ++ b) = (ew_count a + ew_count b)%Z.
Proof. unfold ew_count. rewrite count_app. lia. Qed.
Definition b2z (b : bool) : Z := if b then 1%Z else 0%Z.

Lemma seg_balance g lo hi s e : (lo < hi)%Q -> ~ (px s == g)%Q -> ~ (px e == g)%Q ->
  (lo <= py s /\ py s <= hi)%Q -> (lo <= py e /\ py e <= hi)%Q ->
  let cs := match segCrossing g lo hi s e with Some c => [c] | None => [] end in
  we_count cs = b2z (negb (east g s) && east g e) /\ ew_count cs = b2z (east g s && negb (east g e)) /\
  Z.of_nat (length cs) = (we_count cs + ew_count cs)%Z.
Proof.
  intros LH Ns Ne Ls Le cs.
  assert (ES : east g s = true <-> (g < px s)%Q) by apply qlt_iff.
  assert (EE : east g e = true <-> (g < px e)%Q) by apply qlt_iff.
  destruct (Qeq_dec (px s) (px e)) as [V|V].
  - unfold cs. rewrite (seg_vertical g lo hi s e V).
    assert (Z : east g s = east g e) by (apply eq_iff_eq_true; rewrite ES, EE, V; tauto).
    rewrite Z. destruct (east g e); cbn; auto.
  - destruct (seg_spec g lo hi s e LH V) as [((c & Ec & _ & W & E) & Lx & _)|[Ec N]].
    + unfold cs. rewrite Ec. destruct (Qlt_le_dec (px s) (px e)) as [L|L].
      * destruct (W L) as [y ->].
        assert (A : east g s = false) by (apply not_true_is_false; rewrite ES; lra).
        assert (B : east g e = true) by (apply EE; destruct (Qlt_le_dec g (px e)); [assumption|exfalso; apply Ne; lra]).
        rewrite A, B. cbn. auto.
      * assert (L' : (px e < px s)%Q) by (destruct (Qlt_le_dec (px e) (px s)); [assumption|exfalso; apply V; lra]).
        destruct (E L') as [y ->].
        assert (A : east g e = false) by (apply not_true_is_false; rewrite EE; lra).
        assert (B : east g s = true) by (apply ES; destruct (Qlt_le_dec g (px s)); [assumption|exfalso; apply Ns; lra]).
        rewrite A, B. cbn. auto.
    + unfold cs. rewrite Ec. cbn [we_count]. 
      assert (Z : east g s = east g e).
      { apply eq_iff_eq_true. rewrite ES, EE.
        assert (M : ~ ((px s <= g /\ g <= px e) \/ (px e <= g /\ g <= px s))%Q).
        { intros Lx. apply N. split; [exact Lx|]. now apply lat_between. }
        destruct (Qlt_le_dec g (px s)), (Qlt_le_dec g (px e)); split; intros; try lra;
          exfalso; apply M; lra. }
      rewrite Z. destruct (east g e); cbn; auto.
Qed.

Definition good_track (g lo hi : Q) (v : list pt) : Prop :=
  forall p, In p v -> (~ px p == g /\ lo <= py p /\ py p <= hi)%Q.

(** The number of times the side of the gate changes along a track. *)
Fixpoint changes_to (b : bool) (prev : bool) (l : list bool) : Z :=
  match l with [] => 0%Z | a :: r => ((if Bool.eqb prev (negb b) && Bool.eqb a b then 1 else 0) + changes_to b a r)%Z end.
Definition sides_changed (b : bool) (l : list bool) : Z := match l with [] => 0%Z | a :: r => changes_to b a r end.

Lemma somes_app {A} (a b : list (option A)) : somes (a ++ b) = somes a ++ somes b.
Proof. apply flat_map_app. Qed.
Lemma find_app g lo hi a b : findCrossings g lo hi (a ++ b) = findCrossings g lo hi a ++ findCrossings g lo hi b.
Proof. unfold findCrossings. now rewrite flat_map_app, map_app, somes_app. Qed.

Lemma c85_track_l g lo hi v : (lo < hi)%Q -> good_track g lo hi v ->
  let cs := findCrossings g lo hi [v] in
  we_count cs = sides_changed true (map (east g) v) /\ ew_count cs = sides_changed false (map (east g) v) /\
  Z.of_nat (length cs) = (we_count cs + ew_count cs)%Z.
Proof.
  intros LH. unfold findCrossings; cbn [flat_map]. rewrite app_nil_r.
  induction v as [|a [|b v] IH]; intros G.
  - cbn. auto.
  - cbn. auto.
  - change (edges (a :: b :: v)) with ((a, b) :: edges (b :: v)).
    cbn [map fst snd]. unfold somes at 1 2 3 4 5; cbn [flat_map]. fold (somes (map (fun e => segCrossing g lo hi (fst e) (snd e)) (edges (b :: v)))).
    assert (GA := G a (or_introl eq_refl)). assert (GB := G b (or_intror (or_introl eq_refl))).
    destruct (IH (fun p I => G p (or_intror I))) as (W & E & L).
    destruct (seg_balance g lo hi a b LH (proj1 GA) (proj1 GB) (proj2 GA) (proj2 GB)) as (W1 & E1 & L1).
    rewrite !we_app, !ew_app, W, E, app_length, W1, E1.
    rewrite W1, E1 in L1. rewrite W, E in L.
    cbn [map sides_changed changes_to].
    change (sides_changed true (map (east g) (b :: v))) with (changes_to true (east g b) (map (east g) v)) in *.
    change (sides_changed false (map (east g) (b :: v))) with (changes_to false (east g b) (map (east g) v)) in *.
    destruct (east g a), (east g b); cbn -[Z.add] in *; lia.
Qed.
Lemma c85_net_l g lo hi a v : (lo < hi)%Q -> good_track g lo hi (a :: v) ->
  let cs := findCrossings g lo hi [a :: v] in
  (we_count cs - ew_count cs = b2z (east g (last v a)) - b2z (east g a))%Z.
Proof.
  intros LH G. destruct (c85_track_l g lo hi (a :: v) LH G) as (W & E & _). cbv zeta. rewrite W, E. clear W E G.
  cbn [map sides_changed]. revert a. induction v as [|b v IH]; intros a; [cbn; lia|].
  cbn [map changes_to]. specialize (IH b).
  assert (L : last (b :: v) a = last v b).
  { clear. revert a b. induction v as [|c v IH]; intros a b; [reflexivity|].
    change (last (b :: c :: v) a) with (last (c :: v) a). rewrite (IH a c). now rewrite (IH b c). }
  rewrite L. destruct (east g a), (east g b); cbn -[Z.add Z.sub] in *; lia.
Qed.

(** * Rectangles *)
Definition rect (x0 x1 y0 y1 : Q) : list pt :=
  [{| px := x0; py := y0 |}; {| px := x1; py := y0 |}; {| px := x1; py := y1 |}; {| px := x0; py := y1 |};
   {| px := x0; py := y0 |}].
Lemma c37_rectangle_l x0 x1 y0 y1 p : (x0 < x1)%Q -> (y0 < y1)%Q ->
  (inLand p (rect x0 x1 y0 y1) = true <-> (x0 <= px p /\ px p < x1)%Q /\ (y0 <= py p /\ py p < y1)%Q) /\
  (cnPnPoly p (rect x0 x1 y0 y1) = true <-> (x0 <= px p /\ px p < x1)%Q /\ (y0 <= py p /\ py p < y1)%Q).
Proof.
  intros X Y. unfold rect.
  set (A := {| px := x0; py := y0 |}). set (B := {| px := x1; py := y0 |}).
  set (C := {| px := x1; py := y1 |}). set (D := {| px := x0; py := y1 |}).
  assert (I1 : (isLeft A B p == (x1 - x0) * (py p - y0))%Q) by (unfold isLeft; cbn; ring).
  assert (I2 : (isLeft B C p == (x1 - px p) * (y1 - y0))%Q) by (unfold isLeft; cbn; ring).
  assert (I3 : (isLeft C D p == (x1 - x0) * (y1 - py p))%Q) by (unfold isLeft; cbn; ring).
  assert (I4 : (isLeft D A p == (px p - x0) * (y1 - y0))%Q) by (unfold isLeft; cbn; ring).
  assert (HX : (0 < x1 - x0)%Q) by lra. assert (HY : (0 < y1 - y0)%Q) by lra.
  pose proof (pos_mul (py p - y0) (x1 - x0) HX) as P1.
  pose proof (pos_mul (x1 - px p) (y1 - y0) HY) as P2.
  pose proof (pos_mul (px p - x0) (y1 - y0) HY) as P4.
  rewrite (Qmult_comm (py p - y0)) in P1. rewrite <- I1 in P1. rewrite <- I2 in P2. rewrite <- I4 in P4.
  unfold inLand, cnPnPoly, wnPnPoly. rewrite cn_count, wn_sum. cbn [edges].
  unfold count; cbn [filter map fold_right]. rewrite !cnEdge_alt. unfold up, down, sideL, sideR, low, wnEdge; cbn [fst snd].
  change (py A) with y0. change (py B) with y0. change (py C) with y1. change (py D) with y1.
  assert (L : qlt (py p) y1 = negb (Qle_bool y1 (py p)) /\ qlt (py p) y0 = negb (Qle_bool y0 (py p))) by (split; reflexivity).
  destruct L as [L1 L0]. rewrite L1, L0.
  destruct (Qle_bool y0 (py p)) eqn:E0; [apply Qle_bool_iff in E0|
    assert (E0' : (py p < y0)%Q) by (apply qlt_iff; now rewrite L0)];
    destruct (Qle_bool y1 (py p)) eqn:E1; try apply Qle_bool_iff in E1;
    try (assert (E1' : (py p < y1)%Q) by (apply qlt_iff; now rewrite L1)); cbn.
  - destruct (qlt (isLeft A B p) 0), (qlt (isLeft B C p) 0), (qlt (isLeft C D p) 0), (qlt (isLeft D A p) 0); cbn;
      split; split; intros H; try discriminate; lra.
  - assert (Z1 : qlt (isLeft A B p) 0 = false) by (apply qlt_false_iff; apply P1; lra).
    rewrite Z1.
    destruct P2 as (P21 & P22 & P23 & P24). destruct P4 as (P41 & P42 & P43 & P44).
    destruct (qlt 0 (isLeft B C p)) eqn:Z2; [apply qlt_iff, P21 in Z2|apply qlt_false_iff, P24 in Z2];
    (destruct (qlt (isLeft D A p) 0) eqn:Z4; [apply qlt_iff, P42 in Z4|apply qlt_false_iff, P43 in Z4]); cbn;
      split; split; intros H; try discriminate; try reflexivity; lra.
  - exfalso. lra.
  - split; split; intros H; try discriminate; lra.
Qed.
