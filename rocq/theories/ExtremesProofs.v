From Verif Require Import Base TileModel TileProofs ExtremesModel ExtremesSpec.
From Coq Require Import QArith Qround.
Open Scope Z_scope.
Ltac Zify.zify_post_hook ::= Z.div_mod_to_equations.

(** ** Truncation *)
Lemma quot_mono n1 n2 d1 d2 : 0 < d1 -> 0 < d2 -> n1 * d2 <= n2 * d1 ->
  Z.quot n1 d1 <= Z.quot n2 d2.
Proof.
  intros H1 H2 H.
  destruct (Z_lt_le_dec n1 0) as [Hn|Hn].
  - destruct (Z_lt_le_dec n2 0) as [Hm|Hm].
    + rewrite <- (Z.opp_involutive n1), <- (Z.opp_involutive n2).
      rewrite (Z.quot_opp_l (- n1)), (Z.quot_opp_l (- n2)) by lia.
      rewrite !Z.quot_div_nonneg by lia.
      enough ((- n2) / d2 <= (- n1) / d1) by lia.
      apply Z.div_le_lower_bound; [lia|].
      pose proof (Z.mul_div_le (- n2) d2 H2). nia.
    + transitivity 0.
      * rewrite <- (Z.opp_involutive n1), Z.quot_opp_l by lia.
        pose proof (Z.quot_pos (- n1) d1 ltac:(lia) H1). lia.
      * apply Z.quot_pos; lia.
  - assert (0 <= n2) by nia.
    rewrite !Z.quot_div_nonneg by lia.
    apply Z.div_le_lower_bound; [lia|].
    pose proof (Z.mul_div_le n1 d1 H1). nia.
Qed.
Lemma qint_mono x y : (x <= y)%Q -> qint x <= qint y.
Proof. unfold Qle, qint. intros H. apply quot_mono; lia. Qed.
Lemma qint_eq x y : (x == y)%Q -> qint x = qint y.
Proof.
  intros H. apply Z.le_antisymm; apply qint_mono; rewrite H; apply Qle_refl.
Qed.
Lemma qint_Z z : qint (inject_Z z) = z.
Proof. unfold qint; simpl. apply Z.quot_1_r. Qed.
Lemma qint_is x z : (x == inject_Z z)%Q -> qint x = z.
Proof. intros H. rewrite (qint_eq _ _ H). apply qint_Z. Qed.
Lemma mul100 x y : (x <= y -> 100 * x <= 100 * y)%Q.
Proof. intros H. apply Qmult_le_l; [reflexivity|exact H]. Qed.

Lemma quot_div a s : 0 <= a -> 0 < s -> Z.quot a s = a / s.
Proof. intros. apply Z.quot_div_nonneg; lia. Qed.

(** ** One grid point *)
Lemma Qle_bool_false x y : Qle_bool x y = false -> (y < x)%Q.
Proof.
  intros H. apply Qnot_le_lt. intros C. apply Qle_bool_iff in C. congruence.
Qed.
Ltac qb :=
  repeat match goal with
  | H : Qle_bool _ _ = true |- _ => apply Qle_bool_iff in H
  | H : Qle_bool _ _ = false |- _ => apply Qle_bool_false in H
  end.

Definition fold_cells (env : Q) (vals : list cell) := fold_left upd_cell vals (zero_cell env).

Lemma swath_fold env vals : swath_of env vals (fold_cells env vals).
Proof.
  unfold fold_cells. induction vals as [|x vals IH] using rev_ind.
  - split; [right|split; [now left|split]]; cbn; try easy. apply Qle_refl.
  - rewrite fold_left_app. cbn [fold_left]. set (r := fold_left upd_cell vals (zero_cell env)) in *.
    destruct IH as [Hg [Hp1 [Hp2 Hp3]]]. split.
    + unfold upd_cell. destruct (Qle_bool (g x) (g r)) eqn:E; cbn; qb.
      * destruct Hg as [(pre & m & post & -> & H0 & H1 & H2 & Hgr & Hrest)|(H0 & Hgr & Hrest)].
        -- left. exists pre, m, (post ++ [x]). rewrite <- app_assoc. split; [reflexivity|].
           split; [exact H0|]. split; [exact H1|]. split; [|tauto].
           intros c Hc. apply in_app_iff in Hc as [Hc|[<-|[]]]; [auto|]. rewrite <- Hgr. exact E.
        -- right. split; [|tauto]. intros c Hc. apply in_app_iff in Hc as [Hc|[<-|[]]]; [auto|].
           rewrite Hgr in E. exact E.
      * left. exists vals, x, []. split; [reflexivity|].
        destruct Hg as [(pre & m & post & -> & H0 & H1 & H2 & Hgr & Hrest)|(H0 & Hgr & Hrest)].
        -- rewrite Hgr in E. split; [eapply Qlt_trans; eauto|]. split; [|easy].
           intros c Hc. apply in_app_iff in Hc as [Hc|[<-|Hc]].
           ++ eapply Qlt_trans; [apply H1, Hc|exact E].
           ++ exact E.
           ++ eapply Qle_lt_trans; [apply H2, Hc|exact E].
        -- rewrite Hgr in E. split; [exact E|]. split; [|easy].
           intros c Hc. eapply Qle_lt_trans; [apply H0, Hc|exact E].
    + unfold upd_cell. cbn. destruct (Qle_bool (p r) (p x)) eqn:E; cbn; qb.
      * split; [destruct Hp1 as [->|(c & Hc & ->)]; [now left|right; exists c; rewrite in_app_iff; auto]|].
        split; [exact Hp2|]. intros c Hc. apply in_app_iff in Hc as [Hc|[<-|[]]]; auto.
      * split; [right; exists x; rewrite in_app_iff; cbn; auto|].
        split; [apply Qlt_le_weak; eapply Qlt_le_trans; eauto|].
        intros c Hc. apply in_app_iff in Hc as [Hc|[<-|[]]]; [|apply Qle_refl].
        apply Qlt_le_weak. eapply Qlt_le_trans; eauto.
Qed.

(** ** Windows *)
Section Windows.
  Variables (lo hi margin res : Q).
  Let ax := mk_axis lo hi margin res.
  Let m := qint (100 * margin).
  Let s := qint (100 * res).
  Hypothesis s_pos : 0 < s.
  Hypothesis m_nn : 0 <= m.
  Variable x : Q.
  Hypothesis x_in : (lo <= x <= hi)%Q.
  Let c := qint (100 * x).

  Lemma c_bounds : amin ax + m <= c <= amax ax - m.
  Proof.
    cbn. fold m. unfold c. destruct x_in as [H1 H2].
    apply mul100, qint_mono in H1. apply mul100, qint_mono in H2. lia.
  Qed.

  Lemma win_bounded : axis_win Bounded ax c = ((c - amin ax - m) / s, (c - amin ax + m) / s + 1).
  Proof.
    pose proof c_bounds. unfold axis_win. cbn [amargin astep ax mk_axis]. fold m s.
    rewrite !quot_div by lia. reflexivity.
  Qed.

  Lemma win_in_grid :
    0 <= (c - amin ax - m) / s /\ (c - amin ax + m) / s + 1 <= axis_len ax.
  Proof.
    pose proof c_bounds as Hc. split; [apply Z.div_pos; lia|].
    unfold axis_len, arange_len. cbn [astep ax mk_axis]. fold s. fold ax.
    pose proof (zceil_spec (amax ax + s - amin ax) s s_pos) as Hz.
    assert (s * ((c - amin ax + m) / s) <= c - amin ax + m) by (apply Z.mul_div_le; lia).
    nia.
  Qed.

  Lemma win_bounded_clip :
    clip (axis_win Bounded ax c) (axis_len ax) = ((c - amin ax - m) / s, (c - amin ax + m) / s + 1).
  Proof.
    rewrite win_bounded. unfold clip; cbn [fst snd]. f_equal.
    pose proof win_in_grid. lia.
  Qed.

  Lemma win_covers k : (c - amin ax - m) / s <= k < (c - amin ax + m) / s + 1 <->
    reaches c m s (axis_coord ax k).
  Proof.
    unfold reaches, axis_coord. cbn [astep ax mk_axis]. fold s ax.
    clearbody s m c ax.
    split.
    - intros [H1 H2].
      assert (s * ((c - amin ax - m) / s) <= c - amin ax - m < s * ((c - amin ax - m) / s) + s) by nia.
      assert (s * ((c - amin ax + m) / s) <= c - amin ax + m) by (apply Z.mul_div_le; lia).
      nia.
    - intros [H1 H2].
      assert (s * ((c - amin ax - m) / s) <= c - amin ax - m < s * ((c - amin ax - m) / s) + s) by nia.
      assert (c - amin ax + m < s * ((c - amin ax + m) / s) + s) by nia.
      split; [|]; nia.
  Qed.

  Lemma win_local k : local_index c m s (axis_coord ax k) (k - (c - amin ax - m) / s).
  Proof.
    unfold local_index, axis_coord. cbn [astep ax mk_axis]. fold s ax. clearbody s m c ax.
    assert (s * ((c - amin ax - m) / s) <= c - amin ax - m < s * ((c - amin ax - m) / s) + s) by nia.
    nia.
  Qed.
End Windows.

Lemma in_region_iff xMin xMax yMin yMax lon lat :
  in_region xMin xMax yMin yMax (lon, lat) = true <->
  (xMin <= lon <= xMax)%Q /\ (yMin <= lat <= yMax)%Q.
Proof.
  unfold in_region; cbn. rewrite !andb_true_iff, !Qle_bool_iff. tauto.
Qed.

Section Run.
  Variables (xMin xMax yMin yMax margin res : Q).
  Let m := qint (100 * margin).
  Let s := qint (100 * res).
  Hypothesis s_pos : 0 < s.
  Hypothesis m_nn : 0 <= m.
  Let axlon := mk_axis xMin xMax margin res.
  Let axlat := mk_axis yMin yMax margin res.
  Let mk d := fun pf : (Q * Q) * (Z -> Z -> cell) =>
    (fst pf, local_of d xMin xMax yMin yMax margin res (fst pf) (snd pf)).

  Lemma run_bounded track : forall a0 a j i,
    run_steps Bounded xMin xMax yMin yMax axlon axlat (map (mk Bounded) track) a0 = inl a ->
    exists vals,
      values_at xMin xMax yMin yMax m s (axis_coord axlat j) (axis_coord axlon i) track vals /\
      a j i = fold_left upd_cell vals (a0 j i).
  Proof.
    induction track as [|[[lon lat] f] track IH]; intros a0 a j i; cbn [map run_steps].
    - intros [= ->]. exists []. split; [constructor|reflexivity].
    - unfold mk at 1; cbn [fst snd].
      destruct (in_region _ _ _ _ _) eqn:E.
      + apply in_region_iff in E as [E1 E2].
        change axlat with (mk_axis yMin yMax margin res) at 1 2. change axlon with (mk_axis xMin xMax margin res) at 1 2.
        rewrite (win_bounded_clip yMin yMax margin res s_pos m_nn lat E2).
        rewrite (win_bounded_clip xMin xMax margin res s_pos m_nn lon E1).
        fold axlon axlat m s.
        destruct (_ && _); [|discriminate].
        intros H. destruct (IH _ _ j i H) as (vals & Hv & Ha). clear IH H.
        pose proof (win_covers yMin yMax margin res s_pos lat j) as Hj.
        pose proof (win_covers xMin xMax margin res s_pos lon i) as Hi.
        pose proof (win_local yMin yMax margin res s_pos lat j) as Lj.
        pose proof (win_local xMin xMax margin res s_pos lon i) as Li.
        fold axlon axlat m s in Hj, Hi, Lj, Li.
        unfold upd_grid in Ha.
        destruct ((_ <=? j) && _ && _ && _) eqn:B.
        * eexists. split; [eapply VA_take; try eassumption|].
          -- apply Hj. lia.
          -- apply Hi. lia.
          -- exact Ha.
        * exists vals. split; [|exact Ha]. apply VA_skip; [|exact Hv].
          intros (_ & _ & R1 & R2). apply Hj in R1. apply Hi in R2. lia.
      + intros H. destruct (IH _ _ j i H) as (vals & Hv & Ha).
        exists vals. split; [|exact Ha]. apply VA_skip; [|exact Hv].
        intros (R1 & R2 & _). rewrite (proj2 (in_region_iff _ _ _ _ _ _)) in E; [discriminate|tauto].
  Qed.

  Lemma run_full track : forall a0 a j i,
    0 <= j < axis_len axlat -> 0 <= i < axis_len axlon ->
    run_steps Full xMin xMax yMin yMax axlon axlat (map (mk Full) track) a0 = inl a ->
    snd (axis_win Full axlat 0) >= axis_len axlat -> snd (axis_win Full axlon 0) >= axis_len axlon ->
    exists vals, values_full xMin xMax yMin yMax j i track vals /\
      a j i = fold_left upd_cell vals (a0 j i).
  Proof.
    intros a0 a j i Hj Hi H W1 W2. revert a0 H.
    induction track as [|[[lon lat] f] track IH]; intros a0; cbn [map run_steps].
    - intros [= ->]. exists []. split; [constructor|reflexivity].
    - unfold mk at 1; cbn [fst snd].
      destruct (in_region _ _ _ _ _) eqn:E.
      + apply in_region_iff in E as [E1 E2].
        unfold clip. change (fst (axis_win Full axlat _)) with 0.
        change (fst (axis_win Full axlon _)) with 0.
        change (snd (axis_win Full axlat _)) with (snd (axis_win Full axlat 0)).
        change (snd (axis_win Full axlon _)) with (snd (axis_win Full axlon 0)).
        destruct (_ && _); [|discriminate].
        intros H. destruct (IH _ H) as (vals & Hv & Ha). clear IH H.
        exists (f j i :: vals). split; [now apply VF_take|].
        rewrite Ha. unfold upd_grid.
        replace ((0 <=? j) && (j <? _) && (0 <=? i) && (i <? _)) with true by lia.
        cbn [fold_left local_of val]. now rewrite !Z.sub_0_r.
      + intros H. destruct (IH _ H) as (vals & Hv & Ha).
        exists vals. split; [|exact Ha]. apply VF_skip; [|exact Hv].
        intros (R1 & R2). rewrite (proj2 (in_region_iff _ _ _ _ _ _)) in E; [discriminate|tauto].
  Qed.
End Run.

Lemma c07_bounded_l xMin xMax yMin yMax margin res env track a :
  0 <= qint (100 * margin) -> 0 < qint (100 * res) ->
  regionalExtremes Bounded xMin xMax yMin yMax margin res env track = inl a ->
  forall j i, exists vals,
    values_at xMin xMax yMin yMax (qint (100 * margin)) (qint (100 * res))
      (qint (100 * yMin) - qint (100 * margin) + j * qint (100 * res))
      (qint (100 * xMin) - qint (100 * margin) + i * qint (100 * res)) track vals /\
    swath_of env vals (a j i).
Proof.
  intros Hm Hs H j i. unfold regionalExtremes in H.
  destruct (_ =? 0) eqn:E; [discriminate|].
  destruct (run_bounded xMin xMax yMin yMax margin res Hs Hm track _ _ j i H) as (vals & Hv & Ha).
  exists vals. split; [exact Hv|]. rewrite Ha. apply swath_fold.
Qed.

Lemma full_win_enough lo hi margin res :
  0 < qint (100 * res) -> qint (100 * res) <= 2 * qint (100 * margin) -> (lo <= hi)%Q ->
  snd (axis_win Full (mk_axis lo hi margin res) 0) >= axis_len (mk_axis lo hi margin res).
Proof.
  intros Hs Hm Hlh. apply mul100, qint_mono in Hlh.
  unfold axis_len, axis_win, arange_len. cbn [snd astep amin amax amargin mk_axis].
  set (m := qint (100 * margin)) in *. set (s := qint (100 * res)) in *.
  set (l := qint (100 * lo)) in *. set (h := qint (100 * hi)) in *.
  rewrite quot_div by lia.
  pose proof (zceil_spec (h + m + s - (l - m)) s Hs).
  assert (h + m - (l - m) + 2 * m < s * ((h + m - (l - m) + 2 * m) / s) + s) by nia.
  clearbody m s l h. nia.
Qed.

Lemma c07_full_l xMin xMax yMin yMax margin res env track a :
  0 < qint (100 * res) -> qint (100 * res) <= 2 * qint (100 * margin) ->
  (xMin <= xMax)%Q -> (yMin <= yMax)%Q ->
  regionalExtremes Full xMin xMax yMin yMax margin res env track = inl a ->
  forall j i,
    0 <= j -> qint (100 * yMin) - qint (100 * margin) + j * qint (100 * res) <= qint (100 * yMax) + qint (100 * margin) ->
    0 <= i -> qint (100 * xMin) - qint (100 * margin) + i * qint (100 * res) <= qint (100 * xMax) + qint (100 * margin) ->
    exists vals,
    values_full xMin xMax yMin yMax j i track vals /\ swath_of env vals (a j i).
Proof.
  intros Hs Hm Hx Hy H j i J1 J2 I1 I2. unfold regionalExtremes in H.
  destruct (_ =? 0) eqn:E; [discriminate|].
  assert (B : forall lo hi k, 0 <= k ->
    qint (100 * lo) - qint (100 * margin) + k * qint (100 * res) <= qint (100 * hi) + qint (100 * margin) ->
    0 <= k < axis_len (mk_axis lo hi margin res)).
  { intros lo hi k K1 K2. split; [exact K1|].
    unfold axis_len, arange_len. cbn [astep amin amax mk_axis].
    pose proof (zceil_spec (qint (100 * hi) + qint (100 * margin) + qint (100 * res) - (qint (100 * lo) - qint (100 * margin))) _ Hs).
    nia. }
  destruct (run_full xMin xMax yMin yMax margin res track _ _ j i
              (B _ _ _ J1 J2) (B _ _ _ I1 I2) H
              (full_win_enough _ _ _ _ Hs Hm Hy) (full_win_enough _ _ _ _ Hs Hm Hx)) as (vals & Hv & Ha).
  exists vals. split; [exact Hv|]. rewrite Ha. apply swath_fold.
Qed.

(** Components agree with the gust. *)
Lemma c07_components_l env vals r :
  (forall c, In c vals -> (g c * g c == u c * u c + v c * v c)%Q) ->
  swath_of env vals r -> (g r * g r == u r * u r + v r * v r)%Q.
Proof.
  intros H [[(pre & m & post & -> & _ & _ & _ & -> & _ & -> & ->)|(_ & -> & _ & -> & ->)] _].
  - apply H. apply in_app_iff. cbn; auto.
  - reflexivity.
Qed.

(** ** C58 *)
Lemma div_exact_window a m s q : 0 < s -> 2 * m = q * s -> (a + 2 * m) / s = a / s + q.
Proof. intros Hs ->. now rewrite Z.div_add by lia. Qed.

Lemma makeGrid_len_bounded c margin res : 0 < qint (res * 1000) -> 0 <= qint (1000 * margin) ->
  makeGrid_len c margin res None = (2 * qint (1000 * margin)) / qint (res * 1000) + 1.
Proof.
  intros Hs Hm. unfold makeGrid_len, arange_len. set (M := qint (1000 * margin)) in *.
  set (G := qint (res * 1000)) in *. set (C := qint (1000 * c)).
  pose proof (zceil_spec (C + M + 1 - (C - M)) G Hs) as Hz.
  assert (G * (2 * M / G) <= 2 * M < G * (2 * M / G) + G) by nia.
  set (z := zceil _ _) in *. set (q := 2 * M / G) in *. clearbody z q. nia.
Qed.

Lemma axis_fit lo hi margin res m s x :
  (margin == inject_Z m / 100)%Q -> (res == inject_Z s / 100)%Q -> 0 <= m -> 0 < s -> (2 * m) mod s = 0 ->
  (lo <= x <= hi)%Q ->
  let '(a, z) := axis_win Bounded (mk_axis lo hi margin res) (qint (100 * x)) in
  0 <= a /\ z <= axis_len (mk_axis lo hi margin res) /\ z - a = makeGrid_len x margin res None.
Proof.
  intros Em Es Hm Hs Hd Hx.
  assert (m100 : qint (100 * margin) = m) by (apply qint_is; rewrite Em; field).
  assert (s100 : qint (100 * res) = s) by (apply qint_is; rewrite Es; field).
  assert (m1000 : qint (1000 * margin) = 10 * m).
  { apply qint_is. rewrite Em. rewrite inject_Z_mult. change (inject_Z 10) with 10%Q. field. }
  assert (s1000 : qint (res * 1000) = 10 * s).
  { apply qint_is. rewrite Es. rewrite inject_Z_mult. change (inject_Z 10) with 10%Q. field. }
  rewrite win_bounded by (rewrite ?m100, ?s100; lia || exact Hx).
  pose proof (win_in_grid lo hi margin res) as W. rewrite m100, s100 in *.
  specialize (W Hs Hm x Hx). destruct W as [W1 W2].
  split; [exact W1|]. split; [exact W2|].
  rewrite makeGrid_len_bounded by (rewrite ?m1000, ?s1000; lia). rewrite m1000, s1000.
  set (A := qint (100 * x) - amin (mk_axis lo hi margin res) - m).
  replace (qint (100 * x) - amin (mk_axis lo hi margin res) + m) with (A + 2 * m) by lia.
  apply Z.div_exact in Hd; [|lia]. rewrite (div_exact_window A m s (2 * m / s)) by lia.
  replace (2 * (10 * m)) with (10 * (2 * m)) by lia.
  rewrite Z.div_mul_cancel_l by lia. lia.
Qed.

Lemma c58_no_error_l xMin xMax yMin yMax margin res env track m s :
  (margin == inject_Z m / 100)%Q -> (res == inject_Z s / 100)%Q -> 0 <= m -> 0 < s -> (2 * m) mod s = 0 ->
  exists a, regionalExtremes Bounded xMin xMax yMin yMax margin res env track = inl a.
Proof.
  intros Em Es Hm Hs Hd. unfold regionalExtremes.
  assert (s100 : qint (100 * res) = s) by (apply qint_is; rewrite Es; field).
  rewrite s100. replace (s =? 0) with false by lia.
  generalize (fun _ _ : Z => zero_cell env).
  induction track as [|[[lon lat] f] track IH]; intros a0; cbn [map run_steps fst snd].
  - eauto.
  - destruct (in_region _ _ _ _ _) eqn:E; [|apply IH].
    apply in_region_iff in E as [E1 E2].
    pose proof (axis_fit yMin yMax margin res m s lat Em Es Hm Hs Hd E2) as F2.
    pose proof (axis_fit xMin xMax margin res m s lon Em Es Hm Hs Hd E1) as F1.
    destruct (axis_win _ _ (qint (100 * lat))) as [a z] eqn:A2.
    destruct (axis_win _ _ (qint (100 * lon))) as [a' z'] eqn:A1.
    destruct F1 as (B1 & B2 & B3). destruct F2 as (C1 & C2 & C3).
    cbn [clip fst snd local_of rows cols].
    rewrite !Z.min_l by assumption. rewrite C3, B3, !Z.eqb_refl. cbn [andb]. apply IH.
Qed.

(** When the step does not divide twice the margin, some position in any region wider than one
    step makes the shapes differ. *)
Lemma c58_mismatch_l m s lo w :
  0 <= m -> 0 < s -> (2 * m) mod s <> 0 -> s <= w ->
  exists c, lo <= c <= lo + w /\
   let x := (inject_Z c / 100)%Q in
   let ax := mk_axis (inject_Z lo / 100) (inject_Z (lo + w) / 100) (inject_Z m / 100) (inject_Z s / 100) in
   let '(a, z) := axis_win Bounded ax (qint (100 * x)) in
   z - a = makeGrid_len x (inject_Z m / 100) (inject_Z s / 100) None + 1.
Proof.
  intros Hm Hs Hd Hw.
  assert (E100 : forall z, qint (100 * (inject_Z z / 100)) = z) by (intros z; apply qint_is; field).
  assert (E1000 : forall z, qint (1000 * (inject_Z z / 100)) = 10 * z).
  { intros z. apply qint_is. rewrite inject_Z_mult. change (inject_Z 10) with 10%Q. field. }
  assert (E1000' : forall z, qint ((inject_Z z / 100) * 1000) = 10 * z).
  { intros z. apply qint_is. rewrite inject_Z_mult. change (inject_Z 10) with 10%Q. field. }
  assert (HIle : forall a c, a <= c -> (inject_Z a / 100 <= inject_Z c / 100)%Q).
  { intros a c H. unfold Qdiv. apply Qmult_le_compat_r; [|discriminate]. now rewrite <- Zle_Qle. }
  exists (lo + (s - 1)). split; [lia|]. cbn zeta.
  rewrite win_bounded.
  2:{ rewrite E100. lia. } 2:{ rewrite E100; lia. } 2:{ split; apply HIle; lia. }
  rewrite makeGrid_len_bounded by (rewrite ?E1000, ?E1000'; lia).
  rewrite E1000, E1000', !E100. cbn [amin mk_axis]. rewrite !E100.
  replace (2 * (10 * m)) with (10 * (2 * m)) by lia.
  rewrite Z.div_mul_cancel_l by lia.
  replace (lo + (s - 1) - (lo - m) - m) with (s - 1) by lia.
  replace (lo + (s - 1) - (lo - m) + m) with (2 * m + (s - 1)) by lia.
  rewrite (Z.div_small (s - 1)) by lia.
  pose proof (Z.div_mod (2 * m) s ltac:(lia)) as HD.
  pose proof (Z.mod_pos_bound (2 * m) s Hs) as HB.
  set (q := 2 * m / s) in *. set (r := (2 * m) mod s) in *.
  assert (D : (2 * m + (s - 1)) / s = q + 1).
  { symmetry. apply Z.div_unique with (r := r - 1); lia. }
  rewrite D. lia.
Qed.

(** ** C08 *)
Lemma comb_u_v l : forall c, u (fold_left comb_cell l c) = u c /\ v (fold_left comb_cell l c) = v c /\
  b (fold_left comb_cell l c) = b c.
Proof.
  induction l as [|x l IH]; intros c; [auto|]. cbn [fold_left].
  destruct (IH (comb_cell c x)) as (-> & -> & ->). unfold comb_cell; cbn.
  assert (H : Qle_bool (g x) (if negb (Qle_bool (g x) (g c)) then g x else g c) = true).
  { destruct (Qle_bool (g x) (g c)) eqn:E; cbn; [exact E|]. apply Qle_bool_iff, Qle_refl. }
  now rewrite H.
Qed.
Lemma c08_gust_l l r : combine_tracks l = Some r -> strongest_gust l r.
Proof.
  destruct l as [|c l]; [discriminate|]. intros [= <-].
  unfold strongest_gust. revert c. induction l as [|x l IH] using rev_ind; intros c.
  - cbn. repeat split; try (exists c; auto); intros d [<-|[]]; apply Qle_refl.
  - rewrite fold_left_app. cbn [fold_left]. destruct (IH c) as ((m & Hm & Em) & Hmax & (n & Hn & En) & Hmin).
    set (r := fold_left comb_cell l c) in *.
    assert (Hin : forall d, In d (c :: l ++ [x]) <-> In d (c :: l) \/ d = x).
    { intros d. cbn. rewrite in_app_iff. cbn. intuition. }
    unfold comb_cell. cbn [g p]. split; [|split; [|split]].
    + destruct (Qle_bool (g x) (g r)) eqn:E; cbn.
      * exists m. rewrite in_app_iff. cbn in Hm. tauto.
      * exists x. rewrite in_app_iff. cbn. tauto.
    + intros d Hd. apply Hin in Hd. destruct (Qle_bool (g x) (g r)) eqn:E; cbn; qb.
      * destruct Hd as [Hd| ->]; auto.
      * destruct Hd as [Hd| ->]; [|apply Qle_refl]. apply Qlt_le_weak. eapply Qle_lt_trans; eauto.
    + destruct (Qle_bool (p r) (p x)) eqn:E; cbn.
      * exists n. rewrite in_app_iff. cbn in Hn. tauto.
      * exists x. rewrite in_app_iff. cbn. tauto.
    + intros d Hd. apply Hin in Hd. destruct (Qle_bool (p r) (p x)) eqn:E; cbn; qb.
      * destruct Hd as [Hd| ->]; auto.
      * destruct Hd as [Hd| ->]; [|apply Qle_refl]. apply Qlt_le_weak. eapply Qlt_le_trans; eauto.
Qed.
Lemma c08_first_l c l r : combine_tracks (c :: l) = Some r -> u r = u c /\ v r = v c /\ b r = b c.
Proof. intros [= <-]. apply comb_u_v. Qed.

Lemma axis_fit_full lo hi margin res m s L H x :
  (margin == inject_Z m / 100)%Q -> (res == inject_Z s / 100)%Q ->
  (lo == inject_Z L / 100)%Q -> (hi == inject_Z H / 100)%Q ->
  0 <= m -> 0 < s -> L <= H -> L <> 0 -> H <> 0 -> (H - L + 2 * m) mod s = 0 ->
  let '(a, z) := clip (axis_win Full (mk_axis lo hi margin res) (qint (100 * x)))
                   (axis_len (mk_axis lo hi margin res)) in
  z - a = makeGrid_len x margin res (Some (lo, hi)).
Proof.
  intros Em Es El Eh Hm Hs Hlh Hl0 Hh0 Hd.
  assert (K : forall q z, (q == inject_Z z / 100)%Q -> qint (100 * q) = z)
    by (intros q z E; apply qint_is; rewrite E; field).
  assert (K1 : forall q z, (q == inject_Z z / 100)%Q -> qint (1000 * q) = 10 * z).
  { intros q z E; apply qint_is. rewrite E, inject_Z_mult. change (inject_Z 10) with 10%Q. field. }
  assert (K2 : qint (res * 1000) = 10 * s).
  { apply qint_is. rewrite Es, inject_Z_mult. change (inject_Z 10) with 10%Q. field. }
  assert (T : forall q z, (q == inject_Z z / 100)%Q -> z <> 0 -> truthy q = true).
  { intros q z Hq Hz. unfold truthy. destruct (Qeq_bool q 0) eqn:E; [|reflexivity].
    apply Qeq_bool_iff in E. exfalso. apply Hz.
    rewrite <- (K q z Hq). rewrite (qint_eq (100 * q) 0) by (rewrite E; reflexivity). reflexivity. }
  unfold clip, axis_win, axis_len, makeGrid_len, arange_len.
  cbn [fst snd amin amax astep amargin mk_axis].
  rewrite (T _ _ El Hl0), (T _ _ Eh Hh0).
  rewrite (K _ _ Em), (K _ _ Es), (K _ _ El), (K _ _ Eh), (K1 _ _ Em), (K1 _ _ El), (K1 _ _ Eh), K2.
  apply Z.div_exact in Hd; [|lia]. set (q := (H - L + 2 * m) / s) in *.
  rewrite quot_div by lia.
  pose proof (zceil_spec (H + m + s - (L - m)) s Hs) as Z1.
  pose proof (zceil_spec (10 * H + 10 * m + 1 - (10 * L - 10 * m)) (10 * s) ltac:(lia)) as Z2.
  set (z1 := zceil (H + m + s - (L - m)) s) in *. set (z2 := zceil _ (10 * s)) in *.
  assert (H + m - (L - m) + 2 * m < s * ((H + m - (L - m) + 2 * m) / s) + s) by nia.
  set (w := (H + m - (L - m) + 2 * m) / s) in *.
  clearbody z1 z2 w q.
  assert (z1 = q + 1) by nia. assert (z2 = q + 1) by nia. assert (q < w + 1) by nia.
  assert (0 <= q) by nia. lia.
Qed.

Lemma c58_full_no_error_l xMin xMax yMin yMax margin res env track m s X1 X2 Y1 Y2 :
  (margin == inject_Z m / 100)%Q -> (res == inject_Z s / 100)%Q ->
  (xMin == inject_Z X1 / 100)%Q -> (xMax == inject_Z X2 / 100)%Q ->
  (yMin == inject_Z Y1 / 100)%Q -> (yMax == inject_Z Y2 / 100)%Q ->
  0 <= m -> 0 < s -> X1 <= X2 -> Y1 <= Y2 ->
  X1 <> 0 -> X2 <> 0 -> Y1 <> 0 -> Y2 <> 0 ->
  (X2 - X1 + 2 * m) mod s = 0 -> (Y2 - Y1 + 2 * m) mod s = 0 ->
  exists a, regionalExtremes Full xMin xMax yMin yMax margin res env track = inl a.
Proof.
  intros Em Es EX1 EX2 EY1 EY2 Hm Hs HX HY NX1 NX2 NY1 NY2 DX DY. unfold regionalExtremes.
  assert (s100 : qint (100 * res) = s) by (apply qint_is; rewrite Es; field).
  rewrite s100. replace (s =? 0) with false by lia.
  generalize (fun _ _ : Z => zero_cell env).
  induction track as [|[[lon lat] f] track IH]; intros a0; cbn [map run_steps fst snd].
  - eauto.
  - destruct (in_region _ _ _ _ _) eqn:E; [|apply IH].
    pose proof (axis_fit_full yMin yMax margin res m s Y1 Y2 lat Em Es EY1 EY2 Hm Hs HY NY1 NY2 DY) as F2.
    pose proof (axis_fit_full xMin xMax margin res m s X1 X2 lon Em Es EX1 EX2 Hm Hs HX NX1 NX2 DX) as F1.
    destruct (clip (axis_win Full _ (qint (100 * lat))) _) as [a z] eqn:A2.
    destruct (clip (axis_win Full _ (qint (100 * lon))) _) as [a' z'] eqn:A1.
    cbn [local_of rows cols]. rewrite F2, F1, !Z.eqb_refl. cbn [andb]. apply IH.
Qed.
