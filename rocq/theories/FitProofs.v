From Coq Require Import List Arith ZArith Lia Bool QArith Qabs Qround Lqa Qfield Permutation.
From Verif Require Import CellModel CellProofs SampModel SampProofs GenProofs NumModel NumProofs LmomModel LmomProofs LmomProofs2 FitModel.
Import ListNotations.
Open Scope Q_scope.

(** ** Sorting *)
Lemma insertq_perm a l : Permutation (insertq a l) (a :: l).
Proof.
  induction l as [|b r IH]; cbn [insertq]; [reflexivity|].
  destruct (Qle_bool a b); [reflexivity|]. rewrite IH. apply perm_swap.
Qed.
Lemma sortq_perm l : Permutation (sortq l) l.
Proof. induction l as [|a r IH]; cbn [sortq fold_right]; [reflexivity|]. rewrite insertq_perm. now apply perm_skip. Qed.

Inductive asc : list Q -> Prop :=
| asc_nil : asc [] | asc_cons a l : (forall b, In b l -> a <= b) -> asc l -> asc (a :: l).

Lemma insertq_asc a l : asc l -> asc (insertq a l).
Proof.
  induction l as [|b r IH]; intros H; cbn [insertq].
  - constructor; [intros ? []|constructor].
  - inversion H as [|? ? H1 H2]; subst. destruct (Qle_bool a b) eqn:E.
    + apply Qle_bool_iff in E. constructor; [|exact H].
      intros c [<-|Hc]; [exact E|]. specialize (H1 c Hc). lra.
    + assert (b < a) by (apply Qnot_le_lt; intros C; apply Qle_bool_iff in C; congruence).
      constructor; [|now apply IH]. intros c Hc.
      apply (Permutation_in _ (insertq_perm a r)) in Hc. destruct Hc as [<-|Hc]; [lra|auto].
Qed.
Lemma sortq_asc l : asc (sortq l).
Proof. induction l as [|a r IH]; cbn [sortq fold_right]; [constructor|now apply insertq_asc]. Qed.
Lemma asc_nth l : asc l -> forall i j, (i <= j < length l)%nat -> nth i l 0 <= nth j l 0.
Proof.
  induction 1 as [|a l H1 H2 IH]; intros i j Hij; cbn [length] in *; [lia|].
  destruct i as [|i], j as [|j]; cbn [nth]; try lia; [apply Qle_refl| |apply IH; lia].
  apply H1, nth_In. lia.
Qed.
Lemma asc_app l1 l2 : asc l1 -> asc l2 -> (forall a b, In a l1 -> In b l2 -> a <= b) -> asc (l1 ++ l2).
Proof.
  induction 1 as [|a l H1 H2 IH]; intros A B; cbn [app]; [exact A|]. constructor.
  - intros b Hb. apply in_app_or in Hb as [Hb|Hb]; [auto|]. apply B; [now left|exact Hb].
  - apply IH; auto. intros x y Hx Hy. apply B; [now right|exact Hy].
Qed.
Lemma asc_repeat a k : asc (repeat a k).
Proof. induction k; cbn [repeat]; constructor; auto. intros b Hb. apply repeat_spec in Hb. subst. apply Qle_refl. Qed.

(** ** Interpolation *)
Definition incr (xs : list Q) := forall i j, (i < j < length xs)%nat -> nth i xs 0 < nth j xs 0.

Definition hiOf (xs : list Q) (t : Q) : nat := Nat.min (Nat.max 1 (searchsorted xs t)) (length xs - 1).
Lemma last_nth (l : list Q) d : last l d = nth (length l - 1) l d.
Proof.
  induction l as [|a l IH]; [reflexivity|]. destruct l as [|b l]; [reflexivity|].
  change (last (a :: b :: l) d) with (last (b :: l) d). rewrite IH. cbn [length nth].
  replace (S (S (length l)) - 1)%nat with (S (S (length l) - 1)) by lia. reflexivity.
Qed.

Lemma bracket xs t : (2 <= length xs)%nat -> incr xs -> nth 0 xs 0 <= t -> t <= nth (length xs - 1) xs 0 ->
  let h := hiOf xs t in (1 <= h < length xs)%nat /\ nth (h - 1) xs 0 <= t <= nth h xs 0.
Proof.
  intros H2 I L U. cbv zeta.
  assert (S1 : (searchsorted xs t <= length xs - 1)%nat).
  { pose proof (ss_le xs t). destruct (Nat.eq_dec (searchsorted xs t) (length xs)) as [E|]; [|lia].
    pose proof (ss_below xs t (length xs - 1) ltac:(lia)). lra. }
  unfold hiOf. destruct (searchsorted xs t) as [|k] eqn:E.
  - replace (Nat.min (Nat.max 1 0) (length xs - 1)) with 1%nat by lia. split; [lia|].
    pose proof (ss_at xs t ltac:(lia)) as A. rewrite E in A. cbn [Nat.sub]. split; [exact L|].
    pose proof (I 0%nat 1%nat ltac:(lia)). lra.
  - replace (Nat.min (Nat.max 1 (S k)) (length xs - 1)) with (S k) by lia. split; [lia|].
    pose proof (ss_at xs t ltac:(lia)) as A. rewrite E in A.
    pose proof (ss_below xs t k ltac:(lia)) as B. replace (S k - 1)%nat with k by lia. split; [lra|exact A].
Qed.

Lemma interp_unfold xs ys t : xs <> [] ->
  interp xs ys t = if qlt t (nth 0 xs 0) || qlt (nth (length xs - 1) xs 0) t then None else
    let h := hiOf xs t in
    Some ((nth h ys 0 - nth (h - 1) ys 0) / (nth h xs 0 - nth (h - 1) xs 0) * (t - nth (h - 1) xs 0) + nth (h - 1) ys 0).
Proof. intros N. rewrite <- last_nth. destruct xs as [|x0 r]; [congruence|]. reflexivity. Qed.

Lemma interp_some xs ys t : (2 <= length xs)%nat -> incr xs -> nth 0 xs 0 <= t -> t <= nth (length xs - 1) xs 0 ->
  let h := hiOf xs t in
  interp xs ys t = Some ((nth h ys 0 - nth (h - 1) ys 0) / (nth h xs 0 - nth (h - 1) xs 0) * (t - nth (h - 1) xs 0) + nth (h - 1) ys 0).
Proof.
  intros H2 I L U. rewrite interp_unfold by (intros ->; cbn in H2; lia).
  rewrite (proj2 (qlt_false_iff t _)) by exact L.
  rewrite (proj2 (qlt_false_iff _ t)) by exact U. reflexivity.
Qed.

Lemma interp_none xs ys t : xs <> [] -> (t < nth 0 xs 0 \/ nth (length xs - 1) xs 0 < t) -> interp xs ys t = None.
Proof.
  intros N H. rewrite interp_unfold by exact N. destruct H as [H|H].
  - now rewrite (proj2 (qlt_iff t _)) by exact H.
  - rewrite (proj2 (qlt_iff _ t)) by exact H. now rewrite orb_true_r.
Qed.

Lemma lerp_between a b y1 y2 t : a < b -> a <= t <= b -> y1 <= y2 ->
  y1 <= (y2 - y1) / (b - a) * (t - a) + y1 <= y2.
Proof.
  intros Hab Ht Hy.
  assert (D : 0 <= (t - a) / (b - a) <= 1).
  { split; [apply Qle_shift_div_l|apply Qle_shift_div_r]; lra. }
  assert (E : (y2 - y1) / (b - a) * (t - a) + y1 == (y2 - y1) * ((t - a) / (b - a)) + y1) by (field; lra).
  rewrite E. set (r := (t - a) / (b - a)) in *. clearbody r. nra.
Qed.
Lemma lerp_mono a b y1 y2 t t' : a < b -> t <= t' -> y1 <= y2 ->
  (y2 - y1) / (b - a) * (t - a) + y1 <= (y2 - y1) / (b - a) * (t' - a) + y1.
Proof.
  intros Hab Ht Hy. assert (0 <= (y2 - y1) / (b - a)) by (apply Qle_shift_div_l; lra).
  set (s := (y2 - y1) / (b - a)) in *. clearbody s. nra.
Qed.

Lemma interp_mono xs ys t t' v v' : (2 <= length xs)%nat -> length ys = length xs -> incr xs -> asc ys ->
  t <= t' -> interp xs ys t = Some v -> interp xs ys t' = Some v' -> v <= v'.
Proof.
  intros H2 HL I A Ht E E'.
  assert (NN : xs <> []) by (intros ->; cbn in H2; lia).
  assert (R : forall s w, interp xs ys s = Some w -> nth 0 xs 0 <= s /\ s <= nth (length xs - 1) xs 0).
  { intros s w Ew. split; apply Qnot_lt_le; intros C; rewrite interp_none in Ew; try discriminate; auto. }
  destruct (R _ _ E) as [L U]. destruct (R _ _ E') as [L' U'].
  rewrite interp_some in E, E' by auto. cbv zeta in E, E'. injection E as <-. injection E' as <-.
  destruct (bracket xs t H2 I L U) as [B1 B2]. destruct (bracket xs t' H2 I L' U') as [B1' B2'].
  assert (HH : (hiOf xs t <= hiOf xs t')%nat).
  { unfold hiOf. pose proof (ss_mono xs t t' Ht). lia. }
  set (h := hiOf xs t) in *. set (h' := hiOf xs t') in *. clearbody h h'.
  destruct (Nat.eq_dec h h') as [<-|N].
  - apply lerp_mono; [apply I; lia|exact Ht|apply asc_nth; [exact A|lia]].
  - pose proof (lerp_between (nth (h - 1) xs 0) (nth h xs 0) (nth (h - 1) ys 0) (nth h ys 0) t
      (I (h - 1)%nat h ltac:(lia)) B2 (asc_nth _ A (h - 1)%nat h ltac:(lia))) as P.
    pose proof (lerp_between (nth (h' - 1) xs 0) (nth h' xs 0) (nth (h' - 1) ys 0) (nth h' ys 0) t'
      (I (h' - 1)%nat h' ltac:(lia)) B2' (asc_nth _ A (h' - 1)%nat h' ltac:(lia))) as P'.
    pose proof (asc_nth _ A h (h' - 1) ltac:(lia)). lra.
Qed.

Lemma interp_bounds xs ys t v : (2 <= length xs)%nat -> length ys = length xs -> incr xs -> asc ys ->
  interp xs ys t = Some v -> nth 0 ys 0 <= v <= nth (length xs - 1) ys 0.
Proof.
  intros H2 HL I A E.
  assert (NN : xs <> []) by (intros ->; cbn in H2; lia).
  assert (L : nth 0 xs 0 <= t) by (apply Qnot_lt_le; intros C; rewrite interp_none in E; try discriminate; auto).
  assert (U : t <= nth (length xs - 1) xs 0) by (apply Qnot_lt_le; intros C; rewrite interp_none in E; try discriminate; auto).
  rewrite interp_some in E by auto. cbv zeta in E. injection E as <-.
  destruct (bracket xs t H2 I L U) as [B1 B2]. set (h := hiOf xs t) in *. clearbody h.
  pose proof (lerp_between (nth (h - 1) xs 0) (nth h xs 0) (nth (h - 1) ys 0) (nth h ys 0) t
      (I (h - 1)%nat h ltac:(lia)) B2 (asc_nth _ A (h - 1)%nat h ltac:(lia))) as P.
  pose proof (asc_nth _ A 0 (h - 1) ltac:(lia)). pose proof (asc_nth _ A h (length xs - 1) ltac:(lia)). lra.
Qed.

Lemma interp_knot xs ys i : (2 <= length xs)%nat -> length ys = length xs -> incr xs -> (i < length xs)%nat ->
  exists v, interp xs ys (nth i xs 0) = Some v /\ v == nth i ys 0.
Proof.
  intros H2 HL I Hi.
  assert (M : forall a b, (a <= b < length xs)%nat -> nth a xs 0 <= nth b xs 0).
  { intros a b Hab. destruct (Nat.eq_dec a b) as [->|]; [apply Qle_refl|]. apply Qlt_le_weak, I. lia. }
  assert (L : nth 0 xs 0 <= nth i xs 0) by (apply M; lia).
  assert (U : nth i xs 0 <= nth (length xs - 1) xs 0) by (apply M; lia).
  rewrite interp_some by auto. cbv zeta. eexists. split; [reflexivity|].
  destruct (bracket xs (nth i xs 0) H2 I L U) as [B1 B2]. set (h := hiOf xs (nth i xs 0)) in *. clearbody h.
  assert (D : i = h \/ i = (h - 1)%nat).
  { destruct (Nat.lt_trichotomy i (h - 1)) as [C|[C|C]]; [|lia|].
    - pose proof (I i (h - 1)%nat ltac:(lia)). lra.
    - destruct (Nat.eq_dec i h); [lia|]. pose proof (I h i ltac:(lia)). lra. }
  pose proof (I (h - 1)%nat h ltac:(lia)).
  destruct D as [->| ->]; field; lra.
Qed.

(** ** The empirical curve *)
Lemma days_ge numsim : (1 <= numsim)%Z -> (365 <= empDays numsim)%nat.
Proof.
  intros H. unfold empDays.
  assert (365 <= Qfloor (365.25 * inject_Z numsim))%Z.
  { apply Z.le_trans with (Qfloor 365.25); [vm_compute; discriminate|].
    apply Qfloor_resp_le. assert (inject_Z 1 <= inject_Z numsim) by now rewrite <- Zle_Qle.
    change (inject_Z 1) with 1 in H0. lra. }
  lia.
Qed.
Lemma days_le numsim : (1 <= numsim)%Z -> qn (empDays numsim) <= 365.25 * inject_Z numsim.
Proof.
  intros H. unfold empDays, qn. pose proof (days_ge numsim H) as D. unfold empDays in D.
  rewrite Z2Nat.id by lia. apply Qfloor_le.
Qed.

Lemma empRp_nth numsim i : (i < empDays numsim)%nat ->
  nth i (empRp numsim) 0 = 1 / (1 - qn (S i) / (365.25 * inject_Z numsim + 1)) / 365.25.
Proof.
  intros H. unfold empRp.
  set (f := fun i => _). rewrite (nth_indep _ 0 (f 0%nat)) by (rewrite map_length, seq_length; exact H).
  rewrite map_nth, seq_nth by exact H. reflexivity.
Qed.
Lemma empRp_len numsim : length (empRp numsim) = empDays numsim.
Proof. unfold empRp. now rewrite map_length, seq_length. Qed.

Lemma empRp_incr numsim : (1 <= numsim)%Z -> incr (empRp numsim).
Proof.
  intros H i j Hij. rewrite empRp_len in Hij. rewrite !empRp_nth by lia.
  pose proof (days_le numsim H) as D. set (m := 365.25 * inject_Z numsim) in *.
  assert (A : qn (S i) + 1 <= qn (S j)) by (rewrite <- qn_S; apply qn_le; lia).
  assert (B : qn (S j) <= m) by (eapply Qle_trans; [apply qn_le|exact D]; lia).
  pose proof (qn_pos (S i)). set (a := qn (S i)) in *. set (b := qn (S j)) in *. clearbody a b m.
  assert (E : forall u, u <= m -> 0 <= u -> 1 / (1 - u / (m + 1)) / 365.25 == (m + 1) / (m + 1 - u) / 365.25).
  { intros u Hu Hp. field. split; lra. }
  rewrite !E by lra.
  assert (X : (m + 1) / (m + 1 - a) < (m + 1) / (m + 1 - b)).
  { apply Qlt_shift_div_l; [lra|].
    assert (Y : (m + 1) / (m + 1 - a) * (m + 1 - b) == (m + 1) * ((m + 1 - b) / (m + 1 - a))) by (field; lra).
    rewrite Y. assert ((m + 1 - b) / (m + 1 - a) < 1) by (apply Qlt_shift_div_r; lra).
    set (r := (m + 1 - b) / (m + 1 - a)) in *. clearbody r. nra. }
  unfold Qdiv at 1 3. apply Qmult_lt_compat_r; [reflexivity|exact X].
Qed.

Definition nonneg (l : list Q) := forall v, In v l -> 0 <= v.

Lemma empWspd_len data numsim : (length data <= empDays numsim)%nat -> length (empWspd data numsim) = empDays numsim.
Proof.
  intros H. unfold empWspd. rewrite app_length, repeat_length, (Permutation_length (sortq_perm data)). lia.
Qed.
Lemma empWspd_asc data numsim : nonneg data -> asc (empWspd data numsim).
Proof.
  intros H. unfold empWspd. apply asc_app; [apply asc_repeat|apply sortq_asc|].
  intros a b Ha Hb. apply repeat_spec in Ha. subst a. apply H. eapply Permutation_in; [apply sortq_perm|exact Hb].
Qed.

Lemma allSome_spec {A} (l : list (option A)) r : allSome l = Some r <-> l = map Some r.
Proof.
  revert r. induction l as [|[a|] l IH]; intros r; cbn.
  - split; [intros [= <-]; reflexivity|destruct r; [reflexivity|discriminate]].
  - destruct (allSome l) as [s|] eqn:E.
    + split.
      * intros [= <-]. cbn. f_equal. now apply IH.
      * destruct r as [|b r]; [discriminate|]. cbn. intros [= -> H]. f_equal. f_equal.
        apply IH in H. congruence.
    + split; [discriminate|]. destruct r as [|b r]; [discriminate|]. cbn. intros [= -> H]. apply IH in H. discriminate.
  - split; [discriminate|]. destruct r; discriminate.
Qed.
Lemma allSome_none {A} (l : list (option A)) : allSome l = None <-> In None l.
Proof.
  induction l as [|[a|] l IH]; cbn [allSome In]; [split; [discriminate|intros []]| |split; auto].
  destruct (allSome l) as [s|].
  - split; [discriminate|]. intros [H|H]; [discriminate|]. apply IH in H. discriminate.
  - split; [|auto]. intros _. right. now apply IH.
Qed.

Section Emp.
  Variables (data : list Q) (numsim : Z) (nodata : Q).
  Hypothesis Hs : (1 <= numsim)%Z.
  Hypothesis Hd : (1 <= length data <= empDays numsim)%nat.

  (** Empirical return period of the [i]-th smallest day, [i] from 0. *)
  Definition rp (i : nat) : Q := nth i (empRp numsim) 0.

  Lemma emp_ok intervals : (forall t, In t intervals -> rp 0 <= t <= rp (empDays numsim - 1)) ->
    exists w, empfit data intervals numsim nodata = FOk (map Some w) nodata nodata nodata /\
      map (interp (empRp numsim) (empWspd data numsim)) intervals = map Some w.
  Proof.
    intros H. unfold empfit.
    destruct (Nat.ltb_spec (empDays numsim) (length data)); [lia|].
    destruct (Nat.eqb_spec (length data) 0); [lia|]. cbn [orb].
    destruct (allSome _) as [w|] eqn:E.
    - exists w. split; [reflexivity|]. now apply allSome_spec.
    - apply allSome_none in E. apply in_map_iff in E as (t & E & Ht). exfalso.
      destruct (H t Ht) as [L U]. pose proof (days_ge numsim Hs).
      rewrite interp_some in E; [discriminate|rewrite empRp_len; lia|now apply empRp_incr|exact L|].
      rewrite empRp_len. exact U.
  Qed.

  Lemma emp_err intervals t : In t intervals -> (t < rp 0 \/ rp (empDays numsim - 1) < t) ->
    empfit data intervals numsim nodata = FErr.
  Proof.
    intros Ht H. unfold empfit.
    destruct (Nat.ltb_spec (empDays numsim) (length data)); [lia|].
    destruct (Nat.eqb_spec (length data) 0); [lia|]. cbn [orb].
    rewrite (proj2 (allSome_none _)); [reflexivity|]. apply in_map_iff. exists t. split; [|exact Ht].
    pose proof (days_ge numsim Hs). pose proof (empRp_len numsim) as L.
    apply interp_none; [intros C; rewrite C in L; cbn in L; lia|]. rewrite empRp_len. exact H.
  Qed.

  Lemma emp_mono intervals w a b c i j : nonneg data ->
    empfit data intervals numsim nodata = FOk w a b c ->
    (i < length intervals)%nat -> (j < length intervals)%nat ->
    nth i intervals 0 <= nth j intervals 0 ->
    exists v v', nth_error w i = Some (Some v) /\ nth_error w j = Some (Some v') /\ 0 <= v <= v'.
  Proof.
    intros Hnn. unfold empfit.
    destruct (Nat.ltb_spec (empDays numsim) (length data)); [lia|].
    destruct (Nat.eqb_spec (length data) 0); [lia|]. cbn [orb].
    destruct (allSome _) as [r|] eqn:E; [|discriminate]. intros [= <- <- <- <-] Hi Hj Hij.
    apply allSome_spec in E.
    assert (G : forall k, (k < length intervals)%nat -> exists v, nth_error (map Some r) k = Some (Some v) /\
      interp (empRp numsim) (empWspd data numsim) (nth k intervals 0) = Some v).
    { intros k Hk. rewrite <- E.
      assert (Q1 : nth_error intervals k = Some (nth k intervals 0)) by now apply nth_error_nth'.
      rewrite (map_nth_error _ _ _ Q1). 
      assert (Q2 : nth_error (map Some r) k = Some (interp (empRp numsim) (empWspd data numsim) (nth k intervals 0))).
      { rewrite <- E. now rewrite (map_nth_error _ _ _ Q1). }
      apply nth_error_In, in_map_iff in Q2 as (v & Q2 & _). rewrite <- Q2. eauto. }
    destruct (G i Hi) as (v & V1 & V2). destruct (G j Hj) as (v' & W1 & W2).
    pose proof (days_ge numsim Hs) as D.
    assert (LL : length (empWspd data numsim) = length (empRp numsim)).
    { rewrite empWspd_len by lia. now rewrite empRp_len. }
    pose proof (empRp_len numsim) as L.
    exists v, v'. split; [exact V1|]. split; [exact W1|]. split.
    - pose proof (interp_bounds (empRp numsim) (empWspd data numsim) _ _ ltac:(lia) LL (empRp_incr _ Hs) (empWspd_asc _ numsim Hnn) V2) as [B _].
      eapply Qle_trans; [|exact B].
      assert (I0 : In (nth 0 (empWspd data numsim) 0) (empWspd data numsim)) by (apply nth_In; lia).
      unfold empWspd at 2 in I0. apply in_app_or in I0 as [I0|I0].
      + apply repeat_spec in I0. rewrite I0. apply Qle_refl.
      + apply Hnn. eapply Permutation_in; [apply sortq_perm|exact I0].
    - eapply (interp_mono (empRp numsim) (empWspd data numsim) _ _ v v' ltac:(lia) LL (empRp_incr _ Hs) (empWspd_asc _ numsim Hnn)); eauto.
  Qed.

  (** The [k]-th largest record (from 0) is the level of its empirical return period. *)
  Lemma emp_knot k : (k < length data)%nat ->
    exists v, empfit data [rp (empDays numsim - 1 - k)] numsim nodata = FOk [Some v] nodata nodata nodata /\
      v == nth (length data - 1 - k) (sortq data) 0.
  Proof.
    intros Hk. pose proof (days_ge numsim Hs) as D. pose proof (empRp_len numsim) as L.
    assert (LL : length (empWspd data numsim) = length (empRp numsim)).
    { rewrite empWspd_len by lia. now rewrite empRp_len. }
    destruct (interp_knot (empRp numsim) (empWspd data numsim) (empDays numsim - 1 - k) ltac:(lia) LL (empRp_incr _ Hs) ltac:(lia))
      as (v & E & V).
    exists v. split.
    - unfold empfit. destruct (Nat.ltb_spec (empDays numsim) (length data)); [lia|].
      destruct (Nat.eqb_spec (length data) 0); [lia|]. cbn [orb map]. unfold rp. rewrite E. reflexivity.
    - rewrite V. unfold empWspd. rewrite app_nth2; rewrite repeat_length; [|lia].
      replace (empDays numsim - 1 - k - (empDays numsim - length data))%nat with (length data - 1 - k)%nat by lia.
      reflexivity.
  Qed.
End Emp.
