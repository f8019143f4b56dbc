(** Properties C148 and C149: contour levels, graticules, arrangements and
    scale bars of maps. *)
From Coq Require Import Reals ZArith QArith Qround List Bool Lia Lqa Lra.
From Verif Require Import Base CircleModel CircleProofs CellModel CellProofs MapModel.
Import ListNotations.
Local Open Scope R_scope.

Lemma rceil_spec : forall x, IZR (rceil x) - 1 < x <= IZR (rceil x).
Proof.
  intros x. unfold rceil. rewrite opp_IZR. destruct (base_Int_part (- x)) as [A B]. lra.
Qed.

Lemma ln10_pos : 0 < ln 10.
Proof. rewrite <- ln_1. apply ln_increasing; lra. Qed.

Lemma pow10_pos : forall e, 0 < pow10 e.
Proof. intros. unfold pow10, Rpower. apply exp_pos. Qed.

Lemma pow10_neg : forall e, pow10 (- e) * pow10 e = 1.
Proof.
  intros. unfold pow10. rewrite <- Rpower_plus, opp_IZR.
  replace (- IZR e + IZR e) with 0 by ring. apply Rpower_O. lra.
Qed.

Lemma pow10_S : forall e, pow10 (e + 1) = 10 * pow10 e.
Proof.
  intros. unfold pow10. rewrite plus_IZR, Rpower_plus, Rpower_1 by lra. ring.
Qed.

Lemma exponent_spec : forall x, 0 < x ->
  pow10 (exponent10 x) <= x < pow10 (exponent10 x + 1).
Proof.
  intros x P. pose proof ln10_pos as L. unfold exponent10.
  destruct (base_Int_part (ln x / ln 10)) as [A B].
  set (e := Int_part (ln x / ln 10)) in *.
  assert (E : x = exp (ln x)) by (now rewrite exp_ln).
  assert (D : ln x / ln 10 * ln 10 = ln x) by (field; lra).
  unfold pow10, Rpower. split.
  - assert (H : IZR e * ln 10 <= ln x).
    { rewrite <- D. apply Rmult_le_compat_r; lra. }
    destruct H as [H|H]; [|rewrite H, exp_ln by exact P; lra].
    apply exp_increasing in H. rewrite exp_ln in H by exact P. lra.
  - rewrite plus_IZR. rewrite E at 1. apply exp_increasing. rewrite <- D.
    apply Rmult_lt_compat_r; lra.
Qed.

Lemma rarange_spec : forall a b step n, 0 < step ->
  INR n * step < b - a -> b - a <= INR (S n) * step ->
  length (rarange a b step) = S n /\
  forall k, (k <= n)%nat -> nth k (rarange a b step) 0 = a + INR k * step.
Proof.
  intros a b step n P L U. unfold rarange.
  assert (C : Z.to_nat (rceil ((b - a) / step)) = S n).
  { destruct (rceil_spec ((b - a) / step)) as [A B].
    assert (L' : INR n < (b - a) / step).
    { apply Rmult_lt_reg_r with step; [exact P|]. unfold Rdiv. rewrite Rmult_assoc, Rinv_l by lra. lra. }
    assert (U' : (b - a) / step <= INR (S n)).
    { apply Rmult_le_reg_r with step; [exact P|]. unfold Rdiv. rewrite Rmult_assoc, Rinv_l by lra. lra. }
    rewrite INR_IZR_INZ in L', U'.
    assert (X : (Z.of_nat n < rceil ((b - a) / step))%Z) by (apply lt_IZR; lra).
    assert (Y : (rceil ((b - a) / step) < Z.of_nat (S n) + 1)%Z) by (apply lt_IZR; rewrite plus_IZR; lra).
    lia. }
  rewrite C. split; [now rewrite map_length, seq_length|].
  intros k K. rewrite nth_indep with (d' := a + INR 0 * step) by (rewrite map_length, seq_length; lia).
  rewrite (map_nth (fun k => a + INR k * step) (seq 0 (S n)) 0%nat k).
  rewrite seq_nth by lia. reflexivity.
Qed.

Lemma find_step : forall s, 7 / 10 < s -> s < 10 ->
  exists o, find (fun o => rlt 7 (s / o)) levelOpts = Some o /\
    In o levelOpts /\ 0 < o /\ 7 < s / o <= 14.
Proof.
  intros s L U. unfold levelOpts. cbn [find].
  assert (D : forall o, 0 < o -> s / o * o = s) by (intros; field; lra).
  assert (T : forall o c, 0 < o -> c < s / o <-> c * o < s).
  { intros o c P. split; intros H.
    - rewrite <- (D o P). now apply Rmult_lt_compat_r.
    - apply Rmult_lt_reg_r with o; [exact P|]. now rewrite D. }
  assert (Q : forall o c, 0 < o -> s / o <= c <-> s <= c * o).
  { intros o c P. split; intros H.
    - rewrite <- (D o P). apply Rmult_le_compat_r; lra.
    - apply Rmult_le_reg_r with o; [exact P|]. now rewrite D. }
  destruct (rlt 7 (s / 5)) eqn:E1; [apply rlt_true, T in E1; lra|clear E1].
  destruct (rlt 7 (s / 1)) eqn:E2.
  { apply rlt_true, T in E2; [|lra]. exists 1. split; [reflexivity|]. split; [cbn; tauto|].
    split; [lra|]. split; [apply T|apply Q]; lra. }
  apply rlt_false, Q in E2; [|lra].
  destruct (rlt 7 (s / (1 / 2))) eqn:E3.
  { apply rlt_true, T in E3; [|lra]. exists (1 / 2). split; [reflexivity|]. split; [cbn; tauto|].
    split; [lra|]. split; [apply T|apply Q]; lra. }
  apply rlt_false, Q in E3; [|lra].
  destruct (rlt 7 (s / (1 / 4))) eqn:E4.
  { apply rlt_true, T in E4; [|lra]. exists (1 / 4). split; [reflexivity|]. split; [cbn; tauto|].
    split; [lra|]. split; [apply T|apply Q]; lra. }
  apply rlt_false, Q in E4; [|lra].
  destruct (rlt 7 (s / (1 / 5))) eqn:E5.
  { apply rlt_true, T in E5; [|lra]. exists (1 / 5). split; [reflexivity|]. split; [cbn; tauto|].
    split; [lra|]. split; [apply T|apply Q]; lra. }
  apply rlt_false, Q in E5; [|lra].
  destruct (rlt 7 (s / (1 / 10))) eqn:E6.
  { apply rlt_true, T in E6; [|lra]. exists (1 / 10). split; [reflexivity|]. split; [cbn; tauto|].
    split; [lra|]. split; [apply T|apply Q]; lra. }
  apply rlt_false, Q in E6; lra.
Qed.

Lemma levels_unfold : forall mx mn, mn < mx -> 0 < mx ->
  levels mx mn =
  match find (fun o => rlt 7 ((mx - mn) * pow10 (- exponent10 mx) / o)) levelOpts with
  | Some step => inl (rarange mn mx (step * pow10 (exponent10 mx)), exponent10 mx)
  | None => inr NoStep
  end.
Proof.
  intros mx mn H P. unfold levels.
  destruct (Req_EM_T mx mn) as [E|_]; [lra|].
  replace (rlt mx mn) with false by (symmetry; apply rlt_false; lra).
  now replace (rlt 0 mx) with true by (symmetry; now apply rlt_true).
Qed.

(** * C148 *)

(** A range of non-negative values that spans more than 0.7 of the power of
    ten below its maximum gets eight to fourteen levels.  They start at the
    minimum, are evenly spaced at a round step, stay below the maximum and
    the next one would reach it. *)
Theorem c148_levels : forall mx mn : R, 0 <= mn -> mn < mx ->
  7 / 10 * pow10 (exponent10 mx) < mx - mn ->
  pow10 (exponent10 mx) <= mx < 10 * pow10 (exponent10 mx) /\
  exists lv o n, levels mx mn = inl (lv, exponent10 mx) /\
    In o [1; 1 / 2; 1 / 4; 1 / 5; 1 / 10] /\
    length lv = S n /\ (8 <= S n <= 14)%nat /\
    (forall k, (k <= n)%nat -> nth k lv 0 = mn + INR k * (o * pow10 (exponent10 mx))) /\
    nth n lv 0 < mx <= nth n lv 0 + o * pow10 (exponent10 mx).
Proof.
  intros mx mn M0 M1 Sp. assert (P : 0 < mx) by lra.
  pose proof (exponent_spec mx P) as [E1 E2]. rewrite pow10_S in E2.
  split; [lra|]. rewrite levels_unfold by assumption.
  set (e := exponent10 mx) in *. pose proof (pow10_pos e) as Pe. pose proof (pow10_pos (- e)) as Pn.
  pose proof (pow10_neg e) as I.
  set (s := (mx - mn) * pow10 (- e)).
  assert (Se : s * pow10 e = mx - mn) by (unfold s; rewrite Rmult_assoc, I; ring).
  assert (S1 : 7 / 10 < s).
  { apply Rmult_lt_reg_r with (pow10 e); [exact Pe|]. now rewrite Se. }
  assert (S2 : s < 10).
  { apply Rmult_lt_reg_r with (pow10 e); [exact Pe|]. rewrite Se. lra. }
  destruct (find_step s S1 S2) as (o & F & In_o & Po & L & U). rewrite F.
  assert (No5 : o <> 5).
  { intros ->. assert (s / 5 * 5 = s) by field. lra. }
  destruct (rceil_spec (s / o)) as [C1 C2].
  assert (N8 : (8 <= rceil (s / o))%Z).
  { assert (7 < rceil (s / o))%Z by (apply lt_IZR; lra). lia. }
  assert (N14 : (rceil (s / o) <= 14)%Z).
  { assert (rceil (s / o) < 15)%Z by (apply lt_IZR; lra). lia. }
  set (n := (Z.to_nat (rceil (s / o)) - 1)%nat).
  assert (Nn : IZR (rceil (s / o)) = INR n + 1).
  { unfold n. rewrite INR_IZR_INZ. replace (rceil (s / o)) with (Z.of_nat (Z.to_nat (rceil (s / o)) - 1) + 1)%Z at 1 by lia.
    now rewrite plus_IZR. }
  rewrite Nn in C1, C2.
  set (step := o * pow10 e).
  assert (Ps : 0 < step) by (now apply Rmult_lt_0_compat).
  assert (Sq : s / o * step = mx - mn).
  { unfold step. rewrite <- Se. field. lra. }
  assert (A1 : INR n * step < mx - mn).
  { rewrite <- Sq. apply Rmult_lt_compat_r; lra. }
  assert (A2 : mx - mn <= INR (S n) * step).
  { rewrite <- Sq, S_INR. apply Rmult_le_compat_r; lra. }
  destruct (rarange_spec mn mx step n Ps A1 A2) as [Len Nth].
  exists (rarange mn mx step), o, n. split; [reflexivity|].
  split; [cbn in In_o |- *; destruct In_o as [X|X]; [now elim No5|exact X]|].
  split; [exact Len|]. split; [unfold n; lia|]. split; [exact Nth|].
  rewrite (Nth n (le_n n)). rewrite S_INR in A2. fold step. lra.
Qed.

(** The order of the two arguments does not matter, and equal values are
    refused. *)
Theorem c148_order : forall mx mn : R, levels mx mn = levels mn mx /\ levels mx mx = inr EqualValues.
Proof.
  intros mx mn. split.
  - unfold levels. destruct (Req_EM_T mx mn) as [->|N].
    + destruct (Req_EM_T mn mn); [reflexivity|congruence].
    + destruct (Req_EM_T mn mx); [congruence|].
      destruct (rlt mx mn) eqn:E1; destruct (rlt mn mx) eqn:E2; try reflexivity.
      * apply rlt_true in E1, E2. lra.
      * apply rlt_false in E1, E2. lra.
  - unfold levels. destruct (Req_EM_T mx mx); congruence.
Qed.

(** The diverging colour map is taken only for levels on both sides of zero,
    and exactly when they reach about equally far. *)
Theorem c148_colours : forall mx mn p : R, mn < mx -> p <= 1 ->
  diverging mx mn p = true <-> mn < 0 < mx /\ Rabs (mx + mn) < p * (mx - mn).
Proof.
  intros mx mn p L P. unfold diverging. rewrite rlt_true.
  assert (D : 0 < mx - mn) by lra.
  unfold Rdiv. rewrite Rabs_mult, (Rabs_pos_eq (/ (mx - mn))) by (left; now apply Rinv_0_lt_compat).
  assert (X : Rabs (Rabs mx - Rabs mn) * / (mx - mn) < p <-> Rabs (Rabs mx - Rabs mn) < p * (mx - mn)).
  { split; intros H.
    - apply Rmult_lt_compat_r with (r := mx - mn) in H; [|exact D].
      rewrite Rmult_assoc, Rinv_l in H by lra. lra.
    - apply Rmult_lt_reg_r with (mx - mn); [exact D|]. rewrite Rmult_assoc, Rinv_l by lra. lra. }
  rewrite X. clear X.
  assert (B : p * (mx - mn) <= mx - mn) by (rewrite <- (Rmult_1_l (mx - mn)) at 2; apply Rmult_le_compat_r; lra).
  split.
  - intros H.
    destruct (Rle_lt_dec 0 mn) as [A|A].
    + rewrite (Rabs_pos_eq mx), (Rabs_pos_eq mn) in H by lra.
      rewrite Rabs_pos_eq in H by lra. lra.
    + destruct (Rle_lt_dec mx 0) as [C|C].
      * rewrite (Rabs_left1 mx), (Rabs_left1 mn) in H by lra.
        rewrite Rabs_left1 in H by lra. lra.
      * rewrite (Rabs_pos_eq mx), (Rabs_left1 mn) in H by lra.
        replace (mx - - mn) with (mx + mn) in H by ring. split; [lra|exact H].
  - intros [A H]; rewrite (Rabs_pos_eq mx), (Rabs_left1 mn) by lra;
      replace (mx - - mn) with (mx + mn) by ring; exact H.
Qed.

Lemma qceil_spec : forall x : Q, (inject_Z (Qceiling x) - 1 < x)%Q /\ (x <= inject_Z (Qceiling x))%Q.
Proof.
  intros x. split; [|apply Qle_ceiling].
  pose proof (Qceiling_lt x) as H.
  unfold Z.sub in H. rewrite inject_Z_plus in H. change (inject_Z (- (1))) with (- (1))%Q in H. Lqa.lra.
Qed.

(** The lines of the graticule are multiples of the spacing, start at or
    less than one spacing before the lower edge of the map, and the last one
    lies at or less than one spacing beyond the upper edge. *)
Theorem c148_graticule : forall lo hi dl : Q, (0 < dl)%Q -> (lo <= hi)%Q ->
  exists n z, length (grLines lo hi dl) = S n /\
    (forall k, (k <= n)%nat -> (nth k (grLines lo hi dl) 0 == inject_Z (z + Z.of_nat k) * dl)%Q) /\
    (inject_Z z * dl <= lo)%Q /\ (lo < inject_Z (z + 1) * dl)%Q /\
    (hi <= inject_Z (z + Z.of_nat n) * dl)%Q /\ (inject_Z (z + Z.of_nat n) * dl < hi + dl)%Q.
Proof.
  intros lo hi dl P L. unfold grLines, qarange.
  set (z := Qfloor (lo / dl)). set (a := (inject_Z z * dl)%Q).
  assert (Dl : (lo / dl * dl == lo)%Q) by (field; Lqa.lra).
  assert (A1 : (a <= lo)%Q).
  { unfold a. rewrite <- Dl. apply Qmult_le_compat_r; [|Lqa.lra]. apply Qfloor_le. }
  assert (A2 : (lo < inject_Z (z + 1) * dl)%Q).
  { rewrite <- Dl at 1. apply Qmult_lt_compat_r; [exact P|]. apply Qlt_floor. }
  set (x := ((hi + dl - a) / dl)%Q).
  assert (Dx : (x * dl == hi + dl - a)%Q) by (unfold x; field; Lqa.lra).
  destruct (qceil_spec x) as [C1 C2].
  assert (X1 : (1 <= x)%Q).
  { apply Qle_shift_div_l; [exact P|]. Lqa.lra. }
  assert (C : (1 <= Qceiling x)%Z).
  { assert (H : (inject_Z 1 <= inject_Z (Qceiling x))%Q) by (change (inject_Z 1) with 1%Q; Lqa.lra).
    now rewrite <- Zle_Qle in H. }
  set (n := (Z.to_nat (Qceiling x) - 1)%nat).
  replace (Z.to_nat (Qceiling x)) with (S n) by (unfold n; lia).
  exists n, z. split; [now rewrite map_length, seq_length|]. split.
  - intros k K.
    rewrite nth_indep with (d' := (a + inject_Z (Z.of_nat 0) * dl)%Q) by (rewrite map_length, seq_length; lia).
    rewrite (map_nth (fun k => a + inject_Z (Z.of_nat k) * dl)%Q (seq 0 (S n)) 0%nat k).
    rewrite seq_nth by lia. cbn [Nat.add]. unfold a. rewrite inject_Z_plus. ring.
  - split; [exact A1|]. split; [exact A2|].
    assert (N : (inject_Z (z + Z.of_nat n) * dl == a + (inject_Z (Qceiling x) - 1) * dl)%Q).
    { unfold a, n. rewrite inject_Z_plus.
      replace (Z.of_nat (Z.to_nat (Qceiling x) - 1)) with (Qceiling x - 1)%Z by lia.
      unfold Z.sub. rewrite inject_Z_plus. change (inject_Z (-(1))) with (-(1))%Q. ring. }
    rewrite N.
    assert (M1 : ((inject_Z (Qceiling x) - 1) * dl < x * dl)%Q) by (apply Qmult_lt_compat_r; [exact P|exact C1]).
    assert (M2 : (x * dl <= inject_Z (Qceiling x) * dl)%Q) by (apply Qmult_le_compat_r; [exact C2|Lqa.lra]).
    rewrite Dx in M1, M2. split; [|Lqa.lra].
    setoid_replace (a + (inject_Z (Qceiling x) - 1) * dl)%Q with (inject_Z (Qceiling x) * dl + a - dl)%Q by ring.
    Lqa.lra.
Qed.

(** The longer side of a map that is not wider than the globe gets at most
    fifteen spacings, and at least five if it is ten degrees long. *)
Theorem c148_spacing : forall dd : Q, (0 < dd)%Q -> (dd <= 360)%Q ->
  (0 < grStep dd)%Q /\ (dd < 15 * grStep dd)%Q /\ ((10 <= dd)%Q -> (5 * grStep dd <= dd)%Q).
Proof.
  intros dd P U. unfold grStep. cbn [find].
  assert (T : forall o, (0 < o)%Q -> Qle_bool 5 (dd / o) = true <-> (5 * o <= dd)%Q).
  { intros o O. rewrite Qle_bool_iff. split; intros H.
    - apply Qmult_le_compat_r with (z := o) in H; [|Lqa.lra].
      setoid_replace (dd / o * o)%Q with dd in H by (field; Lqa.lra). exact H.
    - now apply Qle_shift_div_l. }
  assert (F : forall o, (0 < o)%Q -> Qle_bool 5 (dd / o) = false -> (dd < 5 * o)%Q).
  { intros o O H. apply Qnot_le_lt. intros C. apply (T o O) in C. congruence. }
  destruct (Qle_bool 5 (dd / 30)) eqn:E1; [apply T in E1; [|reflexivity]; repeat split; Lqa.lra|apply F in E1; [|reflexivity]].
  destruct (Qle_bool 5 (dd / 10)) eqn:E2; [apply T in E2; [|reflexivity]; repeat split; Lqa.lra|apply F in E2; [|reflexivity]].
  destruct (Qle_bool 5 (dd / 5)) eqn:E3; [apply T in E3; [|reflexivity]; repeat split; Lqa.lra|apply F in E3; [|reflexivity]].
  destruct (Qle_bool 5 (dd / 4)) eqn:E4; [apply T in E4; [|reflexivity]; repeat split; Lqa.lra|apply F in E4; [|reflexivity]].
  destruct (Qle_bool 5 (dd / 2)) eqn:E5; [apply T in E5; [|reflexivity]; repeat split; Lqa.lra|apply F in E5; [|reflexivity]].
  repeat split; Lqa.lra.
Qed.

(** Any positive number of figures has a place each; no row and no column of
    the arrangement stays empty, and there are never more columns than
    rows. *)
Theorem c148_arrangement : forall n : nat, (0 < n)%nat ->
  exists r c, arrange n = Some (r, c) /\ (n <= r * c)%nat /\ (c <= r)%nat /\
    ((r - 1) * c < n)%nat /\ (r * (c - 1) < n)%nat.
Proof.
  intros n P. unfold arrange, ceilSqrt.
  destruct (Nat.sqrt_up_spec n P) as [A B].
  destruct (Nat.sqrt_up n) as [|r'] eqn:E; [lia|]. set (r := S r') in *.
  exists r, ((n + r - 1) / r)%nat. split; [reflexivity|].
  pose proof (Nat.div_mod (n + r - 1) r ltac:(lia)) as D.
  pose proof (Nat.mod_upper_bound (n + r - 1) r ltac:(lia)) as M.
  set (c := ((n + r - 1) / r)%nat) in *. set (t := ((n + r - 1) mod r)%nat) in *.
  assert (C : (c <= r)%nat).
  { destruct (Nat.le_gt_cases c r) as [|G]; [assumption|]. exfalso.
    assert (r * (r + 1) <= r * c)%nat by (apply Nat.mul_le_mono_l; lia). nia. }
  assert (C1 : (1 <= c)%nat) by (destruct c; nia).
  split; [nia|]. split; [exact C|]. split.
  - replace (r - 1)%nat with r' by lia. cbn [Nat.pred] in A. unfold r in *. cbn [Nat.pred] in A. nia.
  - nia.
Qed.

(** The scale bar of a map at least five kilometres wide is a round length, one,
    two or five times a power of ten, and at least half the length asked
    for. *)
Theorem c148_scale : forall (d : nat) (k : Z), (1 <= d <= 10)%nat -> (0 <= k)%Z ->
  exists d', scaleLength d k = Some (d', k) /\ In d' [1; 2; 5; 10]%nat /\ (d' <= d <= 2 * d')%nat.
Proof.
  intros d k D K. unfold scaleLength. replace (k <? 0)%Z with false by (symmetry; apply Z.ltb_ge; lia).
  do 11 (destruct d as [|d]; [solve [lia | cbn; eexists; split; [reflexivity|]; cbn; split; [tauto|lia]]|]).
  lia.
Qed.

Lemma pow10_0 : pow10 0 = 1.
Proof. unfold pow10. apply Rpower_O. lra. Qed.

Lemma exponent_unique : forall x e, pow10 e <= x -> x < pow10 (e + 1) -> exponent10 x = e.
Proof.
  intros x e A B. pose proof (pow10_pos e) as P. assert (X : 0 < x) by lra.
  destruct (exponent_spec x X) as [C D]. pose proof ln10_pos as L.
  assert (M : forall a b, pow10 a < pow10 b -> (a < b)%Z).
  { intros a b H. unfold pow10, Rpower in H. apply exp_lt_inv in H.
    apply Rmult_lt_reg_r in H; [|exact L]. now apply lt_IZR. }
  assert (exponent10 x < e + 1)%Z by (apply M; lra).
  assert (e < exponent10 x + 1)%Z by (apply M; lra). lia.
Qed.

Example c148_example :
  (exists lv, levels 8 0 = inl (lv, 0%Z) /\ length lv = 8%nat) /\
  (grStep 25 == 5)%Q /\ length (grLines 112 137 5) = 7%nat /\
  arrange 5 = Some (3, 2)%nat /\ scaleLength 7 2 = Some (5%nat, 2%Z) /\
  diverging 10 (-9) (1 / 10) = true.
Proof.
  split.
  - assert (E : exponent10 8 = 0%Z).
    { apply exponent_unique; [rewrite pow10_0; lra|]. rewrite pow10_S, pow10_0. lra. }
    destruct (c148_levels 8 0) as (_ & lv & o & n & H & In_o & L & N & Nth & U).
    + lra.
    + lra.
    + rewrite E, pow10_0. lra.
    + exists lv. rewrite E in *. split; [exact H|].
      rewrite levels_unfold in H by lra. rewrite E in H. cbn [Z.opp] in H. rewrite pow10_0 in H.
      unfold levelOpts in H. cbn [find] in H.
      replace (rlt 7 ((8 - 0) * 1 / 5)) with false in H by (symmetry; apply rlt_false; lra).
      replace (rlt 7 ((8 - 0) * 1 / 1)) with true in H by (symmetry; apply rlt_true; lra).
      injection H as <-. apply (rarange_spec 0 8 (1 * 1) 7); [lra| |]; cbn [INR]; lra.
  - split; [reflexivity|]. split; [reflexivity|]. split; [reflexivity|]. split; [reflexivity|].
    apply (c148_colours 10 (-9) (1 / 10)); [lra|lra|]. split; [lra|].
    rewrite Rabs_pos_eq; lra.
Qed.

(** * C149 *)

(** Refuted: levels can be found for every two different values.  If the
    values span at most 0.7 of the power of ten below the maximum, no
    spacing is admissible and the function raises, for instance for central
    pressures between 900 and 1000 hPa. *)
Theorem c149_narrow_refuted : forall mx mn : R, 0 < mx -> mn < mx ->
  mx - mn <= 7 / 10 * pow10 (exponent10 mx) -> levels mx mn = inr NoStep.
Proof.
  intros mx mn P L Sp. rewrite levels_unfold by assumption.
  set (e := exponent10 mx) in *. pose proof (pow10_pos (- e)) as Pn. pose proof (pow10_neg e) as I.
  set (s := (mx - mn) * pow10 (- e)).
  assert (S1 : s <= 7 / 10).
  { unfold s. apply Rmult_le_compat_r with (r := pow10 (- e)) in Sp; [|lra].
    replace (7 / 10 * pow10 e * pow10 (- e)) with (7 / 10 * (pow10 (- e) * pow10 e)) in Sp by ring.
    rewrite I in Sp. lra. }
  assert (S0 : 0 < s) by (apply Rmult_lt_0_compat; lra).
  assert (F : forall o, 1 / 10 <= o -> rlt 7 (s / o) = false).
  { intros o O. apply rlt_false. apply Rmult_le_reg_r with o; [lra|].
    unfold Rdiv. rewrite Rmult_assoc, Rinv_l by lra. lra. }
  unfold levelOpts. cbn [find]. now rewrite !F by lra.
Qed.

Theorem c149_pressures_refuted : levels 1000 900 = inr NoStep.
Proof.
  assert (E : exponent10 1000 = 3%Z).
  { apply exponent_unique.
    - replace 3%Z with (0 + 1 + 1 + 1)%Z by reflexivity. rewrite !pow10_S, pow10_0. lra.
    - replace 3%Z with (0 + 1 + 1 + 1)%Z by reflexivity. rewrite !pow10_S, pow10_0. lra. }
  apply c149_narrow_refuted; [lra|lra|]. rewrite E.
  replace 3%Z with (0 + 1 + 1 + 1)%Z by reflexivity. rewrite !pow10_S, pow10_0. lra.
Qed.

(** Refuted: negative values can be mapped: the logarithm fails. *)
Theorem c149_negative_refuted : forall mx mn : R, mn < mx -> mx <= 0 -> levels mx mn = inr NoLogarithm.
Proof.
  intros mx mn L N. unfold levels. destruct (Req_EM_T mx mn); [lra|].
  replace (rlt mx mn) with false by (symmetry; apply rlt_false; lra).
  now replace (rlt 0 mx) with false by (symmetry; apply rlt_false; lra).
Qed.

(** Refuted: the number of levels is bounded: with a small maximum and a
    large negative minimum there are arbitrarily many. *)
Theorem c149_many_refuted : forall N : nat,
  exists lv, levels 1 (- (5 * INR N) - 35) = inl (lv, 0%Z) /\ (N <= length lv)%nat.
Proof.
  intros N. pose proof (pos_INR N) as PN.
  assert (E : exponent10 1 = 0%Z).
  { apply exponent_unique; [rewrite pow10_0; lra|]. rewrite pow10_S, pow10_0. lra. }
  rewrite levels_unfold by lra. rewrite E. cbn [Z.opp]. rewrite pow10_0.
  unfold levelOpts. cbn [find].
  replace (rlt 7 ((1 - (- (5 * INR N) - 35)) * 1 / 5)) with true by (symmetry; apply rlt_true; lra).
  eexists. split; [reflexivity|].
  destruct (rarange_spec (- (5 * INR N) - 35) 1 (5 * 1) (N + 7)) as [L _].
  - lra.
  - rewrite plus_INR. cbn [INR]. lra.
  - rewrite S_INR, plus_INR. cbn [INR]. lra.
  - rewrite L. lia.
Qed.

(** Refuted: a figure without maps can be drawn, and every map gets a scale
    bar: no figures and maps narrower than five kilometres fail. *)
Theorem c149_empty_refuted : arrange 0 = None /\ forall d k, (-4 <= k < 0)%Z -> scaleLength d k = None.
Proof.
  split; [reflexivity|]. intros d k K. unfold scaleLength. now replace (k <? 0)%Z with true by (symmetry; apply Z.ltb_lt; lia).
Qed.

Example c149_example : levels 1000 900 = inr NoStep /\ levels (-1) (-2) = inr NoLogarithm.
Proof. split; [apply c149_pressures_refuted|apply c149_negative_refuted; lra]. Qed.

Print Assumptions c148_levels.
Print Assumptions c148_order.
Print Assumptions c148_colours.
Print Assumptions c148_graticule.
Print Assumptions c148_spacing.
Print Assumptions c148_arrangement.
Print Assumptions c148_scale.
Print Assumptions c149_narrow_refuted.
Print Assumptions c149_pressures_refuted.
Print Assumptions c149_negative_refuted.
Print Assumptions c149_many_refuted.
Print Assumptions c149_empty_refuted.
