(** Properties of the scale bar: C192 and C193. *)
From Coq Require Import List Arith ZArith Bool QArith Qabs Qround Qpower Lqa Lia.
From Verif Require Import CellModel CellProofs LoadProofs3 ScaleModel.
From Verif Require GenModel LoadProofs.
Import ListNotations.
Local Open Scope Q_scope.

Lemma qlt_no a b : qlt a b = false <-> b <= a.
Proof. split; intros H; [apply Qnot_lt_le; intros C; apply qlt_iff in C; congruence|]. apply not_true_iff_false. intros C. apply qlt_iff in C. lra. Qed.
Lemma qle_no a b : Qle_bool a b = false <-> b < a.
Proof. split; intros H; [apply Qnot_le_lt; intros C; apply Qle_bool_iff in C; congruence|]. apply not_true_iff_false. intros C. apply Qle_bool_iff in C. lra. Qed.

(** ** C192 The scale bar *)
Lemma grow_spec fuel dist distance : forall len e, growLoop fuel dist distance len = Some e -> below (dist e) distance = false.
Proof.
  induction fuel as [|f IH]; intros len e; cbn [growLoop]; destruct (below (dist len) distance) eqn:B; try discriminate.
  - intros [= <-]. exact B.
  - apply IH.
  - intros [= <-]. exact B.
Qed.
Lemma grow_pos fuel dist distance : forall len e, 0 < len -> growLoop fuel dist distance len = Some e -> 0 < e.
Proof.
  induction fuel as [|f IH]; intros len e P; cbn [growLoop]; destruct (below (dist len) distance); try discriminate; try (intros [= <-]; exact P).
  apply IH. lra.
Qed.
Lemma halve_spec fuel (g : Q -> Q) distance tol : 0 < distance -> forall l r x, 0 <= l -> l <= r -> distance <= g r ->
  halveLoop fuel (fun p => Some (g p)) distance tol l r = Some x ->
  distance <= g x /\ g x <= distance + (1 # 100000000) + tol * distance /\ l <= x <= r.
Proof.
  intros D. induction fuel as [|f IH]; intros l r x L LR G; cbn [halveLoop isclose];
    destruct (Qle_bool (Qabs (g r - distance)) _) eqn:C; try discriminate;
    try (intros [= <-]; apply Qle_bool_iff in C; rewrite Qabs_pos in C by lra; rewrite Qabs_pos in C by lra; repeat split; lra).
  assert (H2 : (l + r) / 2 == (l + r) * (1 # 2)) by field. cbn [below]. destruct (qlt (g ((l + r) / 2)) distance) eqn:B.
  - intros H. apply IH in H; [|rewrite H2; lra|rewrite H2; lra|exact G]. rewrite H2 in H. repeat split; lra.
  - apply qlt_no in B. intros H. apply IH in H; [|exact L|rewrite H2; lra|exact B]. rewrite H2 in H. repeat split; lra.
Qed.
(** A bar that is drawn is at least as long as its label says, and longer by no more than the tolerance *)
Theorem c192_length : forall fuel (g : Q -> Q) distance tol x,
  pointAlong fuel (fun p => Some (g p)) distance tol = Some (Point x) ->
  0 < distance /\ 0 < tol /\ distance <= g x /\ g x <= distance * (1 + tol) + (1 # 100000000) /\ 0 <= x.
Proof.
  intros fuel g distance tol x. unfold pointAlong. destruct (Qle_bool distance 0) eqn:D; [discriminate|]. apply qle_no in D.
  destruct (growLoop fuel _ distance (1 # 10)) as [e|] eqn:E; [|discriminate]. pose proof (grow_spec _ _ _ _ _ E) as B. rewrite B.
  apply grow_pos in E; [|reflexivity]. cbn [below] in B. apply qlt_no in B.
  destruct (Qle_bool tol 0) eqn:T; [discriminate|]. apply qle_no in T. destruct (halveLoop _ _ _ _ _ _) as [y|] eqn:H; [|discriminate].
  intros [= <-]. apply halve_spec in H; [|exact D|lra|lra|exact B]. repeat split; try tauto; lra.
Qed.
(** Errors are raised only for a length or a tolerance that is not positive *)
Theorem c192_errors : forall fuel dist distance tol,
  (pointAlong fuel dist distance tol = Some ValueErr -> distance <= 0 \/ tol <= 0) /\
  (distance <= 0 -> pointAlong fuel dist distance tol = Some ValueErr).
Proof.
  intros fuel dist distance tol. unfold pointAlong. split; [|intros H; apply Qle_bool_iff in H; now rewrite H]. destruct (Qle_bool distance 0) eqn:D; [apply Qle_bool_iff in D; auto|].
  destruct (growLoop _ _ _ _) as [e|] eqn:E; [|discriminate]. rewrite (grow_spec _ _ _ _ _ E).
  destruct (Qle_bool tol 0) eqn:T; [apply Qle_bool_iff in T; auto|]. destruct (halveLoop _ _ _ _ _ _); discriminate.
Qed.
(** The bar is found on every map on which distances grow at a limited rate and reach the length *)
Lemma pow2_big (q : Q) : exists n : nat, q <= inject_Z (2 ^ Z.of_nat n).
Proof.
  exists (Z.to_nat (Qceiling q)). apply Qle_trans with (inject_Z (Qceiling q)); [apply Qle_ceiling|]. rewrite <- Zle_Qle.
  destruct (Z_le_gt_dec (Qceiling q) 0) as [H|H]; [pose proof (Z.pow_pos_nonneg 2 (Z.of_nat (Z.to_nat (Qceiling q)))); lia|].
  rewrite Z2Nat.id by lia. pose proof (Z.pow_gt_lin_r 2 (Qceiling q)). lia.
Qed.
Lemma pow2_S n : inject_Z (2 ^ Z.of_nat (S n)) == 2 * inject_Z (2 ^ Z.of_nat n).
Proof. rewrite Nat2Z.inj_succ, Z.pow_succ_r by lia. rewrite inject_Z_mult. reflexivity. Qed.
Lemma grow_ends (g : Q -> Q) distance far : (forall p, far <= p -> distance <= g p) -> forall n len, far <= len * inject_Z (2 ^ Z.of_nat n) ->
  exists e, growLoop n (fun p => Some (g p)) distance len = Some e.
Proof.
  intros G. induction n as [|n IH]; intros len H; cbn [growLoop below]; destruct (qlt (g len) distance) eqn:B; eauto.
  - exfalso. apply qlt_iff in B. change (inject_Z (2 ^ Z.of_nat 0)) with 1 in H. specialize (G len). lra.
  - apply IH. rewrite pow2_S in H. lra.
Qed.
Lemma grow_more dist distance : forall n m len e, (n <= m)%nat -> growLoop n dist distance len = Some e -> growLoop m dist distance len = Some e.
Proof.
  induction n as [|n IH]; intros m len e M; [destruct m; cbn [growLoop]; destruct (below (dist len) distance); auto; discriminate|].
  destruct m as [|m]; [lia|]. cbn [growLoop]. destruct (below (dist len) distance); [|auto]. apply IH. lia.
Qed.
Lemma halve_ends (g : Q -> Q) distance tol K : 0 < distance -> 0 < tol -> (forall a b, a <= b -> g b - g a <= K * (b - a)) ->
  forall n l r, l <= r -> g l <= distance <= g r -> K * (r - l) <= tol * distance * inject_Z (2 ^ Z.of_nat n) ->
  exists x, halveLoop n (fun p => Some (g p)) distance tol l r = Some x.
Proof.
  intros D T L. induction n as [|n IH]; intros l r LR G H; cbn [halveLoop isclose]; destruct (Qle_bool (Qabs (g r - distance)) _) eqn:C; eauto.
  - exfalso. apply qle_no in C. rewrite Qabs_pos in C by lra. rewrite Qabs_pos in C by lra. change (inject_Z (2 ^ Z.of_nat 0)) with 1 in H. specialize (L l r LR). lra.
  - assert (H2 : (l + r) / 2 == (l + r) * (1 # 2)) by field. cbn [below]. rewrite pow2_S in H.
    destruct (qlt (g ((l + r) / 2)) distance) eqn:B; [apply qlt_iff in B|apply qlt_no in B]; apply IH; try (rewrite H2; lra); lra.
Qed.
Lemma halve_more dist distance tol : forall n m l r x, (n <= m)%nat -> halveLoop n dist distance tol l r = Some x -> halveLoop m dist distance tol l r = Some x.
Proof.
  induction n as [|n IH]; intros m l r x M; [destruct m; cbn [halveLoop]; destruct (isclose (dist r) distance tol); auto; discriminate|].
  destruct m as [|m]; [lia|]. cbn [halveLoop]. destruct (isclose (dist r) distance tol); [auto|]. destruct (below _ _); apply IH; lia.
Qed.
Theorem c192_found : forall (g : Q -> Q) distance tol K far, 0 < distance -> 0 < tol -> g 0 == 0 ->
  (forall a b, a <= b -> g b - g a <= K * (b - a)) -> (forall p, far <= p -> distance <= g p) ->
  exists fuel x, forall more, (fuel <= more)%nat -> pointAlong more (fun p => Some (g p)) distance tol = Some (Point x).
Proof.
  intros g distance tol K far D T Z L F. destruct (pow2_big (10 * far)) as [n N]. destruct (grow_ends g distance far F n (1 # 10)) as [e E]; [lra|].
  pose proof (grow_spec _ _ _ _ _ E) as B. pose proof (grow_pos _ _ _ _ _ (eq_refl : 0 < 1 # 10) E) as P. cbn [below] in B. pose proof B as B'. apply qlt_no in B.
  destruct (pow2_big (K * e / (tol * distance))) as [m M].
  assert (TD : 0 < tol * distance) by (apply Qmult_lt_0_compat; assumption).
  destruct (halve_ends g distance tol K D T L m 0 e) as [x X]; [lra|split; [rewrite Z; lra|exact B]| |].
  { setoid_replace (K * (e - 0)) with (tol * distance * (K * e / (tol * distance))) by (field; split; lra). apply Qmult_le_l; assumption. }
  exists (Nat.max n m), x. intros more Mo. unfold pointAlong. destruct (Qle_bool distance 0) eqn:Q; [apply Qle_bool_iff in Q; lra|].
  rewrite (grow_more _ _ n more _ _ ltac:(lia) E). cbn [below]. rewrite B'. destruct (Qle_bool tol 0) eqn:Q'; [apply Qle_bool_iff in Q'; lra|].
  rewrite (halve_more _ _ _ m more _ _ _ ltac:(lia) X). reflexivity.
Qed.
Example c192_found_met : exists x, pointAlong 20 (fun p => Some (1000000 * p)) 300000 (1 # 100) = Some (Point x).
Proof. eexists. vm_compute. reflexivity. Qed.

(** The length chosen when none is given *)
Lemma pow10_Z n : (0 <= n)%Z -> Qpower 10 n == inject_Z (10 ^ n).
Proof. intros H. rewrite (Zpower_Qpower 10 n H). reflexivity. Qed.
Lemma pow10_pos n : 0 < Qpower 10 n.
Proof. apply Qpower_0_lt. reflexivity. Qed.
Lemma pow10_le a b : (a <= b)%Z -> Qpower 10 a <= Qpower 10 b.
Proof.
  intros H. replace b with (a + (b - a))%Z by lia. rewrite Qpower_plus by discriminate. rewrite (pow10_Z (b - a)) by lia.
  assert (P : 1 <= inject_Z (10 ^ (b - a))). { change 1 with (inject_Z 1). rewrite <- Zle_Qle. pose proof (Z.pow_pos_nonneg 10 (b - a)). lia. }
  pose proof (pow10_pos a). apply (Qmult_le_compat_r _ _ (Qpower 10 a)) in P; lra.
Qed.
Lemma ndim_spec x n : (-30 <= n <= 30)%Z -> Qpower 10 n <= x -> x < Qpower 10 (n + 1) -> ndim x = n.
Proof.
  intros R A B. unfold ndim. rewrite <- fold_left_rev_right, rev_involutive || idtac.
  assert (G : forall m, (m <= 61)%nat -> fold_right (fun k n => if Qle_bool (Qpower 10 k) x then k else n) (-30)%Z (rev (map (fun i => Z.of_nat i - 30)%Z (seq 0 m))) =
    if (Z.of_nat m - 30 <=? n)%Z then (if (m =? 0)%nat then (-30)%Z else (Z.of_nat m - 31)%Z) else n).
  { induction m as [|m IH]; intros M; [cbn; destruct (-30 <=? n)%Z eqn:E; [reflexivity|lia]|].
    rewrite seq_S, map_app, rev_app_distr. cbn [map rev app fold_right]. rewrite Nat.add_0_l, IH by lia.
    destruct (Qle_bool (Qpower 10 (Z.of_nat m - 30)) x) eqn:Q.
    - apply Qle_bool_iff in Q. assert (Z.of_nat m - 30 <= n)%Z.
      { destruct (Z_le_gt_dec (Z.of_nat m - 30) n) as [C|C]; [exact C|exfalso]. assert (Qpower 10 (n + 1) <= Qpower 10 (Z.of_nat m - 30)) by (apply pow10_le; lia). lra. }
      destruct (Z.of_nat (S m) - 30 <=? n)%Z eqn:E; cbn [Nat.eqb]; lia.
    - apply qle_no in Q. assert (n < Z.of_nat m - 30)%Z.
      { destruct (Z_lt_ge_dec n (Z.of_nat m - 30)) as [C|C]; [exact C|exfalso]. assert (Qpower 10 (Z.of_nat m - 30) <= Qpower 10 n) by (apply pow10_le; lia). lra. }
      replace (Z.of_nat m - 30 <=? n)%Z with false by lia. replace (Z.of_nat (S m) - 30 <=? n)%Z with false by lia. reflexivity. }
  rewrite G by lia. change (Z.of_nat 61 - 30)%Z with 31%Z. replace (31 <=? n)%Z with false by lia. reflexivity.
Qed.
Lemma firstDigit_pow r n : (1 <= r <= 9)%Z -> forall fuel, (n <= fuel)%nat -> firstDigit fuel (r * 10 ^ Z.of_nat n) = r.
Proof.
  intros R. induction n as [|n IH]; intros fuel F.
  - change (10 ^ Z.of_nat 0)%Z with 1%Z. rewrite Z.mul_1_r. destruct fuel; [reflexivity|]. cbn [firstDigit]. replace (r <? 10)%Z with true by lia. reflexivity.
  - destruct fuel as [|fuel]; [lia|]. cbn [firstDigit]. rewrite Nat2Z.inj_succ, Z.pow_succ_r by lia.
    pose proof (Z.pow_pos_nonneg 10 (Z.of_nat n)). replace (r * (10 * 10 ^ Z.of_nat n) <? 10)%Z with false by nia.
    replace (r * (10 * 10 ^ Z.of_nat n))%Z with (r * 10 ^ Z.of_nat n * 10)%Z by ring. rewrite Z.div_mul by lia. apply IH. lia.
Qed.
Lemma firstChar_eq x k n : (0 <= n <= 30)%Z -> (1 <= k <= 10)%Z -> x == inject_Z (k * 10 ^ n) ->
  firstChar x = Some (if (k =? 10)%Z then 1%Z else k) /\ Qfloor x = (k * 10 ^ n)%Z.
Proof.
  intros N K E. assert (P : (0 < 10 ^ n)%Z) by (apply Z.pow_pos_nonneg; lia). assert (F : Qfloor x = (k * 10 ^ n)%Z) by (rewrite E; apply Qfloor_Z).
  split; [|exact F]. unfold firstChar. assert (Qz : qlt x 0 = false). { apply qlt_no. rewrite E. change 0 with (inject_Z 0). rewrite <- Zle_Qle. nia. }
  rewrite Qz, F. f_equal. destruct (k =? 10)%Z eqn:T.
  - assert (k = 10)%Z by lia. subst k. replace (10 * 10 ^ n)%Z with (1 * 10 ^ Z.of_nat (S (Z.to_nat n)))%Z by (rewrite Nat2Z.inj_succ, Z2Nat.id, Z.pow_succ_r by lia; ring).
    apply firstDigit_pow; lia.
  - rewrite <- (Z2Nat.id n) by lia. apply firstDigit_pow; lia.
Qed.
Definition best (k : Z) : Z := (if k <? 2 then 1 else if k <? 5 then 2 else if k <? 10 then 5 else 10)%Z.
Lemma scale_best n : (0 <= n <= 30)%Z -> forall fuel k x, (1 <= k <= 10)%Z -> (k - best k <= Z.of_nat fuel)%Z -> x == inject_Z (k * 10 ^ n) ->
  scaleNumber fuel n x = Some (best k * 10 ^ n)%Z.
Proof.
  intros N. induction fuel as [|f IH]; intros k x K B E; destruct (firstChar_eq x k n N K E) as [C F]; cbn [scaleNumber]; rewrite C, F.
  - assert (T : (k = 1 \/ k = 2 \/ k = 5 \/ k = 10)%Z) by (unfold best in B; destruct (k <? 2)%Z eqn:?, (k <? 5)%Z eqn:?, (k <? 10)%Z eqn:?; lia).
    destruct T as [->|[->|[->| ->]]]; reflexivity.
  - assert (T : (k = 1 \/ k = 2 \/ k = 5 \/ k = 10 \/ (k = 3 \/ k = 4 \/ k = 6 \/ k = 7 \/ k = 8 \/ k = 9))%Z) by lia.
    assert (St : forall j, (1 <= j)%Z -> (k = j + 1)%Z -> best j = best k -> scaleNumber f n (x - Qpower 10 n) = Some (best k * 10 ^ n)%Z).
    { intros j J -> Be. rewrite <- Be. apply IH; [lia|rewrite <- Be in B; lia|]. rewrite E, pow10_Z by lia. rewrite Z.mul_add_distr_r, inject_Z_plus, Z.mul_1_l. ring. }
    destruct T as [->|[->|[->|[->|T]]]]; try reflexivity.
    destruct T as [->|[->|[->|[->|[->| ->]]]]]; [apply (St 2%Z)|apply (St 3%Z)|apply (St 5%Z)|apply (St 6%Z)|apply (St 7%Z)|apply (St 8%Z)]; try lia; reflexivity.
Qed.
(** For maps from 5 km on the length is 1, 2 or 5 times a power of ten of kilometres, between 4/45 and 4/15 of the width *)
Theorem c192_chosen : forall fuel width, (9 <= fuel)%nat -> 5000 <= width -> width < 5000 * inject_Z (10 ^ 30) ->
  exists len k n, setLength fuel width = Some len /\ (k = 1 \/ k = 2 \/ k = 5)%Z /\ (0 <= n)%Z /\ len = (k * 10 ^ n)%Z /\
  (4 # 45) * width <= inject_Z len * 1000 <= (4 # 15) * width.
Proof.
  intros fuel width F W1 W2. unfold setLength. set (x := width / 5000). assert (Ex : width == 5000 * x) by (unfold x; field).
  assert (X1 : 1 <= x) by lra. assert (X2 : x < inject_Z (10 ^ 30)) by lra.
  assert (G : exists n, (0 <= n < 30)%Z /\ Qpower 10 n <= x /\ x < Qpower 10 (n + 1)).
  { assert (H : forall m : nat, x < inject_Z (10 ^ Z.of_nat m) -> exists n, (0 <= n < Z.of_nat m)%Z /\ Qpower 10 n <= x /\ x < Qpower 10 (n + 1)).
    { induction m as [|m IH]; intros H; [change (inject_Z (10 ^ Z.of_nat 0)) with 1 in H; lra|].
      destruct (Qlt_le_dec x (inject_Z (10 ^ Z.of_nat m))) as [C|C]; [destruct (IH C) as (n & A & B); exists n; split; [lia|exact B]|].
      exists (Z.of_nat m). split; [lia|]. rewrite !pow10_Z by lia. replace (Z.of_nat m + 1)%Z with (Z.of_nat (S m)) by lia. split; assumption. }
    apply (H 30%nat). exact X2. }
  destruct G as (n & N & A & B). rewrite (ndim_spec x n) by (try assumption; lia).
  set (p := Qpower 10 n) in *. assert (P : 0 < p) by apply pow10_pos. assert (Pn : p == inject_Z (10 ^ n)) by (apply pow10_Z; lia).
  assert (B' : x < 10 * p). { unfold p. rewrite Qpower_plus in B by discriminate. change (Qpower 10 1) with 10 in B. lra. }
  set (q := x / p). assert (Eq : x == q * p) by (unfold q; field; lra).
  assert (Q1 : 1 <= q) by (unfold q; apply Qle_shift_div_l; lra). assert (Q2 : q < 10) by (unfold q; apply Qlt_shift_div_r; lra).
  pose proof (rint_half q) as R. unfold round1. fold p. fold q. set (r := GenModel.rint q) in *.
  assert (Rr : (1 <= r <= 10)%Z).
  { split; [change 1%Z with (GenModel.rint (inject_Z 1))|change 10%Z with (GenModel.rint (inject_Z 10))]; apply GenProofs.rint_le; [exact Q1|change (inject_Z 10) with 10; lra]. }
  exists (best r * 10 ^ n)%Z. assert (S : scaleNumber fuel n (inject_Z r * p) = Some (best r * 10 ^ n)%Z).
  { apply scale_best; [lia|exact Rr| |]; [unfold best; destruct (r <? 2)%Z eqn:?, (r <? 5)%Z eqn:?, (r <? 10)%Z eqn:?; lia|]. rewrite Pn, inject_Z_mult. reflexivity. }
  assert (V : (best r = 1 /\ r = 1 \/ best r = 2 /\ 2 <= r <= 4 \/ best r = 5 /\ 5 <= r <= 9 \/ best r = 10 /\ r = 10)%Z).
  { unfold best. destruct (r <? 2)%Z eqn:?; [lia|]. destruct (r <? 5)%Z eqn:?; [lia|]. destruct (r <? 10)%Z eqn:?; lia. }
  assert (W : (4 # 45) * width <= inject_Z (best r * 10 ^ n) * 1000 <= (4 # 15) * width).
  { rewrite inject_Z_mult, <- Pn, Ex, Eq.
    assert (Hq : (4 # 9) * q <= inject_Z (best r) <= (4 # 3) * q).
    { destruct V as [[-> V]|[[-> V]|[[-> V]|[-> V]]]].
      - rewrite V in R. change (inject_Z 1) with 1 in *. lra.
      - assert (2 <= inject_Z r <= 4). { change 2 with (inject_Z 2). change 4 with (inject_Z 4). rewrite <- !Zle_Qle. exact V. } change (inject_Z 2) with 2. lra.
      - assert (5 <= inject_Z r <= 9). { change 5 with (inject_Z 5). change 9 with (inject_Z 9). rewrite <- !Zle_Qle. exact V. } change (inject_Z 5) with 5. lra.
      - rewrite V in R. change (inject_Z 10) with 10 in *. lra. }
    destruct Hq as [H1 H2]. apply (Qmult_le_compat_r _ _ p) in H1; [|lra]. apply (Qmult_le_compat_r _ _ p) in H2; [|lra]. split; lra. }
  destruct V as [[V _]|[[V _]|[[V _]|[V _]]]]; rewrite V in *.
  - exists 1%Z, n. repeat split; auto; tauto || lia.
  - exists 2%Z, n. repeat split; auto; tauto || lia.
  - exists 5%Z, n. repeat split; auto; tauto || lia.
  - exists 1%Z, (n + 1)%Z. split; [exact S|]. split; [auto|]. split; [lia|]. split; [rewrite Z.pow_add_r by lia; change (10 ^ 1)%Z with 10%Z; lia|exact W].
Qed.
Example c192_chosen_ex : setLength 9 3400000 = Some 500%Z /\ setLength 9 4000000 = Some 500%Z /\ setLength 9 1250000 = Some 200%Z.
Proof. repeat split; vm_compute; reflexivity. Qed.

(** ** C193 A scale bar is drawn for every map *)
(** The search for an end never ends if no point is that far away (distances on the earth are limited) *)
Theorem c193_far_refuted : forall (g : Q -> Q) distance tol, (forall p, g p < distance) -> 0 < distance ->
  forall fuel, pointAlong fuel (fun p => Some (g p)) distance tol = None.
Proof.
  intros g distance tol H D fuel. unfold pointAlong. destruct (Qle_bool distance 0) eqn:E; [apply Qle_bool_iff in E; lra|].
  assert (G : forall len, growLoop fuel (fun p => Some (g p)) distance len = None).
  { induction fuel as [|f IH]; intros len; cbn [growLoop below]; specialize (H len); apply qlt_iff in H; rewrite H; [reflexivity|apply IH]. }
  now rewrite G.
Qed.
(** It never ends either if the map has no points at the given distance: beyond its edge distances are NaN *)
Theorem c193_edge_refuted : forall (g : Q -> Q) edge distance tol, (forall p, p <= edge -> g p < distance) -> 0 <= edge -> 0 < distance -> 0 < tol ->
  forall fuel, pointAlong fuel (fun p => if Qle_bool p edge then Some (g p) else None) distance tol = None.
Proof.
  intros g edge distance tol H Ed D T fuel. set (dist := fun p => if Qle_bool p edge then Some (g p) else None).
  assert (Nb : forall p, below (dist p) distance = false -> edge < p).
  { intros p. unfold dist. destruct (Qle_bool p edge) eqn:E; [|intros _; now apply qle_no]. apply Qle_bool_iff in E. specialize (H p E). cbn [below]. apply qlt_iff in H. congruence. }
  assert (Nd : forall p, edge < p -> dist p = None). { intros p P. unfold dist. destruct (Qle_bool p edge) eqn:E; [apply Qle_bool_iff in E; lra|reflexivity]. }
  assert (G : forall n l r, edge < r -> halveLoop n dist distance tol l r = None).
  { induction n as [|n IH]; intros l r R; cbn [halveLoop]; rewrite (Nd r R); cbn [isclose]; [reflexivity|].
    destruct (below (dist ((l + r) / 2)) distance) eqn:B; [apply IH; exact R|]. apply IH. now apply Nb. }
  unfold pointAlong. destruct (Qle_bool distance 0) eqn:E; [reflexivity || (apply Qle_bool_iff in E; lra)|].
  destruct (growLoop fuel dist distance (1 # 10)) as [e|] eqn:Ge; [|reflexivity]. pose proof (grow_spec _ _ _ _ _ Ge) as B. rewrite B.
  destruct (Qle_bool tol 0) eqn:E'; [apply Qle_bool_iff in E'; lra|]. rewrite G by (now apply Nb). reflexivity.
Qed.
Example c193_edge_met : (forall p, p <= 5 # 10 -> 100000 * p < 100000).
Proof. intros p H. lra. Qed.
(** For maps less than 4.75 km wide the choice of a length does not end: the number becomes negative *)
Theorem c193_small_refuted : forall width, 0 < width -> width < 4750 -> inject_Z (10 ^ 2) <= width -> forall fuel, setLength fuel width = None.
Proof.
  intros width P W W0 fuel. unfold setLength. set (x := width / 5000). assert (Ex : width == 5000 * x) by (unfold x; field).
  change (inject_Z (10 ^ 2)) with 100 in W0.
  assert (N : ndim x = (-1)%Z \/ ndim x = (-2)%Z).
  { destruct (Qlt_le_dec x (1 # 10)) as [C|C]; [right|left]; apply ndim_spec; try lia; cbn; lra. }
  assert (G : forall n y, 0 < Qpower 10 n -> y < 1 -> scaleNumber fuel n y = None).
  { induction fuel as [|f IH]; intros n y Pn Y; cbn [scaleNumber]; unfold firstChar; destruct (qlt y 0) eqn:Ny; try reflexivity; try (apply IH; lra).
    - apply qlt_no in Ny. assert (F : Qfloor y = 0%Z). { pose proof (Qfloor_le y). pose proof (Qlt_floor y). assert (inject_Z (Qfloor y) < inject_Z 1) by (change (inject_Z 1) with 1; lra). assert (inject_Z (-1) < inject_Z (Qfloor y)) by (rewrite inject_Z_plus in H0; change (inject_Z 1) with 1 in *; change (inject_Z (-1)) with (-1); lra). rewrite <- Zlt_Qlt in H1, H2. lia. }
      rewrite F. reflexivity.
    - apply qlt_no in Ny. assert (F : Qfloor y = 0%Z). { pose proof (Qfloor_le y). pose proof (Qlt_floor y). assert (inject_Z (Qfloor y) < inject_Z 1) by (change (inject_Z 1) with 1; lra). assert (inject_Z (-1) < inject_Z (Qfloor y)) by (rewrite inject_Z_plus in H0; change (inject_Z 1) with 1 in *; change (inject_Z (-1)) with (-1); lra). rewrite <- Zlt_Qlt in H1, H2. lia. }
      rewrite F. cbn [firstDigit]. apply IH; lra. }
  apply G; [apply pow10_pos|]. unfold round1. destruct N as [-> | ->].
  - pose proof (rint_half (x / Qpower 10 (-1))) as R. change (Qpower 10 (-1)) with (1 # 10) in *. assert (E : x / (1 # 10) == 10 * x) by field.
    assert (inject_Z (GenModel.rint (x / (1 # 10))) < inject_Z 10) by (change (inject_Z 10) with 10; lra). rewrite <- Zlt_Qlt in H.
    assert (inject_Z (GenModel.rint (x / (1 # 10))) <= inject_Z 9) by (rewrite <- Zle_Qle; lia). change (inject_Z 9) with 9 in H0. lra.
  - pose proof (rint_half (x / Qpower 10 (-2))) as R. change (Qpower 10 (-2)) with (1 # 100) in *. assert (E : x / (1 # 100) == 100 * x) by field. lra.
Qed.

Print Assumptions c192_length.
Print Assumptions c192_errors.
Print Assumptions c192_found.
Print Assumptions c192_chosen.
Print Assumptions c193_far_refuted.
Print Assumptions c193_edge_refuted.
Print Assumptions c193_small_refuted.
