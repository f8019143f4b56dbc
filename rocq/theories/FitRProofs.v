From Coq Require Import Reals Lra Psatz.
From Verif Require Import FitRModel.
Open Scope R_scope.

Lemma Rpower_le_pos a b k : 0 < a -> a <= b -> 0 <= k -> Rpower a k <= Rpower b k.
Proof.
  intros Ha Hab Hk. destruct (Req_dec a b) as [->|]; [lra|]. apply Rle_Rpower_l; lra.
Qed.
Lemma Rpower_pos a k : 0 < Rpower a k.
Proof. unfold Rpower. apply exp_pos. Qed.
Lemma Rpower_le_neg a b k : 0 < a -> a <= b -> k <= 0 -> Rpower b k <= Rpower a k.
Proof.
  intros Ha Hab Hk. replace k with (- - k) by ring. rewrite (Rpower_Ropp b), (Rpower_Ropp a).
  apply Rinv_le_contravar; [apply Rpower_pos|]. apply Rpower_le_pos; lra.
Qed.

Lemma gev_mono loc scale shp y t t' : 0 < shp -> 0 < scale -> 0 < y -> y < t -> t <= t' ->
  gevLevel loc scale shp y t <= gevLevel loc scale shp y t'.
Proof.
  intros Hk Hs Hy Ht Htt. unfold gevLevel.
  assert (P : 0 < scale / shp) by (apply Rdiv_lt_0_compat; lra).
  assert (F : forall u, y < u -> 0 < 1 - y / u < 1).
  { intros u Hu. assert (0 < y / u) by (apply Rdiv_lt_0_compat; lra).
    assert (y / u < 1) by (apply (Rmult_lt_reg_r u); [lra|]; unfold Rdiv; rewrite Rmult_assoc, Rinv_l by lra; lra). lra. }
  pose proof (F t Ht) as F1. pose proof (F t' ltac:(lra)) as F2.
  assert (L : ln (1 - y / t) <= ln (1 - y / t')).
  { assert (y / t' <= y / t).
    { unfold Rdiv. apply Rmult_le_compat_l; [lra|]. apply Rinv_le_contravar; lra. }
    destruct (Req_dec (1 - y / t) (1 - y / t')) as [->|]; [lra|]. left. apply ln_increasing; lra. }
  assert (N : ln (1 - y / t') < 0) by (rewrite <- ln_1; apply ln_increasing; lra).
  assert (R : Rpower (-1 * ln (1 - y / t')) shp <= Rpower (-1 * ln (1 - y / t)) shp) by (apply Rpower_le_pos; lra).
  apply Rplus_le_compat_l. apply Rmult_le_compat_l; lra.
Qed.

Lemma gpd_mono mu shape scale rate npyr t t' : shape <> 0 -> 0 < scale -> 0 < rate -> 0 < npyr -> 0 < t -> t <= t' ->
  gpdReturnLevel t mu shape scale rate npyr <= gpdReturnLevel t' mu shape scale rate npyr.
Proof.
  intros Hk Hs Hr Hn Ht Htt. unfold gpdReturnLevel.
  assert (X : 0 < t * npyr * rate) by (repeat apply Rmult_lt_0_compat; lra).
  assert (Y : t * npyr * rate <= t' * npyr * rate).
  { apply Rmult_le_compat_r; [lra|]. apply Rmult_le_compat_r; lra. }
  apply Rplus_le_compat_l. destruct (Rtotal_order shape 0) as [C|[C|C]]; [|lra|].
  - assert (R : Rpower (t' * npyr * rate) shape <= Rpower (t * npyr * rate) shape) by (apply Rpower_le_neg; lra).
    assert (S : scale / shape < 0).
    { unfold Rdiv. pose proof (Rinv_lt_0_compat shape C). nra. }
    set (s := scale / shape) in *. clearbody s. nra.
  - assert (R : Rpower (t * npyr * rate) shape <= Rpower (t' * npyr * rate) shape) by (apply Rpower_le_pos; lra).
    assert (S : 0 < scale / shape) by (apply Rdiv_lt_0_compat; lra).
    set (s := scale / shape) in *. clearbody s. nra.
Qed.

Lemma Rpower_inv_exp a k : 0 < a -> k <> 0 -> Rpower (Rpower a k) (1 / k) = a.
Proof.
  intros Ha Hk. rewrite Rpower_mult. replace (k * (1 / k)) with 1 by (field; auto). now apply Rpower_1.
Qed.

Lemma gpd_inverse mu shape scale rate npyr t : shape <> 0 -> 0 < scale -> 0 < rate -> 0 < npyr -> 0 < t ->
  gpdRecurrence (gpdReturnLevel t mu shape scale rate npyr) mu shape scale rate npyr = t.
Proof.
  intros Hk Hs Hr Hn Ht. unfold gpdRecurrence, gpdReturnLevel.
  assert (X : 0 < t * npyr * rate) by (repeat apply Rmult_lt_0_compat; lra).
  set (z := Rpower (t * npyr * rate) shape).
  replace ((mu + scale / shape * (z - 1) - mu) * (shape / scale) + 1) with z by (field; split; lra).
  unfold z. rewrite Rpower_inv_exp by auto. field. split; lra.
Qed.
Lemma gpd_inverse' mu shape scale rate npyr v : shape <> 0 -> 0 < scale -> 0 < rate -> 0 < npyr ->
  0 < (v - mu) * (shape / scale) + 1 ->
  gpdReturnLevel (gpdRecurrence v mu shape scale rate npyr) mu shape scale rate npyr = v.
Proof.
  intros Hk Hs Hr Hn Hv. unfold gpdRecurrence, gpdReturnLevel.
  set (z := (v - mu) * (shape / scale) + 1) in *.
  replace (Rpower z (1 / shape) / (npyr * rate) * npyr * rate) with (Rpower z (1 / shape)) by (field; split; lra).
  rewrite Rpower_mult. replace (1 / shape * shape) with 1 by (field; auto). rewrite Rpower_1 by exact Hv.
  unfold z. field. split; lra.
Qed.

(** ** The estimator *)
Ltac consts := unfold A0, A1, A2, A3, A4, B1, B2, B3, C1, C2, C3, D1, D2 in *.

Lemma Gpos_den Z : 0 < Z < 1 -> 0 < 1 + Z * (D1 + Z * D2).
Proof. intros H. consts. nra. Qed.
Lemma Gpos_gt t3 : 0 < t3 < 1 -> -1 < Gpos t3.
Proof.
  intros H. unfold Gpos. set (Z := 1 - t3). assert (HZ : 0 < Z < 1) by (unfold Z; lra). clearbody Z. cbv zeta.
  pose proof (Gpos_den Z HZ) as D. apply (Rmult_lt_reg_r (1 + Z * (D1 + Z * D2))); [exact D|].
  unfold Rdiv. rewrite Rmult_assoc, Rinv_l, Rmult_1_r by lra. consts.
  assert (0 < Z * Z) by nra. nra.
Qed.
Lemma Gneg_den t : - 8 / 10 <= t <= 0 -> 0 < 1 + t * (B1 + t * (B2 + t * B3)).
Proof.
  intros H. consts.
  assert (E : exists u, t = - u /\ 0 <= u <= 8 / 10) by (exists (- t); split; lra).
  destruct E as (u & -> & Hu).
  assert (0 <= u * (8/10 - u)) by nra. assert (0 <= u * u) by nra.
  assert (0 <= u * u * (8/10 - u)) by nra. nra.
Qed.
Lemma Gneg_num t : - 8 / 10 <= t <= 0 -> 0 < A0 + t * (A1 + t * (A2 + t * (A3 + t * A4))).
Proof.
  intros H. consts.
  assert (E : exists u, t = - u /\ 0 <= u <= 8 / 10) by (exists (- t); split; lra).
  destruct E as (u & -> & Hu).
  assert (0 <= u * (8/10 - u)) by nra. assert (0 <= u * u) by nra.
  assert (0 <= u * u * (8/10 - u)) by nra. assert (0 <= u * u * u * (8/10 - u)) by nra. nra.
Qed.
Lemma Gneg_pos t : - 8 / 10 <= t <= 0 -> 0 < Gneg t.
Proof. intros H. unfold Gneg. apply Rdiv_lt_0_compat; [now apply Gneg_num|now apply Gneg_den]. Qed.

(** The two approximations meet at zero skewness. *)
Lemma G_join : Rabs (Gneg 0 - (-1 + 1 * (C1 + 1 * (C2 + 1 * C3))) / (1 + 1 * (D1 + 1 * D2))) <= 1 / 10000000.
Proof.
  unfold Gneg. consts. match goal with |- Rabs ?x <= _ => set (e := x) end.
  assert (- (1 / 10000000) <= e <= 1 / 10000000) by (unfold e; lra).
  apply Rabs_le. lra.
Qed.

Section E.
  Variable gamma : R -> R.
  Hypothesis gamma_pos : forall z, 0 < z -> 0 < gamma z.

  Lemma pow2 G : (0 < G -> Rpower 2 (- G) < 1) /\ (G < 0 -> 1 < Rpower 2 (- G)).
  Proof.
    assert (L : 0 < ln 2) by (rewrite <- ln_1; apply ln_increasing; lra).
    unfold Rpower. split; intros H; rewrite <- exp_0; apply exp_increasing; nra.
  Qed.

  Lemma estimate_ok l1 l2 G : 0 < l2 -> -1 < G -> G <> 0 ->
    let '(loc, scale, k) := estimate gamma l1 l2 G in
    0 < scale /\ k = G /\
    loc + scale * (1 - gamma (1 + k)) / k = l1 /\
    scale * gamma (1 + k) * (1 - Rpower 2 (- k)) / k = l2.
  Proof.
    intros Hl Hg H0. unfold estimate. cbv zeta.
    assert (Gp : 0 < gamma (1 + G)) by (apply gamma_pos; lra).
    set (g := gamma (1 + G)) in *. pose proof (pow2 G) as [P1 P2]. set (p := Rpower 2 (- G)) in *. clearbody g p.
    assert (NP : 1 - p <> 0) by (destruct (Rtotal_order G 0) as [C|[C|C]]; [specialize (P2 C)|lra|specialize (P1 C)]; lra).
    split; [|split; [reflexivity|]].
    - destruct (Rtotal_order G 0) as [C|[C|C]]; [|lra|].
      + specialize (P2 C). replace (l2 * G / (g * (1 - p))) with (l2 * - G / (g * (p - 1))) by (field; split; lra).
        apply Rdiv_lt_0_compat; apply Rmult_lt_0_compat; lra.
      + specialize (P1 C). apply Rdiv_lt_0_compat; apply Rmult_lt_0_compat; lra.
    - split; field; repeat split; lra.
  Qed.

  Lemma pelgev_ok l1 l2 t3 : 0 < l2 -> - 8 / 10 <= t3 < 1 ->
    let '(loc, scale, k) := pelgev gamma l1 l2 t3 in
    0 < scale /\ -1 < k /\ (t3 <= 0 -> 0 < k) /\
    (k <> 0 -> loc + scale * (1 - gamma (1 + k)) / k = l1 /\ scale * gamma (1 + k) * (1 - Rpower 2 (- k)) / k = l2) /\
    (k = 0 -> loc + EU * scale = l1 /\ scale * DL2 = l2).
  Proof.
    intros Hl Ht. unfold pelgev. destruct (Rle_dec l2 0) as [|_]; [lra|].
    destruct (Rle_dec 1 (Rabs t3)) as [C|_].
    { exfalso. unfold Rabs in C. destruct (Rcase_abs t3); lra. }
    destruct (Rlt_dec 0 t3) as [Hp|Hp].
    - pose proof (Gpos_gt t3 ltac:(lra)) as HG. cbv zeta. destruct (Rlt_dec (Rabs (Gpos t3)) small) as [_|Hs].
      + split; [apply Rdiv_lt_0_compat; unfold DL2; lra|]. split; [lra|]. split; [lra|]. split; [lra|].
        intros _. unfold DL2. split; field.
      + assert (NZ : Gpos t3 <> 0).
        { intros E. rewrite E, Rabs_R0 in Hs. unfold small in Hs. lra. }
        pose proof (estimate_ok l1 l2 (Gpos t3) Hl HG NZ) as P.
        destruct (estimate gamma l1 l2 (Gpos t3)) as [[loc scale] k]. destruct P as (P1 & -> & P3).
        repeat split; try tauto; lra.
    - pose proof (Gneg_pos t3 ltac:(lra)) as HG. cbv zeta. destruct (Rlt_dec t3 (- 8 / 10)) as [|_]; [lra|].
      pose proof (estimate_ok l1 l2 (Gneg t3) Hl ltac:(lra) ltac:(lra)) as P.
      destruct (estimate gamma l1 l2 (Gneg t3)) as [[loc scale] k]. destruct P as (P1 & -> & P3).
      repeat split; try tauto; lra.
  Qed.
End E.

(** Generalised Pareto estimator: the fitted distribution has the given moments. *)
Lemma pelgpa_ok l1 l2 t3 : 0 < l2 -> -1 < t3 < 1 ->
  let '(loc, scale, k) := pelgpa l1 l2 t3 in
  0 < scale /\ -1 < k /\ loc + scale / (1 + k) = l1 /\ scale / ((1 + k) * (2 + k)) = l2 /\ (1 - k) / (3 + k) = t3.
Proof.
  intros Hl Ht. unfold pelgpa. destruct (Rle_dec l2 0) as [|_]; [lra|].
  destruct (Rle_dec 1 (Rabs t3)) as [C|_].
  { exfalso. unfold Rabs in C. destruct (Rcase_abs t3); lra. }
  cbv zeta. set (g := (1 - 3 * t3) / (1 + t3)).
  assert (Eg : 1 + g = 2 * (1 - t3) / (1 + t3)) by (unfold g; field; lra).
  assert (G1 : 0 < 1 + g) by (rewrite Eg; apply Rdiv_lt_0_compat; lra).
  split; [apply Rmult_lt_0_compat; [apply Rmult_lt_0_compat; lra|lra]|].
  split; [lra|]. split; [field; lra|]. split; [field; split; lra|].
  assert (G3 : 3 + g <> 0) by lra.
  apply (Rmult_eq_reg_r (3 + g)); [|exact G3]. unfold Rdiv. rewrite Rmult_assoc, Rinv_l, Rmult_1_r by exact G3.
  unfold g. field. lra.
Qed.

(** Shape zero *)
Lemma gpd_zero mu scale rate npyr t : 0 < scale -> 0 < rate -> 0 < npyr -> 0 < t ->
  gpdLevelF t mu 0 scale rate npyr = None /\
  (forall eps, 0 < eps -> exists d, 0 < d /\ forall shape, 0 < Rabs shape < d ->
     exists v, gpdLevelF t mu shape scale rate npyr = Some v /\ Rabs (v - (mu + scale * ln (t * npyr * rate))) < eps).
Proof.
  intros Hs Hr Hn Ht. split; [unfold gpdLevelF; destruct (Req_EM_T 0 0); congruence|].
  intros eps He. set (L := ln (t * npyr * rate)).
  assert (D : derivable_pt_lim (fun s => exp (s * L)) 0 L).
  { assert (E : exp (0 * L) * (1 * L + 0 * 0) = L) by (rewrite Rmult_0_l, exp_0; ring).
    enough (H : derivable_pt_lim (fun s => exp (s * L)) 0 (exp (0 * L) * (1 * L + 0 * 0))) by (now rewrite E in H).
    change (derivable_pt_lim (comp exp (fun s => s * L)) 0 (exp ((fun s => s * L) 0) * (1 * L + 0 * 0))).
    apply derivable_pt_lim_comp.
    - apply (derivable_pt_lim_mult id (fun _ => L) 0 1 0); [apply derivable_pt_lim_id|apply derivable_pt_lim_const].
    - apply derivable_pt_lim_exp. }
  destruct (D (eps / scale) ltac:(now apply Rdiv_lt_0_compat)) as (d & Hd).
  exists d. split; [apply cond_pos|]. intros shape [S1 S2].
  assert (Z : shape <> 0) by (intros ->; rewrite Rabs_R0 in S1; lra).
  exists (gpdReturnLevel t mu shape scale rate npyr). split; [unfold gpdLevelF; destruct (Req_EM_T shape 0); congruence|].
  specialize (Hd shape Z S2). rewrite Rplus_0_l, Rmult_0_l, exp_0 in Hd.
  unfold gpdReturnLevel, Rpower. fold L.
  replace (mu + scale / shape * (exp (shape * L) - 1) - (mu + scale * L)) with (scale * ((exp (shape * L) - 1) / shape - L)) by (field; exact Z).
  rewrite Rabs_mult, (Rabs_right scale) by lra.
  apply Rmult_lt_reg_l with (/ scale); [now apply Rinv_0_lt_compat|].
  rewrite <- Rmult_assoc, Rinv_l, Rmult_1_l by lra. unfold Rdiv in Hd at 2. lra.
Qed.
