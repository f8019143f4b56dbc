(** The surface wind of a moving storm. *)
From Coq Require Import Reals Lra Psatz.
From Verif Require Import CircleModel CircleProofs WindModel WindProofs WindProofs5.
Open Scope R_scope.

(** [w] turned anticlockwise by the angle [d] *)
Definition turn (d : R) (w : R * R) : R * R := (fst w * cos d - snd w * sin d, fst w * sin d + snd w * cos d).

Lemma turn_sc a b d k : (k * sin (a - (b + d)), k * cos (a - (b + d))) = turn d (k * sin (a - b), k * cos (a - b)).
Proof.
  unfold turn. cbn [fst snd]. replace (a - (b + d)) with ((a - b) - d) by ring. set (p := a - b).
  rewrite sin_minus, cos_minus. f_equal; ring.
Qed.
Lemma turn_sc3 a b d k m : (k * sin (a - (b + d)) * m, k * cos (a - (b + d)) * m) = turn d (k * sin (a - b) * m, k * cos (a - b) * m).
Proof.
  pose proof (turn_sc a b d (k * m)) as E. unfold turn in *. cbn [fst snd] in *. injection E as E1 E2. f_equal; nra.
Qed.

Lemma hubbert_turn f rMax V r lam vFm th tm d :
  hubbert f rMax V r (lam + d) vFm (th + d) tm = turn d (hubbert f rMax V r lam vFm th tm).
Proof.
  unfold hubbert. cbv zeta.
  replace (th + d + tm * PI / 180 - (lam + d) + PI) with (th + tm * PI / 180 - lam + PI) by ring.
  apply turn_sc3.
Qed.
Lemma mc_turn f rMax Vabs V r lam vFm th tm d :
  mcconochie f rMax Vabs V r (lam + d) vFm (th + d) tm = turn d (mcconochie f rMax Vabs V r lam vFm th tm).
Proof.
  unfold mcconochie. cbv zeta.
  replace (th + d + tm * PI / 180 - (lam + d)) with (th + tm * PI / 180 - lam) by ring.
  apply turn_sc3.
Qed.
Lemma kepertPolar_turn s f rMax Vm V Z r lam vFm th d :
  kepertPolar s f rMax Vm V Z r (lam + d) vFm (th + d) = kepertPolar s f rMax Vm V Z r lam vFm th.
Proof. unfold kepertPolar. replace (lam + d - (th + d)) with (lam - th) by ring. reflexivity. Qed.
Lemma kepert_turn f rMax Vm V Z r lam vFm th d :
  kepert f rMax Vm V Z r (lam + d) vFm (th + d) = turn d (kepert f rMax Vm V Z r lam vFm th).
Proof. unfold kepert. rewrite kepertPolar_turn. unfold cartesian. apply turn_sc. Qed.

(** Kepert's field where the gradient wind vanishes. *)
Lemma kepertPolar_calm s f rMax Vm Z r lam vFm th :
  kepertPolar s f rMax Vm 0 Z r lam vFm th =
  (kvt Vm vFm rMax r * cos (lam - th), - (kvt Vm vFm rMax r * sin (lam - th))).
Proof.
  unfold kepertPolar. cbv zeta. unfold cdiv, cscale, cadd, cmul, cexpi, C. cbn [re im].
  set (k := kvt Vm vFm rMax r).
  assert (Z0 : forall x y, Rabs (2 / 1000 / 50 * 0 / sqrt (sqrt (x * y))) = 0) by (intros; replace (_ / _) with 0; [apply Rabs_R0|unfold Rdiv; ring]).
  assert (Z1 : forall x, Rabs (2 / 1000 / 50 * 0 / x) = 0) by (intros; replace (_ / _) with 0; [apply Rabs_R0|unfold Rdiv; ring]).
  rewrite !Z1.
  destruct (rlt _ _); cbn [re im]; f_equal; unfold Rdiv; ring.
Qed.
Lemma kepert_calm f rMax Vm Z r lam vFm th :
  kepert f rMax Vm 0 Z r lam vFm th = (kvt Vm vFm rMax r * cos th, kvt Vm vFm rMax r * sin th).
Proof.
  unfold kepert. rewrite kepertPolar_calm.
  set (k := kvt Vm vFm rMax r). set (uv := (_, _)).
  unfold cartesian. cbv zeta. pose proof (atan2_spec (fst uv) (snd uv)) as [S Cc].
  set (h := sqrt _) in *. set (phi := atan2 _ _) in *. rewrite sin_minus, cos_minus.
  unfold uv in S, Cc. cbn [fst snd] in S, Cc.
  assert (Ec : cos th = cos lam * cos (lam - th) + sin lam * sin (lam - th)).
  { rewrite <- cos_minus. f_equal. ring. }
  assert (Es : sin th = sin lam * cos (lam - th) - cos lam * sin (lam - th)).
  { rewrite <- sin_minus. f_equal. ring. }
  rewrite Ec, Es.
  f_equal.
  - transitivity ((h * sin phi) * cos lam - (h * cos phi) * sin lam); [ring|]. rewrite S, Cc. ring.
  - transitivity ((h * cos phi) * cos lam + (h * sin phi) * sin lam); [ring|]. rewrite S, Cc. ring.
Qed.
Lemma cos_half a : cos (a + PI) = - cos a. Proof. rewrite neg_cos. reflexivity. Qed.

(** On opposite sides of the storm the effects of its motion are opposite. *)
Lemma kepertPolar_opposite s f rMax Vm V Z r lam vFm th : s <> 0 -> s * s = 1 ->
  let a := kepertPolar s f rMax Vm V Z r lam vFm th in
  let b := kepertPolar s f rMax Vm V Z r (lam + PI) vFm th in
  let c := kepertPolar s f rMax Vm V Z r lam 0 th in
  fst a + fst b = 2 * fst c /\ snd a + snd b = 2 * snd c.
Proof.
  intros Hs Hss. cbv zeta. unfold kepertPolar. cbv zeta.
  set (al := (2 * V / r + f) / (2 * 50)). set (be := (f + Z) / (2 * 50)). set (gam := V / (2 * 50 * r)).
  set (albe := sqrt (al / be)). set (chi := Rabs (2 / 1000 / 50 * V / sqrt (sqrt (al * be)))).
  set (eta := Rabs (2 / 1000 / 50 * V / sqrt (sqrt (al * be) + Rabs gam))).
  set (psi := Rabs (2 / 1000 / 50 * V / sqrt (Rabs (sqrt (al * be) - Rabs gam)))).
  set (tst := rlt (sqrt (al * be)) (Rabs gam)).
  clearbody albe chi eta psi tst. rewrite kvt_0. set (k := kvt Vm vFm rMax r). clearbody k.
  replace (lam + PI - th) with ((lam - th) + PI) by ring.
  set (t := lam - th).
  assert (E : cos ((t + PI) * s) = - cos (t * s) /\ sin ((t + PI) * s) = - sin (t * s)).
  { assert (D : s = 1 \/ s = -1) by nra. destruct D as [-> | ->].
    - rewrite !Rmult_1_r. split; [apply neg_cos|apply neg_sin].
    - replace ((t + PI) * -1) with (- (t + PI)) by ring. replace (t * -1) with (- t) by ring.
      rewrite !cos_neg, !sin_neg, neg_cos, neg_sin. split; ring. }
  destruct E as [E1 E2].
  replace (- (t + PI) * s) with (- ((t + PI) * s)) by ring. replace (- t * s) with (- (t * s)) by ring.
  unfold cexpi. rewrite !cos_neg, !sin_neg, E1, E2, neg_cos, neg_sin.
  unfold cdiv, cscale, cadd, cmul, C. cbn [re im fst snd].
  destruct tst; cbn [re im fst snd]; unfold Rdiv; split; ring.
Qed.
Lemma kvt_bound Vm vFm rMax r : 0 < Vm -> 0 <= vFm <= Vm -> 0 <= kvt Vm vFm rMax r <= 5 / 4 * vFm.
Proof.
  intros Hv [H1 H2]. assert (U : 0 <= umod Vm vFm <= 5 / 4 * vFm).
  { unfold umod. destruct (andb _ _) eqn:E; [|lra]. apply andb_prop in E as [E1 E2]. apply rlt_true in E1.
    assert (0 <= 1 - vFm / Vm <= 1).
    { assert (vFm / Vm <= 1) by (apply (Rmult_le_reg_r Vm); [lra|]; unfold Rdiv; rewrite Rmult_assoc, Rinv_l; lra).
      assert (0 <= vFm / Vm) by (apply Rmult_le_pos; [lra|]; left; now apply Rinv_0_lt_compat). lra. }
    rewrite Rabs_right by lra. nra. }
  unfold kvt. destruct (rlt _ _); [|exact U].
  assert (0 < exp (- (r / (2 * rMax) - 1) ^ 2) <= 1).
  { split; [apply exp_pos|]. pose proof (pow2_ge_0 (r / (2 * rMax) - 1)) as P. set (x := (r / (2 * rMax) - 1) ^ 2) in *.
    replace 1 with (exp 0) by apply exp_0. destruct (Req_dec x 0) as [-> |N]; [rewrite Ropp_0; lra|].
    left. apply exp_increasing. lra. }
  set (e := exp _) in *. nra.
Qed.
