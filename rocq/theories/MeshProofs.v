(** Proofs about MeshModel.v. *)
From Verif Require Import Base TileModel ExtremesModel ExtremesProofs MeshModel.
From Coq Require Import QArith Psatz.
Open Scope Z_scope.

Lemma quot_add n d z : 0 < d -> (0 <= n /\ 0 <= n + z * d) \/ (n <= 0 /\ n + z * d <= 0) ->
  Z.quot (n + z * d) d = Z.quot n d + z.
Proof.
  intros Hd [[A B] | [A B]].
  - rewrite !Z.quot_div_nonneg by lia. rewrite Z.div_add by lia. reflexivity.
  - assert (E : forall a, a <= 0 -> Z.quot a d = - (- a / d)).
    { intros a Ha. rewrite <- (Z.opp_involutive a) at 1. rewrite Z.quot_opp_l by lia. rewrite Z.quot_div_nonneg by lia. reflexivity. }
    rewrite !E by lia. replace (- (n + z * d)) with (- n + (- z) * d) by ring. rewrite Z.div_add by lia. lia.
Qed.
Lemma qint_add x z : ((0 <= x)%Q /\ (0 <= x + inject_Z z)%Q) \/ ((x <= 0)%Q /\ (x + inject_Z z <= 0)%Q) ->
  qint (x + inject_Z z) = qint x + z.
Proof.
  intros H. destruct x as [n d]. unfold qint, Qplus, inject_Z, Qle in *. cbn [Qnum Qden] in *.
  rewrite Pos.mul_1_r, Z.mul_1_r in *. cbn [Z.mul] in *. apply quot_add; lia.
Qed.
Lemma qint_shift c k z : ((0 <= c)%Q /\ (0 <= c + k)%Q) \/ ((c <= 0)%Q /\ (c + k <= 0)%Q) -> (1000 * k == inject_Z z)%Q ->
  qint (1000 * (c + k)) = qint (1000 * c) + z.
Proof.
  intros H E. rewrite (qint_eq (1000 * (c + k)) (1000 * c + inject_Z z)) by (rewrite <- E; ring).
  assert (S : forall x, (0 <= x <-> 0 <= 1000 * x)%Q) by (intros x; split; intros L; lra).
  assert (S' : forall x, (x <= 0 <-> 1000 * x <= 0)%Q) by (intros x; split; intros L; lra).
  apply qint_add.
  assert (K : (1000 * c + inject_Z z == 1000 * (c + k))%Q) by (rewrite <- E; ring).
  rewrite K, <- !S, <- !S'. exact H.
Qed.
Lemma ceil_mult n s : 0 < s -> zceil (n * s) s = n.
Proof. intros H. unfold zceil. replace (- (n * s)) with ((- n) * s) by ring. rewrite Z.div_mul by lia. lia. Qed.
Lemma ceil_mult1 n s : 0 < s -> zceil (n * s + 1) s = n + 1.
Proof.
  intros H. unfold zceil. replace (- (n * s + 1)) with ((- n - 1) * s + (s - 1)) by ring.
  rewrite Z.div_add_l by lia. rewrite (Z.div_small (s - 1) s) by lia. lia.
Qed.

(** The two grids agree when the margin is a whole number of thousandths and of half steps and the domain lies
    on one side of zero. *)
Lemma mesh_agrees c margin res m g n : (1000 * margin == inject_Z m)%Q -> qint (1000 * res) = g ->
  0 < g -> 0 <= n -> 2 * m = n * g -> (0 <= c - margin)%Q \/ (c + margin <= 0)%Q -> (0 <= margin)%Q ->
  meshAxis c margin res = makeGridAxis c margin res.
Proof.
  intros Em Eg Hg Hn D S Hm. unfold meshAxis, makeGridAxis. cbv zeta.
  assert (G : qint (res * 1000) = g) by (rewrite <- Eg; apply qint_eq; ring). rewrite G, Eg.
  rewrite (qint_is (1000 * margin) m Em).
  assert (E1 : qint (1000 * (c - margin)) = qint (1000 * c) - m).
  { replace (qint (1000 * c) - m) with (qint (1000 * c) + - m) by ring. unfold Qminus. apply qint_shift.
    - destruct S as [S | S]; [left | right]; split; lra.
    - rewrite inject_Z_opp, <- Em. ring. }
  assert (E2 : qint (1000 * (c + margin)) = qint (1000 * c) + m).
  { apply qint_shift; [|exact Em]. destruct S as [S | S]; [left | right]; split; lra. }
  rewrite E1, E2. unfold arangeZ. f_equal. f_equal. f_equal. unfold arange_len. f_equal.
  replace (qint (1000 * c) + m + g - (qint (1000 * c) - m)) with ((n + 1) * g) by lia.
  replace (qint (1000 * c) + m + 1 - (qint (1000 * c) - m)) with (n * g + 1) by lia.
  now rewrite ceil_mult, ceil_mult1 by lia.
Qed.
Lemma mesh_differs : meshAxis (1 # 2000) 2 (20 # 1000) <> makeGridAxis (1 # 2000) 2 (20 # 1000).
Proof.
  intros H. apply (f_equal (hd 0)) in H. vm_compute in H. discriminate.
Qed.
(** also away from zero, when the margin is not a whole number of steps *)
Lemma mesh_longer : length (meshAxis 100 2 (30 # 1000)) <> length (makeGridAxis 100 2 (30 # 1000)).
Proof. vm_compute. discriminate. Qed.
