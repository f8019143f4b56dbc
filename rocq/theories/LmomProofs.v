From Coq Require Import List Arith ZArith Lia Bool QArith Qabs Lqa Qfield.
From Verif Require Import LmomModel.
Import ListNotations.
Open Scope Q_scope.

Lemma sumn_ext f g k : (forall i, (i < k)%nat -> f i == g i) -> sumn f k == sumn g k.
Proof.
  induction k as [|k IH]; intros H; cbn [sumn]; [reflexivity|].
  rewrite IH by (intros; apply H; lia). rewrite (H k) by lia. reflexivity.
Qed.
Lemma sumn_add f g k : sumn (fun i => f i + g i) k == sumn f k + sumn g k.
Proof. induction k as [|k IH]; cbn [sumn]; [ring|]. rewrite IH. ring. Qed.
Lemma sumn_scale c f k : sumn (fun i => c * f i) k == c * sumn f k.
Proof. induction k as [|k IH]; cbn [sumn]; [ring|]. rewrite IH. ring. Qed.
Lemma sumn_const c k : sumn (fun _ => c) k == qn k * c.
Proof.
  induction k as [|k IH]; cbn [sumn]; [unfold qn; cbn; ring|]. rewrite IH.
  unfold qn. rewrite Nat2Z.inj_succ. unfold Z.succ. rewrite inject_Z_plus. ring.
Qed.
Lemma sumn_shift f k : sumn f (S k) == f 0%nat + sumn (fun i => f (S i)) k.
Proof. induction k as [|k IH]; cbn [sumn] in *; [ring|]. rewrite IH. ring. Qed.
Lemma sumn_nonneg f k : (forall i, (i < k)%nat -> 0 <= f i) -> 0 <= sumn f k.
Proof.
  induction k as [|k IH]; intros H; cbn [sumn]; [lra|].
  assert (0 <= f k) by (apply H; lia). assert (0 <= sumn f k) by (apply IH; intros; apply H; lia). lra.
Qed.
Lemma sumn_zero f k : (forall i, (i < k)%nat -> 0 <= f i) -> sumn f k == 0 -> forall i, (i < k)%nat -> f i == 0.
Proof.
  induction k as [|k IH]; intros H E i Hi; [lia|]. cbn [sumn] in E.
  assert (0 <= f k) by (apply H; lia).
  assert (0 <= sumn f k) by (apply sumn_nonneg; intros; apply H; lia).
  destruct (Nat.eq_dec i k) as [->|]; [lra|]. apply IH; [intros; apply H; lia|lra|lia].
Qed.
Lemma sumn_abs f g k : (forall i, (i < k)%nat -> Qabs (f i) <= g i) -> Qabs (sumn f k) <= sumn g k.
Proof.
  induction k as [|k IH]; intros H; cbn [sumn]; [vm_compute; discriminate|].
  eapply Qle_trans; [apply Qabs_triangle|].
  assert (Qabs (f k) <= g k) by (apply H; lia).
  assert (Qabs (sumn f k) <= sumn g k) by (apply IH; intros; apply H; lia). lra.
Qed.

Lemma qn_S k : qn (S k) == qn k + 1.
Proof. unfold qn. rewrite Nat2Z.inj_succ. unfold Z.succ. rewrite inject_Z_plus. reflexivity. Qed.
Lemma qn_add a b : qn (a + b) == qn a + qn b.
Proof. unfold qn. rewrite Nat2Z.inj_add, inject_Z_plus. reflexivity. Qed.
Lemma qn_sub a b : (b <= a)%nat -> qn (a - b) == qn a - qn b.
Proof. intros. unfold qn. rewrite Nat2Z.inj_sub by auto. unfold Z.sub. rewrite inject_Z_plus, inject_Z_opp. reflexivity. Qed.
Lemma qn_le a b : (a <= b)%nat -> qn a <= qn b.
Proof. intros. unfold qn. rewrite <- Zle_Qle. lia. Qed.
Lemma qn_pos a : 0 <= qn a.
Proof. unfold qn. change 0 with (inject_Z 0). rewrite <- Zle_Qle. lia. Qed.

(** Folding a sum in the middle. *)
Lemma fold_half f k : sumn f k ==
  sumn (fun i => f i + f (k - 1 - i)%nat) (k / 2) + (if (k =? k / 2 + k / 2)%nat then 0 else f (k / 2)%nat).
Proof.
  assert (Hs : forall a b, sumn f (a + b) == sumn f a + sumn (fun i => f (a + i)%nat) b).
  { induction b as [|b IH]; [rewrite Nat.add_0_r; cbn; ring|].
    rewrite Nat.add_succ_r. cbn [sumn]. rewrite IH. ring. }
  assert (Hr : forall g b, sumn g b == sumn (fun i => g (b - 1 - i)%nat) b).
  { intros g b. induction b as [|b IH]; [reflexivity|].
    rewrite (sumn_shift (fun i => g (S b - 1 - i)%nat)). cbn [sumn].
    replace (S b - 1 - 0)%nat with b by lia.
    assert (E : sumn (fun i => g (S b - 1 - S i)%nat) b == sumn (fun i => g (b - 1 - i)%nat) b).
    { apply sumn_ext. intros i Hi. replace (S b - 1 - S i)%nat with (b - 1 - i)%nat by lia. reflexivity. }
    rewrite E, <- IH. ring. }
  set (h := (k / 2)%nat).
  assert (Hk : k = (h + h)%nat \/ k = (h + 1 + h)%nat).
  { pose proof (Nat.div_mod k 2 ltac:(lia)). pose proof (Nat.mod_upper_bound k 2 ltac:(lia)). subst h. lia. }
  rewrite sumn_add. destruct Hk as [Hk|Hk].
  - rewrite (proj2 (Nat.eqb_eq _ _)) by exact Hk. rewrite Hk at 1. rewrite Hs.
    rewrite (Hr (fun i => f (h + i)%nat) h). rewrite Qplus_0_r. f_equiv.
    apply sumn_ext. intros i Hi. replace (h + (h - 1 - i))%nat with (k - 1 - i)%nat by lia. reflexivity.
  - rewrite (proj2 (Nat.eqb_neq _ _)) by lia. rewrite Hk at 1. rewrite Hs, (Hs h 1%nat).
    rewrite (Hr (fun i => f (h + 1 + i)%nat) h). cbn [sumn]. rewrite Nat.add_0_r.
    assert (E : sumn (fun i => f (h + 1 + (h - 1 - i))%nat) h == sumn (fun i => f (k - 1 - i)%nat) h).
    { apply sumn_ext. intros i Hi. replace (h + 1 + (h - 1 - i))%nat with (k - 1 - i)%nat by lia. reflexivity. }
    rewrite E. ring.
Qed.

(** Summation by parts. *)
Lemma abel w x k : sumn (fun i => w i * x i) (S k) ==
  sumn w (S k) * x k - sumn (fun g => sumn w (S g) * (x (S g) - x g)) k.
Proof.
  induction k as [|k IH]; [cbn [sumn]; ring|].
  cbn [sumn] in *. rewrite IH. ring.
Qed.

Lemma abel' w x m : (1 <= m)%nat -> sumn (fun i => w i * x i) m ==
  sumn w m * x (m - 1)%nat - sumn (fun g => sumn w (S g) * (x (S g) - x g)) (m - 1).
Proof. intros H. destruct m as [|k]; [lia|]. rewrite abel. now replace (S k - 1)%nat with k by lia. Qed.

Section L.
  Variable data : list Q.
  Notation n := (n data).
  Notation x := (x data).
  Notation nhalf := (nhalf data).
  Hypothesis Hn : (3 <= n)%nat.

  Definition w2 (i : nat) : Q := - qn n + 1 + 2 * qn i.
  Definition w3 (i : nat) : Q := w2 i * w2 i * (3 / (2 * qn n - 4)) * (1 / (qn n - 1)) - (qn n + 1) / (2 * qn n - 4).

  Lemma n3 : 3 <= qn n.
  Proof. change 3 with (qn 3). now apply qn_le. Qed.

  Lemma w2_anti i : (i < n)%nat -> w2 (n - 1 - i) == - w2 i.
  Proof. intros H. unfold w2. rewrite !qn_sub by lia. change (qn 1) with 1. ring. Qed.

  Lemma w2_mid : n <> (nhalf + nhalf)%nat -> w2 nhalf == 0.
  Proof.
    intros H. unfold w2.
    assert (E : n = (nhalf + nhalf + 1)%nat).
    { unfold LmomModel.nhalf in *. pose proof (Nat.div_mod n 2 ltac:(lia)).
      pose proof (Nat.mod_upper_bound n 2 ltac:(lia)). lia. }
    rewrite E at 1. rewrite !qn_add. change (qn 1) with 1. ring.
  Qed.

  Definition M0 := sumn x n.
  Definition M1 := sumn (fun i => w2 i * x i) n / (qn n - 1).
  Definition M2 := sumn (fun i => w3 i * x i) n.

  Lemma m0_eq : (if negb (n =? nhalf + nhalf)%nat then sumn (termp data) nhalf + x nhalf
    else sumn (termp data) nhalf) == M0.
  Proof.
    unfold M0. rewrite (fold_half x n). fold nhalf. unfold termp.
    change (LmomModel.nhalf data) with (n / 2)%nat.
    destruct (n =? n / 2 + n / 2)%nat; cbn [negb]; ring.
  Qed.

  Lemma m1_eq : sumn (fun i => temp data i * termn data i * const data) nhalf == M1.
  Proof.
    pose proof n3 as H3.
    unfold M1. rewrite (fold_half (fun i => w2 i * x i) n).
    assert (E1 : sumn (fun i => w2 i * x i + w2 (n - 1 - i) * x (n - 1 - i)) (n / 2) ==
                 sumn (fun i => temp data i * termn data i) nhalf).
    { change nhalf with (n / 2)%nat. apply sumn_ext. intros i Hi.
      assert (i < n)%nat by (pose proof (Nat.div_mod n 2 ltac:(lia)); lia).
      rewrite w2_anti by auto. unfold temp, termn, w2. ring. }
    assert (E2 : (if (n =? n / 2 + n / 2)%nat then 0 else w2 (n / 2) * x (n / 2)%nat) == 0).
    { destruct (Nat.eqb_spec n (n / 2 + n / 2)) as [|N]; [reflexivity|].
      change (n / 2)%nat with nhalf in *. rewrite w2_mid by exact N. ring. }
    rewrite E1, E2.
    assert (E3 : sumn (fun i => temp data i * termn data i * const data) nhalf ==
                 sumn (fun i => const data * (temp data i * termn data i)) nhalf).
    { apply sumn_ext. intros. ring. }
    rewrite E3, sumn_scale. unfold const. field. lra.
  Qed.

  Lemma m2_eq : (let m2 := sumn (fun i => (temp data i * temp data i * (3 * (1 / (2 * qn n - 4))) * const data
        - (qn n + 1) * (1 / (2 * qn n - 4))) * termp data i) nhalf in
     if negb (n =? nhalf + nhalf)%nat then m2 - (qn n + 1) * (1 / (2 * qn n - 4)) * x nhalf else m2) == M2.
  Proof.
    pose proof n3 as H3. cbv zeta.
    unfold M2. rewrite (fold_half (fun i => w3 i * x i) n).
    assert (E1 : sumn (fun i => w3 i * x i + w3 (n - 1 - i) * x (n - 1 - i)) (n / 2) ==
      sumn (fun i => (temp data i * temp data i * (3 * (1 / (2 * qn n - 4))) * const data
        - (qn n + 1) * (1 / (2 * qn n - 4))) * termp data i) nhalf).
    { change nhalf with (n / 2)%nat. apply sumn_ext. intros i Hi.
      assert (i < n)%nat by (pose proof (Nat.div_mod n 2 ltac:(lia)); lia).
      assert (E : w3 (n - 1 - i) == w3 i) by (unfold w3; rewrite w2_anti by auto; ring).
      rewrite E. unfold w3, w2, temp, termp, const. field. split; lra. }
    rewrite E1. change (n / 2)%nat with nhalf.
    destruct (Nat.eqb_spec n (nhalf + nhalf)) as [|N]; cbn [negb]; [ring|].
    assert (E : w3 nhalf == - ((qn n + 1) * (1 / (2 * qn n - 4)))).
    { unfold w3. rewrite w2_mid by auto. field. split; lra. }
    rewrite E. ring.
  Qed.

  Lemma samlmu3_eq : exists m0 m1 m2, samlmu3 data = LOk (m0 / qn n, m1 / qn n, if Qeq_bool m1 0 then None else Some (m2 / m1)) /\
    m0 == M0 /\ m1 == M1 /\ m2 == M2.
  Proof.
    unfold samlmu3. destruct (Nat.leb_spec n 2); [lia|]. cbv zeta.
    do 3 eexists. split; [reflexivity|]. split; [apply m0_eq|]. split; [apply m1_eq|apply m2_eq].
  Qed.

  (** Prefix sums of the weights. *)
  Lemma P2 g : sumn w2 g == qn g * (qn g - qn n).
  Proof.
    induction g as [|g IH]; [unfold qn; cbn; ring|]. cbn [sumn]. rewrite IH, qn_S. unfold w2. ring.
  Qed.
  Lemma P3 g : sumn w3 g == qn g * (qn n - qn g) * (qn n - 2 * qn g) / ((qn n - 1) * (qn n - 2)).
  Proof.
    pose proof n3 as H3.
    induction g as [|g IH]; [unfold qn at 1; cbn [sumn]; change (inject_Z (Z.of_nat 0)) with 0; field; split; lra|].
    cbn [sumn]. rewrite IH, !qn_S. unfold w3, w2. field. repeat split; lra.
  Qed.

  Definition gap (g : nat) : Q := x (S g) - x g.
  (** Weight of the gap between the values number g+1 and g+2. *)
  Definition gw (g : nat) : Q := qn (S g) * (qn n - qn (S g)).

  Lemma gw_pos g : (g < n - 1)%nat -> 0 < gw g.
  Proof.
    intros H. unfold gw.
    assert (1 <= qn (S g)) by (rewrite qn_S; pose proof (qn_pos g); lra).
    assert (qn (S g) + 1 <= qn n) by (rewrite <- qn_S; apply qn_le; lia).
    apply Qmult_lt_0_compat; lra.
  Qed.

  Lemma M1_gaps : M1 == sumn (fun g => gw g * gap g) (n - 1) / (qn n - 1).
  Proof.
    pose proof n3. unfold M1. rewrite abel' by lia.
    assert (Z : sumn w2 n == 0) by (rewrite P2; ring). rewrite Z.
    assert (Y : sumn (fun g => sumn w2 (S g) * (x (S g) - x g)) (n - 1) == sumn (fun g => (-1) * (gw g * gap g)) (n - 1)).
    { apply sumn_ext. intros g Hg. rewrite P2. unfold gw, gap. ring. }
    rewrite Y, sumn_scale. field. lra.
  Qed.

  Lemma M2_gaps : M2 == sumn (fun g => - (gw g * gap g * (qn n - 2 * qn (S g)) / ((qn n - 1) * (qn n - 2)))) (n - 1).
  Proof.
    pose proof n3. unfold M2. rewrite abel' by lia.
    assert (Z : sumn w3 n == 0) by (rewrite P3; field; split; lra). rewrite Z.
    assert (Y : sumn (fun g => sumn w3 (S g) * (x (S g) - x g)) (n - 1) ==
      sumn (fun g => (-1) * - (gw g * gap g * (qn n - 2 * qn (S g)) / ((qn n - 1) * (qn n - 2)))) (n - 1)).
    { apply sumn_ext. intros g Hg. rewrite P3. unfold gw, gap. field. split; lra. }
    rewrite Y, sumn_scale. ring.
  Qed.

  Definition sorted := forall i, (i < n - 1)%nat -> x i <= x (S i).

  Lemma terms_pos : sorted -> forall g, (g < n - 1)%nat -> 0 <= gw g * gap g.
  Proof.
    intros Hs g Hg. pose proof (gw_pos g Hg). pose proof (Hs g Hg). unfold gap.
    apply Qmult_le_0_compat; lra.
  Qed.

  Lemma M1_nonneg : sorted -> 0 <= M1.
  Proof.
    intros Hs. pose proof n3. rewrite M1_gaps. apply Qle_shift_div_l; [lra|].
    rewrite Qmult_0_l. apply sumn_nonneg. now apply terms_pos.
  Qed.

  Lemma M1_zero : sorted -> M1 == 0 -> forall i, (i < n)%nat -> x i == x 0%nat.
  Proof.
    intros Hs E. pose proof n3. rewrite M1_gaps in E.
    assert (E' : sumn (fun g => gw g * gap g) (n - 1) == 0).
    { set (a := sumn _ _) in *. assert (a == a / (qn n - 1) * (qn n - 1)) by (field; lra).
      rewrite E in H0. lra. }
    assert (G : forall g, (g < n - 1)%nat -> gap g == 0).
    { intros g Hg. pose proof (sumn_zero _ _ (terms_pos Hs) E' g Hg) as Z. cbv beta in Z.
      pose proof (gw_pos g Hg). apply Qmult_integral in Z. destruct Z as [Z|Z]; [lra|exact Z]. }
    induction i as [|i IH]; intros Hi; [reflexivity|].
    pose proof (G i ltac:(lia)) as Z. unfold gap in Z. pose proof (IH ltac:(lia)). lra.
  Qed.

  Lemma M2_bound : sorted -> Qabs M2 <= M1.
  Proof.
    intros Hs. pose proof n3. rewrite M2_gaps, M1_gaps.
    assert (E : sumn (fun g => gw g * gap g) (n - 1) / (qn n - 1) ==
                sumn (fun g => (1 / (qn n - 1)) * (gw g * gap g)) (n - 1)).
    { rewrite sumn_scale. field. lra. }
    rewrite E. apply sumn_abs. intros g Hg. pose proof (terms_pos Hs g Hg) as Hp.
    set (a := gw g * gap g) in *.
    assert (H1 : 1 <= qn (S g)) by (rewrite qn_S; pose proof (qn_pos g); lra).
    assert (H2 : qn (S g) + 1 <= qn n) by (rewrite <- qn_S; apply qn_le; lia).
    set (m := qn n) in *. set (h := qn (S g)) in *. clearbody a m h. clear - Hp H1 H2 H.
    assert (E1 : - (a * (m - 2 * h) / ((m - 1) * (m - 2))) == (1 / (m - 1)) * a * ((2 * h - m) / (m - 2))).
    { field. split; lra. }
    rewrite E1. rewrite Qabs_Qmult.
    assert (P : 0 <= 1 / (m - 1) * a).
    { apply Qmult_le_0_compat; [|lra]. apply Qle_shift_div_l; lra. }
    rewrite (Qabs_pos _ P).
    assert (B : Qabs ((2 * h - m) / (m - 2)) <= 1).
    { apply Qabs_Qle_condition. split; [apply Qle_shift_div_l|apply Qle_shift_div_r]; lra. }
    set (b := Qabs _) in *. set (c := 1 / (m - 1) * a) in *. clearbody b c. nra.
  Qed.
End L.

(** ** Pairs and triples: the definition of L-moments by order statistics *)
Definition pairs (x : nat -> Q) (k : nat) : Q := sumn (fun j => sumn (fun i => x j - x i) j) k.
Definition triples (x : nat -> Q) (m : nat) : Q :=
  sumn (fun k => sumn (fun j => sumn (fun i => x k - 2 * x j + x i) j) k) m.

Lemma pairs_closed x k : pairs x k == sumn (fun i => (- qn k + 1 + 2 * qn i) * x i) k.
Proof.
  assert (G : pairs x k == sumn (fun i => 2 * (qn i * x i)) k - (qn k - 1) * sumn x k).
  { unfold pairs. induction k as [|k IH]; [cbn; ring|]. cbn [sumn]. rewrite IH, qn_S.
    assert (E : sumn (fun i => x k - x i) k == qn k * x k - sumn x k).
    { rewrite <- sumn_const. assert (E0 : sumn (fun i => x k - x i) k == sumn (fun i => x k + (-1) * x i) k)
        by (apply sumn_ext; intros; ring). rewrite E0, sumn_add, sumn_scale. ring. }
    rewrite E. ring. }
  rewrite G.
  assert (E : sumn (fun i => (- qn k + 1 + 2 * qn i) * x i) k ==
              sumn (fun i => 2 * (qn i * x i) + (- (qn k - 1)) * x i) k) by (apply sumn_ext; intros; ring).
  rewrite E, sumn_add, sumn_scale. rewrite sumn_scale. ring.
Qed.

(** Sum of [m] copies by index. *)
Lemma sumn_tri k : sumn (fun i => qn i) k == qn k * (qn k - 1) / 2.
Proof. induction k as [|k IH]; [reflexivity|]. cbn [sumn]. rewrite IH, qn_S. field. Qed.

Lemma triples_closed x m : triples x m ==
  sumn (fun i => (qn i * (qn i - 1) / 2 - 2 * qn i * (qn m - 1 - qn i)
                  + (qn m - 1 - qn i) * (qn m - 2 - qn i) / 2) * x i) m.
Proof.
  (* the closed form as three power sums *)
  assert (R : forall k, sumn (fun i => (qn i * (qn i - 1) / 2 - 2 * qn i * (qn k - 1 - qn i)
                  + (qn k - 1 - qn i) * (qn k - 2 - qn i) / 2) * x i) k ==
    3 * sumn (fun i => qn i * qn i * x i) k - (3 * qn k - 3) * sumn (fun i => qn i * x i) k
    + (qn k - 1) * (qn k - 2) / 2 * sumn x k).
  { intros k. rewrite <- !sumn_scale.
    assert (N : forall f g h, sumn f k - sumn g k + sumn h k == sumn (fun i => f i + ((-1) * g i + h i)) k).
    { intros. rewrite !sumn_add, sumn_scale. ring. }
    rewrite N. apply sumn_ext. intros. field. }
  rewrite R. unfold triples. induction m as [|k IH]; [cbn; ring|]. cbn [sumn]. rewrite IH, qn_S.
  assert (E : sumn (fun j => sumn (fun i => x k - 2 * x j + x i) j) k ==
    qn k * (qn k - 1) / 2 * x k - 2 * sumn (fun j => qn j * x j) k + (qn k - 1) * sumn x k - sumn (fun j => qn j * x j) k).
  { assert (E1 : sumn (fun j => sumn (fun i => x k - 2 * x j + x i) j) k ==
      sumn (fun j => x k * qn j + ((-2) * (qn j * x j) + sumn x j)) k).
    { apply sumn_ext. intros j _. rewrite sumn_add, sumn_const. ring. }
    rewrite E1, !sumn_add, !sumn_scale, sumn_tri.
    assert (E2 : sumn (fun i => sumn x i) k == (qn k - 1) * sumn x k - sumn (fun j => qn j * x j) k).
    { clear. induction k as [|k IH]; [cbn; ring|]. cbn [sumn]. rewrite IH, qn_S. ring. }
    rewrite E2. field. }
  rewrite E. field.
Qed.

Section L2.
  Variable data : list Q.
  Notation n := (n data).
  Notation x := (x data).
  Hypothesis Hn : (3 <= n)%nat.

  Lemma M1_pairs : M1 data == pairs x n / (qn n - 1).
  Proof. unfold M1. now rewrite pairs_closed. Qed.
  Lemma M2_triples : M2 data == 2 * triples x n / ((qn n - 1) * (qn n - 2)).
  Proof.
    pose proof (n3 _ Hn). unfold M2. rewrite triples_closed.
    assert (E : forall S, 2 * S / ((qn n - 1) * (qn n - 2)) == (2 / ((qn n - 1) * (qn n - 2))) * S).
    { intros. field. split; lra. }
    rewrite E, <- sumn_scale. apply sumn_ext. intros i _. unfold w3, w2. field. repeat split; lra.
  Qed.

  (** The general routine computes the same first three values. *)
  Lemma accum1 : accum data 1 == M0 data.
  Proof.
    unfold accum. change (Nat.odd 1) with true. rewrite andb_true_r. change (1 / 2)%nat with 0%nat.
    cbn [factor middle].
    rewrite <- (m0_eq data).
    assert (E : sumn (fun i => 1 * termp data i) (nhalf data) == sumn (termp data) (nhalf data)) by (apply sumn_ext; intros; ring).
    destruct (negb _); rewrite E; ring.
  Qed.
  Lemma accum2 : accum data 2 == M1 data.
  Proof.
    unfold accum. change (Nat.odd 2) with false. rewrite andb_false_r.
    rewrite <- (m1_eq data Hn). apply sumn_ext. intros. cbn [factor legendre snd]. ring.
  Qed.
  Lemma accum3 : accum data 3 == M2 data.
  Proof.
    pose proof (n3 _ Hn). unfold accum. change (Nat.odd 3) with true. rewrite andb_true_r. change (3 / 2)%nat with 1%nat. cbv beta iota.
    rewrite <- (m2_eq data Hn). cbv zeta.
    assert (E : sumn (fun i => factor data (temp data i) 3 * termp data i) (nhalf data) ==
      sumn (fun i => (temp data i * temp data i * (3 * (1 / (2 * qn n - 4))) * const data
        - (qn n + 1) * (1 / (2 * qn n - 4))) * termp data i) (nhalf data)).
    { apply sumn_ext. intros i _. cbn [factor legendre snd]. change (0 + 3)%nat with 3%nat.
      unfold coef0, coef1, ctemp, const. change (qn 3) with 3.
      field. repeat split; lra. }
    destruct (negb _); rewrite E; [|reflexivity].
    cbn [middle]. change (2 * 1 + 1)%nat with 3%nat. unfold coef1, ctemp. change (qn 3) with 3.
    set (S := sumn _ _). field. repeat split; lra.
  Qed.
End L2.
