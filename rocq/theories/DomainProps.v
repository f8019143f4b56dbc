(** Properties of the grids of a whole domain *)
From Coq Require Import List Arith ZArith QArith Qround Lia Lqa.
From Verif Require Import Base TileModel ExtremesModel MeshModel DomainModel ExtremesProofs MeshProofs.
Import ListNotations.
Close Scope Q_scope. Open Scope Z_scope.

Lemma len_make L H g : 0 < g -> L <= H -> arange_len L (H + 1) g = (H - L) / g + 1.
Proof.
  intros G D. unfold arange_len, zceil. pose proof (Z.div_mod (H - L) g ltac:(lia)). pose proof (Z.mod_pos_bound (H - L) g G).
  assert (E : - (H + 1 - L) / g = - ((H - L) / g) - 1).
  { symmetry. apply Z.div_unique with (r := g - 1 - (H - L) mod g); lia. }
  rewrite E. pose proof (Z.div_pos (H - L) g ltac:(lia) G). lia.
Qed.
Lemma len_mesh L H g : 0 < g -> L <= H -> arange_len L (H + g) g = (H - L) / g + (if (H - L) mod g =? 0 then 1 else 2).
Proof.
  intros G D. unfold arange_len, zceil. pose proof (Z.div_mod (H - L) g ltac:(lia)). pose proof (Z.mod_pos_bound (H - L) g G).
  pose proof (Z.div_pos (H - L) g ltac:(lia) G).
  destruct (Z.eqb_spec ((H - L) mod g) 0) as [E|E].
  - assert (X : - (H + g - L) / g = - ((H - L) / g) - 1); [|lia]. symmetry. apply Z.div_unique with (r := 0); lia.
  - assert (X : - (H + g - L) / g = - ((H - L) / g) - 2); [|lia]. symmetry.
    apply Z.div_unique with (r := g - (H - L) mod g); lia.
Qed.
Lemma arange_nth a b s k : (k < length (arangeZ a b s))%nat -> nth k (arangeZ a b s) 0 = a + Z.of_nat k * s.
Proof.
  unfold arangeZ. rewrite map_length, seq_length. intros K.
  rewrite (nth_indep _ 0 ((fun k => a + Z.of_nat k * s) 0%nat)) by now rewrite map_length, seq_length.
  rewrite (map_nth (fun k => a + Z.of_nat k * s)), seq_nth by exact K. reflexivity.
Qed.
Lemma arange_length a b s : length (arangeZ a b s) = Z.to_nat (arange_len a b s).
Proof. unfold arangeZ. now rewrite map_length, seq_length. Qed.

(** The points: evenly spaced from the first limit less the margin to at most the
    second plus the margin, the last one less than one step from there *)
Theorem c213_points : forall lo hi margin res, let g := qint (res * 1000) in
  let L := qint (1000 * lo) - qint (1000 * margin) in let H := qint (1000 * hi) + qint (1000 * margin) in
  0 < g -> L <= H -> exists l, domainAxis lo hi margin res = Some l /\
    (forall k, (k < length l)%nat -> nth k l 0 = L + Z.of_nat k * g) /\ nth 0 l 0 = L /\ l <> [] /\
    (forall x, In x l -> L <= x <= H) /\ H - g < nth (length l - 1) l 0.
Proof.
  intros lo hi margin res g L H G D. unfold domainAxis, arangeO. cbv zeta. fold g. fold L. fold H.
  destruct (Z.eqb_spec g 0) as [E|_]; [lia|]. exists (arangeZ L (H + 1) g). split; [reflexivity|].
  pose proof (Z.div_mod (H - L) g ltac:(lia)) as DM. pose proof (Z.mod_pos_bound (H - L) g G) as MB.
  pose proof (Z.div_pos (H - L) g ltac:(lia) G) as P.
  assert (N : length (arangeZ L (H + 1) g) = Z.to_nat ((H - L) / g + 1)) by now rewrite arange_length, len_make.
  split; [intros k K; now apply arange_nth|]. split; [rewrite arange_nth by (rewrite N; lia); lia|].
  split; [intros X; rewrite X in N; cbn in N; lia|]. split.
  - intros x I. apply (In_nth _ _ 0) in I as (k & K & <-). rewrite arange_nth by exact K. rewrite N in K. nia.
  - rewrite arange_nth by (rewrite N; lia). rewrite N. nia.
Qed.
(** Every place of the domain is less than a step beyond a point *)
Theorem c213_cover : forall lo hi margin res, let g := qint (res * 1000) in
  let L := qint (1000 * lo) - qint (1000 * margin) in let H := qint (1000 * hi) + qint (1000 * margin) in
  0 < g -> forall x, L <= x <= H -> exists l y, domainAxis lo hi margin res = Some l /\ In y l /\ y <= x < y + g.
Proof.
  intros lo hi margin res g L H G x X.
  destruct (c213_points lo hi margin res G ltac:(lia)) as (l & E & N & _ & NE & B & La). fold g in N, La. fold L in N, B. fold H in B, La.
  assert (Y : L + (x - L) / g * g <= x < L + (x - L) / g * g + g).
  { pose proof (Z.div_mod (x - L) g ltac:(lia)). pose proof (Z.mod_pos_bound (x - L) g G). lia. }
  exists l, (L + (x - L) / g * g). split; [exact E|]. split; [|exact Y].
  pose proof (Z.div_pos (x - L) g ltac:(lia) G) as P.
  assert (K : (Z.to_nat ((x - L) / g) < length l)%nat).
  { destruct (Nat.lt_ge_cases (Z.to_nat ((x - L) / g)) (length l)) as [K|K]; [exact K|exfalso].
    assert (LN : (0 < length l)%nat) by (destruct l; [contradiction|cbn; lia]).
    rewrite N in La by lia. nia. }
  assert (V : L + (x - L) / g * g = nth (Z.to_nat ((x - L) / g)) l 0) by (rewrite N by exact K; rewrite Z2Nat.id by exact P; reflexivity).
  rewrite V. now apply nth_In.
Qed.

Lemma qint_of q z : (q == inject_Z z)%Q -> qint q = z.
Proof. apply qint_is. Qed.
(** For limits, margins and resolutions in thousandths of a degree the coordinates start with those of the points, and are the
    same exactly if the width is a whole number of steps *)
Theorem c213_mesh : forall a b m g, 0 < g -> a - m <= b + m ->
  exists l l', domainAxis (a # 1000) (b # 1000) (m # 1000) (g # 1000) = Some l /\
    meshDomainAxis (a # 1000) (b # 1000) (m # 1000) (g # 1000) = Some l' /\
    (exists r, l' = l ++ r /\ (length r <= 1)%nat) /\ (l = l' <-> (b + m - (a - m)) mod g = 0).
Proof.
  intros a b m g G D.
  assert (QQ : forall z, (1000 * (z # 1000) == inject_Z z)%Q) by (intros z; unfold Qeq, Qminus, Qplus, Qopp, Qmult, inject_Z; cbn [Qnum Qden]; lia).
  assert (E1 : qint ((g # 1000) * 1000) = g) by (apply qint_of; rewrite Qmult_comm; apply QQ).
  assert (E2 : forall z, qint (1000 * (z # 1000)) = z) by (intros z; apply qint_of, QQ).
  assert (E3 : qint (1000 * ((a # 1000) - (m # 1000))) = a - m).
  { apply qint_of. unfold Qeq, Qminus, Qplus, Qopp, Qmult, inject_Z; cbn [Qnum Qden]; lia. }
  assert (E4 : qint (1000 * ((b # 1000) + (m # 1000))) = b + m).
  { apply qint_of. unfold Qeq, Qminus, Qplus, Qopp, Qmult, inject_Z; cbn [Qnum Qden]; lia. }
  unfold domainAxis, meshDomainAxis, arangeO. cbv zeta. rewrite E1, !E2, E3, E4.
  destruct (Z.eqb_spec g 0) as [X|_]; [lia|].
  exists (arangeZ (a - m) (b + m + 1) g), (arangeZ (a - m) (b + m + g) g). split; [reflexivity|]. split; [reflexivity|].
  pose proof (Z.div_pos (b + m - (a - m)) g ltac:(lia) G) as P.
  pose proof (len_make (a - m) (b + m) g G D) as L1. pose proof (len_mesh (a - m) (b + m) g G D) as L2.
  split.
  - unfold arangeZ. rewrite L1, L2. set (n := Z.to_nat ((b + m - (a - m)) / g + 1)).
    destruct (Z.eqb_spec ((b + m - (a - m)) mod g) 0) as [E|E].
    + exists []. rewrite app_nil_r. split; [reflexivity|cbn; lia].
    + exists [a - m + Z.of_nat n * g]. split; [|cbn; lia].
      replace (Z.to_nat ((b + m - (a - m)) / g + 2)) with (S n) by lia. rewrite seq_S, map_app. reflexivity.
  - split.
    + intros E. apply (f_equal (@length Z)) in E. rewrite !arange_length, L1, L2 in E.
      destruct (Z.eqb_spec ((b + m - (a - m)) mod g) 0) as [X|X]; [exact X|lia].
    + intros E. unfold arangeZ. rewrite L1, L2, E. reflexivity.
Qed.

(** * C214 *)
(** Widths that are not a whole number of steps: one coordinate more than points, beyond the margin *)
Theorem c214_more_refuted : exists l l', domainAxis 0 1 0 (3 # 10) = Some l /\ meshDomainAxis 0 1 0 (3 # 10) = Some l' /\
  length l' = S (length l) /\ In 1200 l'.
Proof. eexists. eexists. split; [vm_compute; reflexivity|]. split; [vm_compute; reflexivity|]. split; [reflexivity|]. cbn. auto 10. Qed.
(** Finer numbers: the points are others than the coordinates *)
Theorem c214_other_refuted : exists lo hi margin l l', domainAxis lo hi margin (1 # 10) = Some l /\ meshDomainAxis lo hi margin (1 # 10) = Some l' /\
  l <> [] /\ forall x, ~ (In x l /\ In x l').
Proof.
  exists (-1 - (5 # 10000))%Q, (-(5#10))%Q, (5 # 10000)%Q. eexists. eexists.
  split; [vm_compute; reflexivity|]. split; [vm_compute; reflexivity|]. split; [discriminate|].
  intros x [A B]. cbn in A, B. lia.
Qed.
(** Resolutions finer than a thousandth of a degree cannot be used *)
Theorem c214_fine_refuted : forall lo hi margin res, (0 <= res)%Q -> (res < 1 # 1000)%Q ->
  domainAxis lo hi margin res = None /\ meshDomainAxis lo hi margin res = None.
Proof.
  intros lo hi margin res A B. unfold domainAxis, meshDomainAxis, arangeO. cbv zeta.
  assert (E : forall q, (0 <= q)%Q -> (q < 1)%Q -> qint q = 0).
  { intros q P R. unfold qint. apply Z.quot_small. unfold Qle in P. unfold Qlt in R. cbn in P, R. lia. }
  rewrite (E (res * 1000)%Q), (E (1000 * res)%Q) by lra. split; reflexivity.
Qed.

Example c213_example : domainAxis 110 (1105 # 10) (1 # 10) (2 # 10) = Some [109900; 110100; 110300; 110500] /\
  meshDomainAxis 110 (1105 # 10) (1 # 10) (2 # 10) = Some [109900; 110100; 110300; 110500; 110700].
Proof. split; vm_compute; reflexivity. Qed.

Print Assumptions c213_points.
Print Assumptions c213_cover.
Print Assumptions c213_mesh.
Print Assumptions c214_more_refuted.
Print Assumptions c214_other_refuted.
Print Assumptions c214_fine_refuted.
