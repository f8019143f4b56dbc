(** Properties of the UTM conversion. *)
From Coq Require Import List ZArith QArith Qround Ascii Lqa Lia Bool.
From Verif Require Import CellModel CellProofs NumModel GridFileModel UtmModel.
Import ListNotations.

(** ** C186 Letters of the latitude bands *)
Definition bands : list ascii :=
  ["C"; "D"; "E"; "F"; "G"; "H"; "J"; "K"; "L"; "M"; "N"; "P"; "Q"; "R"; "S"; "T"; "U"; "V"; "W"; "X"]%char.
Lemma qle_spec a b : reflect (a <= b)%Q (qle a b).
Proof. unfold qle. destruct (Qle_bool a b) eqn:E; constructor; [now apply Qle_bool_iff|]. intros H. apply Qle_bool_iff in H. congruence. Qed.
Lemma qlt_spec a b : reflect (a < b)%Q (qlt a b).
Proof. destruct (qlt a b) eqn:E; constructor; [now apply qlt_iff|]. intros H. apply qlt_iff in H. congruence. Qed.
Lemma between_spec lo hi x : reflect (inject_Z lo <= x /\ x < inject_Z hi)%Q (between lo hi x).
Proof. unfold between. destruct (qlt_spec x (inject_Z hi)), (qle_spec (inject_Z lo) x); cbn; constructor; tauto. Qed.
(** Eight degrees for each letter from 80 degrees south, the last band reaches to 84 degrees north *)
Theorem c186_band : forall lat k, (k < 20)%nat ->
  (inject_Z (8 * Z.of_nat k - 80) <= lat)%Q -> (lat < inject_Z (8 * Z.of_nat k - 72) \/ k = 19%nat /\ lat <= 84)%Q ->
  letter lat = nth k bands "Z"%char.
Proof.
  intros lat k K L U.
  assert (C : (k = 0 \/ k = 1 \/ k = 2 \/ k = 3 \/ k = 4 \/ k = 5 \/ k = 6 \/ k = 7 \/ k = 8 \/ k = 9 \/ k = 10 \/ k = 11 \/ k = 12 \/ k = 13 \/ k = 14 \/ k = 15 \/ k = 16 \/ k = 17 \/ k = 18 \/ k = 19)%nat) by lia.
  unfold letter.
  decompose [or] C; subst k; cbn in L, U; try (destruct U as [U|[U _]]; [|discriminate U]);
    repeat match goal with
    | |- context [qle lat 84 && qle 72 lat] => destruct (qle_spec lat 84), (qle_spec 72 lat); cbn [andb]; try (exfalso; unfold inject_Z in *; lra)
    | |- context [between ?a ?b lat] => destruct (between_spec a b lat) as [[]|]; try (exfalso; unfold inject_Z in *; lra)
    end; try reflexivity; unfold inject_Z in *; try lra; exfalso; lra.
Qed.
Theorem c186_outside : forall lat, letter lat = "Z"%char <-> (lat < -80 \/ 84 < lat)%Q.
Proof.
  intros lat. split.
  - intros H. destruct (Qlt_le_dec lat (-80)) as [A|A]; [now left|]. destruct (Qlt_le_dec 84 lat) as [B|B]; [now right|]. exfalso.
    destruct (Qlt_le_dec lat 72) as [D|D].
    + set (k := Qfloor ((lat + 80) / 8)).
      assert (F1 : (inject_Z k <= (lat + 80) / 8)%Q) by apply Qfloor_le.
      assert (F2 : ((lat + 80) / 8 < inject_Z (k + 1))%Q) by apply Qlt_floor.
      assert (E : ((lat + 80) / 8 == (lat + 80) * (1 # 8))%Q) by field. rewrite E in F1, F2.
      assert (0 <= k)%Z by (apply floor_le; rewrite E; unfold inject_Z; lra).
      assert (k < 19)%Z by (apply floor_lt; rewrite E; unfold inject_Z; lra).
      rewrite (c186_band lat (Z.to_nat k)) in H; [|lia| |].
      * assert (C : (Z.to_nat k < 19)%nat) by lia. revert H C. generalize (Z.to_nat k). intros n H C. do 19 (destruct n as [|n]; [discriminate H|]). lia.
      * rewrite Z2Nat.id by assumption. unfold Z.sub. rewrite inject_Z_plus, inject_Z_mult. change (inject_Z 8) with 8%Q. change (inject_Z (-(80))) with (-80)%Q. lra.
      * left. rewrite Z2Nat.id by assumption. unfold Z.sub. rewrite inject_Z_plus, inject_Z_mult. rewrite inject_Z_plus in F2. change (inject_Z 8) with 8%Q. change (inject_Z (-(72))) with (-72)%Q. change (inject_Z 1) with 1%Q in F2. lra.
    + rewrite (c186_band lat 19) in H; [discriminate H|lia|cbn; unfold inject_Z; lra|right; split; [reflexivity|lra]].
  - intros U. unfold letter.
    repeat match goal with
    | |- context [qle lat 84 && qle 72 lat] => destruct (qle_spec lat 84), (qle_spec 72 lat); cbn [andb]; try (exfalso; unfold inject_Z in *; lra)
    | |- context [between ?a ?b lat] => destruct (between_spec a b lat) as [[]|]; try (exfalso; unfold inject_Z in *; lra)
    end; reflexivity.
Qed.
Example c186_met : letter (-17) = "K"%char /\ letter 0 = "N"%char /\ letter 84 = "X"%char /\ letter (-81) = "Z"%char.
Proof. repeat split; reflexivity. Qed.

(** ** C187 Saving in UTM coordinates *)
Theorem c187_convert_refuted : forall A (rest : Q -> Q -> A) lat long, LLtoUTM rest lat long = None.
Proof. reflexivity. Qed.
Theorem c187_back_refuted : forall latOf r o n e, UTMtoLL latOf r o n e = None.
Proof. reflexivity. Qed.
(** No grid is ever saved; a file that did not exist is left behind empty *)
Theorem c187_save_refuted : forall rest metres fmt exist gz data lon lat delta nodata,
  (forall f, grdSaveUTM rest metres fmt exist gz data lon lat delta nodata <> SaveOk f) /\
  (exist = false -> grdSaveUTM rest metres fmt exist gz data lon lat delta nodata = SaveBroken).
Proof.
  intros. unfold grdSaveUTM. split; [intros f|intros ->]; [destruct exist; [destruct gz; discriminate|]|]; destruct lon, lat; try reflexivity; discriminate.
Qed.
(** The line would be right with the longitude in the place of the type: the result is the longitude in [-180, 180)
    for any longitude not below -180 *)
Theorem c187_intended : forall l, (-180 <= l)%Q -> exists t, longTemp (Num l) = Num t /\ (-180 <= t)%Q /\ (t < 180)%Q /\
  exists k : Z, (t == l - inject_Z (360 * k))%Q.
Proof.
  intros l H. unfold longTemp, py_op, py_int. eexists. split; [reflexivity|].
  assert (E : ((l + 180) / 360 == (l + 180) * (1 # 360))%Q) by field.
  assert (F0 : (0 <= (l + 180) / 360)%Q) by (rewrite E; lra).
  destruct (qlt_spec ((l + 180) / 360) 0); [exfalso; lra|]. set (k := Qfloor ((l + 180) / 360)).
  assert (F1 : (inject_Z k <= (l + 180) / 360)%Q) by apply Qfloor_le.
  assert (F2 : ((l + 180) / 360 < inject_Z (k + 1))%Q) by apply Qlt_floor.
  rewrite E in F1, F2. rewrite inject_Z_plus in F2. change (inject_Z 1) with 1%Q in F2.
  split; [lra|]. split; [lra|]. exists k. rewrite inject_Z_mult. change (inject_Z 360) with 360%Q. ring.
Qed.
Example c187_met : grdSaveUTM (fun a b => (a, b)) (fun d => d) (fun q => q) false false [[1%Q]] [150%Q] [(-20)%Q] 1 (-9999) = SaveBroken /\
  longTemp (Num 190) = Num ((190 + 180) - 1 * 360 - 180).
Proof. split; reflexivity. Qed.

Print Assumptions c186_band.
Print Assumptions c186_outside.
Print Assumptions c187_convert_refuted.
Print Assumptions c187_back_refuted.
Print Assumptions c187_save_refuted.
Print Assumptions c187_intended.
