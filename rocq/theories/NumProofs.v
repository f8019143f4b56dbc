From Coq Require Import List Arith ZArith Lia Bool QArith Qabs String Lqa.
From Verif Require Import CellModel CellProofs GenProofs NumModel.
Import ListNotations.
Open Scope Q_scope.

(** * Grid index *)
(** [i] is the first index of [l] whose value is minimal. *)
Definition firstMin (l : list Q) (i : nat) : Prop :=
  (i < List.length l)%nat /\ (forall j, (j < List.length l)%nat -> nth i l 0 <= nth j l 0) /\
  (forall j, (j < i)%nat -> nth i l 0 < nth j l 0).

Lemma argminFrom_spec l : forall pre b v,
  (b < List.length pre)%nat -> nth b pre 0 == v ->
  (forall j, (j < List.length pre)%nat -> nth b pre 0 <= nth j pre 0) ->
  (forall j, (j < b)%nat -> nth b pre 0 < nth j pre 0) ->
  firstMin (pre ++ l) (argminFrom l (List.length pre) b v).
Proof.
  induction l as [|y l IH]; intros pre b v Hb Hv H1 H2; cbn [argminFrom].
  - rewrite app_nil_r. repeat split; auto.
  - destruct (qlt y v) eqn:E.
    + apply qlt_iff in E.
      replace (pre ++ y :: l)%list with ((pre ++ [y]) ++ l)%list by now rewrite <- app_assoc.
      replace (S (List.length pre)) with (List.length (pre ++ [y])) by (rewrite app_length; cbn; lia).
      apply IH.
      * rewrite app_length; cbn; lia.
      * rewrite app_nth2, Nat.sub_diag by lia. reflexivity.
      * intros j Hj. rewrite app_length in Hj. cbn in Hj.
        rewrite (app_nth2 pre [y] 0 (n := List.length pre)), Nat.sub_diag by lia. cbn [nth].
        destruct (Nat.lt_ge_cases j (List.length pre)) as [L|L].
        { rewrite app_nth1 by auto. specialize (H1 j L). lra. }
        { replace j with (List.length pre) by lia. rewrite app_nth2, Nat.sub_diag by lia. cbn. lra. }
      * intros j Hj. rewrite (app_nth2 pre [y] 0 (n := List.length pre)), Nat.sub_diag by lia. cbn [nth].
        rewrite app_nth1 by auto. specialize (H1 j Hj). lra.
    + apply qlt_false_iff in E.
      replace (pre ++ y :: l)%list with ((pre ++ [y]) ++ l)%list by now rewrite <- app_assoc.
      replace (S (List.length pre)) with (List.length (pre ++ [y])) by (rewrite app_length; cbn; lia).
      apply IH.
      * rewrite app_length; cbn; lia.
      * now rewrite app_nth1.
      * intros j Hj. rewrite app_length in Hj. cbn in Hj. rewrite (app_nth1 pre [y] 0 Hb).
        destruct (Nat.lt_ge_cases j (List.length pre)) as [L|L].
        { rewrite app_nth1 by auto. now apply H1. }
        { replace j with (List.length pre) by lia. rewrite app_nth2, Nat.sub_diag by lia. cbn. lra. }
      * intros j Hj. rewrite (app_nth1 pre [y] 0 Hb). rewrite app_nth1 by lia. now apply H2.
Qed.

Lemma argmin_spec l : l <> [] -> firstMin l (argmin l).
Proof.
  destruct l as [|y l]; [congruence|]. intros _.
  apply (argminFrom_spec l [y] 0 y); cbn; try lia; try reflexivity.
  - intros [|j] Hj; [lra|lia].
Qed.

Lemma amax_spec l : forall x, x <= amax x l /\ (forall y, In y l -> y <= amax x l) /\
  (amax x l == x \/ exists y, In y l /\ amax x l == y).
Proof.
  induction l as [|y l IH]; intros x; unfold amax; cbn [fold_left].
  - repeat split; [lra|contradiction|now left].
  - fold (amax (if qlt x y then y else x) l).
    destruct (qlt x y) eqn:E; [apply qlt_iff in E|apply qlt_false_iff in E].
    + destruct (IH y) as (A & B & C). repeat split; [lra| |].
      * intros z [->|Hz]; [auto|auto].
      * right. destruct C as [C|(z & C1 & C2)]; [exists y; cbn; auto|exists z; cbn; auto].
    + destruct (IH x) as (A & B & C). repeat split; [auto| |].
      * intros z [->|Hz]; [lra|auto].
      * destruct C as [C|(z & C1 & C2)]; [now left|right; exists z; cbn; auto].
Qed.

Lemma amin_spec l : forall x, amin x l <= x /\ (forall y, In y l -> amin x l <= y) /\
  (amin x l == x \/ exists y, In y l /\ amin x l == y).
Proof.
  induction l as [|y l IH]; intros x; unfold amin; cbn [fold_left].
  - repeat split; [lra|contradiction|now left].
  - fold (amin (if qlt y x then y else x) l).
    destruct (qlt y x) eqn:E; [apply qlt_iff in E|apply qlt_false_iff in E].
    + destruct (IH y) as (A & B & C). repeat split; [lra| |].
      * intros z [->|Hz]; [auto|auto].
      * right. destruct C as [C|(z & C1 & C2)]; [exists y; cbn; auto|exists z; cbn; auto].
    + destruct (IH x) as (A & B & C). repeat split; [auto| |].
      * intros z [->|Hz]; [lra|auto].
      * destruct C as [C|(z & C1 & C2)]; [now left|right; exists z; cbn; auto].
Qed.

(** The first index of [a] at minimal distance from [v]. *)
Definition firstNearest (a : list Q) (v : Q) (i : nat) : Prop :=
  (i < List.length a)%nat /\
  (forall j, (j < List.length a)%nat -> Qabs (nth i a 0 - v) <= Qabs (nth j a 0 - v)) /\
  (forall j, (j < i)%nat -> Qabs (nth i a 0 - v) < Qabs (nth j a 0 - v)).

Lemma firstMin_near a v i : firstMin (map (fun y => Qabs (y - v)) a) i -> firstNearest a v i.
Proof.
  intros (A & B & C). rewrite map_length in *.
  assert (E : forall j, (j < List.length a)%nat ->
    nth j (map (fun y => Qabs (y - v)) a) 0 = Qabs (nth j a 0 - v)).
  { intros j Hj. rewrite nth_indep with (d' := (fun y => Qabs (y - v)) 0) by now rewrite map_length.
    now rewrite (map_nth (fun y => Qabs (y - v))). }
  split; [exact A|]. split; intros j Hj.
  - rewrite <- !E by lia. now apply B.
  - rewrite <- !E by lia. now apply C.
Qed.

Definition increasing (a : list Q) : Prop :=
  forall i j, (i < j < List.length a)%nat -> nth i a 0 < nth j a 0.

Lemma find_inside a v : (exists x, In x a /\ x <= v) -> (exists x, In x a /\ v <= x) ->
  exists i, findIndex a v = Some i /\ firstNearest a v i.
Proof.
  intros (x1 & H1 & L1) (x2 & H2 & L2). destruct a as [|x l]; [contradiction|].
  unfold findIndex. destruct (amax_spec l x) as (A1 & A2 & _). destruct (amin_spec l x) as (B1 & B2 & _).
  assert (v <= amax x l) by (destruct H2 as [->|H2]; [lra|specialize (A2 _ H2); lra]).
  assert (amin x l <= v) by (destruct H1 as [->|H1]; [lra|specialize (B2 _ H1); lra]).
  rewrite (proj2 (qlt_false_iff (amax x l) v)) by auto.
  rewrite (proj2 (qlt_false_iff v (amin x l))) by auto.
  eexists. split; [reflexivity|]. apply firstMin_near. apply argmin_spec. discriminate.
Qed.

Lemma abs_le_r a b v : b <= v -> a <= b -> Qabs (b - v) <= Qabs (a - v).
Proof. intros. rewrite !Qabs_neg by lra. lra. Qed.
Lemma abs_lt_r a b v : b <= v -> a < b -> Qabs (b - v) < Qabs (a - v).
Proof. intros. rewrite !Qabs_neg by lra. lra. Qed.
Lemma abs_le_l a b v : v <= b -> b <= a -> Qabs (b - v) <= Qabs (a - v).
Proof. intros. rewrite !Qabs_pos by lra. lra. Qed.

Lemma find_increasing a v : a <> [] -> increasing a ->
  exists i, findIndex a v = Some i /\ firstNearest a v i.
Proof.
  intros Hn Hi. destruct a as [|x l]; [congruence|]. set (a := x :: l) in *.
  destruct (amax_spec l x) as (A1 & A2 & _). destruct (amin_spec l x) as (B1 & B2 & _).
  assert (Hmax : forall j, (j < List.length a)%nat -> nth j a 0 <= amax x l).
  { intros j Hj. assert (In (nth j a 0) a) by now apply nth_In. destruct H as [<-|H]; auto. }
  assert (Hmin : forall j, (j < List.length a)%nat -> amin x l <= nth j a 0).
  { intros j Hj. assert (In (nth j a 0) a) by now apply nth_In. destruct H as [<-|H]; auto. }
  unfold findIndex. subst a. cbv iota.
  destruct (qlt (amax x l) v) eqn:E1; [|destruct (qlt v (amin x l)) eqn:E2].
  - apply qlt_iff in E1. eexists. split; [reflexivity|]. cbn [List.length] in *.
    replace (S (List.length l) - 1)%nat with (List.length l) by lia.
    split; [cbn [List.length]; lia|]. split; intros j Hj; cbn [List.length] in Hj.
    + apply abs_le_r; [specialize (Hmax (List.length l)); cbn in Hmax; assert (nth (List.length l) (x :: l) 0 <= amax x l) by (apply Hmax; lia); lra|].
      destruct (Nat.eq_dec j (List.length l)) as [->|]; [lra|].
      apply Qlt_le_weak. apply Hi. cbn [List.length]. lia.
    + apply abs_lt_r; [assert (nth (List.length l) (x :: l) 0 <= amax x l) by (apply Hmax; cbn; lia); lra|].
      apply Hi. cbn [List.length]. lia.
  - apply qlt_iff in E2. exists 0%nat. split; [reflexivity|]. split; [cbn; lia|]. split; [|intros; lia].
    intros j Hj. apply abs_le_l; [assert (amin x l <= nth 0 (x :: l) 0) by (apply Hmin; cbn; lia); lra|].
    destruct j as [|j]; [lra|]. apply Qlt_le_weak. apply Hi. lia.
  - eexists. split; [reflexivity|]. apply firstMin_near. apply argmin_spec. discriminate.
Qed.

Lemma find_out_of_range a v : a <> [] -> (forall x, In x a -> x < v) ->
  findIndex a v = Some (List.length a - 1)%nat.
Proof.
  intros Hn H. destruct a as [|x l]; [congruence|]. unfold findIndex.
  destruct (amax_spec l x) as (_ & _ & C).
  rewrite (proj2 (qlt_iff (amax x l) v)); [reflexivity|].
  destruct C as [C|(y & C1 & C2)]; [specialize (H x (or_introl eq_refl)); lra|].
  specialize (H y (or_intror C1)). lra.
Qed.

(** * Units *)
Lemma assoc_in {V} k (l : list (string * V)) v : assoc k l = Some v -> In (k, v) l.
Proof.
  induction l as [|[k' w] l IH]; cbn; [discriminate|].
  destruct (String.eqb_spec k k') as [->|]; [intros [= ->]; auto|auto].
Qed.

Definition temperature (u : string) : bool :=
  String.eqb u "C" || String.eqb u "F" || String.eqb u "K".

Lemma tables_inverse pi u w a b : ~ pi == 0 ->
  lookup2 (tables pi) u w = Some a -> lookup2 (tables pi) w u = Some b ->
  Qabs (a * b - 1) <= 1 # 1000.
Proof.
  intros Hp H1 H2. unfold lookup2 in H1. destruct (assoc u (tables pi)) as [r|] eqn:E; [|discriminate].
  apply assoc_in in E. apply assoc_in in H1.
  cbn in E.
  repeat (destruct E as [E|E]; [injection E as <- <-; cbn in H1;
     repeat (destruct H1 as [H1|H1]; [injection H1 as <- <-; cbn in H2;
        first [discriminate H2 | injection H2 as <-; first [vm_compute; discriminate | idtac]]|]); try contradiction|]).
  all: try contradiction.
  all: match goal with |- Qabs (?x - 1) <= _ => assert (Z : x - 1 == 0) by (field; auto) end;
    rewrite Z; vm_compute; discriminate.
Qed.

Lemma no_offsets u w : temperature u = false ->
  lookup2 preTables u w = None /\ lookup2 postTables u w = None.
Proof.
  unfold temperature. intros H. apply orb_false_iff in H as [H H3]. apply orb_false_iff in H as [H1 H2].
  unfold lookup2, preTables, postTables. cbn [assoc]. now rewrite H1, H2, H3.
Qed.

Lemma not_alias pi u w a : lookup2 (tables pi) u w = Some a -> alias u = u.
Proof.
  intros H. unfold alias. destruct (String.eqb_spec u "kmh") as [->|]; [discriminate|].
  destruct (String.eqb_spec u "m/s") as [->|]; [discriminate|]. reflexivity.
Qed.

Lemma self_none pi u : lookup2 (tables pi) u u = None.
Proof.
  destruct (lookup2 (tables pi) u u) as [a|] eqn:H; [|reflexivity]. exfalso.
  unfold lookup2 in H. destruct (assoc u (tables pi)) as [r|] eqn:E; [|discriminate].
  apply assoc_in in E. apply assoc_in in H. cbn in E.
  repeat (destruct E as [E|E]; [injection E as <- <-; cbn in H; intuition discriminate|]). contradiction.
Qed.

Lemma convert_linear pi v u w a : temperature u = false -> lookup2 (tables pi) u w = Some a ->
  convert pi v u w == v * a.
Proof.
  intros T H. unfold convert. destruct (String.eqb_spec u w) as [->|N].
  { rewrite self_none in H. discriminate. }
  cbv zeta. rewrite (not_alias pi u w a H). destruct (no_offsets u w T) as [-> ->]. rewrite H. reflexivity.
Qed.

Lemma same_kind pi u w a : lookup2 (tables pi) u w = Some a -> temperature u = temperature w.
Proof.
  intros H1. unfold lookup2 in H1. destruct (assoc u (tables pi)) as [r|] eqn:E; [|discriminate].
  apply assoc_in in E. apply assoc_in in H1. cbn in E.
  repeat (destruct E as [E|E]; [injection E as <- <-; cbn in H1;
     repeat (destruct H1 as [H1|H1]; [injection H1 as <- <-; reflexivity|]); contradiction|]). contradiction.
Qed.

Lemma round_trip_linear pi v u w a b : ~ pi == 0 -> temperature u = false ->
  lookup2 (tables pi) u w = Some a -> lookup2 (tables pi) w u = Some b ->
  Qabs (convert pi (convert pi v u w) w u - v) <= Qabs v * (1 # 1000).
Proof.
  intros Hp T Ha Hb.
  assert (E : convert pi (convert pi v u w) w u - v == v * (a * b - 1)).
  { rewrite (convert_linear pi _ w u b), (convert_linear pi v u w a); auto.
    - ring.
    - now rewrite <- (same_kind pi u w a Ha). }
  rewrite E, Qabs_Qmult. apply Qmult_le_compat_nonneg.
  - split; [apply Qabs_nonneg|lra].
  - split; [apply Qabs_nonneg|]. eapply tables_inverse; eauto.
Qed.

Lemma round_trip_temperature pi v u w a b : temperature u = true ->
  lookup2 (tables pi) u w = Some a -> lookup2 (tables pi) w u = Some b ->
  Qabs (convert pi (convert pi v u w) w u - v) <= (Qabs v + 32) * (1 # 10000).
Proof.
  intros T Ha Hb.
  assert (B : forall c e, convert pi (convert pi v u w) w u - v == c * (v - e) -> Qabs c <= 1 # 10000 ->
    Qabs e <= 32 -> Qabs (convert pi (convert pi v u w) w u - v) <= (Qabs v + 32) * (1 # 10000)).
  { intros c e E Hc He. rewrite E, Qabs_Qmult, Qmult_comm. apply Qmult_le_compat_nonneg.
    - split; [apply Qabs_nonneg|]. eapply Qle_trans; [apply Qabs_triangle|].
      rewrite Qabs_opp. lra.
    - split; [apply Qabs_nonneg|exact Hc]. }
  assert (U : In (u, w) [("C","F"); ("C","K"); ("F","C"); ("K","C")]%string).
  { unfold temperature in T. apply orb_true_iff in T as [T|T]; [apply orb_true_iff in T as [T|T]|];
      apply String.eqb_eq in T; subst u; cbn in Ha;
      repeat (match type of Ha with context [String.eqb w ?k] =>
        destruct (String.eqb_spec w k) as [->|] end; [cbn; auto 10|]); discriminate Ha. }
  destruct U as [U|[U|[U|[U|[]]]]]; injection U as <- <-.
  - apply (B (0.00008) 0); [|vm_compute; discriminate|vm_compute; discriminate].
    change (convert pi (convert pi v "C" "F") "F" "C") with (((v * 1.8 + 32) + -(32)) * 0.5556). ring.
  - apply (B 0 0); [|vm_compute; discriminate|vm_compute; discriminate].
    change (convert pi (convert pi v "C" "K") "K" "C") with (((v * 1 + 273)) * 1 + -(273)). ring.
  - apply (B (0.00008) 32); [|vm_compute; discriminate|vm_compute; discriminate].
    change (convert pi (convert pi v "F" "C") "C" "F") with ((((v + -(32)) * 0.5556)) * 1.8 + 32). ring.
  - apply (B 0 0); [|vm_compute; discriminate|vm_compute; discriminate].
    change (convert pi (convert pi v "K" "C") "C" "K") with (((v * 1 + -(273))) * 1 + 273). ring.
Qed.

Lemma pre_in_tables pi u w a : lookup2 preTables u w = Some a -> lookup2 (tables pi) u w <> None.
Proof.
  unfold lookup2 at 1. destruct (assoc u preTables) as [r|] eqn:E; [|discriminate].
  apply assoc_in in E. destruct E as [E|[]]. injection E as <- <-. intros H. apply assoc_in in H.
  destruct H as [H|[]]. injection H as <- <-. discriminate.
Qed.
Lemma post_in_tables pi u w a : lookup2 postTables u w = Some a -> lookup2 (tables pi) u w <> None.
Proof.
  unfold lookup2 at 1. destruct (assoc u postTables) as [r|] eqn:E; [|discriminate].
  apply assoc_in in E. destruct E as [E|[E|[]]]; injection E as <- <-; intros H; apply assoc_in in H;
    repeat (destruct H as [H|H]; [injection H as <- <-; discriminate|]); contradiction.
Qed.

(** A pair of units the table does not have is returned unchanged, without notice. *)
Lemma unsupported_silent pi v u w : lookup2 (tables pi) (alias u) w = None -> convert pi v u w = v.
Proof.
  intros H. unfold convert. destruct (String.eqb u w); [reflexivity|]. cbv zeta. rewrite H.
  destruct (lookup2 preTables (alias u) w) eqn:E1; [exfalso; eapply pre_in_tables; eauto|].
  destruct (lookup2 postTables (alias u) w) eqn:E2; [exfalso; eapply post_in_tables; eauto|]. reflexivity.
Qed.

(** * Humidity *)
Lemma rh_range vp sat : 0 <= vapPrToRH vp sat <= 100.
Proof.
  unfold vapPrToRH. set (rh := if Qeq_bool sat 0 then 100 else vp / sat * 100). clearbody rh. cbv zeta.
  destruct (qlt 100 rh) eqn:E1; [lra|]. destruct (qlt rh 0) eqn:E2; [lra|].
  apply qlt_false_iff in E1. apply qlt_false_iff in E2. lra.
Qed.

Lemma rh_value vp sat : 0 < sat -> 0 <= vp <= sat -> vapPrToRH vp sat == 100 * vp / sat.
Proof.
  intros Hs Hv. unfold vapPrToRH.
  destruct (Qeq_bool sat 0) eqn:E; [apply Qeq_bool_iff in E; lra|].
  assert (H1 : vp / sat * 100 == 100 * vp / sat) by (field; lra).
  assert (H2 : 0 <= vp / sat <= 1).
  { split.
    - apply Qle_shift_div_l; lra.
    - apply Qle_shift_div_r; lra. }
  rewrite (proj2 (qlt_false_iff 100 (vp / sat * 100))) by lra.
  rewrite (proj2 (qlt_false_iff (vp / sat * 100) 0)) by lra. exact H1.
Qed.

Lemma mix_vap es prs : ~ prs == es -> ~ prs == 0 -> mixRatToVapPr (vapPrToMixRat es prs) prs == es.
Proof.
  intros H1 H2. unfold mixRatToVapPr, vapPrToMixRat, gEps. field.
  repeat split; intros H; solve [apply H1; lra | apply H2; lra].
Qed.
Lemma vap_mix rat prs : ~ gEps + rat == 0 -> ~ prs == 0 -> vapPrToMixRat (mixRatToVapPr rat prs) prs == rat.
Proof.
  intros H1 H2. unfold mixRatToVapPr, vapPrToMixRat, gEps in *. field.
  repeat split; intros H; solve [apply H1; lra | apply H2; lra].
Qed.
Lemma sphum_mix pi es prs : ~ prs == es -> ~ prs == 0 ->
  spHumToMixRat pi (vapPrToSpHum es prs) "kgkg" == vapPrToMixRat es prs.
Proof.
  intros H1 H2. unfold spHumToMixRat, vapPrToSpHum, vapPrToMixRat, convert. rewrite String.eqb_refl. cbv zeta.
  unfold gEps. field.
  repeat split; intros H; solve [apply H1; lra | apply H2; lra].
Qed.
Lemma sphum_units pi q : spHumToMixRat pi (q * 1000) "gkg" == spHumToMixRat pi q "kgkg".
Proof.
  unfold spHumToMixRat. cbv zeta.
  assert (E : convert pi (q * 1000) "gkg" "kgkg" == convert pi q "kgkg" "kgkg").
  { change (convert pi (q * 1000) "gkg" "kgkg") with (q * 1000 * 0.001).
    change (convert pi q "kgkg" "kgkg") with q. ring. }
  now rewrite E.
Qed.

(** Specific humidity is documented in g/kg; the saturation value is computed in kg/kg. *)
Lemma sphum_rh_off pi es prs e : 0 < es -> 0 < prs ->
  spHumToRH (convert pi (vapPrToSpHum e prs) "kgkg" "gkg") es prs == 1000 * (100 * e / es).
Proof.
  intros H1 H2. change (convert pi (vapPrToSpHum e prs) "kgkg" "gkg") with (vapPrToSpHum e prs * 1000).
  unfold spHumToRH, vapPrToSpHum, gEps. field. split; lra.
Qed.
Lemma sphum_rh_kgkg es prs e : 0 < es -> 0 < prs ->
  spHumToRH (vapPrToSpHum e prs) es prs == 100 * e / es.
Proof. intros H1 H2. unfold spHumToRH, vapPrToSpHum, gEps. field. split; lra. Qed.
