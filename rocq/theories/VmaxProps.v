(** C156, C157: estimated winds, extremes, ages and columns of observed cyclones. *)
From Coq Require Import List Arith ZArith QArith Qround Bool String Reals Lia Psatz Lqa Lra.
From Verif Require Import CircleModel CircleProofs CellModel CellProofs LoadModel LoadProofs LoadProofs3 GenModel GenProofs VmaxModel.
Import ListNotations.
Close Scope Q_scope.
Local Open Scope R_scope.

Lemma density_pos prmw lat : 0 < prmw -> Rabs lat <= 90 -> 0 < density prmw lat.
Proof.
  intros P L. pose proof (Rabs_pos lat) as A. unfold density. set (ts := 28 - 3 * (Rabs lat - 10) / 20).
  assert (T : 16 <= ts) by (unfold ts; lra).
  pose proof (exp_pos (1767 / 100 * ts / (2435 / 10 + ts))) as E. set (e := exp _) in *.
  assert (Q : 0 < 9 / 10 * (3802 / 1000 / prmw) * e).
  { apply Rmult_lt_0_compat; [|exact E]. apply Rmult_lt_0_compat; [lra | apply Rdiv_lt_0_compat; lra]. }
  apply Rdiv_lt_0_compat; [lra|]. apply Rmult_lt_0_compat; [|lra]. apply Rmult_lt_0_compat; lra.
Qed.
Lemma speed_range o : 0 <= stormSpeed o <= 56.
Proof.
  unfold stormSpeed. destruct (o_new o); [lra|]. destruct (Req_EM_T _ _); [lra|].
  destruct (rlt (o_dist o / o_dt o) 0) eqn:A; cbn; [lra|]. destruct (rlt 200 (o_dist o / o_dt o)) eqn:B; [lra|].
  apply rlt_false in A, B. lra.
Qed.
Lemma fall_range prev o : -5 <= fall prev o <= 5.
Proof.
  unfold fall. destruct (o_new o); [lra|]. destruct (Req_EM_T _ _); [lra|].
  destruct (rlt 5 _) eqn:A; [lra|]. apply rlt_false in A. unfold Rabs in A. destruct (Rcase_abs _) in A; lra.
Qed.
Lemma power_some s c : 0 <= s -> 0 <= c -> exists w, npPower s c = Some w /\ 0 <= w.
Proof.
  intros S C. unfold npPower. destruct (Req_EM_T s 0).
  - destruct (rlt 0 c) eqn:E; [exists 0; split; [reflexivity | lra]|]. apply rlt_false in E.
    destruct (Req_EM_T c 0); [exists 1; split; [reflexivity | lra] | lra].
  - exists (Rpower s c). split; [reflexivity|]. left. apply exp_pos.
Qed.

(** C156: a cyclone with a pressure deficit of up to 215 hPa within 60 degrees of the equator has a wind. *)
Theorem c156_positive : forall gf prev o env, 0 < gf -> o_env o = Some env -> 0 < o_p o < 100000000 ->
  0 < env - o_p o <= 215 -> Rabs (o_lat o) <= 60 -> 0 < windOf gf prev o.
Proof.
  intros gf prev o env G E P D L. unfold windOf. rewrite E. set (d := env - o_p o) in *.
  destruct (power_some (stormSpeed o) (6 / 10 * (1 - d / 215))) as (w & W & W0); [apply speed_range | lra |].
  rewrite W. replace (rlt (o_p o) 100000000) with true by (symmetry; apply rlt_true; lra).
  replace (rlt 0 (o_p o)) with true by (symmetry; apply rlt_true; lra). cbn [andb].
  assert (M : 0 < o_p o + d / (37 / 10)) by lra. destruct (Req_EM_T _ _) as [X|X]; [lra|].
  pose proof (fall_range prev o) as F. pose proof (Rabs_pos (o_lat o)) as A.
  set (beta := - (44 / 1000000) * d ^ 2 + 1 / 100 * d + 3 / 100 * fall prev o - 14 / 1000 * Rabs (o_lat o) + 15 / 100 * w + 1).
  assert (B : 0 < beta).
  { assert (K : 0 <= d * (1 / 100 - 44 / 1000000 * d)) by (apply Rmult_le_pos; lra).
    assert (K2 : - (44 / 1000000) * d ^ 2 + 1 / 100 * d = d * (1 / 100 - 44 / 1000000 * d)) by ring. unfold beta. lra. }
  pose proof (density_pos _ (o_lat o) M ltac:(lra)) as R. pose proof (exp_pos 1) as E1.
  assert (Z : 0 < d * 100 * beta / (density (o_p o + d / (37 / 10)) (o_lat o) * exp 1)).
  { apply Rdiv_lt_0_compat; [apply Rmult_lt_0_compat; [lra | exact B] | apply Rmult_lt_0_compat; [exact R | exact E1]]. }
  replace (rlt (d * 100 * beta / (density (o_p o + d / (37 / 10)) (o_lat o) * exp 1)) 0) with false by (symmetry; apply rlt_false; lra).
  apply Rmult_lt_0_compat; [exact G | apply sqrt_lt_R0; exact Z].
Qed.
Print Assumptions c156_positive.
Example c156_positive_example : exists o, o_env o = Some 1010 /\ 0 < o_p o < 100000000 /\ 0 < 1010 - o_p o <= 215 /\ Rabs (o_lat o) <= 60.
Proof.
  exists {| o_new := false; o_dt := 6; o_dist := 100; o_lat := -15; o_p := 950; o_env := Some 1010 |}. cbn.
  rewrite Rabs_left by lra. repeat split; lra.
Qed.

(** No wind where the central or environmental pressure is missing or where they are equal; winds are never negative. *)
Theorem c156_zero : forall gf prev o,
  (o_env o = None \/ o_p o <= 0 \/ 100000000 <= o_p o \/ o_env o = Some (o_p o) -> windOf gf prev o = 0) /\
  (0 <= gf -> 0 <= windOf gf prev o).
Proof.
  intros gf prev o. split.
  - intros [H|[H|[H|H]]]; unfold windOf.
    + now rewrite H.
    + destruct (o_env o); [|reflexivity]. destruct (npPower _ _); [|reflexivity].
      replace (rlt 0 (o_p o)) with false by (symmetry; apply rlt_false; lra). now rewrite andb_false_r.
    + destruct (o_env o); [|reflexivity]. destruct (npPower _ _); [|reflexivity].
      now replace (rlt (o_p o) 100000000) with false by (symmetry; apply rlt_false; lra).
    + rewrite H. destruct (npPower _ _); [|reflexivity]. destruct (rlt _ _ && rlt _ _); [|reflexivity].
      destruct (Req_EM_T _ _); [reflexivity|]. destruct (rlt _ 0); [reflexivity|].
      replace (o_p o - o_p o) with 0 by ring. unfold Rdiv. rewrite !Rmult_0_l, sqrt_0. ring.
  - intros G. unfold windOf. destruct (o_env o); [|lra]. destruct (npPower _ _); [|lra]. destruct (rlt _ _ && rlt _ _); [|lra].
    destruct (Req_EM_T _ _); [lra|]. destruct (rlt _ 0); [lra|]. apply Rmult_le_pos; [exact G | apply sqrt_pos].
Qed.
Print Assumptions c156_zero.

(** The gust factor is a factor, and the two hemispheres are treated alike. *)
Theorem c156_factor_mirror : forall gf prev o,
  windOf gf prev o = gf * windOf 1 prev o /\
  windOf gf prev {| o_new := o_new o; o_dt := o_dt o; o_dist := o_dist o; o_lat := - o_lat o; o_p := o_p o; o_env := o_env o |} = windOf gf prev o.
Proof.
  intros gf prev o. split.
  - unfold windOf. destruct (o_env o); [|ring]. destruct (npPower _ _); [|ring]. destruct (rlt _ _ && rlt _ _); [|ring].
    destruct (Req_EM_T _ _); [ring|]. destruct (rlt _ 0); ring.
  - unfold windOf, density, fall, stormSpeed. cbn. rewrite Rabs_Ropp. reflexivity.
Qed.
Print Assumptions c156_factor_mirror.

(** Cyclones do not influence each other: the winds of a table are those of its cyclones taken alone. *)
Lemma wind_new gf a b o : o_new o = true -> windOf gf a o = windOf gf b o.
Proof. intros H. unfold windOf, fall. now rewrite H. Qed.
Lemma winds_app gf o b : o_new o = true -> forall a prev,
  windsFrom gf prev (a ++ o :: b) = windsFrom gf prev a ++ maxWindSpeed gf (o :: b).
Proof.
  intros H. induction a as [|x a IH]; intros prev; cbn.
  - f_equal. now apply wind_new.
  - f_equal. apply IH.
Qed.
Theorem c156_tracks : forall gf a o b, o_new o = true ->
  maxWindSpeed gf (a ++ o :: b) = maxWindSpeed gf a ++ maxWindSpeed gf (o :: b).
Proof.
  intros gf a o b H. destruct a as [|x a]; [reflexivity|]. cbn [app maxWindSpeed]. apply (winds_app gf o b H (x :: a)).
Qed.
Print Assumptions c156_tracks.

(** Each record has one wind, of the record and the pressure before it. *)
Lemma winds_nth gf l : forall prev i d, (i < List.length l)%nat ->
  nth i (windsFrom gf prev l) 0 = windOf gf (match i with O => prev | S j => o_p (nth j l d) end) (nth i l d).
Proof.
  induction l as [|x l IH]; intros prev i d H; [cbn in H; lia|]. destruct i; [reflexivity|]. cbn in H.
  cbn [windsFrom nth]. rewrite (IH _ i d) by lia. destruct i; reflexivity.
Qed.
Theorem c156_records : forall gf l, List.length (maxWindSpeed gf l) = List.length l /\
  forall i d, (i < List.length l)%nat -> nth i (maxWindSpeed gf l) 0 = windOf gf (o_p (nth (Nat.pred i) l d)) (nth i l d).
Proof.
  intros gf l. split.
  - destruct l as [|x l]; [reflexivity|]. cbn [maxWindSpeed]. generalize (o_p x) as p. generalize (x :: l) as k.
    induction k as [|y k IH]; intros p; [reflexivity|]. cbn. now rewrite IH.
  - intros i d H. destruct l as [|x l]; [cbn in H; lia|]. cbn [maxWindSpeed]. rewrite winds_nth with (d := d) by exact H.
    destruct i; reflexivity.
Qed.
Print Assumptions c156_records.

Local Open Scope Q_scope.
(** The lowest pressure and the strongest wind of a track are those among the observed ones. *)
Lemma pick_spec (f : Q -> Q -> Q) (le : Q -> Q -> Prop) :
  (forall x, le x x) -> (forall x y z, le x y -> le y z -> le x z) ->
  (forall x y, (f x y = x \/ f x y = y) /\ le (f x y) x /\ le (f x y) y) ->
  forall r x, In (fold_left f r x) (x :: r) /\ forall y, In y (x :: r) -> le (fold_left f r x) y.
Proof.
  intros Re Tr F. induction r as [|z r IH]; intros x; cbn [fold_left].
  - split; [left; reflexivity|]. intros y [<-|[]]. apply Re.
  - destruct (IH (f x z)) as [I L]. destruct (F x z) as (C & L1 & L2). split.
    + destruct I as [I|I]; [|now right; right]. rewrite <- I. destruct C as [-> | ->]; [now left | now right; left].
    + intros y [<-|[<-|H]]; [apply Tr with (f x z); [apply L; now left | exact L1] | apply Tr with (f x z); [apply L; now left | exact L2] | apply L; now right].
Qed.
Definition observed (m : Q) (l : list Q) (x : Q) : Prop := In x l /\ ~ x == m.
Lemma filter_obs m l x : In x (filter (fun x => negb (Qeq_bool x m)) l) <-> observed m l x.
Proof.
  unfold observed. rewrite filter_In, negb_true_iff. split; intros [A B]; split; try exact A.
  - apply Qeq_bool_neq. exact B.
  - destruct (Qeq_bool x m) eqn:E; [|reflexivity]. apply Qeq_bool_iff in E. contradiction.
Qed.
Lemma fold1_spec (f : Q -> Q -> Q) (le : Q -> Q -> Prop) m l :
  (forall x, le x x) -> (forall x y z, le x y -> le y z -> le x z) ->
  (forall x y, (f x y = x \/ f x y = y) /\ le (f x y) x /\ le (f x y) y) ->
  ((forall x, In x l -> x == m) /\ fold1 f m l = m) \/
  (observed m l (fold1 f m l) /\ forall x, observed m l x -> le (fold1 f m l) x).
Proof.
  intros Re Tr F. unfold fold1. destruct (filter _ l) as [|x r] eqn:E.
  - left. split; [|reflexivity]. intros x H. destruct (Qeq_dec x m) as [Q|Q]; [exact Q|].
    assert (In x []) by (rewrite <- E; apply filter_obs; split; assumption). contradiction.
  - right. destruct (pick_spec f le Re Tr F r x) as [I L]. split.
    + apply filter_obs. rewrite E. exact I.
    + intros y H. apply L. rewrite <- E. now apply filter_obs.
Qed.
Theorem c156_extremes : forall m p w,
  (((forall x, In x p -> x == m) /\ getMinPressure m p = m) \/
   (observed m p (getMinPressure m p) /\ forall x, observed m p x -> getMinPressure m p <= x)) /\
  (((forall x, In x w -> x == m) /\ getMaxWind m w = m) \/
   (observed m w (getMaxWind m w) /\ forall x, observed m w x -> x <= getMaxWind m w)).
Proof.
  intros m p w. split.
  - apply (fold1_spec pmin Qle); [apply Qle_refl | apply Qle_trans |].
    intros x y. unfold pmin. destruct (qlt y x) eqn:E; [apply qlt_iff in E | apply qlt_false_iff in E]; (split; [tauto | split; Lqa.lra]).
  - apply (fold1_spec pmax (fun a b => b <= a)); [intros; apply Qle_refl | intros; eapply Qle_trans; eassumption |].
    intros x y. unfold pmax. destruct (qlt x y) eqn:E; [apply qlt_iff in E | apply qlt_false_iff in E]; (split; [tauto | split; Lqa.lra]).
Qed.
Print Assumptions c156_extremes.
Example c156_extremes_example : getMinPressure 0 [0; 990; 950; 0] == 950 /\ getMaxWind 0 [0; 0] == 0.
Proof. split; vm_compute; reflexivity. Qed.

(** Ages of whole hours: the steps between records are the differences of the ages. *)
Theorem c156_age : forall ages i, (S i < List.length ages)%nat -> (forall a, In a ages -> exists h, a == inject_Z h) ->
  nth (S i) (getTimeDelta (parseAge ages)) 0 == nth (S i) ages 0 - nth i ages 0.
Proof.
  intros ages i H W.
  assert (N : forall j, (j < List.length ages)%nat -> exists h, nth j ages 0 == inject_Z h /\ nth j (parseAge ages) 0%Z = (60 * h)%Z).
  { intros j J. destruct (W (nth j ages 0) (nth_In _ _ J)) as [h E]. exists h. split; [exact E|].
    unfold parseAge. rewrite nth_indep with (d' := ageMinutes 0) by (rewrite map_length; exact J). rewrite map_nth.
    unfold ageMinutes. rewrite (Qfloor_comp _ (inject_Z (60 * h))); [apply Qfloor_Z|]. rewrite E, inject_Z_mult. ring. }
  destruct (N i ltac:(lia)) as (a & A & A2). destruct (N (S i) H) as (b & B & B2). rewrite A, B.
  rewrite delta_nth by (unfold parseAge; rewrite map_length; exact H).
  rewrite A2, B2. rewrite (rint_proper _ (inject_Z (b - a))).
  - rewrite rint_int. unfold Zminus. rewrite inject_Z_plus, inject_Z_opp. ring.
  - unfold Zminus. rewrite !inject_Z_plus, !inject_Z_opp, !inject_Z_mult. field.
Qed.
Print Assumptions c156_age.

(** The days used to sample the climatology are within an hour and three quarters of the time of the record (45
    minutes of rounding and the minutes that are left out), and in the order of the hours. *)
Theorem c156_day : forall o h m, (0 <= m < 60)%Z ->
  Qabs.Qabs (getTime o h m - (inject_Z o + inject_Z h / 24 + inject_Z m / 1440)) < (105 # 60) / 24 /\
  forall o' h' m', (o * 24 + h <= o' * 24 + h')%Z -> getTime o h m <= getTime o' h' m'.
Proof.
  intros o h m M. split.
  - unfold getTime. pose proof (rint_half (16 * (inject_Z o + inject_Z h / 24))) as H.
    assert (A : 0 <= inject_Z m) by (change 0 with (inject_Z 0); rewrite <- Zle_Qle; lia).
    assert (B : inject_Z m <= 59) by (change 59 with (inject_Z 59); rewrite <- Zle_Qle; lia).
    set (r := inject_Z (rint _)) in *. set (x := inject_Z o) in *. set (y := inject_Z h) in *. set (z := inject_Z m) in *.
    assert (E1 : 16 * (x + y / 24) == 16 * x + (16 # 24) * y) by field. rewrite E1 in H.
    assert (E2 : r / 16 - (x + y / 24 + z / 1440) == (1 # 16) * r - x - (1 # 24) * y - (1 # 1440) * z) by field. rewrite E2.
    change ((105 # 60) / 24) with (105 # 1440). apply Qabs.Qabs_Qlt_condition. split; Lqa.lra.
  - intros o' h' m' L. unfold getTime.
    assert (R : (rint (16 * (inject_Z o + inject_Z h / 24)) <= rint (16 * (inject_Z o' + inject_Z h' / 24)))%Z).
    { apply rint_le. rewrite Zle_Qle, !inject_Z_plus, !inject_Z_mult in L.
      assert (E : forall a b, 16 * (a + b / 24) == (16 # 24) * (a * inject_Z 24 + b)) by (intros; field).
      rewrite !E. Lqa.lra. }
    rewrite Zle_Qle in R. unfold Qdiv. apply Qmult_le_compat_r; [exact R | discriminate].
Qed.
Print Assumptions c156_day.
Example c156_day_example : getTime 735000 12 30 == 735000 + (1 # 2).
Proof. vm_compute. reflexivity. Qed.

(** Every column that is not skipped is read under its own name, whatever columns are skipped before it. *)
Definition kept (s : nat) (cols : list string) : list (nat * string) :=
  filter (fun ic => negb (String.eqb (snd ic) "skip")) (combine (seq s (List.length cols)) cols).
Lemma kept_names cols : forall s, map snd (kept s cols) = names cols.
Proof.
  unfold kept. induction cols as [|c cols IH]; intros s; cbn; [reflexivity|]. destruct (String.eqb c "skip"); cbn; now rewrite IH.
Qed.
Lemma kept_in cols : forall s i n, In (i, n) (kept s cols) <-> (s <= i)%nat /\ nth_error cols (i - s) = Some n /\ n <> "skip"%string.
Proof.
  unfold kept. induction cols as [|c cols IH]; intros s i n; cbn.
  - split; [tauto|]. intros (_ & H & _). destruct (i - s)%nat; discriminate.
  - assert (G : In (i, n) (filter (fun ic : nat * string => negb (snd ic =? "skip")%string) (combine (seq (S s) (List.length cols)) cols)) <->
      (S s <= i)%nat /\ nth_error (c :: cols) (i - s) = Some n /\ n <> "skip"%string).
    { rewrite IH. split; intros (X & Y & Z); (split; [exact X|split; [|exact Z]]).
      - replace (i - s)%nat with (S (i - S s)) by lia. exact Y.
      - replace (i - s)%nat with (S (i - S s)) in Y by lia. exact Y. }
    destruct (String.eqb c "skip") eqn:E; cbn.
    + rewrite G. split; [intros (X & Y); split; [lia | exact Y]|]. intros (X & Y & Z). split; [|split; assumption].
      destruct (Nat.eq_dec i s) as [->|]; [|lia]. rewrite Nat.sub_diag in Y. injection Y as ->. apply String.eqb_eq in E. contradiction.
    + rewrite G. split.
      * intros [K|(X & Y)]; [|split; [lia | exact Y]]. injection K as <- <-. split; [lia|]. rewrite Nat.sub_diag. split; [reflexivity|]. now apply String.eqb_neq.
      * intros (X & Y & Z). destruct (Nat.eq_dec i s) as [->|]; [|right; split; [lia | auto]].
        rewrite Nat.sub_diag in Y. injection Y as ->. now left.
Qed.
Theorem c156_columns : forall (A : Type) (blank : A) cols fields n v,
  In (n, v) (rowOf A blank cols fields) <->
  exists i, nth_error cols i = Some n /\ n <> "skip"%string /\ v = nth i fields blank.
Proof.
  intros A blank cols fields n v. unfold rowOf, usecols. change (filter _ (combine (seq 0 _) cols)) with (kept 0 cols).
  rewrite <- (kept_names cols 0). rewrite map_map.
  assert (C : forall l : list (nat * string), combine (map snd l) (map (fun x => nth (fst x) fields blank) l) = map (fun x => (snd x, nth (fst x) fields blank)) l).
  { induction l as [|x l IH]; [reflexivity|]. cbn. now rewrite IH. }
  rewrite C, in_map_iff. split.
  - intros ([i m] & E & H). cbn in E. injection E as -> <-. apply kept_in in H. destruct H as (_ & H & N). rewrite Nat.sub_0_r in H. exists i. auto.
  - intros (i & B & N & ->). exists (i, n). split; [reflexivity|]. apply kept_in. rewrite Nat.sub_0_r. split; [lia | auto].
Qed.
Print Assumptions c156_columns.
Example c156_columns_example : rowOf nat 0%nat ["num"; "skip"; "date"; "skip"; "lon"]%string [1; 2; 3; 4; 5]%nat
  = [("num", 1); ("date", 3); ("lon", 5)]%string%nat.
Proof. reflexivity. Qed.

(** C157.  A record filled above the environment can have a wind; a cyclone far from the equator may have none. *)
Local Open Scope R_scope.
Theorem c157_sign_refuted :
  (exists prev o env, o_env o = Some env /\ 0 < env < o_p o /\ o_p o < 1100 /\ Rabs (o_lat o) <= 60 /\ 0 < windOf 1 prev o) /\
  (exists prev o env, o_env o = Some env /\ 0 < o_p o < env /\ env - o_p o <= 215 /\ Rabs (o_lat o) <= 90 /\ windOf 1 prev o = 0).
Proof.
  split.
  - exists 1050, {| o_new := false; o_dt := 6; o_dist := 0; o_lat := 60; o_p := 1020; o_env := Some 1010 |}, 1010.
    cbn [o_env o_p o_lat]. rewrite (Rabs_right 60) by lra. repeat split; try lra.
    unfold windOf, stormSpeed, fall. cbn [o_env o_p o_lat o_new o_dt o_dist].
    destruct (Req_EM_T 6 0); [lra|]. replace (0 / 6) with 0 by field.
    replace (rlt 0 0) with false by (symmetry; apply rlt_false; lra).
    replace (rlt 200 0) with false by (symmetry; apply rlt_false; lra). cbn [orb].
    replace (0 * (2777778 / 10000000)) with 0 by ring. unfold npPower. destruct (Req_EM_T 0 0); [|lra].
    replace (rlt 0 (6 / 10 * (1 - (1010 - 1020) / 215))) with true by (symmetry; apply rlt_true; lra).
    replace ((1020 - 1050) / 6) with (- (5)) by field. rewrite Rabs_Ropp, (Rabs_right 5) by lra.
    replace (rlt 5 5) with false by (symmetry; apply rlt_false; lra).
    replace (rlt 1020 100000000) with true by (symmetry; apply rlt_true; lra).
    replace (rlt 0 1020) with true by (symmetry; apply rlt_true; lra). cbn [andb].
    rewrite (Rabs_right 60) by lra. destruct (Req_EM_T _ _) as [X|X]; [lra|].
    assert (D : 0 < density (1020 + (1010 - 1020) / (37 / 10)) 60) by (apply density_pos; [lra | rewrite Rabs_right; lra]).
    pose proof (exp_pos 1) as E.
    assert (Z : 0 < (1010 - 1020) * 100 * (- (44 / 1000000) * (1010 - 1020) ^ 2 + 1 / 100 * (1010 - 1020) + 3 / 100 * - (5) - 14 / 1000 * 60 + 15 / 100 * 0 + 1)
      / (density (1020 + (1010 - 1020) / (37 / 10)) 60 * exp 1)).
    { apply Rdiv_lt_0_compat; [lra|]. now apply Rmult_lt_0_compat. }
    replace (rlt _ 0) with false by (symmetry; apply rlt_false; lra). rewrite Rmult_1_l. now apply sqrt_lt_R0.
  - exists 1000, {| o_new := true; o_dt := 6; o_dist := 0; o_lat := 85; o_p := 1000; o_env := Some 1010 |}, 1010.
    cbn [o_env o_p o_lat]. rewrite (Rabs_right 85) by lra. repeat split; try lra.
    unfold windOf, stormSpeed, fall. cbn [o_env o_p o_lat o_new o_dt o_dist].
    unfold npPower. destruct (Req_EM_T 0 0); [|lra].
    replace (rlt 0 (6 / 10 * (1 - (1010 - 1000) / 215))) with true by (symmetry; apply rlt_true; lra).
    destruct (rlt 1000 100000000 && rlt 0 1000); [|reflexivity].
    rewrite (Rabs_right 85) by lra. destruct (Req_EM_T _ _) as [X|X]; [lra|].
    assert (D : 0 < density (1000 + (1010 - 1000) / (37 / 10)) 85) by (apply density_pos; [lra | rewrite Rabs_right; lra]).
    pose proof (exp_pos 1) as E.
    assert (Z : 0 < - ((1010 - 1000) * 100 * (- (44 / 1000000) * (1010 - 1000) ^ 2 + 1 / 100 * (1010 - 1000) + 3 / 100 * 0 - 14 / 1000 * 85 + 15 / 100 * 0 + 1))
      / (density (1000 + (1010 - 1000) / (37 / 10)) 85 * exp 1)).
    { apply Rdiv_lt_0_compat; [lra|]. now apply Rmult_lt_0_compat. }
    match goal with |- context [rlt ?a 0] => replace (rlt a 0) with true; [reflexivity|]; symmetry; apply rlt_true end.
    unfold Rdiv in Z at 1. rewrite Ropp_mult_distr_l_reverse in Z. unfold Rdiv at 1. lra.
Qed.
Print Assumptions c157_sign_refuted.

(** Environmental pressures of a table in Pascals are not converted (central pressures are): the first record of every
    cyclone then has no wind. *)
Theorem c157_pascals_refuted : forall gf prev o env, o_new o = true -> 870 <= o_p o < env -> env <= 1100 ->
  o_env o = Some (100 * env) -> windOf gf prev o = 0.
Proof.
  intros gf prev o env N [P E] U H. unfold windOf. rewrite H. unfold stormSpeed. rewrite N.
  unfold npPower. destruct (Req_EM_T 0 0); [|lra].
  replace (rlt 0 (6 / 10 * (1 - (100 * env - o_p o) / 215))) with false by (symmetry; apply rlt_false; lra).
  destruct (Req_EM_T (6 / 10 * (1 - (100 * env - o_p o) / 215)) 0) as [X|X]; [lra | reflexivity].
Qed.
Print Assumptions c157_pascals_refuted.
Example c157_pascals_example : exists o, o_new o = true /\ 870 <= o_p o < 1010 /\ o_env o = Some (100 * 1010).
Proof. exists {| o_new := true; o_dt := 0; o_dist := 0; o_lat := -20; o_p := 980; o_env := Some (100 * 1010) |}. cbn. repeat split; lra. Qed.

Local Open Scope Q_scope.
(** The time of day used for the climatology is not that of the record: 01:00 and 01:59 both become 01:30. *)
Theorem c157_hour_refuted : getTime 735000 1 0 == 735000 + (3 # 48) /\ getTime 735000 1 59 == getTime 735000 1 0 /\
  ~ getTime 735000 1 0 == 735000 + (1 # 24).
Proof. split; [vm_compute; reflexivity|]. split; [vm_compute; reflexivity | intros X; vm_compute in X; discriminate X]. Qed.
Print Assumptions c157_hour_refuted.

(** A table with month, day and hour columns but no date column cannot be read from a file, though the same columns
    in a dictionary can. *)
Theorem c157_no_date_refuted : parseDatesError Dictionary false true true true = None /\
  parseDatesError Structured false true true true = Some ValueError.
Proof. split; reflexivity. Qed.
Print Assumptions c157_no_date_refuted.

(** A file with a single record cannot be loaded. *)
Theorem c157_one_record_refuted : forall A (blank : A) cols heading lines,
  (List.length (skipn heading lines) = 1%nat -> diffable A (colReadCSV A blank cols heading lines) = None) /\
  (List.length (skipn heading lines) <> 1%nat -> diffable A (colReadCSV A blank cols heading lines) = Some (List.length (skipn heading lines) - 1)%nat).
Proof.
  intros A blank cols heading lines. unfold colReadCSV. destruct (skipn heading lines) as [|a [|b l]]; cbn; split; intros H; try lia; try reflexivity; rewrite ?map_length; f_equal; lia.
Qed.
Print Assumptions c157_one_record_refuted.
