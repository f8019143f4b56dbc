(** Properties of days of the year and annual counts *)
From Coq Require Import List Arith ZArith Bool QArith Qround Lia ZifyBool.
From Verif Require Import CalendarModel.
Import ListNotations.
Close Scope Q_scope. Open Scope Z_scope.

(** ** C125 The day of a genesis survives the statistics *)
(** 29 February counts as 28 February *)
Definition commonDay (m : nat) (d : Z) : Z := if (m =? 2)%nat && (d =? 29) then 28 else d.
Ltac months m := let C := fresh in assert (C : (m = 1 \/ m = 2 \/ m = 3 \/ m = 4 \/ m = 5 \/ m = 6 \/ m = 7 \/ m = 8 \/ m = 9 \/ m = 10 \/ m = 11 \/ m = 12)%nat) by lia;
  repeat (destruct C as [C|C]); subst m.
Lemma doy_range leap m d : (1 <= m <= 12)%nat -> 1 <= d <= nth (m - 1) (monthLens leap) 0 -> 1 <= dayOfYear leap m d <= if leap then 366 else 365.
Proof. intros M D. destruct leap; months m; cbv [dayOfYear sumZ monthLens firstn nth fold_right Nat.sub Nat.eqb andb] in *; lia. Qed.
Lemma doy_from leap m d : (1 <= m <= 12)%nat -> 1 <= d <= nth (m - 1) (monthLens leap) 0 -> fromDay (monthLens leap) (dayOfYear leap m d) = Some (m, d).
Proof.
  intros M D. assert (G : forall lens k d, (forall l, In l lens -> 0 < l) -> (k < length lens)%nat -> 1 <= d <= nth k lens 0 -> fromDay lens (sumZ (firstn k lens) + d) = Some (S k, d)).
  { clear. induction lens as [|l lens IH]; intros k d P K D; [cbn in K; lia|]. destruct k as [|k]; cbn [firstn sumZ fold_right fromDay nth] in *.
    - replace (0 + d <=? l) with true by lia. now rewrite Z.add_0_l.
    - fold (sumZ (firstn k lens)). pose proof (P l (or_introl eq_refl)).
      assert (0 <= sumZ (firstn k lens)). { assert (Q : forall j l0, (forall x, In x l0 -> 0 < x) -> 0 <= sumZ (firstn j l0)). { clear. induction j; intros [|x l0] P; cbn; try lia. specialize (IHj l0 (fun y Hy => P y (or_intror Hy))). unfold sumZ in IHj. pose proof (P x (or_introl eq_refl)). lia. } apply Q. intros x Hx. apply P. now right. }
      replace (l + sumZ (firstn k lens) + d <=? l) with false by lia. replace (l + sumZ (firstn k lens) + d - l) with (sumZ (firstn k lens) + d) by lia.
      rewrite (IH k d); [reflexivity|intros x Hx; apply P; now right|cbn in K; lia|exact D]. }
  unfold dayOfYear. rewrite (G (monthLens leap) (m - 1)%nat d); [f_equal; f_equal; lia| | |exact D].
  - intros l. unfold monthLens. destruct leap; cbn; intros H; decompose [or] H; try lia; contradiction.
  - cbn. lia.
Qed.
Lemma validDate_iff y m d : validDate y m d = true <-> 1 <= y <= 9999 /\ (1 <= m <= 12)%nat /\ 1 <= d <= nth (m - 1) (monthLens (isLeap y)) 0.
Proof. unfold validDate. rewrite !andb_true_iff. split; intros; lia. Qed.
(** Leap years of the calendar are those divisible by four except for some centuries *)
Definition plainYear (y : Z) : Prop := 1900 <= y /\ (y mod 100 <> 0 \/ y mod 400 = 0).
Lemma plain_leap y : plainYear y -> (y mod 4 =? 0) = isLeap y.
Proof. intros [_ P]. unfold isLeap. destruct P as [P|P]; [|assert (y mod 100 = 0 /\ y mod 4 = 0) by (pose proof (Z.div_mod y 400); split; apply Z.mod_divide; try lia; [exists (4 * (y / 400))|exists (100 * (y / 400))]; lia)]; lia. Qed.
Theorem c125_day y m d j : plainYear y -> julianDay y m d = Some j ->
  correctDay y j = dayOfYear false m (commonDay m d) /\ 1 <= correctDay y j <= 365.
Proof.
  intros P H. unfold julianDay in H. destruct P as [P1 P2]. replace (y <? 1900) with false in H by lia. replace (y <? 0) with false in H by lia.
  destruct (validDate y m d) eqn:V; [|discriminate]. injection H as <-. apply validDate_iff in V. destruct V as (_ & M & D).
  unfold correctDay. rewrite (plain_leap y (conj P1 P2)).
  assert (E : (if isLeap y && (60 <=? dayOfYear (isLeap y) m d) then dayOfYear (isLeap y) m d - 1 else dayOfYear (isLeap y) m d) = dayOfYear false m (commonDay m d)).
  { destruct (isLeap y) eqn:L; cbn [andb].
    - unfold commonDay. months m; cbv [dayOfYear sumZ monthLens firstn nth fold_right Nat.sub Nat.eqb andb] in *; destruct (d =? 29) eqn:?; destruct (_ <=? _) eqn:?; lia.
    - unfold commonDay. months m; cbv [dayOfYear sumZ monthLens firstn nth fold_right Nat.sub Nat.eqb andb] in *; destruct (d =? 29) eqn:?; lia. }
  rewrite E. split; [reflexivity|]. apply (doy_range false); [exact M|]. unfold commonDay. destruct (isLeap y); months m; cbv [dayOfYear sumZ monthLens firstn nth fold_right Nat.sub Nat.eqb andb] in *; destruct (d =? 29) eqn:?; lia.
Qed.
(** A cyclone simulated in a common year on the recorded day starts on the recorded day of the calendar *)
Theorem c125_back y m d j year (f : Q) : plainYear y -> julianDay y m d = Some j -> isLeap year = false -> (0 <= f)%Q -> (f < 1)%Q ->
  genesisDate year (inject_Z (correctDay y j) + f)%Q = Some (m, commonDay m d).
Proof.
  intros P H L F0 F1. destruct (c125_day y m d j P H) as [E R]. rewrite E in *. unfold genesisDate. rewrite L.
  assert (Fl : Qfloor (inject_Z (dayOfYear false m (commonDay m d)) + f) = dayOfYear false m (commonDay m d)).
  { set (n := dayOfYear false m (commonDay m d)). clearbody n. pose proof (Qfloor_le (inject_Z n + f)) as A. pose proof (Qlt_floor (inject_Z n + f)) as B.
    assert (A' : (inject_Z (Qfloor (inject_Z n + f)) < inject_Z (n + 1))%Q) by (eapply Qle_lt_trans; [exact A|]; rewrite inject_Z_plus; apply Qplus_lt_r; exact F1).
    assert (B' : (inject_Z n < inject_Z (Qfloor (inject_Z n + f) + 1))%Q) by (eapply Qle_lt_trans; [|exact B]; rewrite <- (Qplus_0_r (inject_Z n)) at 1; apply Qplus_le_r; exact F0).
    rewrite <- Zlt_Qlt in A', B'. lia. }
  rewrite Fl. replace (_ <? 1) with false by lia. apply doy_from.
  - unfold julianDay in H. destruct P as [P1 _]. replace (y <? 1900) with false in H by lia. replace (y <? 0) with false in H by lia.
    destruct (validDate y m d) eqn:V; [|discriminate]. apply validDate_iff in V. tauto.
  - unfold julianDay in H. destruct P as [P1 _]. replace (y <? 1900) with false in H by lia. replace (y <? 0) with false in H by lia.
    destruct (validDate y m d) eqn:V; [|discriminate]. apply validDate_iff in V. destruct V as (_ & M & D). unfold commonDay.
    destruct (isLeap y); months m; cbv [dayOfYear sumZ monthLens firstn nth fold_right Nat.sub Nat.eqb andb] in *; destruct (d =? 29) eqn:?; lia.
Qed.
(** Every simulated genesis has a date *)
Theorem c125_exists (u v day : Q) : (0 <= u)%Q -> (u < 1)%Q -> (0 <= v)%Q -> (v < 1)%Q -> (1 <= day)%Q -> (day < 366)%Q ->
  exists m d, genesisDate (genesisYear u) day = Some (m, d) /\ validDate (genesisYear u) m d = true /\ dayOfYear (isLeap (genesisYear u)) m d = Qfloor day /\
  0 <= genesisHour v <= 23 /\ 1900 <= genesisYear u <= 9997.
Proof.
  intros U0 U1 V0 V1 D0 D1.
  assert (Y : 1900 <= genesisYear u <= 9997).
  { unfold genesisYear. pose proof (Qfloor_le (1900 + u * (9998 - 1900))) as A. pose proof (Qlt_floor (1900 + u * (9998 - 1900))) as B.
    assert (A' : (inject_Z (Qfloor (1900 + u * (9998 - 1900))) < inject_Z 9998)%Q).
    { eapply Qle_lt_trans; [exact A|]. setoid_replace (inject_Z 9998) with (1900 + 1 * (9998 - 1900))%Q by reflexivity. apply Qplus_lt_r. apply Qmult_lt_compat_r; [reflexivity|exact U1]. }
    assert (B' : (inject_Z 1900 < inject_Z (Qfloor (1900 + u * (9998 - 1900)) + 1))%Q).
    { eapply Qle_lt_trans; [|exact B]. setoid_replace (inject_Z 1900) with (1900 + 0 * (9998 - 1900))%Q by reflexivity. apply Qplus_le_r. apply Qmult_le_compat_r; [exact U0|discriminate]. }
    rewrite <- Zlt_Qlt in A', B'. lia. }
  assert (Hh : 0 <= genesisHour v <= 23).
  { unfold genesisHour. pose proof (Qfloor_le (v * 24)) as A. pose proof (Qlt_floor (v * 24)) as B.
    assert (A' : (inject_Z (Qfloor (v * 24)) < inject_Z 24)%Q).
    { eapply Qle_lt_trans; [exact A|]. setoid_replace (inject_Z 24) with (1 * 24)%Q by reflexivity. apply Qmult_lt_compat_r; [reflexivity|exact V1]. }
    assert (B' : (inject_Z 0 < inject_Z (Qfloor (v * 24) + 1))%Q).
    { eapply Qle_lt_trans; [|exact B]. setoid_replace (inject_Z 0) with (0 * 24)%Q by reflexivity. apply Qmult_le_compat_r; [exact V0|discriminate]. }
    rewrite <- Zlt_Qlt in A', B'. lia. }
  assert (N : 1 <= Qfloor day <= 365).
  { pose proof (Qfloor_le day) as A. pose proof (Qlt_floor day) as B.
    assert (A' : (inject_Z (Qfloor day) < inject_Z 366)%Q) by (eapply Qle_lt_trans; [exact A|exact D1]).
    assert (B' : (inject_Z 1 < inject_Z (Qfloor day + 1))%Q) by (eapply Qle_lt_trans; [exact D0|exact B]).
    rewrite <- Zlt_Qlt in A', B'. lia. }
  unfold genesisDate. set (n := Qfloor day) in *. clearbody n. replace (n <? 1) with false by lia.
  set (y := genesisYear u) in *. clearbody y.
  assert (G : forall lens n, 1 <= n <= sumZ lens -> exists m d, fromDay lens n = Some (m, d) /\ (1 <= m <= length lens)%nat /\ 1 <= d <= nth (m - 1) lens 0 /\ sumZ (firstn (m - 1) lens) + d = n).
  { clear. induction lens as [|l lens IH]; intros n N; [cbn in N; lia|]. cbn [fromDay]. destruct (n <=? l) eqn:E.
    - exists 1%nat, n. cbn. repeat split; lia.
    - destruct (IH (n - l)) as (m & d & F & M & D & Su); [cbn in N; unfold sumZ; lia|]. rewrite F. exists (S m), d. split; [reflexivity|]. split; [cbn; lia|].
      destruct m as [|m]; [lia|]. cbn in *. rewrite Nat.sub_0_r in *. split; [exact D|]. unfold sumZ in Su. lia. }
  destruct (G (monthLens (isLeap y)) n) as (m & d & F & M & D & Su); [destruct (isLeap y); cbn; lia|].
  exists m, d. split; [exact F|]. split; [apply validDate_iff; cbn [length monthLens] in M; repeat split; lia|]. split; [exact Su|]. split; assumption.
Qed.
Example c125_example : plainYear 2004 /\ julianDay 2004 2 29 = Some 60 /\ correctDay 2004 60 = 59 /\ isLeap 2003 = false /\
  genesisDate 2003 (inject_Z 59 + (1 # 4))%Q = Some (2%nat, 28).
Proof. unfold plainYear. repeat split; try lia. left. discriminate. Qed.

(** ** C126 All years give the day of the calendar *)
(** Years before 1900 are treated as leap years by one function and not by the other *)
Theorem c126_before1900_refuted : exists y m d j, validDate y m d = true /\ julianDay y m d = Some j /\ correctDay y j <> dayOfYear false m (commonDay m d).
Proof. exists 1895, 3%nat, 1, 61. vm_compute. repeat split; discriminate. Qed.
(** 1900 is divisible by four but not a leap year *)
Theorem c126_century_refuted : exists y m d j, 1900 <= y /\ validDate y m d = true /\ julianDay y m d = Some j /\ correctDay y j <> dayOfYear false m (commonDay m d).
Proof. exists 1900, 3%nat, 1, 60. vm_compute. repeat split; discriminate. Qed.
(** In a leap year every simulated genesis after 28 February falls one day early *)
Theorem c126_leap_refuted year (day : Q) : isLeap year = true -> (60 <= Qfloor day <= 365) ->
  exists m d, genesisDate year day = Some (m, d) /\ (m = 2%nat /\ d = 29 /\ Qfloor day = 60 \/ dayOfYear false m d = Qfloor day - 1).
Proof.
  intros L R. unfold genesisDate. rewrite L. replace (_ <? 1) with false by lia. set (n := Qfloor day) in *. clearbody n.
  destruct (n =? 60) eqn:E.
  - exists 2%nat, 29. assert (n = 60) by lia. subst n. split; [reflexivity|]. left. lia.
  - assert (G : exists m d, (1 <= m <= 12)%nat /\ 1 <= d <= nth (m - 1) (monthLens true) 0 /\ dayOfYear true m d = n /\ dayOfYear false m d = n - 1).
    { destruct (n <=? 91) eqn:E1; [exists 3%nat, (n - 60); cbv [dayOfYear sumZ monthLens firstn nth fold_right Nat.sub]; lia|]. destruct (n <=? 121) eqn:E2; [exists 4%nat, (n - 91); cbv [dayOfYear sumZ monthLens firstn nth fold_right Nat.sub]; lia|].
      destruct (n <=? 152) eqn:E3; [exists 5%nat, (n - 121); cbv [dayOfYear sumZ monthLens firstn nth fold_right Nat.sub]; lia|]. destruct (n <=? 182) eqn:E4; [exists 6%nat, (n - 152); cbv [dayOfYear sumZ monthLens firstn nth fold_right Nat.sub]; lia|].
      destruct (n <=? 213) eqn:E5; [exists 7%nat, (n - 182); cbv [dayOfYear sumZ monthLens firstn nth fold_right Nat.sub]; lia|]. destruct (n <=? 244) eqn:E6; [exists 8%nat, (n - 213); cbv [dayOfYear sumZ monthLens firstn nth fold_right Nat.sub]; lia|].
      destruct (n <=? 274) eqn:E7; [exists 9%nat, (n - 244); cbv [dayOfYear sumZ monthLens firstn nth fold_right Nat.sub]; lia|]. destruct (n <=? 305) eqn:E8; [exists 10%nat, (n - 274); cbv [dayOfYear sumZ monthLens firstn nth fold_right Nat.sub]; lia|].
      destruct (n <=? 335) eqn:E9; [exists 11%nat, (n - 305); cbv [dayOfYear sumZ monthLens firstn nth fold_right Nat.sub]; lia|]. exists 12%nat, (n - 335); cbv [dayOfYear sumZ monthLens firstn nth fold_right Nat.sub]; lia. }
    destruct G as (m & d & M & D & A & B). exists m, d. split; [|right; exact B]. rewrite <- A. apply doy_from; assumption.
Qed.
Example c126_example : isLeap 2004 = true /\ genesisDate 2004 (inject_Z 60) = Some (2%nat, 29) /\ genesisDate 2003 (inject_Z 60) = Some (3%nat, 1).
Proof. vm_compute. auto. Qed.

(** ** C127 Histograms count every genesis once *)
Definition total (l : list nat) : nat := fold_right Nat.add 0%nat l.
Definition occ (x : Z) (l : list Z) : nat := length (filter (Z.eqb x) l).
Lemma hist_sum lo hi l : lo < hi -> (forall x, In x l -> lo <= x <= hi) -> total (histogram lo hi l) = length l.
Proof.
  intros H B. unfold histogram.
  assert (K : forall n f g, (forall i : nat, f i = (fun i => length (filter (g i) l)) i) ->
     total (map f (seq 0 n)) = fold_right Nat.add 0%nat (map (fun x => length (filter (fun i => g i x) (seq 0 n))) l)).
  { clear. intros n f g E. induction l as [|x l IH] in f, E |- *.
    - cbn. induction (seq 0 n) as [|i s IHs]; cbn; [reflexivity|]. rewrite E. cbn. exact IHs.
    - cbn [map fold_right]. rewrite <- (IH (fun i => length (filter (g i) l))) by reflexivity. clear IH.
      induction (seq 0 n) as [|i s IHs]; cbn [map total fold_right filter length]; [reflexivity|]. fold (total (map f s)). fold (total (map (fun i => length (filter (g i) l)) s)).
      rewrite E. cbn [filter]. destruct (g i x); cbn [length]; lia. }
  rewrite (K _ _ (fun i x => let b := lo + Z.of_nat i in (b <=? x) && ((x <? b + 1) || ((b + 1 =? hi) && (x =? hi))))) by reflexivity. clear K. cbv beta zeta.
  induction l as [|x l IH]; [reflexivity|]. cbn [map fold_right length]. rewrite IH by (intros y Hy; apply B; now right). clear IH.
  assert (L : length (filter (fun i => (lo + Z.of_nat i <=? x) && ((x <? lo + Z.of_nat i + 1) || ((lo + Z.of_nat i + 1 =? hi) && (x =? hi)))) (seq 0 (Z.to_nat (hi - lo)))) = 1%nat); [|lia].
  specialize (B x (or_introl eq_refl)). set (k := Z.to_nat (if x =? hi then hi - 1 - lo else x - lo)).
  assert (Kd : (x = hi /\ Z.of_nat k = hi - 1 - lo) \/ (x < hi /\ Z.of_nat k = x - lo)) by (unfold k; destruct (x =? hi) eqn:?; lia). clearbody k.
  assert (E : forall n s, Z.of_nat (s + n) <= hi - lo -> (length (filter (fun i => (lo + Z.of_nat i <=? x)%Z && ((x <? lo + Z.of_nat i + 1)%Z || ((lo + Z.of_nat i + 1 =? hi)%Z && (x =? hi)%Z))) (seq s n)) = if (s <=? k)%nat && (k <? s + n)%nat then 1 else 0)%nat).
  { induction n as [|n IH]; intros s Hs; cbn [seq filter].
    - cbn [length]. destruct ((s <=? k)%nat && (k <? s + 0)%nat) eqn:?; lia.
    - cbv zeta in *. destruct ((lo + Z.of_nat s <=? x) && ((x <? lo + Z.of_nat s + 1) || ((lo + Z.of_nat s + 1 =? hi) && (x =? hi)))) eqn:E1; cbn [length]; rewrite IH by lia;
      destruct ((S s <=? k)%nat && (k <? S s + n)%nat) eqn:E2, ((s <=? k)%nat && (k <? s + S n)%nat) eqn:E3; try reflexivity; exfalso; lia. }
  rewrite E by lia. replace ((0 <=? k)%nat && (k <? 0 + Z.to_nat (hi - lo))%nat) with true; [reflexivity|]. lia.
Qed.
Lemma hist_nth lo hi l i : (i < Z.to_nat (hi - lo))%nat -> (forall x, In x l -> lo <= x <= hi) ->
  nth i (histogram lo hi l) 0%nat = (occ (lo + Z.of_nat i) l + if (lo + Z.of_nat i + 1 =? hi)%Z then occ hi l else 0)%nat.
Proof.
  intros I B. unfold histogram.
  rewrite (nth_indep _ 0%nat ((fun i => let b := lo + Z.of_nat i in length (filter (fun x => (b <=? x) && ((x <? b + 1) || ((b + 1 =? hi) && (x =? hi)))) l)) 0%nat)) by (rewrite map_length, seq_length; exact I).
  rewrite (map_nth (fun i => let b := lo + Z.of_nat i in length (filter (fun x => (b <=? x) && ((x <? b + 1) || ((b + 1 =? hi) && (x =? hi)))) l))), seq_nth by exact I. cbv zeta. rewrite Nat.add_0_l.
  unfold occ. set (b := lo + Z.of_nat i) in *. clear B I. induction l as [|x l IH]; cbn [filter]; [destruct (b + 1 =? hi); reflexivity|].
  destruct ((b <=? x) && ((x <? b + 1) || ((b + 1 =? hi) && (x =? hi)))) eqn:E1, (b =? x) eqn:E2, (hi =? x) eqn:E3, (b + 1 =? hi) eqn:E4; cbn [length]; lia.
Qed.
Lemma compress_len days ind : (length ind <= length days)%nat -> length (compressZ days ind) = length (filter (fun b => b) ind).
Proof.
  unfold compressZ. rewrite map_length. revert days. induction ind as [|b ind IH]; intros [|d days] L; cbn in *; try lia; try reflexivity. destruct b; cbn [length]; [f_equal|]; apply (IH days); lia.
Qed.
Lemma compress_in days ind x : In x (compressZ days ind) -> In x days.
Proof. unfold compressZ. intros H. apply in_map_iff in H. destruct H as ([a b] & <- & H). apply filter_In in H. apply (in_combine_l _ _ _ _ (proj1 H)). Qed.
(** Number of cyclones whose first record, marked in [ind], has the value [d] *)
Definition starts (d : Z) (days : list Z) (ind : list bool) : nat := length (filter (fun p => snd p && (fst p =? d)) (combine days ind)).
Lemma occ_starts d days ind : occ d (compressZ days ind) = starts d days ind.
Proof.
  unfold occ, compressZ, starts. induction (combine days ind) as [|[a b] r IH]; [reflexivity|]. cbn [filter snd fst map]. destruct b; cbn [andb].
  - cbn [map filter fst]. rewrite (Z.eqb_sym d a). destruct (a =? d); cbn [length]; [f_equal|]; exact IH.
  - exact IH.
Qed.
(** Genesis days in the histogram: as many as cyclones, on their days *)
Theorem c127_days days ind : length ind = length days -> (forall d, In d days -> 1 <= d <= 365) ->
  length (genesisHist days ind) = 365%nat /\ total (genesisHist days ind) = length (filter (fun b => b) ind) /\
  forall d, 1 <= d <= 365 -> nth (Z.to_nat (d - 1)) (genesisHist days ind) 0%nat = starts d days ind.
Proof.
  intros L B. unfold genesisHist. split; [unfold histogram; now rewrite map_length, seq_length|]. split.
  - rewrite hist_sum; [apply compress_len; lia|lia|]. intros x Hx. apply compress_in in Hx. specialize (B x Hx). lia.
  - intros d D. rewrite <- occ_starts, hist_nth; [|lia|intros x Hx; apply compress_in in Hx; specialize (B x Hx); lia].
    replace (1 + Z.of_nat (Z.to_nat (d - 1))) with d by lia.
    assert (Z0 : occ 366 (compressZ days ind) = 0%nat).
    { unfold occ. destruct (filter (Z.eqb 366) (compressZ days ind)) as [|x r] eqn:F; [reflexivity|]. assert (I : In x (filter (Z.eqb 366) (compressZ days ind))) by (rewrite F; now left).
      apply filter_In in I. destruct I as [I E]. apply compress_in in I. specialize (B x I). lia. }
    rewrite Z0. destruct (_ =? _); lia.
Qed.
Lemma minmax_spec l x : In x l -> minZ l <= x <= maxZ l.
Proof.
  destruct l as [|a r]; [intros []|]. cbn [minZ maxZ]. intros H.
  assert (G : fold_right Z.min a r <= a /\ a <= fold_right Z.max a r /\ forall y, In y r -> fold_right Z.min a r <= y <= fold_right Z.max a r).
  { clear. induction r as [|b r (A & B & C)]; cbn [fold_right]; [repeat split; try lia; destruct H|]. repeat split; try lia; intros; destruct H as [->|H]; try lia; specialize (C y H); lia. }
  destruct G as (A & B & C). destruct H as [->|H]; [lia|apply C, H].
Qed.
(** The annual numbers count each cyclone in the year of its first record *)
Theorem c127_years years ind n : length ind = length years -> frequency years ind = Some n ->
  total n = length (filter (fun b => b) ind) /\ length n = Z.to_nat (maxZ years - minZ years + 1) /\
  forall y, minZ years <= y <= maxZ years -> nth (Z.to_nat (y - minZ years)) n 0%nat = starts y years ind.
Proof.
  intros L F. unfold frequency in F. destruct (minZ years =? maxZ years) eqn:E; [discriminate|]. injection F as <-.
  assert (B : forall x, In x (compressZ years ind) -> minZ years <= x <= maxZ years) by (intros x Hx; apply compress_in in Hx; now apply minmax_spec).
  assert (M : minZ years <= maxZ years). { destruct years as [|y r]; [cbn in E; lia|]. pose proof (minmax_spec (y :: r) y (or_introl eq_refl)). lia. }
  split; [|split].
  - rewrite hist_sum; [apply compress_len; lia|lia|]. intros x Hx. specialize (B x Hx). lia.
  - unfold histogram. rewrite map_length, seq_length. f_equal. lia.
  - intros y Y. rewrite <- occ_starts, hist_nth; [|lia|intros x Hx; specialize (B x Hx); lia]. replace (minZ years + Z.of_nat (Z.to_nat (y - minZ years))) with y by lia.
    assert (Z0 : occ (maxZ years + 1) (compressZ years ind) = 0%nat).
    { unfold occ. destruct (filter _ (compressZ years ind)) as [|x r] eqn:F; [reflexivity|]. assert (I : In x (filter (Z.eqb (maxZ years + 1)) (compressZ years ind))) by (rewrite F; now left).
      apply filter_In in I. destruct I as [I G]. specialize (B x I). lia. }
    rewrite Z0. destruct (y + 1 =? maxZ years + 1); apply Nat.add_0_r.
Qed.
Example c127_example : frequency [1990; 1990; 1990; 1992] [true; false; true; true] = Some [2; 0; 1]%nat.
Proof. reflexivity. Qed.
(** A record of a single year gives no annual numbers *)
Theorem c126_single_year_refuted : exists years ind, In true ind /\ length ind = length years /\ frequency years ind = None.
Proof. exists [1990; 1990], [true; true]. cbn. auto. Qed.
Print Assumptions c125_day.
Print Assumptions c125_back.
Print Assumptions c125_exists.
Print Assumptions c126_before1900_refuted.
Print Assumptions c126_century_refuted.
Print Assumptions c126_leap_refuted.
Print Assumptions c127_days.
Print Assumptions c127_years.
Print Assumptions c126_single_year_refuted.
