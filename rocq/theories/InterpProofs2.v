(** Lemmas about interpolated pressures and speeds *)
From Coq Require Import List Arith ZArith Bool QArith Qabs Qround Lia Lqa.
From Verif Require Import CellModel NumModel SampModel FitModel CellProofs GenProofs NumProofs SampProofs FitProofs InterpModel InterpProofs.
Import ListNotations.
Open Scope Q_scope.

(** ** Searching *)
Lemma hd_filter (f : nat -> bool) n : forall s a, hd_error (filter f (seq s n)) = Some a ->
  (s <= a < s + n)%nat /\ f a = true /\ forall k, (s <= k < a)%nat -> f k = false.
Proof.
  induction n as [|n IH]; intros s a; cbn [seq filter]; [discriminate|]. destruct (f s) eqn:E; cbn [hd_error].
  - intros [= <-]. split; [lia|]. split; [exact E|]. lia.
  - intros H. apply IH in H. destruct H as (A & B & C). split; [lia|]. split; [exact B|].
    intros k Hk. destruct (Nat.eq_dec k s) as [->|]; [exact E|apply C; lia].
Qed.
Lemma hd_rev_filter (f : nat -> bool) n : forall s a, hd_error (rev (filter f (seq s n))) = Some a ->
  (s <= a < s + n)%nat /\ f a = true /\ forall k, (a < k < s + n)%nat -> f k = false.
Proof.
  induction n as [|n IH]; intros s a; [discriminate|].
  rewrite seq_S, filter_app, rev_app_distr. cbn [filter]. destruct (f (s + n)%nat) eqn:E; cbn [rev app hd_error].
  - intros [= <-]. split; [lia|]. split; [exact E|]. lia.
  - intros H. apply IH in H. destruct H as (A & B & C). split; [lia|]. split; [exact B|].
    intros k Hk. destruct (Nat.eq_dec k (s + n)) as [->|]; [exact E|apply C; lia].
Qed.
Lemma firstWhere_spec {A} (p : A -> bool) d l a : firstWhere p d l = Some a ->
  (a < length l)%nat /\ p (nth a l d) = true /\ forall k, (k < a)%nat -> p (nth k l d) = false.
Proof. intros H. apply hd_filter in H. destruct H as (B & C & D). split; [lia|]. split; [exact C|]. intros k Hk. apply D. lia. Qed.
Lemma lastWhere_spec {A} (p : A -> bool) d l a : lastWhere p d l = Some a ->
  (a < length l)%nat /\ p (nth a l d) = true /\ forall k, (a < k < length l)%nat -> p (nth k l d) = false.
Proof. intros H. apply hd_rev_filter in H. destruct H as (B & C & D). split; [lia|]. split; [exact C|]. intros k Hk. apply D. lia. Qed.
Lemma hd_filter_ex (f : nat -> bool) n s a : (s <= a < s + n)%nat -> f a = true -> (forall k, (s <= k < a)%nat -> f k = false) ->
  hd_error (filter f (seq s n)) = Some a.
Proof.
  revert s. induction n as [|n IH]; intros s H E F; [lia|]. cbn [seq filter].
  destruct (Nat.eq_dec a s) as [->|N]; [now rewrite E|]. rewrite F by lia. apply IH; auto; [lia|]. intros k Hk. apply F. lia.
Qed.
Lemma hd_rev_filter_ex (f : nat -> bool) n s a : (s <= a < s + n)%nat -> f a = true -> (forall k, (a < k < s + n)%nat -> f k = false) ->
  hd_error (rev (filter f (seq s n))) = Some a.
Proof.
  revert s. induction n as [|n IH]; intros s H E F; [lia|]. rewrite seq_S, filter_app, rev_app_distr. cbn [filter].
  destruct (Nat.eq_dec a (s + n)) as [->|N]; [rewrite E; reflexivity|]. rewrite (F (s + n)%nat) by lia. cbn [rev app].
  apply IH; auto; [lia|]. intros k Hk. apply F. lia.
Qed.

(** ** Valid observations *)
Lemma valid_in cp i : In i (validIdx cp) <-> (i < length cp)%nat /\ nth i cp 0 < maxsize.
Proof. unfold validIdx. rewrite filter_In, in_seq, qlt_iff. split; intros [A B]; split; auto; lia. Qed.
Inductive sorted : list nat -> Prop :=
| sorted_nil : sorted []
| sorted_cons a l : (forall b, In b l -> (a < b)%nat) -> sorted l -> sorted (a :: l).
Lemma filter_sorted f n : forall s, sorted (filter f (seq s n)).
Proof.
  induction n as [|n IH]; intros s; cbn [seq filter]; [constructor|]. destruct (f s); [|apply IH].
  constructor; [|apply IH]. intros b Hb. apply filter_In in Hb. destruct Hb as [Hb _]. apply in_seq in Hb. lia.
Qed.
Lemma sorted_nth l : sorted l -> forall i j, (i < j < length l)%nat -> (nth i l 0 < nth j l 0)%nat.
Proof.
  induction 1 as [|a l H S IH]; intros [|i] [|j] Hij; cbn in *; try lia.
  - apply H, nth_In. lia.
  - apply IH. lia.
Qed.
Lemma valid_sorted cp : sorted (validIdx cp). Proof. apply filter_sorted. Qed.
Lemma last_nth_nat (l : list nat) d : last l d = nth (length l - 1) l d.
Proof.
  induction l as [|a l IH]; [reflexivity|]. destruct l as [|b l]; [reflexivity|].
  change (last (a :: b :: l) d) with (last (b :: l) d). rewrite IH. cbn [length nth].
  replace (S (S (length l)) - 1)%nat with (S (S (length l) - 1)) by lia. reflexivity.
Qed.
Lemma all_valid_seq cp : (forall c, In c cp -> c < maxsize) -> validIdx cp = seq 0 (length cp).
Proof.
  intros H. unfold validIdx. assert (G : forall l : list nat, (forall i, In i l -> (i < length cp)%nat) -> filter (fun i => qlt (nth i cp 0) maxsize) l = l).
  { induction l as [|i l IH]; intros Hl; cbn [filter]; [reflexivity|]. rewrite (proj2 (qlt_iff _ _)).
    - f_equal. apply IH. intros k Hk. apply Hl. now right.
    - apply H, nth_In, Hl. now left. }
  apply G. intros i Hi. apply in_seq in Hi. lia.
Qed.
Lemma map_nth_seq (l : list Q) : map (fun k => nth k l 0) (seq 0 (length l)) = l.
Proof.
  apply (nth_ext _ _ 0 0); [now rewrite map_length, seq_length|]. intros n Hn. rewrite map_length, seq_length in Hn.
  rewrite (nth_map_lt _ _ n 0 0%nat) by now rewrite seq_length. now rewrite seq_nth.
Qed.
Lemma slice_len {A} (l : list A) a b : (a <= b <= length l)%nat -> length (slice a b l) = (b - a)%nat.
Proof. intros H. unfold slice. rewrite firstn_length, skipn_length. lia. Qed.
Lemma slice_nth (l : list Q) a b k : (k < b - a)%nat -> nth k (slice a b l) 0 = nth (a + k) l 0.
Proof.
  intros H. unfold slice. rewrite nth_firstn_lt by exact H. clear H. revert l. induction a as [|a IH]; intros l; [reflexivity|].
  destruct l as [|x l]; [cbn [skipn]; destruct k; reflexivity|]. cbn [skipn Nat.add nth]. apply IH.
Qed.

(** ** The branches of [newPressure] for more than three records *)
Section Pressure.
  Variables ts cp nt : list Q.
  Hypothesis H4 : (4 <= length ts)%nat.
  Hypothesis HL : length cp = length ts.
  Hypothesis Its : incr ts.
  Hypothesis Int : incr nt.
  Variables i j : nat.
  (** the first and the last valid observation *)
  Hypothesis Hij : (i < j < length ts)%nat.
  Hypothesis Vi : nth i cp 0 < maxsize.
  Hypothesis Vj : nth j cp 0 < maxsize.
  Hypothesis Fi : forall k, (k < i)%nat -> maxsize <= nth k cp 0.
  Hypothesis Lj : forall k, (j < k < length ts)%nat -> maxsize <= nth k cp 0.

  Lemma valid_shape : exists v, validIdx cp = i :: v /\ v <> [] /\ last (validIdx cp) 0%nat = j.
  Proof.
    assert (H1 : hd_error (validIdx cp) = Some i).
    { unfold validIdx. apply hd_filter_ex; [lia|now apply qlt_iff|]. intros k Hk. apply qlt_false_iff, Fi. lia. }
    assert (H2 : hd_error (rev (validIdx cp)) = Some j).
    { unfold validIdx. apply hd_rev_filter_ex; [lia|now apply qlt_iff|]. intros k Hk. apply qlt_false_iff, Lj. lia. }
    assert (H3 : last (validIdx cp) 0%nat = j).
    { rewrite <- (rev_involutive (validIdx cp)). destruct (rev (validIdx cp)) as [|z l]; [discriminate|]. cbn [rev]. rewrite last_last. now injection H2. }
    destruct (validIdx cp) as [|z v]; [discriminate|]. injection H1 as ->. exists v. split; [reflexivity|]. split; [|exact H3].
    intros ->. cbn in H3. lia.
  Qed.
  Let vt := map (fun k => nth k ts 0) (validIdx cp).
  Let vp := map (fun k => nth k cp 0) (validIdx cp).
  Lemma vt_len : length vt = length (validIdx cp). Proof. apply map_length. Qed.
  Lemma vp_len : length vp = length vt. Proof. unfold vp, vt. now rewrite !map_length. Qed.
  Lemma vt_two : (2 <= length vt)%nat.
  Proof. rewrite vt_len. destruct valid_shape as (v & E & N & _). rewrite E. destruct v; [congruence|cbn; lia]. Qed.
  Lemma vt_nth k : (k < length vt)%nat -> nth k vt 0 = nth (nth k (validIdx cp) 0%nat) ts 0 /\ nth k vp 0 = nth (nth k (validIdx cp) 0%nat) cp 0.
  Proof. intros H. rewrite vt_len in H. unfold vt, vp. split; now rewrite (nth_map_lt _ _ k 0 0%nat). Qed.
  Lemma vt_incr : incr vt.
  Proof.
    intros p q Hpq. rewrite (proj1 (vt_nth p ltac:(lia))), (proj1 (vt_nth q ltac:(lia))). rewrite vt_len in Hpq. apply Its. split.
    - apply sorted_nth; [apply valid_sorted|lia].
    - rewrite <- HL. apply valid_in, nth_In. lia.
  Qed.
  Lemma vt_first : nth 0 vt 0 = nth i ts 0.
  Proof. rewrite (proj1 (vt_nth 0%nat ltac:(pose proof vt_two; lia))). destruct valid_shape as (v & E & N & _). now rewrite E. Qed.
  Lemma vt_last : nth (length vt - 1) vt 0 = nth j ts 0.
  Proof.
    rewrite (proj1 (vt_nth (length vt - 1)%nat ltac:(pose proof vt_two; lia))). destruct valid_shape as (v & E & N & D).
    rewrite last_nth_nat in D. now rewrite vt_len, D.
  Qed.

  (** What a successful interpolation returns: [a] and [b] are the first and last new time between the first
      and the last valid observation *)
  Lemma pressure_branches r : newPressure ts cp nt = Some r -> exists a b, (a <= b < length nt)%nat /\
    length r = length nt /\
    (forall k, (k < length nt)%nat -> nth i ts 0 <= nth k nt 0 <-> (a <= k)%nat) /\
    (forall k, (k < length nt)%nat -> nth k nt 0 <= nth j ts 0 <-> (k <= b)%nat) /\
    (forall k, (k < length nt)%nat -> (k < a \/ b < k)%nat -> nth k r 0 = 0) /\
    (a = b -> nth a r 0 = nth i cp 0) /\
    (forall k, (a <= k < b)%nat -> interp vt vp (nth k nt 0) = Some (nth k r 0)) /\
    ((a < b)%nat -> nth b r 0 = nth (b - 1) r 0).
  Proof.
    intros E. unfold newPressure in E. cbv zeta in E. fold vt vp in E.
    destruct valid_shape as (v & EV & N & EL). rewrite EL in E.
    assert (E' : match firstWhere (fun t => Qle_bool (nth i ts 0) t) 0 nt, lastWhere (fun t => Qle_bool t (nth j ts 0)) 0 nt with
        | Some a, Some b =>
            if (a =? b)%nat then Some (map (fun k => if (k =? a)%nat then nth i cp 0 else 0) (seq 0 (length nt)))
            else
              match interpAll vt vp (slice a b nt) with
              | Some (w0 :: w) =>
                  Some (map (fun k => if (a <=? k)%nat && (k <? b)%nat then nth (k - a) (w0 :: w) 0
                                      else if (k =? b)%nat then last (w0 :: w) 0 else 0) (seq 0 (length nt)))
              | _ => None
              end
        | _, _ => None
        end = Some r).
    { rewrite EV in E. destruct v as [|v1 v]; [congruence|]. rewrite (proj2 (Nat.leb_gt _ _)) in E by lia. exact E. }
    clear E. destruct (firstWhere _ 0 nt) as [a|] eqn:Ea; [|discriminate]. destruct (lastWhere _ 0 nt) as [b|] eqn:Eb; [|discriminate].
    apply firstWhere_spec in Ea. destruct Ea as (A1 & A2 & A3). apply lastWhere_spec in Eb. destruct Eb as (B1 & B2 & B3).
    apply Qle_bool_iff in A2. apply Qle_bool_iff in B2.
    assert (M : forall p q, (p <= q < length nt)%nat -> nth p nt 0 <= nth q nt 0).
    { intros p q H. destruct (Nat.eq_dec p q) as [->|]; [lra|]. apply Qlt_le_weak, Int. lia. }
    assert (FA : forall k, (k < length nt)%nat -> nth i ts 0 <= nth k nt 0 <-> (a <= k)%nat).
    { intros k Hk. split; intros H.
      - destruct (Nat.lt_ge_cases k a) as [C|C]; [|exact C]. apply A3 in C. apply not_true_iff_false in C. exfalso. apply C. now apply Qle_bool_iff.
      - eapply Qle_trans; [exact A2|]. apply M. lia. }
    assert (FB : forall k, (k < length nt)%nat -> nth k nt 0 <= nth j ts 0 <-> (k <= b)%nat).
    { intros k Hk. split; intros H.
      - destruct (Nat.lt_ge_cases b k) as [C|C]; [|exact C]. specialize (B3 k ltac:(lia)). apply not_true_iff_false in B3. exfalso. apply B3. now apply Qle_bool_iff.
      - eapply Qle_trans; [|exact B2]. apply M. lia. }
    destruct (a =? b)%nat eqn:AB.
    - apply Nat.eqb_eq in AB. subst b. injection E' as <-. exists a, a.
      split; [lia|]. split; [now rewrite map_length, seq_length|]. split; [exact FA|]. split; [exact FB|].
      split; [|split; [|split; [lia|lia]]].
      + intros k Hk C. rewrite (nth_map_lt _ _ k 0 0%nat) by now rewrite seq_length. rewrite seq_nth by lia. cbn [Nat.add].
        rewrite (proj2 (Nat.eqb_neq _ _)) by lia. reflexivity.
      + intros _. rewrite (nth_map_lt _ _ a 0 0%nat) by now rewrite seq_length. rewrite seq_nth by lia. cbn [Nat.add]. now rewrite Nat.eqb_refl.
    - apply Nat.eqb_neq in AB. destruct (interpAll vt vp (slice a b nt)) as [w|] eqn:EW; [|discriminate].
      pose proof (interpAll_some _ _ _ _ EW) as [W1 W2].
      destruct w as [|w0 w]; [discriminate|].
      assert (Hab : (a < b)%nat).
      { destruct (Nat.lt_ge_cases a b) as [C|C]; [exact C|]. exfalso. unfold slice in W1.
        replace (b - a)%nat with 0%nat in W1 by lia. cbn in W1. lia. }
      rewrite slice_len in W1, W2 by lia. injection E' as <-. exists a, b.
      split; [lia|]. split; [now rewrite map_length, seq_length|]. split; [exact FA|]. split; [exact FB|].
      assert (R : forall k, (k < length nt)%nat -> nth k (map (fun k => if (a <=? k)%nat && (k <? b)%nat then nth (k - a) (w0 :: w) 0
                                      else if (k =? b)%nat then last (w0 :: w) 0 else 0) (seq 0 (length nt))) 0 =
         if (a <=? k)%nat && (k <? b)%nat then nth (k - a) (w0 :: w) 0 else if (k =? b)%nat then last (w0 :: w) 0 else 0).
      { intros k Hk. rewrite (nth_map_lt _ _ k 0 0%nat) by now rewrite seq_length. rewrite seq_nth by lia. reflexivity. }
      split; [|split; [|split]].
      + intros k Hk C. rewrite R by exact Hk. destruct C as [C|C].
        * rewrite (proj2 (Nat.leb_gt _ _)) by lia. cbn [andb]. rewrite (proj2 (Nat.eqb_neq _ _)) by lia. reflexivity.
        * rewrite (proj2 (Nat.ltb_ge _ _)) by lia. rewrite andb_false_r. rewrite (proj2 (Nat.eqb_neq _ _)) by lia. reflexivity.
      + lia.
      + intros k Hk. rewrite R by lia. rewrite (proj2 (Nat.leb_le _ _)) by lia. rewrite (proj2 (Nat.ltb_lt _ _)) by lia. cbn [andb].
        rewrite <- (W2 (k - a)%nat) by lia. rewrite slice_nth by lia. do 2 f_equal. lia.
      + intros _. rewrite !R by lia. rewrite (proj2 (Nat.ltb_ge b b)) by lia. rewrite andb_false_r. rewrite Nat.eqb_refl.
        rewrite (proj2 (Nat.leb_le a (b - 1))) by lia. rewrite (proj2 (Nat.ltb_lt (b - 1) b)) by lia. cbn [andb].
        rewrite last_nth. rewrite W1. f_equal. lia.
  Qed.

  (** It succeeds as soon as a new time lies between the first and last valid observation *)
  Lemma pressure_succeeds : (exists k, (k < length nt)%nat /\ nth i ts 0 <= nth k nt 0 <= nth j ts 0) ->
    exists r, newPressure ts cp nt = Some r.
  Proof.
    intros (k & Hk & K1 & K2). unfold newPressure. cbv zeta. fold vt vp.
    destruct valid_shape as (v & EV & N & EL). rewrite EL.
    assert (M : forall p q, (p <= q < length nt)%nat -> nth p nt 0 <= nth q nt 0).
    { intros p q H. destruct (Nat.eq_dec p q) as [->|]; [lra|]. apply Qlt_le_weak, Int. lia. }
    destruct (firstWhere (fun t => Qle_bool (nth i ts 0) t) 0 nt) as [a|] eqn:Ea.
    2:{ exfalso. unfold firstWhere in Ea.
        assert (In k (filter (fun k => Qle_bool (nth i ts 0) (nth k nt 0)) (seq 0 (length nt)))).
        { apply filter_In. split; [apply in_seq; lia|now apply Qle_bool_iff]. }
        destruct (filter _ _); [destruct H|discriminate]. }
    destruct (lastWhere (fun t => Qle_bool t (nth j ts 0)) 0 nt) as [b|] eqn:Eb.
    2:{ exfalso. unfold lastWhere in Eb.
        assert (In k (rev (filter (fun k => Qle_bool (nth k nt 0) (nth j ts 0)) (seq 0 (length nt))))).
        { apply -> in_rev. apply filter_In. split; [apply in_seq; lia|now apply Qle_bool_iff]. }
        destruct (rev _); [destruct H|discriminate]. }
    pose proof Ea as Ea'. pose proof Eb as Eb'.
    apply firstWhere_spec in Ea. destruct Ea as (A1 & A2 & A3). apply lastWhere_spec in Eb. destruct Eb as (B1 & B2 & B3).
    apply Qle_bool_iff in A2. apply Qle_bool_iff in B2.
    assert (a <= k)%nat.
    { destruct (Nat.lt_ge_cases k a) as [C|C]; [|exact C]. apply A3 in C. apply not_true_iff_false in C. exfalso. apply C. now apply Qle_bool_iff. }
    assert (k <= b)%nat.
    { destruct (Nat.lt_ge_cases b k) as [C|C]; [|exact C]. specialize (B3 k ltac:(lia)). apply not_true_iff_false in B3. exfalso. apply B3. now apply Qle_bool_iff. }
    assert (W : (a <> b) -> exists w0 w, interpAll vt vp (slice a b nt) = Some (w0 :: w)).
    { intros D. destruct (interpAll_total vt vp (slice a b nt) vt_two vt_incr) as (w & Ew).
      - intros t Ht. apply (In_nth _ _ 0) in Ht. destruct Ht as (p & Hp & <-). rewrite slice_len in Hp by lia.
        rewrite slice_nth by lia. rewrite vt_first, vt_last. split.
        + eapply Qle_trans; [exact A2|apply M; lia].
        + eapply Qle_trans; [|exact B2]. apply M. lia.
      - pose proof (proj1 (interpAll_some _ _ _ _ Ew)) as LW. rewrite slice_len in LW by lia.
        destruct w as [|w0 w]; [cbn in LW; lia|]. exists w0, w. exact Ew. }
    rewrite EV. destruct v as [|v1 v]; [congruence|]. rewrite (proj2 (Nat.leb_gt _ _)) by lia. rewrite ?Ea', ?Eb'.
    destruct (a =? b)%nat eqn:AB; [eexists; reflexivity|]. apply Nat.eqb_neq in AB.
    destruct (W AB) as (w0 & w & ->). eexists; reflexivity.
  Qed.
End Pressure.

(** ** Speeds *)
Section Speed.
  Variable dist : Q * Q -> Q * Q -> Q.
  Lemma legs_len ps : length (legs dist ps) = (length ps - 1)%nat.
  Proof.
    induction ps as [|a ps IH]; [reflexivity|]. destruct ps as [|b ps]; [reflexivity|].
    change (legs dist (a :: b :: ps)) with (dist a b :: legs dist (b :: ps)). cbn [length] in *. lia.
  Qed.
  Lemma legs_nth ps d k : (S k < length ps)%nat -> nth k (legs dist ps) 0 = dist (nth k ps d) (nth (S k) ps d).
  Proof.
    revert k. induction ps as [|a ps IH]; intros k H; [cbn in H; lia|]. destruct ps as [|b ps]; [cbn in H; lia|].
    destruct k as [|k]; [reflexivity|]. change (legs dist (a :: b :: ps)) with (dist a b :: legs dist (b :: ps)).
    change (nth (S k) (dist a b :: legs dist (b :: ps)) 0) with (nth k (legs dist (b :: ps)) 0).
    rewrite IH by (cbn in *; lia). reflexivity.
  Qed.
  Lemma speeds_nth delta ps d k : (S k < length ps)%nat ->
    nth k (speeds dist delta ps) 0 = dist (nth k ps d) (nth (S k) ps d) / delta.
  Proof.
    intros H. unfold speeds. rewrite (nth_map_lt _ _ k 0 0) by (rewrite app_length, legs_len; lia).
    rewrite app_nth1 by (rewrite legs_len; lia). now rewrite (legs_nth _ d).
  Qed.
  Lemma speeds_last delta ps : (2 <= length ps)%nat ->
    nth (length ps - 1) (speeds dist delta ps) 0 = nth (length ps - 2) (speeds dist delta ps) 0.
  Proof.
    intros H. unfold speeds. rewrite !(nth_map_lt _ _ _ 0 0) by (rewrite app_length, legs_len; cbn; lia).
    rewrite app_nth2 by (rewrite legs_len; lia). rewrite app_nth1 by (rewrite legs_len; lia). rewrite legs_len, Nat.sub_diag. cbn [nth].
    rewrite last_nth, legs_len. do 2 f_equal. lia.
  Qed.
End Speed.
Lemma nth_combine (a b : list Q) k : length a = length b -> nth k (combine a b) (0, 0) = (nth k a 0, nth k b 0).
Proof. apply combine_nth. Qed.
