From Coq Require Import List Arith ZArith Lia Bool QArith Qabs Qround Lqa Qfield Permutation.
From Verif Require Import CellModel CellProofs SampModel SampProofs GenProofs NumModel NumProofs LmomModel LmomProofs LmomProofs2 FitModel FitProofs.
Import ListNotations.
Open Scope Q_scope.

Definition positives (l : list Q) : list Q := filter (fun v => qlt 0 v) l.

Lemma filter_ext_in' {A} (f g : A -> bool) l : (forall a, In a l -> f a = g a) -> filter f l = filter g l.
Proof.
  induction l as [|a l IH]; intros H; cbn [filter]; [reflexivity|].
  rewrite (H a) by now left. rewrite IH by (intros; apply H; now right). reflexivity.
Qed.
Lemma nz_positives l : nonneg l -> filter (fun v => negb (Qeq_bool v 0)) l = positives l.
Proof.
  intros H. apply filter_ext_in'. intros a Ha. specialize (H a Ha).
  destruct (Qeq_bool a 0) eqn:E; cbn [negb].
  - apply Qeq_bool_eq in E. symmetry. apply qlt_false_iff. lra.
  - apply Qeq_bool_neq in E. symmetry. apply qlt_iff. lra.
Qed.

Section G.
  Variable pelgev : Q * Q * Q -> option (Q * Q * Q).
  Variable level : Q * Q * Q -> Q -> option Q.

  Definition allMissing (nodata : Q) (intervals : list Q) : fres :=
    FOk (map (fun _ => Some nodata) intervals) nodata nodata nodata.

  Lemma levels_missing nodata intervals : nodata <= 0 ->
    gevLevels level (nodata, nodata, nodata) nodata intervals = map (fun _ => Some nodata) intervals.
  Proof.
    intros H. unfold gevLevels. apply map_ext. intros t. cbn [snd].
    now rewrite (proj2 (Qle_bool_iff nodata 0) H).
  Qed.

  Lemma pos_max x r : (exists v, In v (x :: r) /\ 0 < v) <-> qlt 0 (amax x r) = true.
  Proof.
    destruct (amax_spec r x) as (A & B & C). rewrite qlt_iff. split.
    - intros (v & [<-|Hv] & Hp); [lra|]. specialize (B v Hv). lra.
    - intros H. destruct C as [C|(y & Hy & C)].
      + exists x. split; [now left|lra].
      + exists y. split; [now right|lra].
  Qed.

  Lemma minmax_eq y s : Qeq_bool (amin y s) (amax y s) = true <-> (forall a b, In a (y :: s) -> In b (y :: s) -> a == b).
  Proof.
    destruct (amax_spec s y) as (A & B & C). destruct (amin_spec s y) as (A' & B' & C'). rewrite Qeq_bool_iff. split.
    - intros E a b Ha Hb.
      assert (R : forall c, In c (y :: s) -> amin y s <= c <= amax y s).
      { intros c [<-|Hc]; [lra|]. split; [apply B'|apply B]; exact Hc. }
      pose proof (R a Ha). pose proof (R b Hb). lra.
    - intros H. destruct C as [C|(u & Hu & C)], C' as [C'|(v & Hv & C')].
      + lra.
      + rewrite C, C'. apply H; [now right|now left].
      + rewrite C, C'. apply H; [now left|now right].
      + rewrite C, C'. apply H; now right.
  Qed.

  (** Too few positive records or all of them equal: everything is missing. *)
  Lemma gev_rejected data intervals nodata minrecords : data <> [] -> nonneg data -> nodata <= 0 ->
    ((Z.of_nat (length (positives data)) < minrecords)%Z \/
     (forall a b, In a (positives data) -> In b (positives data) -> a == b)) ->
    gevfit pelgev level data intervals nodata minrecords = allMissing nodata intervals.
  Proof.
    intros Hne Hnn Hnd H.
    assert (P : gevParams pelgev data nodata minrecords = Some (nodata, nodata, nodata)).
    { unfold gevParams. destruct data as [|x r] eqn:D; [congruence|]. rewrite <- D in *.
      destruct (qlt 0 (amax x r)) eqn:Q; [|reflexivity]. rewrite nz_positives by exact Hnn.
      destruct (positives data) as [|y s] eqn:PE.
      - exfalso. apply pos_max in Q as (v & Hv & Hp). rewrite <- D in Hv.
        assert (In v (positives data)) by (apply filter_In; split; [exact Hv|now apply qlt_iff]).
        rewrite PE in H0. destruct H0.
      - destruct (Qeq_bool (amin y s) (amax y s)) eqn:M; cbn [negb]; [reflexivity|].
        destruct H as [H|H].
        + destruct (Z.leb_spec minrecords (Z.of_nat (length (y :: s)))); [lia|reflexivity].
        + exfalso. rewrite (proj2 (minmax_eq y s) H) in M. discriminate. }
    unfold gevfit. rewrite P. unfold allMissing. now rewrite levels_missing.
  Qed.

  (** Otherwise the L-moments of the sorted column decide. *)
  Lemma gev_fitted data intervals nodata minrecords a b : (3 <= length data)%nat -> asc data -> nonneg data -> nodata <= 0 ->
    (minrecords <= Z.of_nat (length (positives data)))%Z ->
    In a (positives data) -> In b (positives data) -> a < b ->
    exists l1 l2 t3, samlmu3 data = LOk (l1, l2, Some t3) /\ 0 < l2 /\ -(1) <= t3 <= 1 /\
      gevfit pelgev level data intervals nodata minrecords =
        if Qle_bool 1 (Qabs t3) then allMissing nodata intervals
        else match pelgev (l1, l2, t3) with
             | None => allMissing nodata intervals
             | Some (loc, scale, shp) =>
                 FOk (map (fun t => if Qle_bool shp 0 then Some nodata
                                    else match level (loc, scale, shp) t with Some v => Some v | None => Some nodata end) intervals)
                     loc scale shp
             end.
  Proof.
    intros H3 Ha Hnn Hnd Hm Pa Pb Hab.
    destruct (sorted_facts data H3) as (l1 & l2 & t & E & L & Z & T & B).
    { intros i Hi. apply asc_nth; [exact Ha|lia]. }
    assert (N0 : ~ l2 == 0).
    { intros C. rewrite Z in C. apply filter_In in Pa as [Pa _]. apply filter_In in Pb as [Pb _].
      apply (In_nth _ _ 0) in Pa as (i & Hi & Ei). apply (In_nth _ _ 0) in Pb as (j & Hj & Ej).
      pose proof (C i Hi) as Ci. pose proof (C j Hj) as Cj. rewrite Ei in Ci. rewrite Ej in Cj. lra. }
    destruct t as [t3|]; [|exfalso; apply N0, T; reflexivity].
    exists l1, l2, t3. split; [exact E|]. split; [lra|]. split; [now apply B|].
    unfold gevfit, gevParams. destruct data as [|x r] eqn:D; [cbn in H3; lia|]. rewrite <- D in *.
    assert (Q : qlt 0 (amax x r) = true).
    { apply pos_max. exists a. apply filter_In in Pa as [Pa Pa']. rewrite <- D. split; [exact Pa|now apply qlt_iff]. }
    rewrite Q, nz_positives by exact Hnn.
    destruct (positives data) as [|y s] eqn:PE; [destruct Pa|].
    destruct (Qeq_bool (amin y s) (amax y s)) eqn:M; cbn [negb].
    { exfalso. pose proof (proj1 (minmax_eq y s) M a b Pa Pb). lra. }
    destruct (Z.leb_spec minrecords (Z.of_nat (length (y :: s)))); [|lia].
    rewrite E. destruct (Qle_bool l2 0) eqn:LE; [apply Qle_bool_iff in LE; lra|].
    destruct (Qle_bool 1 (Qabs t3)) eqn:TE.
    { unfold allMissing. now rewrite levels_missing. }
    destruct (pelgev (l1, l2, t3)) as [[[loc scale] shp]|]; [reflexivity|].
    unfold allMissing. now rewrite levels_missing.
  Qed.

  (** A cell without a single positive record keeps zeros. *)
  Lemma cell_zero column intervals nodata minrecords : column <> [] -> (forall v, In v column -> v <= 0) ->
    gevCell pelgev level column intervals nodata minrecords = FOk (map (fun _ => Some 0) intervals) 0 0 0.
  Proof.
    intros N H. unfold gevCell. destruct (sortq column) as [|x r] eqn:E.
    - exfalso. pose proof (Permutation_length (sortq_perm column)) as L. rewrite E in L.
      destruct column; [congruence|discriminate].
    - destruct (qlt 0 (amax x r)) eqn:Q; [|reflexivity]. exfalso.
      apply pos_max in Q as (v & Hv & Hp). rewrite <- E in Hv.
      apply (Permutation_in _ (sortq_perm column)) in Hv. specialize (H v Hv). lra.
  Qed.
  Lemma cell_wind column intervals nodata minrecords v : In v column -> 0 < v ->
    gevCell pelgev level column intervals nodata minrecords = gevfit pelgev level (sortq column) intervals nodata minrecords.
  Proof.
    intros Hv Hp. unfold gevCell. destruct (sortq column) as [|x r] eqn:E.
    - exfalso. apply (Permutation_in _ (Permutation_sym (sortq_perm column))) in Hv. rewrite E in Hv. destruct Hv.
    - rewrite (proj1 (pos_max x r)); [reflexivity|]. exists v. split; [|exact Hp]. rewrite <- E.
      apply (Permutation_in _ (Permutation_sym (sortq_perm column))), Hv.
  Qed.
End G.

Section P.
  Variable percentile : list Q -> Q.
  Variable genpareto : list Q -> Q -> option (Q * Q * Q).
  Variable level : Q -> Q -> Q -> Q -> Q -> option Q.

  Lemma gpd_cases data intervals numsim nodata minrecords :
    ((Z.of_nat (length data) < minrecords)%Z ->
       gpdfit percentile genpareto level data intervals numsim nodata minrecords = allMissing nodata intervals) /\
    ((minrecords <= Z.of_nat (length data))%Z -> data <> [] ->
       (Z.of_nat (length data) <= Qfloor (inject_Z numsim * 365.25))%Z ->
       let days := Z.to_nat (Qfloor (inject_Z numsim * 365.25)) in
       let filled := (repeat 0 (days - length data) ++ data)%list in
       let exceed := filter (fun v => qlt (percentile data) v) filled in
       gpdfit percentile genpareto level data intervals numsim nodata minrecords =
         match genpareto exceed (percentile data) with
         | None => allMissing nodata intervals
         | Some (shape, location, scale) =>
             if qlt 0 shape then allMissing nodata intervals
             else FOk (map (fun t => level t (percentile data) shape scale (qn (length exceed) / qn days)) intervals)
                      location scale shape
         end).
  Proof.
    unfold gpdfit. split.
    - intros H. destruct (Z.ltb_spec (Z.of_nat (length data)) minrecords); [reflexivity|lia].
    - intros H N D. cbv zeta. destruct (Z.ltb_spec (Z.of_nat (length data)) minrecords); [lia|].
      destruct (Nat.ltb_spec (Z.to_nat (Qfloor (inject_Z numsim * 365.25))) (length data)); [lia|].
      destruct (Nat.eqb_spec (length data) 0); [destruct data; [congruence|discriminate]|]. cbn [orb].
      rewrite app_length, repeat_length.
      replace (Z.to_nat (Qfloor (inject_Z numsim * 365.25)) - length data + length data)%nat
        with (Z.to_nat (Qfloor (inject_Z numsim * 365.25))) by lia.
      reflexivity.
  Qed.
End P.

(** ** Bootstrap blocks *)
Lemma skipn_seq k a m : skipn k (seq a m) = seq (a + k) (m - k).
Proof.
  revert a m. induction k as [|k IH]; intros a m; [rewrite Nat.add_0_r, Nat.sub_0_r; reflexivity|].
  destruct m as [|m]; [reflexivity|]. cbn [seq skipn]. rewrite IH. f_equal; lia.
Qed.
Lemma firstn_seq k a m : firstn k (seq a m) = seq a (Nat.min k m).
Proof.
  revert a m. induction k as [|k IH]; intros a m; [reflexivity|].
  destruct m as [|m]; [reflexivity|]. cbn [seq firstn Nat.min]. now rewrite IH.
Qed.
Lemma div_bound N s n : (1 <= s)%nat -> (n < N / s)%nat -> ((n + 1) * s <= N)%nat.
Proof.
  intros Hs H. pose proof (Nat.div_mod N s ltac:(lia)) as D.
  assert ((n + 1) * s <= (N / s) * s)%nat by (apply Nat.mul_le_mono_r; lia). nia.
Qed.

(** The [n]-th block of the record positions. *)
Lemma blocks_seq N s n : (1 <= s)%nat -> (n < N / s)%nat ->
  nth n (ciBlocks (seq 0 N) s) [] = seq (n * s) (s - 1).
Proof.
  intros Hs H. unfold ciBlocks. rewrite seq_length.
  set (f := fun n => _). rewrite (nth_indep _ [] (f 0%nat)) by (rewrite map_length, seq_length; exact H).
  rewrite map_nth, seq_nth by exact H. unfold f, slice. rewrite skipn_seq, firstn_seq. cbn [Nat.add].
  pose proof (div_bound N s n Hs H). f_equal. nia.
Qed.
Lemma blocks_count {A} (l : list A) s : length (ciBlocks l s) = (length l / s)%nat.
Proof. unfold ciBlocks. now rewrite map_length, seq_length. Qed.
Lemma block_length {A} (l : list A) s b : (1 <= s)%nat -> In b (ciBlocks l s) -> length b = (s - 1)%nat.
Proof.
  intros Hs H. unfold ciBlocks in H. apply in_map_iff in H as (n & <- & Hn). apply in_seq in Hn.
  pose proof (div_bound (length l) s n Hs ltac:(lia)). unfold slice. rewrite firstn_length, skipn_length. nia.
Qed.
Lemma blocks_members N s k : (1 <= s)%nat ->
  (exists b, In b (ciBlocks (seq 0 N) s) /\ In k b) <-> (k / s < N / s)%nat /\ (k mod s <> s - 1)%nat.
Proof.
  intros Hs. split.
  - intros (b & Hb & Hk). apply (In_nth _ _ []) in Hb as (n & Hn & <-). rewrite blocks_count, seq_length in Hn.
    rewrite blocks_seq in Hk by auto. apply in_seq in Hk.
    assert (k = s * n + (k - n * s))%nat by nia.
    assert (k / s = n)%nat by (symmetry; apply (Nat.div_unique k s n (k - n * s)); lia).
    assert (k mod s = k - n * s)%nat by (symmetry; apply (Nat.mod_unique k s n (k - n * s)); lia).
    split; [lia|lia].
  - intros (H1 & H2). exists (nth (k / s) (ciBlocks (seq 0 N) s) []). split.
    + apply nth_In. rewrite blocks_count, seq_length. exact H1.
    + rewrite blocks_seq by auto. apply in_seq.
      pose proof (Nat.div_mod k s ltac:(lia)). pose proof (Nat.mod_upper_bound k s ltac:(lia)). nia.
Qed.
