(** C168, C169: the files of observations that the statistics are made of. *)
From Coq Require Import List Arith ZArith QArith Qabs Bool Lia Lqa.
From Verif Require Import CellModel CellProofs GenModel GenProofs LoadModel LoadProofs LoadProofs3 ProcModel.
Import ListNotations.
Local Open Scope Q_scope.

(** * Masks *)
Definition m0 {R} (t : list R) : list bool :=
  match t with [] => [false] | [_] => [false] | _ :: r => true :: repeat false (length r) end.
Lemma index_zeros : forall n g rest, initIndex (repeat 0%Z n ++ g :: rest) = repeat false n ++ initIndex (g :: rest).
Proof.
  induction n as [| n IH]; intros g rest; [reflexivity |].
  specialize (IH g rest). cbn [repeat app]. destruct n as [| n]; cbn [repeat app initIndex] in *; [reflexivity |].
  rewrite IH. reflexivity.
Qed.
Lemma index_zeros_end : forall n, initIndex (repeat 0%Z n) = repeat false n.
Proof.
  induction n as [| n IH]; [reflexivity |]. destruct n as [| n]; [reflexivity |].
  cbn [repeat initIndex] in *. rewrite IH. reflexivity.
Qed.
Lemma index_mask {R} (ts : list (list R)) : initIndex (flat_map stretch ts) = flat_map m0 ts.
Proof.
  induction ts as [| t ts IH]; [reflexivity |]. cbn [flat_map].
  destruct ts as [| u us].
  - cbn [flat_map]. rewrite !app_nil_r. destruct t as [| a [| b r]]; try reflexivity.
    unfold stretch, m0. cbn [length Nat.sub repeat]. 
    change (initIndex (1%Z :: 0%Z :: repeat 0%Z (length r))) with (true :: initIndex (repeat 0%Z (S (length r)))).
    rewrite index_zeros_end. reflexivity.
  - cbn [flat_map] in *. unfold stretch at 2. unfold stretch at 1 in IH. cbn [app] in *.
    destruct t as [| a [| b r]].
    + cbn [stretch length Nat.sub repeat app initIndex m0]. rewrite <- IH. reflexivity.
    + cbn [stretch length Nat.sub repeat app initIndex m0]. rewrite <- IH. reflexivity.
    + unfold stretch, m0. cbn [length Nat.sub repeat app].
      match goal with |- initIndex (1%Z :: 0%Z :: ?x) = _ =>
        change (initIndex (1%Z :: 0%Z :: x)) with (true :: initIndex (0%Z :: x)) end.
      cbn [app]. f_equal. etransitivity; [apply (index_zeros (S (length r))) |]. exact (f_equal (app (repeat false (S (length r)))) IH).
Qed.
Lemma compress_map {A B} (f : A -> B) (m : list bool) : forall l, compress m (map f l) = map f (compress m l).
Proof.
  unfold compress. induction m as [| b m IH]; intros [| x l]; cbn; auto. destruct b; cbn; now rewrite IH.
Qed.

(** * Writing and reading *)
Definition wr (r : row) : row := (round2 (fst (fst r)), round2 (snd (fst r)), round2 (snd r)).
Lemma paired_some : forall (l : list (row * Q)) (f : row -> row) (g : Q -> Q), (2 <= length l)%nat ->
  paired (map f (map fst l)) (map g (map snd l)) = Some (map (fun p => (f (fst p), g (snd p))) l).
Proof.
  intros l f g H. destruct l as [| a [| b l]]; cbn in H; try lia.
  unfold paired. cbn [map loadColumn loadRows len length]. destruct (f (fst a)) as [[x y] z] eqn:E.
  cbn [len length]. rewrite !map_length, Nat.eqb_refl. cbn [combine]. rewrite <- E. f_equal. f_equal. f_equal.
  clear H E. induction l as [| c l IH]; [reflexivity |]. cbn [map combine]. f_equal. apply IH.
Qed.

(** Records of a cyclone: its row and the value of some quantity. *)
Definition firstOf (t : list (row * Q)) : list (row * Q) := firstn 1 t.
(** The first position with the value of the second record. *)
Definition secondOf (t : list (row * Q)) : list (row * Q) :=
  match t with a :: b :: _ => [(fst a, snd b)] | _ => [] end.

Lemma second_split : forall ts : list (list (row * Q)), Forall (fun t => t <> []) ts ->
  map fst (flat_map secondOf ts) = map fst (compress (flat_map m0 ts) (concat ts)) /\
  map snd (flat_map secondOf ts) = map snd (compress (flat_map m2 ts) (concat ts)).
Proof.
  induction ts as [| t ts IH]; intros F; [split; reflexivity |]. inversion F as [| ? ? Ht F']; subst.
  destruct (IH F') as [I1 I2]. cbn [flat_map concat]. rewrite !compress_app, !map_app, I1, I2.
  - split; f_equal; destruct t as [| a [| b r]]; try congruence; cbn; try reflexivity.
    + unfold compress. cbn. f_equal. symmetry. change (map fst (compress (repeat false (S (length r))) (b :: r)) = []).
      now rewrite compress_false.
    + unfold compress. cbn. f_equal. symmetry. change (map snd (compress (repeat false (length r)) r) = []).
      now rewrite compress_false.
  - destruct t as [| a [| b r]]; cbn; try congruence; auto. now rewrite repeat_length.
  - destruct t as [| a [| b r]]; cbn; try congruence; auto. now rewrite repeat_length.
Qed.

Lemma first_len : forall ts : list (list (row * Q)), Forall (fun t => t <> []) ts -> length (flat_map firstOf ts) = length ts.
Proof.
  induction 1 as [| t ts Ht N IH]; [reflexivity |]. destruct t as [| a t]; [congruence |].
  change (S (length (flat_map firstOf ts)) = S (length ts)). now rewrite IH.
Qed.

(** C168: the values reach the statistics with the position they belong to.
    [fl]: the flags of first records; [v]: pressures, radii or days (first two), bearings or speeds (third). *)
Theorem c168_paired : forall mask fl pts v (g : Q -> Q),
  length fl = length pts -> length fl = length v -> binary fl -> nth 0 fl 0%Z = 1%Z ->
  exists ts, tracksOf fl (combine (positions mask pts) v) = Some ts /\
    ((2 <= length v)%nat ->
       paired (writtenRows (positions mask pts)) (map g v)
       = Some (map (fun p => (wr (fst p), g (snd p))) (concat ts))) /\
    ((2 <= length ts)%nat ->
       paired (writtenRows (originRows mask fl pts)) (map g (initOnly fl v))
       = Some (map (fun p => (wr (fst p), g (snd p))) (flat_map firstOf ts))) /\
    ((2 <= length (flat_map secondOf ts))%nat ->
       paired (writtenRows (initRows mask fl pts)) (map g (initValues fl v))
       = Some (map (fun p => (wr (fst p), g (snd p))) (flat_map secondOf ts))).
Proof.
  intros mask fl pts v g H1 H2 Hb H0.
  assert (Lp : length (positions mask pts) = length v) by (unfold positions; rewrite map_length; lia).
  set (recs := combine (positions mask pts) v).
  assert (F : map fst recs = positions mask pts /\ map snd recs = v).
  { unfold recs. clear - Lp. revert v Lp. induction (positions mask pts) as [| r l IH]; intros [| x v] L; cbn in L; try lia; auto.
    injection L as L. destruct (IH v L) as [A B]. cbn [combine map fst snd]. now rewrite A, B. }
  destruct F as [F1 F2].
  assert (Lr : length fl = length recs) by (unfold recs; rewrite combine_length; lia).
  destruct (tracks_partition fl recs Lr Hb H0) as [ts [T [C [N E]]]].
  exists ts. split; [exact T |]. unfold writtenRows, originRows, initRows, initOnly, initValues.
  rewrite <- F1, <- F2. rewrite !compress_map. split; [| split].
  - intros L. rewrite C. apply paired_some. rewrite map_length in L. exact L.
  - intros L. rewrite E, <- C, origin_mask.
    assert (A : compress (flat_map m1 ts) (concat ts) = flat_map firstOf ts).
    { apply compress_ts; auto. intros [| a t] Hne; [congruence |]. split.
      - unfold m1. cbn. now rewrite repeat_length, Nat.sub_0_r.
      - unfold m1. cbn. unfold compress. cbn. f_equal. apply compress_false. }
    rewrite A. apply paired_some.
    rewrite first_len by exact N. exact L.
  - intros L. destruct (second_split ts N) as [S1 S2].
    rewrite E, <- C, index_mask, init_mask. rewrite <- S1, <- S2. apply paired_some. exact L.
Qed.
Print Assumptions c168_paired.

(** Rounding to two decimals. *)
Lemma round2_near : forall x, - (1 # 200) <= round2 x - x <= 1 # 200.
Proof.
  intros x. pose proof (rint_half (x * 100)) as H. unfold round2.
  set (k := inject_Z (rint (x * 100))) in *.
  assert (E : k / 100 - x == (k - x * 100) * (1 # 100)) by field.
  rewrite E. lra.
Qed.
Lemma round2_exact : forall x k, x == inject_Z k / 100 -> round2 x == x.
Proof.
  intros x k E. unfold round2. assert (E' : x * 100 == inject_Z k) by (rewrite E; field).
  rewrite (rint_proper _ _ E'), rint_int. rewrite E. reflexivity.
Qed.
Lemma qlt_ext : forall a b c d, a == c -> b == d -> qlt a b = qlt c d.
Proof. intros a b c d E F. unfold qlt. f_equal. apply eq_true_iff_eq. rewrite !Qle_bool_iff, E, F. reflexivity. Qed.
Lemma qle_ext : forall a b c d, a == c -> b == d -> Qle_bool a b = Qle_bool c d.
Proof. intros a b c d E F. apply eq_true_iff_eq. rewrite !Qle_bool_iff, E, F. reflexivity. Qed.
Definition hundredths (x : Q) : Prop := exists k, x == inject_Z k / 100.
Lemma inRect_wr : forall w e s n r, hundredths (fst (fst r)) -> hundredths (snd (fst r)) -> inRect w e s n (wr r) = inRect w e s n r.
Proof.
  intros w e s n [[a b] c] [k K] [j J]. unfold inRect, wr. cbn [fst snd] in *.
  apply round2_exact in K, J.
  rewrite (qle_ext s _ s _ (Qeq_refl _) J), (qlt_ext _ n _ n J (Qeq_refl _)), (qle_ext w _ w _ (Qeq_refl _) K), (qlt_ext _ e _ e K (Qeq_refl _)).
  reflexivity.
Qed.
(** Missing values are recognised after writing and reading, and others are not taken for missing. *)
Lemma missing_exact : forall x, x == maxsize -> round2 x == maxsize.
Proof.
  intros x E. rewrite <- E. apply (round2_exact x (9223372036854775807 * 100)%Z). rewrite E. reflexivity.
Qed.
Lemma removeMissing_written : forall v, (forall x, In x v -> x == maxsize \/ x <= 1000000) ->
  removeMissing (written v) = written (filter (fun x => qlt x maxsize) v).
Proof.
  induction v as [| x v IH]; intros H; [reflexivity |].
  unfold removeMissing, written in *. cbn [map filter].
  assert (I := IH (fun y Hy => H y (or_intror Hy))).
  destruct (H x (or_introl eq_refl)) as [E | L].
  - assert (A : Qeq_bool (round2 x) maxsize = true) by (apply Qeq_bool_iff, missing_exact, E).
    assert (B : qlt x maxsize = false) by (apply qlt_false_iff; rewrite E; apply Qle_refl).
    rewrite A, B. cbn [negb]. exact I.
  - pose proof (round2_near x) as N.
    assert (M : (1000000 + 1 < maxsize)%Q) by reflexivity.
    assert (A : Qeq_bool (round2 x) maxsize = false).
    { apply not_true_iff_false. rewrite Qeq_bool_iff. intros E. lra. }
    assert (B : qlt (round2 x) maxsize = true) by (apply qlt_iff; lra).
    assert (B' : qlt x maxsize = true) by (apply qlt_iff; lra).
    rewrite A, B'. cbn [negb filter map]. rewrite B. f_equal. exact I.
Qed.
(** C168: with positions of at most two decimals, the sample of a cell is made of the values, to two decimals and without
    the missing ones, of exactly the records in the cell. *)
Theorem c168_sample : forall w e s n (l : list (row * Q)),
  (forall r x, In (r, x) l -> hundredths (fst (fst r)) /\ hundredths (snd (fst r)) /\ (x == maxsize \/ x <= 1000000)) ->
  sample w e s n (map (fun p => (wr (fst p), round2 (snd p))) l)
  = map round2 (filter (fun x => qlt x maxsize) (map snd (filter (fun p => inRect w e s n (fst p)) l))).
Proof.
  intros w e s n l H. unfold sample.
  assert (A : map snd (filter (fun p => inRect w e s n (fst p)) (map (fun p => (wr (fst p), round2 (snd p))) l))
    = written (map snd (filter (fun p => inRect w e s n (fst p)) l))).
  { induction l as [| [r x] l IH]; [reflexivity |]. cbn [map filter fst snd].
    destruct (H r x (or_introl eq_refl)) as [H1 [H2 _]]. rewrite inRect_wr by auto.
    assert (I := IH (fun r' x' Hx => H r' x' (or_intror Hx))).
    destruct (inRect w e s n r); [| exact I]. cbn [map snd written]. f_equal. exact I. }
  rewrite A. apply removeMissing_written. intros x Hx. apply in_map_iff in Hx. destruct Hx as [[r y] [E Hy]]. cbn in E. subst y.
  apply filter_In in Hy. destruct (H r x (proj1 Hy)) as [_ [_ Q]]. exact Q.
Qed.
Print Assumptions c168_sample.

(** The land flag. *)
Theorem c168_land : forall mask pts i p, nth_error pts i = Some p ->
  exists f, nth_error (positions mask pts) i = Some (p, f) /\ (f = 1 <-> 0 < mask (fst p) (snd p)) /\ (f = 1 \/ f = 0).
Proof.
  intros mask pts i p H. exists (lsflag mask p). unfold positions. rewrite nth_error_map, H. cbn. split; [auto |].
  unfold lsflag. destruct (qlt 0 _) eqn:E.
  - apply qlt_iff in E. tauto.
  - apply qlt_false_iff in E. split; [| auto]. split; [discriminate | intros L; lra].
Qed.
Print Assumptions c168_land.

(** Values of first records, and of others unless missing. *)
Theorem c168_no_init : forall fl v, length fl = length v -> forall x,
  In x (withoutInit fl v) <-> exists i, nth_error v i = Some x /\ nth_error fl i = Some 0%Z /\ x < maxsize.
Proof.
  intros fl v L x. unfold withoutInit. rewrite filter_In, qlt_iff. unfold compress. rewrite in_map_iff. split.
  - intros [[[b y] [E H]] M]. cbn in E. subst y. apply filter_In in H. destruct H as [H T]. cbn in T. subst b.
    apply In_nth_error in H. destruct H as [i Hi]. exists i.
    revert v L i Hi. induction fl as [| f fl IH]; intros [| y v] L i Hi; cbn in L; try lia; [destruct i; discriminate |].
    destruct i as [| i]; cbn [map combine nth_error] in *.
    + injection Hi as Hf ->. apply Z.eqb_eq in Hf. subst. auto.
    + apply IH; auto.
  - intros [i [Hv [Hf M]]]. split; [| auto]. exists (true, x). split; [auto |]. apply filter_In. split; [| auto].
    revert v L i Hv Hf. induction fl as [| f fl IH]; intros [| y v] L i Hv Hf; cbn in L; try lia; [destruct i; discriminate |].
    destruct i as [| i]; cbn [map combine nth_error] in *.
    + injection Hv as ->. injection Hf as ->. left. reflexivity.
    + right. apply (IH v ltac:(lia) i); auto.
Qed.
Print Assumptions c168_no_init.

(** Rates of change of the speed. *)
Lemma optDiffs_len : forall l p, length (optDiffs p l) = length l.
Proof. induction l; intros; cbn; auto. Qed.
Lemma optDiffs_nth : forall l p i, (i < length l)%nat -> nth i (optDiffs p l) None = optDiff (nth i (p :: l) None) (nth i l None).
Proof.
  induction l as [| a l IH]; intros p i H; cbn in H; [lia |]. destruct i as [| i]; [reflexivity |].
  cbn [optDiffs]. change (nth (S i) (optDiff p a :: optDiffs a l) None) with (nth i (optDiffs a l) None).
  rewrite IH by lia. reflexivity.
Qed.
Theorem c168_speed_rate : forall junk dist dt fl i, length dist = length fl -> length dt = length fl -> (S i < length fl)%nat ->
  let r := nth (S i) (speedRate junk dist dt fl) 0 in
  let speed k := nth k dist 0 / nth k dt 0 in
  let bad k := nth k fl 0%Z <> 0%Z \/ nth k dt 0 == 0 \/ speed k < 0 \/ 200 < speed k in
  (bad i \/ bad (S i) -> r = maxsize) /\
  (~ bad i -> ~ bad (S i) -> 1 # 1000 <= nth (S i) dt 0 -> r == (speed (S i) - speed i) / nth (S i) dt 0).
Proof.
  intros junk dist dt fl i Ld Lt Hi.
  set (sp := map2 rate dist dt). set (ch := match sp with [] => [] | a :: q => junk :: optDiffs a q end).
  set (fg := map2 (fun f b => if (b : bool) then 1%Z else f) fl (map2 badSpeed dist dt)).
  assert (Ls : length sp = length fl) by (unfold sp; rewrite map2_len; lia).
  assert (Lc : length ch = length fl).
  { rewrite <- Ls. unfold ch. destruct sp; cbn; auto. now rewrite optDiffs_len. }
  assert (Lb : length (map2 badSpeed dist dt) = length fl) by (rewrite map2_len; lia).
  assert (Lf : length fg = length fl) by (unfold fg; rewrite map2_len; lia).
  assert (Nf : forall k, (k < length fl)%nat -> nth k fg 0%Z = if badSpeed (nth k dist 0) (nth k dt 0) then 1%Z else nth k fl 0%Z).
  { intros k Hk. unfold fg. rewrite (map2_nth _ 0%Z false) by lia. rewrite (map2_nth badSpeed 0 0) by lia. reflexivity. }
  assert (Ns : forall k, (k < length fl)%nat -> nth k sp None = rate (nth k dist 0) (nth k dt 0)).
  { intros k Hk. unfold sp. rewrite (map2_nth rate 0 0) by lia. reflexivity. }
  assert (Nc : nth (S i) ch None = optDiff (nth i sp None) (nth (S i) sp None)).
  { unfold ch. rewrite <- Ls in Hi. destruct sp as [| a q]; cbn [length] in Hi; [lia |].
    change (nth (S i) (junk :: optDiffs a q) None) with (nth i (optDiffs a q) None).
    rewrite optDiffs_nth by lia. reflexivity. }
  assert (R : nth (S i) (speedRate junk dist dt fl) 0 =
    settle (mask (nz (nth i fg 0%Z)) (mask (nz (nth (S i) fg 0%Z)) (optRate (nth (S i) ch None) (nth (S i) dt 0))))).
  { unfold speedRate. fold sp. fold ch. fold fg.
    assert (L2 : length (map2 optRate ch dt) = length fl) by (rewrite map2_len; lia).
    assert (L1 : length (map2 (fun f x => mask (nz f) x) fg (map2 optRate ch dt)) = length fl) by (rewrite map2_len; lia).
    rewrite (map_nth' settle None) by (rewrite map2_len; rewrite shifted_len; lia).
    rewrite (map2_nth _ 0%Z None) by (rewrite ?shifted_len; lia).
    rewrite shifted_nth by lia. rewrite (map2_nth _ 0%Z None) by lia.
    rewrite (map2_nth optRate None 0) by lia. reflexivity. }
  cbv zeta. rewrite R, Nc, !Ns by lia. rewrite !Nf by lia. clear R Nc Ns Nf.
  set (d0 := nth i dist 0). set (d1 := nth (S i) dist 0). set (t0 := nth i dt 0). set (t1 := nth (S i) dt 0).
  set (f0 := nth i fl 0%Z). set (f1 := nth (S i) fl 0%Z). clearbody d0 d1 t0 t1 f0 f1. clear.
  assert (B : forall d t, badSpeed d t = true <-> (t == 0 /\ ~ d == 0) \/ (~ t == 0 /\ (d / t < 0 \/ 200 < d / t))).
  { intros d t. unfold badSpeed, rate. destruct (Qeq_bool t 0) eqn:E.
    - apply Qeq_bool_iff in E. rewrite negb_true_iff, <- not_true_iff_false, Qeq_bool_iff. tauto.
    - assert (E' : ~ t == 0) by (rewrite <- Qeq_bool_iff; congruence). rewrite orb_true_iff, !qlt_iff. tauto. }
  split.
  - intros H.
    assert (M : forall f, f <> 0%Z -> nz f = true).
    { intros f Hf. unfold nz. rewrite negb_true_iff. apply Z.eqb_neq, Hf. }
    assert (K : forall f d t x, (f <> 0%Z \/ t == 0 \/ d / t < 0 \/ 200 < d / t) ->
      nz (if badSpeed d t then 1%Z else f) = true \/ (rate d t = None /\ x = x :> bool)).
    { intros f d t x [Hf | [Ht | Hs]].
      - left. destruct (badSpeed d t); auto.
      - destruct (badSpeed d t) eqn:E; [left; auto |]. right. split; auto. unfold rate.
        apply Qeq_bool_iff in Ht. rewrite Ht. auto.
      - destruct (Qeq_bool t 0) eqn:E.
        + right. unfold rate. rewrite E. auto.
        + left. assert (E' : ~ t == 0) by (rewrite <- Qeq_bool_iff; congruence).
          rewrite (proj2 (B d t)); auto. }
    destruct H as [H | H]; destruct (K _ _ _ true H) as [Q | [Q _]].
    + rewrite Q. reflexivity.
    + rewrite Q. cbn [optDiff optRate]. unfold mask.
      destruct (nz (if badSpeed d0 t0 then 1%Z else f0)), (nz (if badSpeed d1 t1 then 1%Z else f1)); reflexivity.
    + rewrite Q. unfold mask. destruct (nz (if badSpeed d0 t0 then 1%Z else f0)); reflexivity.
    + rewrite Q. replace (optDiff (rate d0 t0) None) with (@None QArith_base.Q) by (destruct (rate d0 t0); reflexivity).
      cbn [optRate]. unfold mask.
      destruct (nz (if badSpeed d0 t0 then 1%Z else f0)), (nz (if badSpeed d1 t1 then 1%Z else f1)); reflexivity.
  - intros G0 G1 T.
    assert (K : forall f d t, ~ (f <> 0%Z \/ t == 0 \/ d / t < 0 \/ 200 < d / t) ->
      nz (if badSpeed d t then 1%Z else f) = false /\ rate d t = Some (d / t) /\ 0 <= d / t <= 200).
    { intros f d t N.
      assert (F : f = 0%Z) by (destruct (Z.eq_dec f 0); [auto | tauto]).
      assert (E : badSpeed d t = false) by (apply not_true_iff_false; rewrite B; tauto).
      rewrite E, F. split; [reflexivity |]. split.
      - unfold rate. destruct (Qeq_bool t 0) eqn:Z0; [| reflexivity]. apply Qeq_bool_iff in Z0. tauto.
      - split; apply Qnot_lt_le; tauto. }
    destruct (K _ _ _ G0) as [N0 [R0 P0]]. destruct (K _ _ _ G1) as [N1 [R1 P1]].
    rewrite N0, N1, R0, R1. cbn [optDiff optRate mask].
    set (x := d1 / t1 - d0 / t0). assert (X : -200 <= x <= 200) by (unfold x; lra).
    unfold rate. destruct (Qeq_bool t1 0) eqn:Z1; [apply Qeq_bool_iff in Z1; lra |]. cbn [settle].
    assert (V : -200000 <= x / t1 <= 200000).
    { assert (T0 : 0 < t1) by lra. split.
      - apply Qle_shift_div_l; [auto | nra].
      - apply Qle_shift_div_r; [auto | nra]. }
    assert (M : 200000 < maxsize) by reflexivity.
    destruct (Qle_bool maxsize (x / t1)) eqn:E1; [apply Qle_bool_iff in E1; lra |].
    destruct (Qle_bool (x / t1) (- maxsize)) eqn:E2; [apply Qle_bool_iff in E2; lra |]. cbn [orb]. reflexivity.
Qed.
Print Assumptions c168_speed_rate.
Theorem c168_winds : forall junk l i x, nth_error l i = Some x ->
  exists y, nth_error (windSpeeds junk (Some l)) i = Some y /\ (x <= 200 -> y = x) /\ (200 < x -> y = maxsize).
Proof.
  intros junk l i x H. unfold windSpeeds. rewrite nth_error_map, H. cbn. eexists. split; [reflexivity |].
  destruct (qlt 200 x) eqn:E; [apply qlt_iff in E | apply qlt_false_iff in E]; split; intros; auto; lra.
Qed.
Print Assumptions c168_winds.

(** * Examples *)
Definition nomask (x y : Q) : Q := 0.
Definition fl3 : list Z := [1; 0; 0; 1; 1; 0]%Z.
Definition pts3 : list (Q * Q) := [(150, -15); (151, -16); (152, -17); (140, -12); (145, -13); (146, -14)].
Example c168_paired_example :
  let v := [990; 985; 980; 1000; 995; 970] in
  paired (writtenRows (originRows nomask fl3 pts3)) (written (initOnly fl3 v)) <> None /\
  option_map (map (fun p => (Qred (fst (fst (fst p))), Qred (snd p)))) (paired (writtenRows (initRows nomask fl3 pts3)) (written (initValues fl3 v)))
  = Some [(150, 985); (145, 970)] /\
  option_map (@length _) (paired (writtenRows (positions nomask pts3)) (written v)) = Some 6%nat.
Proof. vm_compute. repeat split. discriminate. Qed.
Example c168_speed_example :
  map Qred (speedRate None [0; 60; 120; 90] [6; 6; 6; 6] [1; 0; 0; 0]%Z) = [maxsize; maxsize; 5 # 3; -5 # 6].
Proof. vm_compute. reflexivity. Qed.

(** * C169 *)
(** Positions are rounded to two decimals before they are assigned to cells. *)
Theorem c169_cell_refuted :
  let l := [((149996 # 1000, -31 # 2, 0), 980); ((145, -31 # 2, 0), 990)] in
  sample 145 150 (-20) (-15) l = [980; 990] /\
  map Qred (sample 145 150 (-20) (-15) (map (fun p => (wr (fst p), round2 (snd p))) l)) = [990] /\
  map Qred (sample 150 155 (-20) (-15) (map (fun p => (wr (fst p), round2 (snd p))) l)) = [980].
Proof. vm_compute. repeat split. Qed.
Print Assumptions c169_cell_refuted.
(** A table with a single cyclone cannot be used, however long its track. *)
Theorem c169_single_refuted : forall mask fl pts v (g : Q -> Q) ts,
  length fl = length pts -> length fl = length v -> binary fl -> nth 0 fl 0%Z = 1%Z ->
  tracksOf fl v = Some ts -> length ts = 1%nat ->
  paired (writtenRows (originRows mask fl pts)) (map g (initOnly fl v)) = None.
Proof.
  intros mask fl pts v g ts H1 H2 Hb H0 T L.
  destruct (c79_l fl v H2 Hb H0) as [ts' [T' [O _]]]. assert (ts' = ts) by congruence. subst ts'.
  destruct (tracks_partition fl v H2 Hb H0) as [ts' [T'' [_ [N _]]]]. assert (ts' = ts) by congruence. subst ts'.
  destruct ts as [| [| a t] [|]]; try discriminate; [inversion N; congruence |].
  unfold origins in O. cbn in O. unfold initOnly. rewrite O. unfold paired. reflexivity.
Qed.
Print Assumptions c169_single_refuted.
(** A cyclone with one record is counted among the origins but is not a point of genesis. *)
Theorem c169_genesis_refuted :
  length (originRows nomask fl3 pts3) = 3%nat /\ length (genesisPoints nomask fl3 pts3) = 2%nat /\
  In (140, -12, 0) (originRows nomask fl3 pts3) /\
  ~ In (140, -12) (map (fun r => (Qred (fst (fst r)), Qred (snd (fst r)))) (genesisPoints nomask fl3 pts3)).
Proof. vm_compute. repeat split; auto. intros [H | [H | H]]; discriminate || auto. Qed.
Print Assumptions c169_genesis_refuted.
(** Without winds in the table, the file of winds holds what happened to be in memory. *)
Theorem c169_junk_refuted : forall l, (forall x, In x l -> x <= 200) -> windSpeeds l None = l.
Proof.
  intros l H. unfold windSpeeds. induction l as [| x l IH]; [reflexivity |]. cbn [map].
  rewrite (proj2 (qlt_false_iff 200 x)) by (apply H; left; auto). f_equal. apply IH. intros y Hy. apply H. right. auto.
Qed.
Print Assumptions c169_junk_refuted.
(** Missing winds coded as negative numbers stay. *)
Theorem c169_negative_refuted : windSpeeds [] (Some [-999; 30; 250]) = [-999; 30; maxsize].
Proof. reflexivity. Qed.
Print Assumptions c169_negative_refuted.
(** Small rates of change are read as zero. *)
Theorem c169_small_refuted : forall x, - (1 # 200) < x < 1 # 200 -> round2 x == 0.
Proof.
  intros x H. unfold round2. pose proof (rint_half (x * 100)) as R.
  assert (E : rint (x * 100) = 0%Z).
  { assert (A : (inject_Z (rint (x * 100)) < inject_Z 1)%Q) by (change (inject_Z 1) with 1; lra).
    assert (B : (inject_Z (-1) < inject_Z (rint (x * 100)))%Q) by (change (inject_Z (-1)) with (-1); lra).
    rewrite <- Zlt_Qlt in A, B. lia. }
  rewrite E. reflexivity.
Qed.
Print Assumptions c169_small_refuted.
