(** Proofs about [LoadModel]: flags, grouping into tracks, times, pressures. *)
From Coq Require Import QArith Qabs Qround Lia Permutation.
From Verif Require Import Base CellModel CellProofs LoadModel.
From Verif Require GenModel GenProofs.
Close Scope Q_scope. Open Scope list_scope. Open Scope nat_scope.

Definition binary (fl : list Z) : Prop := Forall (fun f => f = 0%Z \/ f = 1%Z) fl.

(** * Flags *)
Lemma flagsFrom_len {A} (e : A -> A -> bool) l : forall p, length (flagsFrom e p l) = length l.
Proof. induction l; intros; cbn; auto. Qed.
Lemma runFlags_len {A} (e : A -> A -> bool) l : length (runFlags e l) = length l.
Proof. destruct l; cbn; auto. now rewrite flagsFrom_len. Qed.
Lemma flagsFrom_nth {A} (e : A -> A -> bool) (d : A) l : forall p i, i < length l ->
  nth i (flagsFrom e p l) 0%Z = if e (nth i l d) (nth i (p :: l) d) then 0%Z else 1%Z.
Proof.
  induction l as [|a l IH]; intros p i Hi; cbn in Hi; [lia|].
  destruct i as [|i]; [reflexivity|]. cbn [flagsFrom nth]. rewrite IH by lia. reflexivity.
Qed.
Lemma runFlags_nth {A} (e : A -> A -> bool) (d : A) l i : i < length l ->
  nth i (runFlags e l) 0%Z =
    match i with O => 1%Z | S j => if e (nth i l d) (nth j l d) then 0%Z else 1%Z end.
Proof.
  destruct l as [|a l]; cbn; [lia|]. intros Hi. destruct i as [|j]; [reflexivity|].
  rewrite (flagsFrom_nth e d) by lia. reflexivity.
Qed.
Lemma flagsFrom_binary {A} (e : A -> A -> bool) l : forall p, binary (flagsFrom e p l).
Proof. induction l; intros; cbn; constructor; auto. - destruct e; auto. - apply IHl. Qed.
Lemma runFlags_binary {A} (e : A -> A -> bool) l : binary (runFlags e l).
Proof. destruct l; cbn; constructor; auto. apply flagsFrom_binary. Qed.

(** * Grouping *)
Fixpoint chunk {R} (fl : list Z) (recs : list R) : list R * list (list R) :=
  match fl, recs with
  | f :: fl', r :: rs =>
      let c := chunk fl' rs in
      if (f =? 1)%Z then ([], (r :: fst c) :: snd c) else (r :: fst c, snd c)
  | _, _ => ([], [])
  end.
Definition stretch {R} (t : list R) : list Z := 1%Z :: repeat 0%Z (length t - 1).

Lemma select_nil {R} (recs : list R) i : select [] recs i = [].
Proof. reflexivity. Qed.
Lemma select_cons {R} a ids (r : R) recs i :
  select (a :: ids) (r :: recs) i = if (a =? i)%Z then r :: select ids recs i else select ids recs i.
Proof. unfold select. cbn. destruct (a =? i)%Z; reflexivity. Qed.

Lemma chunk_select {R} (fl : list Z) : forall (recs : list R) acc k, binary fl -> length fl = length recs ->
  select (cums acc fl) recs k =
    if (k <? acc)%Z then [] else if (k =? acc)%Z then fst (chunk fl recs)
    else nth (Z.to_nat (k - acc - 1)) (snd (chunk fl recs)) [].
Proof.
  induction fl as [|f fl IH]; intros [|r recs] acc k Hb Hl; cbn in Hl; try lia.
  - cbn. destruct (k <? acc)%Z, (k =? acc)%Z; auto. now destruct (Z.to_nat _).
  - injection Hl as Hl. inversion Hb as [|x y Hf Hb']; subst. cbn [cums]. rewrite select_cons, IH by auto.
    cbn [chunk]. destruct Hf; subst f; [change (0 =? 1)%Z with false|change (1 =? 1)%Z with true]; cbv iota.
    + rewrite Z.add_0_r. cbn [fst snd].
      destruct (k <? acc)%Z eqn:E1, (k =? acc)%Z eqn:E2, (acc =? k)%Z eqn:E3; try lia; reflexivity.
    + cbn [fst snd].
      destruct (Z.eqb_spec (acc + 1) k) as [<-|Hne].
      * replace (acc + 1 <? acc + 1)%Z with false by lia. replace (acc + 1 <? acc)%Z with false by lia.
        replace (acc + 1 =? acc + 1)%Z with true by lia. replace (acc + 1 =? acc)%Z with false by lia.
        replace (acc + 1 - acc - 1)%Z with 0%Z by lia. reflexivity.
      * destruct (Z.ltb_spec k (acc + 1)), (Z.ltb_spec k acc); try lia; auto.
        -- replace (k =? acc)%Z with true by lia. reflexivity.
        -- replace (k =? acc + 1)%Z with false by lia. replace (k =? acc)%Z with false by lia.
           replace (Z.to_nat (k - acc - 1)) with (S (Z.to_nat (k - (acc + 1) - 1))) by lia. reflexivity.
Qed.
Lemma chunk_max {R} (fl : list Z) : forall (recs : list R) acc, binary fl -> length fl = length recs ->
  zmaxl acc (cums acc fl) = (acc + Z.of_nat (length (snd (chunk fl recs))))%Z.
Proof.
  induction fl as [|f fl IH]; intros [|r recs] acc Hb Hl; cbn in Hl; try lia.
  - cbn. lia.
  - injection Hl as Hl. inversion Hb as [|x y Hf Hb']; subst. cbn [cums]. unfold zmaxl. cbn [fold_left].
    fold (zmaxl (Z.max acc (acc + f)) (cums (acc + f) fl)).
    replace (Z.max acc (acc + f)) with (acc + f)%Z by (destruct Hf; subst; lia).
    rewrite (IH recs) by auto. cbn [chunk]. destruct Hf; subst f; [change (0 =? 1)%Z with false|change (1 =? 1)%Z with true]; cbv iota.
    + cbn [snd]. lia.
    + cbn [snd length]. lia.
Qed.
Lemma chunk_concat {R} (fl : list Z) : forall (recs : list R), length fl = length recs ->
  fst (chunk fl recs) ++ concat (snd (chunk fl recs)) = recs.
Proof.
  induction fl as [|f fl IH]; intros [|r recs] Hl; cbn in Hl; try lia; auto.
  injection Hl as Hl. specialize (IH recs Hl). cbn [chunk].
  destruct (f =? 1)%Z; cbn [fst snd concat app]; now rewrite IH.
Qed.
Lemma chunk_flags {R} (fl : list Z) : forall (recs : list R), binary fl -> length fl = length recs ->
  fl = repeat 0%Z (length (fst (chunk fl recs))) ++ flat_map stretch (snd (chunk fl recs)).
Proof.
  induction fl as [|f fl IH]; intros [|r recs] Hb Hl; cbn in Hl; try lia; auto.
  injection Hl as Hl. inversion Hb as [|x y Hf Hb']; subst. specialize (IH recs Hb' Hl). cbn [chunk].
  destruct Hf; subst f; [change (0 =? 1)%Z with false|change (1 =? 1)%Z with true]; cbv iota.
  - cbn [fst snd length repeat app]. now f_equal.
  - cbn [fst snd length repeat app flat_map]. unfold stretch at 1.
    cbn [length app]. f_equal. replace (S (length (fst (chunk fl recs))) - 1) with (length (fst (chunk fl recs))) by lia.
    exact IH.
Qed.
Lemma chunk_nonempty {R} (fl : list Z) : forall (recs : list R), Forall (fun t => t <> []) (snd (chunk fl recs)).
Proof.
  induction fl as [|f fl IH]; intros [|r recs]; cbn; auto.
  destruct (f =? 1)%Z; cbn [snd]; auto. constructor; auto. discriminate.
Qed.
Lemma map_seq_nth {A} (d : A) (f : nat -> A) l : (forall i, i < length l -> f (S i) = nth i l d) ->
  map f (seq 1 (length l)) = l.
Proof.
  intros H. apply nth_ext with (d := f 0) (d' := d).
  - now rewrite map_length, seq_length.
  - intros n Hn. rewrite map_length, seq_length in Hn. rewrite map_nth, seq_nth by auto. cbn. auto.
Qed.
Lemma tracksOf_chunk {R} fl (recs : list R) : binary (1%Z :: fl) -> S (length fl) = length recs ->
  tracksOf (1%Z :: fl) recs = Some (snd (chunk (1%Z :: fl) recs)).
Proof.
  intros Hb Hl. assert (Hl' : length (1%Z :: fl) = length recs) by exact Hl.
  pose proof (chunk_max (1%Z :: fl) recs 0 Hb Hl') as Hm.
  unfold tracksOf, groups. cbn [cums]. rewrite Z.add_0_l.
  cbn [cums] in Hm. rewrite Z.add_0_l in Hm. unfold zmaxl in Hm. cbn [fold_left] in Hm.
  change (Z.max 0 1) with 1%Z in Hm. fold (zmaxl 1 (cums 1 fl)) in Hm. rewrite Hm, Z.add_0_l, Nat2Z.id.
  f_equal. apply (map_seq_nth []). intros i Hi.
  pose proof (chunk_select (1%Z :: fl) recs 0 (Z.of_nat (S i)) Hb Hl') as Hs. cbn [cums] in Hs.
  rewrite Z.add_0_l in Hs. rewrite Hs.
  replace (Z.of_nat (S i) <? 0)%Z with false by lia. replace (Z.of_nat (S i) =? 0)%Z with false by lia.
  f_equal. lia.
Qed.
Lemma tracks_partition {R} fl (recs : list R) :
  length fl = length recs -> binary fl -> nth 0 fl 0%Z = 1%Z ->
  exists ts, tracksOf fl recs = Some ts /\ concat ts = recs /\ Forall (fun t => t <> []) ts /\ fl = flat_map stretch ts.
Proof.
  intros Hl Hb H1. destruct fl as [|f fl]; cbn in H1; [discriminate|]. subst f.
  exists (snd (chunk (1%Z :: fl) recs)). split; [now apply tracksOf_chunk|].
  pose proof (chunk_concat _ _ Hl) as Hc. pose proof (chunk_flags _ _ Hb Hl) as Hf.
  assert (E : fst (chunk (1%Z :: fl) recs) = []) by (destruct recs; reflexivity).
  rewrite E in Hc, Hf. split; [exact Hc|]. split; [apply chunk_nonempty|]. exact Hf.
Qed.

(** Any identifiers from 1 on: each record once, by identifier. *)
Lemma select_map_perm {R} (ids : list Z) : forall (recs : list R) n, length ids = length recs ->
  Forall (fun i => 1 <= i <= Z.of_nat n)%Z ids ->
  Permutation (concat (map (fun k => select ids recs (Z.of_nat k)) (seq 1 n))) recs.
Proof.
  induction ids as [|a ids IH]; intros [|r recs] n Hl Hr; cbn in Hl; try lia.
  - clear. induction (seq 1 n); cbn; auto.
  - injection Hl as Hl. inversion Hr as [|x y Ha Hr']; subst.
    assert (Hn : n = (Z.to_nat a - 1) + (1 + (n - Z.to_nat a))) by lia.
    specialize (IH recs n Hl Hr'). rewrite Hn in IH |- *. rewrite !seq_app, !map_app, !concat_app in *.
    replace (1 + (Z.to_nat a - 1)) with (Z.to_nat a) in * by lia.
    cbn [seq map concat] in *. rewrite Z2Nat.id in * by lia. rewrite select_cons, Z.eqb_refl.
    assert (Hs : forall l, ~ In (Z.to_nat a) l ->
             map (fun k => select (a :: ids) (r :: recs) (Z.of_nat k)) l = map (fun k => select ids recs (Z.of_nat k)) l).
    { intros l Hnin. apply map_ext_in. intros k Hk. rewrite select_cons.
      destruct (Z.eqb_spec a (Z.of_nat k)); auto. subst a. rewrite Nat2Z.id in Hnin. contradiction. }
    rewrite !Hs by (rewrite in_seq; lia).
    cbn [app].
    eapply Permutation_trans; [symmetry; apply Permutation_middle|]. apply perm_skip. exact IH.
Qed.
Lemma zmaxl_spec l : forall a, (a <= zmaxl a l)%Z /\ Forall (fun x => (x <= zmaxl a l)%Z) l /\ (zmaxl a l = a \/ In (zmaxl a l) l).
Proof.
  induction l as [|b l IH]; intros a; cbn.
  - repeat split; auto. lia.
  - destruct (IH (Z.max a b)) as (H1 & H2 & H3). fold (zmaxl (Z.max a b) l).
    split; [lia|]. split; [constructor; [lia|auto]|]. destruct H3 as [H3|H3]; auto. lia.
Qed.

(** * Times *)
Definition sumBetween (l : list Q) (s j : nat) : Q := fold_right Qplus 0%Q (map (fun k => nth k l 0%Q) (seq (S s) (j - s))).
Lemma elapsed_nth fl : forall dates start el, length fl = length dates -> elapsedFrom start fl dates = Some el ->
  length el = length dates /\
  (forall s j, s <= j < length dates -> nth s fl 0%Z = 1%Z -> (forall k, s < k <= j -> nth k fl 0%Z <> 1%Z) ->
     (nth j el 0 == inject_Z (nth j dates 0%Z - nth s dates 0%Z) / 60)%Q) /\
  (forall s0 j, start = Some s0 -> j < length dates -> (forall k, k <= j -> nth k fl 0%Z <> 1%Z) ->
     (nth j el 0 == inject_Z (nth j dates 0%Z - s0) / 60)%Q).
Proof.
  induction fl as [|f fl IH]; intros [|d ds] start el Hl He; cbn in Hl; try lia.
  - cbn in He. injection He as <-. split; [reflexivity|]. split; intros; cbn in *; lia.
  - injection Hl as Hl. cbn in He. destruct (Z.eqb_spec f 1) as [->|Hf].
    + destruct (elapsedFrom (Some d) fl ds) as [e|] eqn:E; [|discriminate]. injection He as <-.
      destruct (IH ds (Some d) e Hl E) as (I1 & I2 & I3).
      split; [cbn; lia|]. split.
      * intros s j Hj Hs Hk. cbn [length] in Hj. destruct j as [|j].
        -- assert (s = 0) by lia. subst s. cbn. rewrite Z.sub_diag. reflexivity.
        -- cbn [nth]. destruct s as [|s].
           ++ apply (I3 d j eq_refl); [lia|]. intros k Hk'. apply (Hk (S k)). lia.
           ++ cbn [nth]. apply I2; [lia|exact Hs|]. intros k Hk'. apply (Hk (S k)). lia.
      * intros s0 j _ Hj Hk. exfalso. apply (Hk 0); [lia|reflexivity].
    + destruct start as [st|]; [|discriminate].
      destruct (elapsedFrom (Some st) fl ds) as [e|] eqn:E; [|discriminate]. injection He as <-.
      destruct (IH ds (Some st) e Hl E) as (I1 & I2 & I3).
      split; [cbn; lia|]. split.
      * intros s j Hj Hs Hk. cbn [length] in Hj. destruct s as [|s]; [cbn in Hs; congruence|].
        destruct j as [|j]; [lia|]. cbn [nth]. apply I2; [lia|exact Hs|]. intros k Hk'. apply (Hk (S k)). lia.
      * intros s0 j [= <-] Hj Hk. cbn [length] in Hj. destruct j as [|j]; [reflexivity|]. cbn [nth].
        apply (I3 st j eq_refl); [lia|]. intros k Hk'. apply (Hk (S k)). lia.
Qed.
Lemma elapsed_total fl : forall dates s, exists el, elapsedFrom (Some s) fl dates = Some el.
Proof.
  induction fl as [|f fl IH]; intros [|d ds] s; cbn; eauto.
  destruct (f =? 1)%Z.
  - destruct (IH ds d) as [e ->]. cbn. eauto.
  - destruct (IH ds s) as [e ->]. cbn. eauto.
Qed.
Lemma elapsed_start fl dates : nth 0 fl 0%Z = 1%Z -> exists el, getTimeElapsed fl dates = Some el.
Proof.
  destruct fl as [|f fl]; cbn; [discriminate|]. intros ->. unfold getTimeElapsed. destruct dates as [|d ds]; cbn; eauto.
  destruct (elapsed_total fl ds d) as [e ->]. cbn. eauto.
Qed.

Lemma rint_int z : GenModel.rint (inject_Z z) = z.
Proof.
  unfold GenModel.rint. rewrite Qfloor_Z.
  assert (E : (inject_Z z - inject_Z z == 0)%Q) by ring.
  destruct (qlt (inject_Z z - inject_Z z) (1 # 2)) eqn:H; auto.
  exfalso. apply GenProofs.qlt_false_iff in H. rewrite E in H. now compute in H.
Qed.
Lemma rint_proper x y : (x == y)%Q -> GenModel.rint x = GenModel.rint y.
Proof.
  intros E. unfold GenModel.rint. rewrite (Qfloor_comp _ _ E).
  assert (Hq : forall a b c d, (a == c)%Q -> (b == d)%Q -> qlt a b = qlt c d).
  { intros a b c d H1 H2. destruct (qlt a b) eqn:E1, (qlt c d) eqn:E2; auto.
    - apply qlt_iff in E1. apply GenProofs.qlt_false_iff in E2. rewrite H1, H2 in E1. exfalso. apply (Qlt_not_le _ _ E1 E2).
    - apply qlt_iff in E2. apply GenProofs.qlt_false_iff in E1. rewrite H1, H2 in E1. exfalso. apply (Qlt_not_le _ _ E2 E1). }
  rewrite (Hq (x - inject_Z (Qfloor y))%Q (1#2)%Q (y - inject_Z (Qfloor y))%Q (1#2)%Q) by (rewrite ?E; reflexivity).
  rewrite (Hq (1#2)%Q (x - inject_Z (Qfloor y))%Q (1#2)%Q (y - inject_Z (Qfloor y))%Q) by (rewrite ?E; reflexivity).
  reflexivity.
Qed.
Lemma stepsFrom_nth l : forall d0 i, i < length l ->
  nth i (stepsFrom d0 l) 0%Q = inject_Z (GenModel.rint (inject_Z (nth i l 0%Z - nth i (d0 :: l) 0%Z) / 60)).
Proof.
  induction l as [|d l IH]; intros d0 i Hi; cbn in Hi; [lia|]. destruct i as [|i]; [reflexivity|].
  cbn [stepsFrom nth]. rewrite IH by lia. reflexivity.
Qed.
Lemma delta_nth dates i : S i < length dates ->
  nth (S i) (getTimeDelta dates) 0%Q = inject_Z (GenModel.rint (inject_Z (nth (S i) dates 0%Z - nth i dates 0%Z) / 60)).
Proof.
  destruct dates as [|d l]; cbn [length]; [lia|]. intros Hi. cbn [getTimeDelta nth]. now rewrite stepsFrom_nth by lia.
Qed.
Lemma delta_whole dates i : S i < length dates -> ((nth (S i) dates 0 - nth i dates 0) mod 60 = 0)%Z ->
  (nth (S i) (getTimeDelta dates) 0 == inject_Z (nth (S i) dates 0%Z - nth i dates 0%Z) / 60)%Q.
Proof.
  intros Hi Hm. rewrite delta_nth by auto.
  set (m := (nth (S i) dates 0 - nth i dates 0)%Z) in *.
  assert (E : (inject_Z m / 60 == inject_Z (m / 60))%Q).
  { rewrite (Z.div_mod m 60) at 1 by lia. rewrite Hm, Z.add_0_r, inject_Z_mult. change (inject_Z 60) with 60%Q. field. }
  rewrite (rint_proper _ _ E), rint_int, E. reflexivity.
Qed.
Lemma steps_sum dates s j : s <= j < length dates ->
  (forall k, s < k <= j -> ((nth k dates 0 - nth (k - 1) dates 0) mod 60 = 0)%Z) ->
  (sumBetween (getTimeDelta dates) s j == inject_Z (nth j dates 0%Z - nth s dates 0%Z) / 60)%Q.
Proof.
  intros Hj Hm. unfold sumBetween. remember (j - s) as n eqn:Hn.
  revert s Hn Hj Hm. induction n as [|n IH]; intros s Hn Hj Hm.
  - replace j with s by lia. rewrite Z.sub_diag. reflexivity.
  - cbn [seq map fold_right]. rewrite (IH (S s)); [|lia|lia|intros; apply Hm; lia].
    rewrite delta_whole; [|lia|].
    + unfold Z.sub. rewrite !inject_Z_plus, !inject_Z_opp. field.
    + specialize (Hm (S s) ltac:(lia)). replace (S s - 1) with s in Hm by lia. exact Hm.
Qed.
(** Each record belongs to a track. *)
Lemma start_exists fl : nth 0 fl 0%Z = 1%Z -> forall j, exists s, s <= j /\ nth s fl 0%Z = 1%Z /\
  (forall k, s < k <= j -> nth k fl 0%Z <> 1%Z).
Proof.
  intros H0. induction j as [|j (s & H1 & H2 & H3)].
  - exists 0. split; [lia|]. split; auto. intros; lia.
  - destruct (Z.eq_dec (nth (S j) fl 0%Z) 1) as [E|E].
    + exists (S j). split; [lia|]. split; auto. intros; lia.
    + exists s. split; [lia|]. split; auto. intros k Hk. destruct (Nat.eq_dec k (S j)); [congruence|]. apply H3. lia.
Qed.

(** * Years made up *)
Lemma fillYears_le : forall l fy ys, fillYears fy l = Some ys -> length ys = length l.
Proof.
  induction l as [|(f, m) l IH]; intros fy ys H; cbn in H; [now injection H as <-|].
  match type of H with context[match ?x with _ => _ end] => destruct x as [y|] eqn:E end; [|discriminate].
  destruct (fillYears _ l) as [z|] eqn:Ez; [|discriminate]. injection H as <-. cbn. f_equal. eauto.
Qed.

(** * Pressure filter *)
Lemma filter_in k miss l p : In p (filterPressure k miss l) -> p = miss \/ (600 <= p /\ p <= 1100)%Q.
Proof.
  unfold filterPressure. rewrite in_map_iff. intros (q & <- & _).
  set (c := if Qeq_bool q miss then miss else (q * k)%Q). clearbody c.
  destruct (qlt c 600) eqn:E1; [now left|]. destruct (qlt 1100 c) eqn:E2; [now left|]. right.
  split; now apply GenProofs.qlt_false_iff.
Qed.
Lemma filter_keep k miss l i p : nth_error l i = Some p -> ~ (p == miss)%Q -> (600 <= p * k <= 1100)%Q ->
  nth_error (filterPressure k miss l) i = Some (p * k)%Q.
Proof.
  intros H Hm [H1 H2]. unfold filterPressure. rewrite nth_error_map, H. cbn.
  destruct (Qeq_bool p miss) eqn:E; [apply Qeq_bool_iff in E; contradiction|].
  destruct (qlt (p * k) 600) eqn:E1; [apply qlt_iff in E1; exfalso; apply (Qlt_not_le _ _ E1 H1)|].
  destruct (qlt 1100 (p * k)) eqn:E2; [apply qlt_iff in E2; exfalso; apply (Qlt_not_le _ _ E2 H2)|].
  reflexivity.
Qed.
