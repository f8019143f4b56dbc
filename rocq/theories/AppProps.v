(** Properties C152 and C153: progress messages, timing, output directories,
    the plotted event and the impact step. *)
From Coq Require Import QArith Qround ZArith List Bool Arith Ascii String Lia Lqa Sorting.Sorted.
From Verif Require Import Base CellModel CellProofs GenModel GenProofs LoadProofs LoadProofs3 WriterProps NamesModel NamesProofs UtilModel AppModel.
Import ListNotations.
Close Scope string_scope. Close Scope Q_scope. Open Scope list_scope. Open Scope nat_scope.

Lemma trunc_pos (x : Q) : (0 <= x)%Q -> trunc x = Qfloor x.
Proof. intros H. unfold trunc. apply Qle_bool_iff in H. now rewrite H. Qed.

Lemma Some_inj {A} (x y : A) : Some x = Some y -> x = y.
Proof. congruence. Qed.

Lemma trunc_mono a b : (a <= b)%Q -> (trunc a <= trunc b)%Z.
Proof.
  intros H. unfold trunc. destruct (Qle_bool 0 a) eqn:A; destruct (Qle_bool 0 b) eqn:B.
  - now apply Qfloor_resp_le.
  - exfalso. apply Qle_bool_iff in A. apply not_true_iff_false in B. apply B, Qle_bool_iff. lra.
  - apply not_true_iff_false in A. assert (a <= 0)%Q.
    { destruct (Qlt_le_dec 0 a) as [L|L]; [exfalso; apply A, Qle_bool_iff; lra|exact L]. }
    apply Qle_bool_iff in B. apply Z.le_trans with 0%Z.
    + change 0%Z with (Qceiling (inject_Z 0)). now apply Qceiling_resp_le.
    + change 0%Z with (Qfloor (inject_Z 0)). now apply Qfloor_resp_le.
  - now apply Qceiling_resp_le.
Qed.

(** * C152 *)

(** The bar and the blanks always fill the given width; the bar is empty at
    the start, full at the end and never shrinks. *)
Theorem c152_bar : forall (width : Z) last p t m,
  (0 <= width)%Z -> (0 <= p <= 1)%Q -> snd (barUpdate true width last p t) = [m] ->
  (m_fill m + m_blank m)%nat = Z.to_nat width /\
  ((p == 0)%Q -> m_fill m = 0%nat) /\ ((p == 1)%Q -> m_blank m = 0%nat) /\
  forall last' p' t' m', (p <= p' <= 1)%Q -> snd (barUpdate true width last' p' t') = [m'] -> (m_fill m <= m_fill m')%nat.
Proof.
  intros width last p t m W [P0 P1] H. unfold barUpdate in H.
  assert (B : forall q, (0 <= q <= 1)%Q -> (0 <= rint (inject_Z width * q) <= width)%Z).
  { intros q [Q0 Q1]. assert (Wq : (0 <= inject_Z width)%Q) by (change 0%Q with (inject_Z 0); now rewrite <- Zle_Qle).
    split.
    - rewrite <- (rint_int 0). apply rint_le. change (inject_Z 0) with 0%Q. now apply Qmult_le_0_compat.
    - rewrite <- (rint_int width) at 2. apply rint_le.
      setoid_replace (inject_Z width) with (inject_Z width * 1)%Q at 2 by ring.
      rewrite (Qmult_comm _ q), (Qmult_comm _ 1). now apply Qmult_le_compat_r. }
  destruct (true && _); [|discriminate]. cbv zeta in H. cbn [snd] in H. injection H as <-. cbn [m_fill m_blank].
  pose proof (B p (conj P0 P1)) as Bp. split; [lia|]. split; [|split].
  - intros E. replace (rint (inject_Z width * p)) with 0%Z; [reflexivity|].
    rewrite <- (rint_int 0) at 1. apply rint_proper. rewrite E. change (inject_Z 0) with 0%Q. ring.
  - intros E. replace (rint (inject_Z width * p)) with width; [lia|].
    rewrite <- (rint_int width) at 1. apply rint_proper. rewrite E. ring.
  - intros last' p' t' m' [Q0 Q1] H. unfold barUpdate in H. destruct (true && _); [|discriminate]. cbv zeta in H. cbn [snd] in H.
    injection H as <-. cbn [m_fill]. apply Z2Nat.inj_le; [lia| |].
    + apply B. lra.
    + apply rint_le. rewrite !(Qmult_comm (inject_Z width)). apply Qmult_le_compat_r; [exact Q0|].
      change 0%Q with (inject_Z 0). now rewrite <- Zle_Qle.
Qed.

Lemma runBar_spec width : forall ups last,
  (forall z, last = Some z -> forall p t, In (p, t) ups -> (z <= percent p)%Z) ->
  StronglySorted (fun a b => (fst a <= fst b)%Q) ups ->
  StronglySorted Z.lt (map m_percent (runBar true width last ups)) /\
  (forall z, last = Some z -> Forall (fun x => (z < x)%Z) (map m_percent (runBar true width last ups))) /\
  (forall p t, In (p, t) ups -> last = Some (percent p) \/ In (percent p) (map m_percent (runBar true width last ups))) /\
  (forall x, In x (map m_percent (runBar true width last ups)) -> exists p t, In (p, t) ups /\ x = percent p).
Proof.
  induction ups as [|[p t] ups IH]; intros last HL HS.
  - cbn. split; [constructor|]. split; [constructor|]. split; [intros p t []|intros x []].
  - inversion HS as [|? ? HS' HF]; subst. rewrite Forall_forall in HF.
    assert (HM : forall q u, In (q, u) ups -> (percent p <= percent q)%Z).
    { intros q u I. apply trunc_mono. specialize (HF (q, u) I). cbn in HF. apply Qmult_le_compat_r; [exact HF|discriminate]. }
    cbn [runBar]. unfold barUpdate. cbn [andb].
    destruct (match last with Some z => (z =? percent p)%Z | None => false end) eqn:E; cbn [negb].
    + destruct last as [z|]; [|discriminate]. apply Z.eqb_eq in E. subst z. cbn [app].
      destruct (IH (Some (percent p))) as (A & B & C & D).
      * intros z Hz q u I. injection Hz as <-. now apply (HM q u).
      * exact HS'.
      * split; [exact A|]. split; [exact B|]. split.
        -- intros q u [I|I]; [injection I as <- <-; now left|now apply (C q u)].
        -- intros x I. destruct (D x I) as (q & u & I' & E). exists q, u. split; [now right|exact E].
    + destruct (IH (Some (percent p))) as (A & B & C & D).
      * intros z Hz q u I. injection Hz as <-. now apply (HM q u).
      * exact HS'.
      * cbn [app map m_percent]. specialize (B _ eq_refl). split; [constructor; assumption|]. split; [|split].
        -- intros z ->. apply Z.eqb_neq in E. specialize (HL z eq_refl p t (or_introl eq_refl)). constructor; [lia|].
           eapply Forall_impl; [|exact B]. cbn. intros; lia.
        -- intros q u [I|I]; [injection I as <- <-; right; now left|].
           destruct (C q u I) as [X|X]; [injection X as X; right; now left|right; now right].
        -- intros x [<-|I]; [exists p, t; split; [now left|reflexivity]|].
           destruct (D x I) as (q & u & I' & E'). exists q, u. split; [now right|exact E'].
Qed.

Lemma sorted_bound (l : list Z) : forall lo hi, StronglySorted Z.lt l -> (forall x, In x l -> lo <= x <= hi)%Z ->
  (Z.of_nat (length l) <= Z.max 0 (hi - lo + 1))%Z.
Proof.
  induction l as [|x l IH]; intros lo hi S B; [cbn; lia|].
  inversion S as [|? ? S' F]; subst. rewrite Forall_forall in F.
  specialize (IH (x + 1)%Z hi S').
  assert (Z.of_nat (length l) <= Z.max 0 (hi - (x + 1) + 1))%Z.
  { apply IH. intros y I. specialize (F y I). specialize (B y (or_intror I)). lia. }
  specialize (B x (or_introl eq_refl)). cbn [length]. lia.
Qed.

(** While the work advances, the percentages shown increase, every
    percentage reached is shown, none is shown that was not reached, and
    there are at most 101 messages. *)
Theorem c152_percentages : forall width ups,
  StronglySorted (fun a b => (fst a <= fst b)%Q) ups -> (forall p t, In (p, t) ups -> (0 <= p <= 1)%Q) ->
  let shown := map m_percent (progressBar true true width ups) in
  StronglySorted Z.lt shown /\
  (forall z, In z shown <-> exists p t, In (p, t) ups /\ z = percent p) /\
  (length shown <= 101)%nat /\ (forall z, In z shown -> (0 <= z <= 100)%Z).
Proof.
  intros width ups S B. cbv zeta. unfold progressBar. cbn [barUpdate andb fst].
  destruct (runBar_spec width ups None) as (A & _ & C & D); [discriminate|exact S|].
  assert (R : forall z, In z (map m_percent (runBar true width None ups)) -> (0 <= z <= 100)%Z).
  { intros z I. destruct (D z I) as (p & t & I' & ->). specialize (B p t I'). unfold percent. rewrite trunc_pos by lra.
    split.
    - change 0%Z with (Qfloor (inject_Z 0)). apply Qfloor_resp_le. change (inject_Z 0) with 0%Q. lra.
    - assert (X : (Qfloor (p * 100) <= Qfloor (inject_Z 100))%Z) by (apply Qfloor_resp_le; change (inject_Z 100) with 100%Q; lra).
      now rewrite Qfloor_Z in X. }
  split; [exact A|]. split; [|split; [|exact R]].
  - intros z. split; [apply D|]. intros (p & t & I & ->). destruct (C p t I) as [X|X]; [discriminate|exact X].
  - pose proof (sorted_bound _ 0 100 A R). lia.
Qed.

(** The remaining time shown is right for work at constant speed; times are
    split into hours, minutes and seconds that add up, to the second
    below. *)
Theorem c152_remaining : forall T p : Q, (0 < p)%Q -> (p < 1)%Q -> (0 <= T)%Q ->
  exists r, timeStr p (T * p) = Remaining r /\ (r == T - T * p)%Q /\
  let '(h, m, s) := formatTime r in
  (0 <= h /\ 0 <= m < 60 /\ 0 <= s < 60)%Z /\
  (inject_Z (3600 * h + 60 * m + s) <= r)%Q /\ (r < inject_Z (3600 * h + 60 * m + s + 1))%Q.
Proof.
  intros T p P0 P1 T0. exists (T * p / p - T * p)%Q.
  assert (E : (T * p / p - T * p == T - T * p)%Q) by (field; lra).
  split; [|split; [exact E|]].
  - unfold timeStr. replace (Qeq_bool p 0) with false; [replace (Qeq_bool p 1) with false; [reflexivity|]|];
      symmetry; apply not_true_iff_false; intros C; apply Qeq_bool_iff in C; lra.
  - assert (R0 : (0 <= T * p / p - T * p)%Q).
    { rewrite E. setoid_replace (T - T * p)%Q with (T * (1 - p))%Q by ring. apply Qmult_le_0_compat; lra. }
    set (r := (T * p / p - T * p)%Q) in *. clearbody r. unfold formatTime.
    assert (H3600 : trunc (r / 3600) = Z.div (Qfloor r) 3600).
    { rewrite trunc_pos.
      - pose proof (Qfloor_le r) as F1. pose proof (Qlt_floor r) as F2.
        pose proof (Z.div_mod (Qfloor r) 3600 ltac:(lia)) as DM. pose proof (Z.mod_pos_bound (Qfloor r) 3600 ltac:(lia)) as MB.
        set (k := Z.div (Qfloor r) 3600) in *.
        assert (L1 : (inject_Z k <= r / 3600)%Q).
        { apply Qle_shift_div_l; [reflexivity|]. change 3600%Q with (inject_Z 3600). rewrite <- inject_Z_mult.
          apply Qle_trans with (inject_Z (Qfloor r)); [|exact F1]. rewrite <- Zle_Qle. lia. }
        assert (L2 : (r / 3600 < inject_Z (k + 1))%Q).
        { apply Qlt_shift_div_r; [reflexivity|]. change 3600%Q with (inject_Z 3600). rewrite <- inject_Z_mult.
          apply Qlt_le_trans with (inject_Z (Qfloor r + 1)); [exact F2|]. rewrite <- Zle_Qle. lia. }
        pose proof (Qfloor_le (r / 3600)) as G1. pose proof (Qlt_floor (r / 3600)) as G2.
        assert (inject_Z k < inject_Z (Qfloor (r / 3600) + 1))%Q by lra.
        assert (inject_Z (Qfloor (r / 3600)) < inject_Z (k + 1))%Q by lra.
        rewrite <- Zlt_Qlt in *. lia.
      - apply Qle_shift_div_l; [reflexivity|]. lra. }
    rewrite H3600.
    assert (N0 : (0 <= Qfloor r)%Z) by (change 0%Z with (Qfloor (inject_Z 0)); now apply Qfloor_resp_le).
    pose proof (Z.div_mod (Qfloor r) 60 ltac:(lia)) as D1. pose proof (Z.mod_pos_bound (Qfloor r) 60 ltac:(lia)) as M1.
    pose proof (Z.div_mod (Qfloor r / 60) 60 ltac:(lia)) as D2. pose proof (Z.mod_pos_bound (Qfloor r / 60) 60 ltac:(lia)) as M2.
    pose proof (Z.div_div (Qfloor r) 60 60 ltac:(lia) ltac:(lia)) as D3. change (60 * 60)%Z with 3600%Z in D3.
    assert (0 <= Qfloor r / 3600)%Z by (apply Z.div_pos; lia).
    replace (3600 * (Qfloor r / 3600) + 60 * ((Qfloor r / 60) mod 60) + Qfloor r mod 60)%Z with (Qfloor r) by lia.
    split; [lia|]. split; [apply Qfloor_le|apply Qlt_floor].
Qed.

(** The decorator splits a time into hours, minutes and seconds. *)
Theorem c152_timer : forall t : Q, (0 <= t)%Q ->
  let '(h, m, s) := hms t in
  (inject_Z (3600 * h) + 60 * m + s == t)%Q /\ (0 <= h)%Z /\ (exists k, m == inject_Z k /\ (0 <= k < 60)%Z)%Q /\ (0 <= s < 60)%Q.
Proof.
  intros t T0. unfold hms, divmod60.
  set (m := Qfloor (t / 60)). set (h := Qfloor (inject_Z m / 60)).
  assert (B : forall x, (0 <= x - 60 * inject_Z (Qfloor (x / 60)) < 60)%Q).
  { intros x. pose proof (Qfloor_le (x / 60)) as F1. pose proof (Qlt_floor (x / 60)) as F2.
    rewrite inject_Z_plus in F2. change (inject_Z 1) with 1%Q in F2. assert (X : (x == x / 60 * 60)%Q) by field. lra. }
  assert (E : h = Z.div m 60).
  { unfold h, Qfloor, Qdiv. cbn. now rewrite Z.mul_1_r. }
  assert (M0 : (0 <= m)%Z).
  { unfold m. change 0%Z with (Qfloor (inject_Z 0)). apply Qfloor_resp_le. apply Qle_shift_div_l; [reflexivity|]. change (inject_Z 0) with 0%Q. lra. }
  split; [|split; [|split; [|apply B]]].
  - rewrite inject_Z_mult. change (inject_Z 3600) with 3600%Q. ring.
  - rewrite E. apply Z.div_pos; lia.
  - exists (m - 60 * h)%Z. split.
    + unfold Zminus. rewrite inject_Z_plus, inject_Z_opp, inject_Z_mult. change (inject_Z 60) with 60%Q. ring.
    + rewrite E. pose proof (Z.div_mod m 60 ltac:(lia)). pose proof (Z.mod_pos_bound m 60 ltac:(lia)). lia.
Qed.

Lemma qle_split a b : (Qle_bool a b = true /\ (a <= b)%Q) \/ (Qle_bool a b = false /\ (b < a)%Q).
Proof.
  destruct (Qle_bool a b) eqn:E; [left; split; [reflexivity|now apply Qle_bool_iff]|right; split; [reflexivity|]].
  destruct (Qlt_le_dec b a) as [L|L]; [exact L|]. apply Qle_bool_iff in L. congruence.
Qed.

Lemma simple_count : forall ps k, (k <= 19)%nat -> forall last, (last == inject_Z (5 * Z.of_nat k))%Q ->
  (length (filter (fun pc => negb (Qle_bool 99 pc)) (runSimple true last ps)) <= 19 - k)%nat.
Proof.
  induction ps as [|p ps IH]; intros k K last L; [cbn; lia|].
  cbn [runSimple]. unfold simpleUpdate. cbn [andb].
  destruct (qle_split 99 (p * 100)) as [[E X]|[E X]]; rewrite E; cbn [orb].
  - cbn [app filter]. rewrite E. cbn [negb].
    destruct (Nat.eq_dec k 19) as [->|N].
    + (* nothing below 99 can follow *)
      assert (G : forall l lst, (inject_Z 95 <= lst)%Q -> length (filter (fun pc => negb (Qle_bool 99 pc)) (runSimple true lst l)) = 0%nat).
      { induction l as [|q l IHl]; intros lst Hl; [reflexivity|]. cbn [runSimple]. unfold simpleUpdate. cbn [andb].
        change (inject_Z 95) with 95%Q in Hl.
        destruct (qle_split 99 (q * 100)) as [[E' X']|[E' X']]; rewrite E'; cbn [orb].
        - cbn [app filter]. rewrite E'. cbn [negb]. apply IHl. change (inject_Z 95) with 95%Q. lra.
        - destruct (qle_split (lst + 5) (q * 100)) as [[E2 X2]|[E2 X2]]; rewrite E2; [lra|]. cbn [app]. apply IHl. exact Hl. }
      rewrite G; [lia|]. rewrite L. change (inject_Z (5 * Z.of_nat 19)) with 95%Q. change (inject_Z 95) with 95%Q. lra.
    + specialize (IH (S k) ltac:(lia) (last + 5)%Q). apply Nat.le_trans with (19 - S k)%nat; [apply IH|lia].
      rewrite L. replace (5 * Z.of_nat (S k))%Z with (5 * Z.of_nat k + 5)%Z by lia. rewrite inject_Z_plus. reflexivity.
  - destruct (qle_split (last + 5) (p * 100)) as [[E2 X2]|[E2 X2]]; rewrite E2.
    + cbn [app filter]. rewrite E. cbn [negb length].
      assert (K' : (k < 19)%nat).
      { assert (Y : (inject_Z (5 * Z.of_nat k + 5) < inject_Z 99)%Q).
        { rewrite inject_Z_plus, <- L. change (inject_Z 5) with 5%Q. change (inject_Z 99) with 99%Q. lra. }
        rewrite <- Zlt_Qlt in Y. lia. }
      specialize (IH (S k) ltac:(lia) (last + 5)%Q).
      assert (Y : (last + 5 == inject_Z (5 * Z.of_nat (S k)))%Q).
      { rewrite L. replace (5 * Z.of_nat (S k))%Z with (5 * Z.of_nat k + 5)%Z by lia. rewrite inject_Z_plus. reflexivity. }
      specialize (IH Y). lia.
    + cbn [app]. now apply IH.
Qed.

(** Updates in steps of less than five per cent. *)
Fixpoint steady (prev : Q) (ps : list Q) : Prop :=
  match ps with
  | [] => True
  | p :: ps' => (p * 100 < prev + 5)%Q /\ (p * 100 < 99)%Q /\ steady (p * 100) ps'
  end.

Lemma simple_steady : forall ps last prev, (prev < last + 5)%Q -> steady prev ps ->
  forall j, (j < length (runSimple true last ps))%nat ->
  (last + 5 * inject_Z (Z.of_nat (S j)) <= nth j (runSimple true last ps) 0)%Q /\
  (nth j (runSimple true last ps) 0 < last + 5 * inject_Z (Z.of_nat (S j)) + 5)%Q.
Proof.
  induction ps as [|p ps IH]; intros last prev P S j J; [cbn in J; lia|].
  destruct S as (S1 & S2 & S3). cbn [runSimple] in *. unfold simpleUpdate in *. cbn [andb] in *.
  destruct (qle_split 99 (p * 100)) as [[E X]|[E X]]; rewrite E in *; cbn [orb] in *; [lra|].
  destruct (qle_split (last + 5) (p * 100)) as [[E2 X2]|[E2 X2]]; rewrite E2 in *; cbn [app] in *.
  - destruct j as [|j]; cbn [nth].
    + change (inject_Z (Z.of_nat 1)) with 1%Q. split; lra.
    + cbn [length] in J. destruct (IH (last + 5)%Q (p * 100)%Q ltac:(lra) S3 j ltac:(lia)) as [A B].
      replace (Z.of_nat (S (S j))) with (Z.of_nat (S j) + 1)%Z by lia. rewrite inject_Z_plus. change (inject_Z 1) with 1%Q.
      split; lra.
  - destruct (IH last (p * 100)%Q ltac:(lra) S3 j J) as [A B]. split; assumption.
Qed.

(** The simple progress messages number at most 19 below 99 per cent, and
    with work in small steps the j-th one appears between 5 j and 5 j + 5
    per cent. *)
Theorem c152_simple : forall ps,
  (length (filter (fun pc => negb (Qle_bool 99 pc)) (runSimple true 0 ps)) <= 19)%nat /\
  (steady 0 ps -> forall j, (j < length (runSimple true 0 ps))%nat ->
    (5 * inject_Z (Z.of_nat (S j)) <= nth j (runSimple true 0 ps) 0)%Q /\
    (nth j (runSimple true 0 ps) 0 < 5 * inject_Z (Z.of_nat (S j)) + 5)%Q).
Proof.
  intros ps. split.
  - apply (simple_count ps 0); [lia|reflexivity].
  - intros S j J. destruct (simple_steady ps 0 0 ltac:(lra) S j J). split; lra.
Qed.

Lemma path_eqb_iff a b : path_eqb a b = true <-> a = b.
Proof. unfold path_eqb. destruct (list_eq_dec string_dec a b); split; congruence. Qed.

Lemma ensure_spec : forall qs (fs : fsys), (forall q, In q qs -> fs q <> File) ->
  exists g : fsys, fold_left ensure qs (Some fs) = Some g /\ (forall q, In q qs -> g q = Dir) /\
    (forall q, fs q <> Absent -> g q = fs q) /\ (forall q, ~ In q qs -> g q = fs q).
Proof.
  induction qs as [|q qs IH]; intros fs H.
  - exists fs. split; [reflexivity|]. split; [intros q []|]. split; reflexivity.
  - cbn [fold_left ensure]. pose proof (H q (or_introl eq_refl)) as Hq.
    assert (HD : fs q = Dir \/ fs q = Absent) by (destruct (fs q); auto; congruence).
    destruct HD as [D|D]; rewrite D.
    + destruct (IH fs) as (g & A & B & C & E); [intros; apply H; now right|].
      exists g. split; [exact A|]. split; [|split; [exact C|]].
      * intros r [<-|I]; [rewrite C; congruence|now apply B].
      * intros r N. apply E. intros I. apply N. now right.
    + destruct (IH (mkdir fs q)) as (g & A & B & C & E).
      { intros r I. unfold mkdir. destruct (path_eqb r q); [discriminate|]. apply H. now right. }
      exists g. split; [exact A|]. split; [|split].
      * intros r [<-|I]; [|now apply B].
        assert (X : mkdir fs q q = Dir) by (unfold mkdir; now rewrite (proj2 (path_eqb_iff q q) eq_refl)).
        rewrite C; [exact X|rewrite X; discriminate].
      * intros r N. assert (X : mkdir fs q r = fs r).
        { unfold mkdir. destruct (path_eqb r q) eqn:Er; [apply path_eqb_iff in Er; congruence|reflexivity]. }
        rewrite C; [exact X|]. now rewrite X.
      * intros r N. rewrite E by (intros I; apply N; now right). unfold mkdir.
        destruct (path_eqb r q) eqn:Er; [apply path_eqb_iff in Er; subst; exfalso; apply N; now left|reflexivity].
Qed.

Definition isPrefix (q p : path) : Prop := q <> [] /\ exists r, p = q ++ r.

Lemma in_ancestors q p : In q (ancestors p) <-> isPrefix q p /\ q <> p.
Proof.
  unfold ancestors, isPrefix. rewrite in_map_iff. split.
  - intros (n & <- & I). apply in_seq in I. split; [split|].
    + intros E. apply (f_equal (@length _)) in E. rewrite firstn_length in E. cbn in E. lia.
    + exists (skipn n p). symmetry. apply firstn_skipn.
    + intros E. apply (f_equal (@length _)) in E. rewrite firstn_length in E. lia.
  - intros [[N (r & E)] D]. exists (length q). split.
    + rewrite E. rewrite firstn_app, Nat.sub_diag, firstn_all. cbn. apply app_nil_r.
    + apply in_seq. destruct q as [|x q]; [congruence|]. destruct r as [|y r]; [rewrite app_nil_r in E; congruence|].
      rewrite E, app_length. cbn. lia.
Qed.

Lemma makeMissing_spec : forall (fs : fsys) p, p <> [] -> (forall q, isPrefix q p -> fs q <> File) ->
  exists g : fsys, makeMissing (Some fs) p = Some g /\ g p = Dir /\ (forall q, fs q <> Absent -> g q = fs q) /\
    (forall q, ~ isPrefix q p -> g q = fs q) /\ (forall q, g q = File -> fs q = File).
Proof.
  intros fs p Np H. cbn [makeMissing].
  assert (Pp : isPrefix p p) by (split; [exact Np|exists []; now rewrite app_nil_r]).
  assert (HD : fs p = Dir \/ fs p = Absent) by (pose proof (H p Pp); destruct (fs p); auto; congruence).
  destruct HD as [D|D]; rewrite D.
  - exists fs. split; [reflexivity|]. split; [exact D|]. split; [reflexivity|]. split; [reflexivity|]. trivial.
  - destruct (ensure_spec (ancestors p) fs) as (g & A & B & C & E).
    { intros q I. apply in_ancestors in I. apply H, I. }
    unfold makedirs. rewrite A.
    assert (Gp : g p = Absent) by (rewrite E; [exact D|]; intros I; apply in_ancestors in I; tauto). rewrite Gp.
    exists (mkdir g p). split; [reflexivity|].
    assert (X : forall q, mkdir g p q = if path_eqb q p then Dir else g q) by reflexivity.
    split; [rewrite X; now rewrite (proj2 (path_eqb_iff p p) eq_refl)|]. split; [|split].
    + intros q N. rewrite X. destruct (path_eqb q p) eqn:Eq; [apply path_eqb_iff in Eq; congruence|]. now apply C.
    + intros q N. rewrite X. destruct (path_eqb q p) eqn:Eq; [apply path_eqb_iff in Eq; subst; contradiction|].
      apply E. intros I. apply in_ancestors in I. tauto.
    + intros q F. rewrite X in F. destruct (path_eqb q p) eqn:Eq; [discriminate|].
      destruct (in_dec (list_eq_dec string_dec) q (ancestors p)) as [I|I]; [rewrite (B q I) in F; discriminate|]. now rewrite E in F.
Qed.

Lemma makeMissing_all : forall ps (fs : fsys), (forall p, In p ps -> p <> []) ->
  (forall p q, In p ps -> isPrefix q p -> fs q <> File) ->
  exists g : fsys, fold_left makeMissing ps (Some fs) = Some g /\ (forall p, In p ps -> g p = Dir) /\
    (forall q, fs q <> Absent -> g q = fs q) /\ (forall q, g q <> fs q -> exists p, In p ps /\ isPrefix q p).
Proof.
  induction ps as [|p ps IH]; intros fs N H.
  - exists fs. split; [reflexivity|]. split; [intros p []|]. split; [reflexivity|]. intros q C. congruence.
  - cbn [fold_left]. destruct (makeMissing_spec fs p (N p (or_introl eq_refl))) as (g1 & A & B & C & D & F).
    { intros q I. apply (H p q); [now left|exact I]. }
    rewrite A. destruct (IH g1) as (g & A2 & B2 & C2 & D2).
    + intros r I. apply N. now right.
    + intros r q I P X. apply F in X. now apply (H r q (or_intror I) P).
    + exists g. split; [exact A2|]. split; [|split].
      * intros r [<-|I]; [|now apply B2]. rewrite C2; [exact B|rewrite B; discriminate].
      * intros q X. rewrite C2; [now apply C|]. rewrite C by exact X. exact X.
      * intros q X. destruct (in_dec (list_eq_dec string_dec) q (p :: ancestors p)) as [I|I].
        -- exists p. split; [now left|]. destruct I as [<-|I]; [|now apply in_ancestors in I].
           split; [apply N; now left|exists []; now rewrite app_nil_r].
        -- assert (Np : ~ isPrefix q p).
           { intros P. apply I. destruct (list_eq_dec string_dec q p) as [->|Ne]; [now left|right; now apply in_ancestors]. }
           rewrite <- (D q Np) in X. destruct (D2 q X) as (r & R1 & R2). exists r. split; [now right|exact R2].
Qed.

(** Unless a file is in the way, the output directory and all directories
    under it exist afterwards, nothing that existed is touched, and nothing
    else is created; doing it again changes nothing. *)
Theorem c152_directories : forall (fs : fsys) out subdirs, out <> [] ->
  (forall s q, s = [] \/ In s subdirs -> isPrefix q (out ++ s) -> fs q <> File) ->
  exists g : fsys, createOutput fs out subdirs = Some g /\ g out = Dir /\ (forall s, In s subdirs -> g (out ++ s) = Dir) /\
    (forall q, fs q <> Absent -> g q = fs q) /\
    (forall q, g q <> fs q -> exists s, (s = [] \/ In s subdirs) /\ isPrefix q (out ++ s)) /\
    createOutput g out subdirs = Some g.
Proof.
  intros fs out subdirs N H. unfold createOutput.
  destruct (makeMissing_all (out :: map (fun s => out ++ s) subdirs) fs) as (g & A & B & C & D).
  - intros p [<-|I]; [exact N|]. apply in_map_iff in I as (s & <- & _). intros E. apply app_eq_nil in E. tauto.
  - intros p q [<-|I] P.
    + apply (H [] q); [now left|now rewrite app_nil_r].
    + apply in_map_iff in I as (s & <- & I). apply (H s q); [now right|exact P].
  - exists g. split; [exact A|]. split; [apply B; now left|]. split; [|split; [exact C|split]].
    + intros s I. apply B. right. apply in_map_iff. now exists s.
    + intros q X. destruct (D q X) as (p & [<-|I] & P).
      * exists []. split; [now left|]. now rewrite app_nil_r.
      * apply in_map_iff in I as (s & <- & I). exists s. split; [now right|exact P].
    + assert (Y : forall l, (forall p, In p l -> g p = Dir) -> fold_left makeMissing l (Some g) = Some g); [|now apply Y].
      clear. induction l as [|p l IH]; intros B; [reflexivity|]. cbn [fold_left makeMissing]. rewrite (B p (or_introl eq_refl)).
      apply IH. intros q I. apply B. now right.
Qed.

(** Processes starting with all directories present never raise. *)
Theorem c152_present : forall (fs : fsys) ps st, (forall l p, In (Running l) ps -> In p l -> fs p = Dir) ->
  (forall x, In x ps -> exists l, x = Running l) ->
  star dstep (fs, ps) st -> fst st = fs /\ ~ In Raised (snd st).
Proof.
  intros fs ps st H R S.
  set (I := fun s : fsys * list proc => fst s = fs /\ (forall l p, In (Running l) (snd s) -> In p l -> fs p = Dir) /\
            (forall x, In x (snd s) -> exists l, x = Running l)).
  assert (I st) as (I1 & I2 & I3).
  { apply (star_inv dstep I (fs, ps) st); [split; [reflexivity|split; assumption]| |exact S].
    intros s t (A & B & C) D. destruct D as [f a b p l E|f a b p l E|f g a b p l E|f a b p l E]; cbn [fst snd] in *; subst f.
    - split; [reflexivity|]. cbn [fst snd]. split.
      + intros l' q J K. apply in_app_iff in J as [J|[J|J]].
        * apply (B l' q); [apply in_app_iff; now left|exact K].
        * injection J as <-. apply (B (p :: l) q); [apply in_app_iff; right; now left|now right].
        * apply (B l' q); [apply in_app_iff; right; now right|exact K].
      + intros x J. apply in_app_iff in J as [J|[J|J]]; [apply C, in_app_iff; now left|now exists l|apply C, in_app_iff; right; now right].
    - exfalso. apply E. apply (B (p :: l) p); [apply in_app_iff; right; now left|now left].
    - destruct (C (Making p l)) as (l' & X); [apply in_app_iff; right; now left|discriminate].
    - destruct (C (Making p l)) as (l' & X); [apply in_app_iff; right; now left|discriminate]. }
  split; [exact I1|]. intros J. destruct (I3 Raised J) as (l & X). discriminate.
Qed.

(** The map of an event shows exactly the grid points inside the window, in
    order, each value at its own position. *)
Theorem c152_window : forall (V : Type) (d : V) xMin xMax yMin yMax xs ys v wx wy wv,
  window d xMin xMax yMin yMax xs ys v = Some (wx, wy, wv) ->
  exists f g : nat -> nat,
    (forall a b, (a < b < length wx)%nat -> (f a < f b)%nat) /\ (forall a b, (a < b < length wy)%nat -> (g a < g b)%nat) /\
    (forall i, (i < length xs)%nat /\ (xMin <= nth i xs 0 <= xMax)%Q <-> exists a, (a < length wx)%nat /\ f a = i) /\
    (forall j, (j < length ys)%nat /\ (yMin <= nth j ys 0 <= yMax)%Q <-> exists b, (b < length wy)%nat /\ g b = j) /\
    (forall a, (a < length wx)%nat -> nth a wx 0%Q = nth (f a) xs 0%Q) /\
    (forall b, (b < length wy)%nat -> nth b wy 0%Q = nth (g b) ys 0%Q) /\
    length wv = length wy /\
    (forall a b, (a < length wx)%nat -> (b < length wy)%nat -> nth a (nth b wv []) d = nth (f a) (nth (g b) v []) d).
Proof.
  intros V d xMin xMax yMin yMax xs ys v wx wy wv H. unfold window in H.
  set (ii := whereIn xMin xMax xs) in *. set (jj := whereIn yMin yMax ys) in *.
  assert (E : Some (map (fun i => nth i xs 0%Q) ii, map (fun j => nth j ys 0%Q) jj, map (fun j => map (fun i => nth i (nth j v []) d) ii) jj) = Some (wx, wy, wv)).
  { destruct ii; [discriminate|]. destruct jj; [discriminate|]. exact H. }
  injection E as <- <- <-. clear H.
  assert (W : forall lo hi l, (forall a b, (a < b < length (whereIn lo hi l))%nat -> (nth a (whereIn lo hi l) 0 < nth b (whereIn lo hi l) 0)%nat) /\
     forall i, (i < length l)%nat /\ (lo <= nth i l 0 <= hi)%Q <-> exists a, (a < length (whereIn lo hi l))%nat /\ nth a (whereIn lo hi l) 0%nat = i).
  { intros lo hi l. split.
    - unfold whereIn. assert (S : forall n s, StronglySorted lt (filter (fun i => inside lo hi (nth i l 0%Q)) (seq s n))).
      { induction n as [|n IH]; intros s; [constructor|]. cbn [seq filter]. destruct (inside lo hi (nth s l 0%Q)); [|apply IH].
        constructor; [apply IH|]. apply Forall_forall. intros x I. apply filter_In in I as [I _]. apply in_seq in I. lia. }
      specialize (S (length l) 0%nat). revert S. generalize (filter (fun i => inside lo hi (nth i l 0%Q)) (seq 0 (length l))).
      clear. intros l0. induction l0 as [|x l0 IH]; intros S a b [A B]; [cbn in B; lia|].
      inversion S as [|? ? S' F]; subst. rewrite Forall_forall in F. destruct b as [|b]; [lia|]. cbn in B. destruct a as [|a]; cbn [nth].
      + apply F. apply nth_In. lia.
      + apply IH; [exact S'|lia].
    - intros i. unfold whereIn. split.
      + intros [L [A B]].
        assert (I : In i (filter (fun i => inside lo hi (nth i l 0%Q)) (seq 0 (length l)))).
        { apply filter_In. split; [apply in_seq; lia|]. unfold inside. apply andb_true_iff. split; now apply Qle_bool_iff. }
        apply In_nth with (d := 0%nat) in I as (a & A1 & A2). now exists a.
      + intros (a & A1 & A2). assert (I : In i (filter (fun i => inside lo hi (nth i l 0%Q)) (seq 0 (length l)))) by (rewrite <- A2; now apply nth_In).
        apply filter_In in I as [I1 I2]. apply in_seq in I1. unfold inside in I2. apply andb_true_iff in I2 as [I2 I3].
        apply Qle_bool_iff in I2, I3. split; [lia|]. now split. }
  exists (fun a => nth a ii 0%nat), (fun b => nth b jj 0%nat). rewrite !map_length.
  destruct (W xMin xMax xs) as [W1 W2]. destruct (W yMin yMax ys) as [W3 W4].
  split; [exact W1|]. split; [exact W3|]. split; [exact W2|]. split; [exact W4|].
  assert (NM : forall (X : Type) (h : nat -> X) (l : list nat) k e, (k < length l)%nat -> nth k (map h l) e = h (nth k l 0%nat)).
  { intros X h l k e K. rewrite (nth_indep _ e (h 0%nat)) by (now rewrite map_length). apply map_nth. }
  split; [intros a A; now apply (NM Q (fun i => nth i xs 0%Q))|]. split; [intros b B; now apply (NM Q (fun i => nth i ys 0%Q))|]. split; [reflexivity|].
  intros a b A B. rewrite (NM _ (fun j => map (fun i => nth i (nth j v []) d) ii)) by exact B.
  apply (NM V (fun i => nth i (nth (nth b jj 0%nat) v []) d)). exact A.
Qed.

(** The single cyclone of a text file is the one plotted. *)
Theorem c152_event : forall input, ends_with (lit ".nc") input = false ->
  forall id, In id (csvIds 1) -> plotFile input = Some (gust_name id).
Proof. intros input E id [<-|[]]. unfold plotFile. rewrite E. reflexivity. Qed.

(** Different wind fields get different impact tables. *)
Theorem c152_impact : forall a b, impactName (gust_name a) = impactName (gust_name b) -> a = b.
Proof.
  intros a b H. apply gust_name_inj.
  assert (E : forall id, exists w, gust_name id = w ++ lit ".nc" /\ impactName (gust_name id) = w ++ lit ".csv").
  { intros id. exists (lit "gust." ++ padded 3 (fst id) ++ lit "-" ++ padded 5 (snd id)).
    assert (X : gust_name id = (lit "gust." ++ padded 3 (fst id) ++ lit "-" ++ padded 5 (snd id)) ++ lit ".nc").
    { unfold gust_name. now rewrite <- !app_assoc. }
    set (w := lit "gust." ++ padded 3 (fst id) ++ lit "-" ++ padded 5 (snd id)) in *. clearbody w.
    split; [exact X|]. unfold impactName. rewrite X, app_length. change (length (lit ".nc")) with 3.
    replace (length w + 3 - 3) with (length w) by lia.
    rewrite firstn_app, Nat.sub_diag, firstn_all. cbn [firstn]. now rewrite app_nil_r. }
  destruct (E a) as (w & A1 & A2). destruct (E b) as (w' & B1 & B2).
  rewrite A2, B2 in H. apply app_inv_tail in H. subst. now rewrite A1, B1.
Qed.

Example c152_example :
  map m_percent (progressBar true true 40 [(0, 0); (1 # 3, 10); (1 # 3, 11); (1, 30)]%Q) = [0; 33; 100]%Z /\
  runSimple true 0 [4 # 100; 6 # 100; 9 # 100; 11 # 100]%Q = [(6 # 100) * 100; (11 # 100) * 100]%Q /\
  hms (7384 # 1) = (2%Z, 3%Q, 4%Q) /\
  (exists g, createOutput (fun q => if path_eqb q ["out"%string] then Dir else Absent) ["out"%string] tcrmDirs = Some g /\
     g ["out"; "process"; "dat"]%string = Dir) /\
  window 0 0 1 0 1 [-1; 0; 1]%Q [0; 2]%Q [[1; 2; 3]; [4; 5; 6]] = Some ([0; 1]%Q, [0]%Q, [[2; 3]]).
Proof.
  split; [reflexivity|]. split; [reflexivity|]. split; [reflexivity|]. split; [|reflexivity].
  eexists. split; reflexivity.
Qed.

(** * C153 *)

(** Refuted: the option ProgressBar=False switches the progress bar off. *)
Theorem c153_setting_refuted : forall (txt : string) width p t, txt <> EmptyString ->
  progressBar true (showSetting txt) width [(p, t)] <> [].
Proof. intros [|c s] width p t N; [congruence|]. cbn. discriminate. Qed.

(** Refuted: progress messages come at least five per cent apart, and once
    at the end: after a jump every update prints, and every update from 99
    per cent on does. *)
Theorem c153_throttle_refuted :
  (forall n : nat, (n <= 8)%nat -> length (runSimple true 0 (repeat (50 # 100)%Q n)) = n) /\
  (forall n last, length (runSimple true last (repeat 1%Q n)) = n).
Proof.
  split.
  - intros n N. do 9 (destruct n as [|n]; [reflexivity|]). lia.
  - induction n as [|n IH]; intros last; [reflexivity|]. cbn [repeat runSimple]. unfold simpleUpdate. cbn [andb].
    change (Qle_bool 99 (1 * 100)) with true. cbn [orb app length]. now rewrite IH.
Qed.

(** Refuted: several processes can prepare the directories of an event
    side by side: if the output directory is missing, one may raise. *)
Theorem c153_race_refuted : forall (fs : fsys) out l, out <> [] -> fs out = Absent ->
  (forall q, isPrefix q out -> fs q <> File) ->
  exists g, star dstep (fs, [Running (out :: l); Running (out :: l)]) (g, [Running l; Raised]).
Proof.
  intros fs out l N A H.
  destruct (makeMissing_spec fs out N H) as (g & M & D & _). cbn [makeMissing] in M. rewrite A in M.
  exists g.
  assert (F : makedirs g out = None).
  { unfold makedirs. destruct (fold_left ensure (ancestors out) (Some g)) as [k|] eqn:E; [|reflexivity].
    assert (K : k out = Dir).
    { assert (G : forall qs st k, fold_left ensure qs (Some st) = Some k -> st out = Dir -> k out = Dir).
      { induction qs as [|q qs IH]; intros st k' E' S; [cbn in E'; congruence|]. cbn [fold_left ensure] in E'.
        destruct (st q) eqn:Sq.
        - apply (IH _ _ E'). unfold mkdir. now destruct (path_eqb out q).
        - now apply (IH _ _ E').
        - exfalso. clear - E'. induction qs as [|r qs IH]; [discriminate|]. exact (IH E'). }
      now apply (G _ _ _ E). }
    now rewrite K. }
  apply star_step with (g, [Running l; Making out l]).
  - apply star_step with (fs, [Making out l; Making out l]).
    + apply star_step with (fs, [Making out l; Running (out :: l)]).
      * apply star_step with (fs, [Running (out :: l); Running (out :: l)]); [apply star_refl|].
        apply (d_missing fs [] [Running (out :: l)]). congruence.
      * apply (d_missing fs [Making out l] []). congruence.
    + apply (d_make fs g [] [Making out l]). exact M.
  - apply (d_fail g [Running l] []). exact F.
Qed.

(** Refuted: the map of an event taken from a simulation shows one of its
    tracks: the file looked for is never one that is written. *)
Theorem c153_simulation_refuted : forall s id f, plotFile (simFile s) = Some f -> f <> gust_name id.
Proof.
  intros s id f H.
  assert (ND : forall w n, ~ In "."%char (padded w n)).
  { intros w n I. pose proof (padded_digits w n) as D. unfold digits in D. rewrite Forall_forall in D. specialize (D _ I). discriminate. }
  assert (SP : forall (w r : str), ~ In "."%char w -> splitStr "."%char (w ++ "."%char :: r) = w :: splitStr "."%char r).
  { induction w as [|c w IH]; intros r N; cbn [app splitStr].
    - reflexivity.
    - destruct (Ascii.eqb_spec c "."%char) as [->|Ne]; [exfalso; apply N; now left|].
      rewrite IH by (intros I; apply N; now right). reflexivity. }
  unfold plotFile in H.
  replace (ends_with (lit ".nc") (simFile s)) with true in H.
  2:{ symmetry. unfold ends_with, simFile. rewrite !rev_app_distr. reflexivity. }
  assert (E : splitStr "."%char (simFile s) = lit "tracks" :: padded 5 s :: [lit "nc"]).
  { unfold simFile. change (lit "tracks." ++ padded 5 s ++ lit ".nc") with (lit "tracks" ++ "."%char :: padded 5 s ++ lit ".nc").
    rewrite SP; [|cbn; intuition discriminate].
    change (padded 5 s ++ lit ".nc") with (padded 5 s ++ "."%char :: lit "nc"). rewrite SP by apply ND. reflexivity. }
  rewrite E in H. injection H as <-. intros C. unfold gust_name in C.
  apply (f_equal (fun l => In "-"%char l)) in C.
  assert (X : In "-"%char (lit "gust." ++ padded 5 s ++ lit ".nc")).
  { change (("g" :: "u" :: "s" :: "t" :: "." :: padded 5 s ++ ["."; "n"; "c"])%char) with (lit "gust." ++ padded 5 s ++ lit ".nc") in C.
    rewrite C. apply in_app_iff. right. apply in_app_iff. right. now left. }
  apply in_app_iff in X as [X|X]; [cbn in X; intuition discriminate|].
  apply in_app_iff in X as [X|X]; [|cbn in X; intuition discriminate].
  pose proof (padded_digits 5 s) as D. unfold digits in D. rewrite Forall_forall in D. specialize (D _ X). discriminate.
Qed.

(** Refuted: the map shows one of the events of the input: with several
    cyclones in a text file, or an xml file with one, no event written has
    the name looked for. *)
Theorem c153_events_refuted :
  (forall input n id, ends_with (lit ".nc") input = false -> (2 <= n)%nat -> In id (csvIds n) -> plotFile input <> Some (gust_name id)) /\
  (forall input id, ends_with (lit ".nc") input = false -> In id (xmlIds 1) -> plotFile input <> Some (gust_name id)).
Proof.
  assert (G : forall id, Some (lit "gust.001-00001.nc") = Some (gust_name id) -> id = (1, 1)).
  { intros id E. symmetry. apply gust_name_inj.
    assert (X : Some (gust_name (1, 1)) = Some (gust_name id)) by exact E. now apply Some_inj in X. }
  split.
  - intros input n id E N I H. unfold plotFile in H. rewrite E in H. apply G in H. subst id.
    apply in_map_iff in I as (i & X & _). injection X as _ X. lia.
  - intros input id E I H. unfold plotFile in H. rewrite E in H. apply G in H. subst id. destruct I as [I|[]]. discriminate.
Qed.

(** Refuted: a configuration with an Impact section and no actions has its
    impact calculated: the Actions section is always there. *)
Theorem c153_impact_refuted : forall sections, In "Impact"%string sections -> runImpact sections None = Some false.
Proof. intros sections _. reflexivity. Qed.

Example c153_example :
  showSetting "False" = true /\ plotFile (simFile 7) = Some (lit "gust.00007.nc") /\
  map gust_name (simIds 1 7) = [lit "gust.000-00007.nc"] /\
  runImpact ["Impact"%string] (Some "yes"%string) = Some true.
Proof. repeat split. Qed.

Print Assumptions c152_bar.
Print Assumptions c152_percentages.
Print Assumptions c152_remaining.
Print Assumptions c152_timer.
Print Assumptions c152_simple.
Print Assumptions c152_directories.
Print Assumptions c152_present.
Print Assumptions c152_window.
Print Assumptions c152_event.
Print Assumptions c152_impact.
Print Assumptions c153_setting_refuted.
Print Assumptions c153_throttle_refuted.
Print Assumptions c153_race_refuted.
Print Assumptions c153_simulation_refuted.
Print Assumptions c153_events_refuted.
Print Assumptions c153_impact_refuted.
