(** Properties C146 and C147: wind field evolution files. *)
From Coq Require Import List QArith Qround Qfield ZArith Bool Lia Lqa.
From Verif Require Import Base CellModel GenModel CellProofs GenProofs LoadProofs LoadProofs3 WriterModel.
Import ListNotations.
Local Open Scope Z_scope.

(** Rounding to the nearest integer. *)
Lemma rint_near : forall x k, (inject_Z k - (1 # 2) < x)%Q -> (x < inject_Z k + (1 # 2))%Q -> rint x = k.
Proof.
  intros x k H1 H2. pose proof (rint_half x) as H.
  assert (A : (inject_Z (rint x) < inject_Z (k + 1))%Q) by (rewrite inject_Z_plus; change (inject_Z 1) with 1%Q; lra).
  assert (B : (inject_Z (k - 1) < inject_Z (rint x))%Q)
    by (unfold Z.sub; rewrite inject_Z_plus; change (inject_Z (-(1))) with (-(1))%Q; lra).
  rewrite <- Zlt_Qlt in A, B. lia.
Qed.

Lemma index_near : forall a c k d, (0 < fa_res a)%Q ->
  (c == fa_start a + d + inject_Z k * fa_res a)%Q ->
  (- (fa_res a) < 2 * d)%Q -> (2 * d < fa_res a)%Q -> fa_index a c = k.
Proof.
  intros a c k d P E L U. unfold fa_index.
  assert (X : ((c - fa_start a) / fa_res a == inject_Z k + d / fa_res a)%Q).
  { rewrite E. field. lra. }
  assert (D1 : (d / fa_res a < 1 # 2)%Q).
  { apply Qlt_shift_div_r; [exact P|]. lra. }
  assert (D2 : (- (1 # 2) < d / fa_res a)%Q).
  { apply Qlt_shift_div_l; [exact P|]. lra. }
  apply rint_near; rewrite X; lra.
Qed.

Lemma hd_nth : forall {A} (l : list A) d, hd d l = nth 0 l d.
Proof. now intros A [|]. Qed.

Lemma last_nth' : forall {A} (l : list A) d, last l d = nth (length l - 1) l d.
Proof.
  intros A l d. induction l as [|x l IH]; [reflexivity|].
  destruct l as [|y l]; [reflexivity|].
  change (last (x :: y :: l) d) with (last (y :: l) d). rewrite IH.
  cbn [length]. replace (S (S (length l)) - 1)%nat with (S (S (length l) - 1)) by lia. reflexivity.
Qed.

(** * C146 *)

(** A window whose coordinates are those of the file, or off by less than
    half a cell, is written to the cells nearest to its points. *)
Theorem c146_nearest : forall (a : faxis) (cs : list Q) (k0 : Z) (d : Q),
  (0 < fa_res a)%Q -> cs <> [] ->
  (- (fa_res a) < 2 * d)%Q -> (2 * d < fa_res a)%Q ->
  (forall n, (n < length cs)%nat ->
     (nth n cs 0 == fa_start a + d + inject_Z (k0 + Z.of_nat n) * fa_res a)%Q) ->
  fa_slice a cs = (k0, k0 + Z.of_nat (length cs)).
Proof.
  intros a cs k0 d P N L U H.
  assert (0 < length cs)%nat by (destruct cs; [now elim N|cbn; lia]).
  unfold fa_slice. rewrite hd_nth, last_nth'.
  rewrite (index_near a (nth 0 cs 0%Q) (k0 + Z.of_nat 0) d P (H 0%nat ltac:(lia)) L U).
  rewrite (index_near a (nth (length cs - 1) cs 0%Q) (k0 + Z.of_nat (length cs - 1)) d P
             (H (length cs - 1)%nat ltac:(lia)) L U).
  apply f_equal2; lia.
Qed.

(** The file of a domain that is a whole number of cells, all in hundredths
    of a degree, has the points of the regional grid, and every window of
    the regional grid is written to the cells with its own coordinates. *)
Theorem c146_place : forall a b m s N k0 k1 : Z,
  0 < s -> b - a + 2 * m = s * N -> 0 <= k0 -> k0 < k1 -> k1 <= N + 1 ->
  let q z := (inject_Z z / 100)%Q in
  let ax := fileAxis (q a) (q b) (q m) (q s) in
  fa_len ax = gridLen (a - m) (b + m) s /\
  fa_slice ax (gridWindow (a - m) s k0 k1) = (k0, k1) /\
  fits ax (gridWindow (a - m) s k0 k1) = true /\
  forall k, 0 <= k <= N -> (fa_coord ax k == gridCoord (a - m) s k)%Q.
Proof.
  intros a b m s N k0 k1 S E K0 K1 KN q ax.
  assert (Sq : (0 < inject_Z s)%Q) by (change 0%Q with (inject_Z 0); now rewrite <- Zlt_Qlt).
  assert (Rq : (0 < fa_res ax)%Q).
  { unfold ax, q, fileAxis. cbn [fa_res]. apply Qlt_shift_div_l; [reflexivity|]. lra. }
  assert (W : (fa_stop ax - fa_start ax == inject_Z (s * N) / 100)%Q).
  { unfold ax, q, fileAxis. cbn [fa_start fa_stop]. rewrite <- E.
    unfold Z.sub. rewrite !inject_Z_plus, inject_Z_opp, inject_Z_mult. change (inject_Z 2) with 2%Q. field. }
  assert (Len : fa_len ax = N + 1).
  { unfold fa_len. rewrite (rint_proper _ (inject_Z N)); [now rewrite rint_int|].
    rewrite W. unfold ax, q, fileAxis. cbn [fa_res]. rewrite inject_Z_mult. field. lra. }
  assert (Wn : length (gridWindow (a - m) s k0 k1) = Z.to_nat (k1 - k0)).
  { unfold gridWindow. now rewrite map_length, seq_length. }
  assert (SL : fa_slice ax (gridWindow (a - m) s k0 k1) = (k0, k1)).
  { rewrite (c146_nearest ax (gridWindow (a - m) s k0 k1) k0 0 Rq).
    - rewrite Wn. apply f_equal2; lia.
    - intros Z. apply (f_equal (@length _)) in Z. rewrite Wn in Z. cbn in Z. lia.
    - lra.
    - lra.
    - intros n L. rewrite Wn in L. unfold gridWindow.
      rewrite nth_indep with (d' := gridCoord (a - m) s (k0 + Z.of_nat 0))
        by (rewrite map_length, seq_length; lia).
      rewrite (map_nth (fun n => gridCoord (a - m) s (k0 + Z.of_nat n)) (seq 0 (Z.to_nat (k1 - k0))) 0%nat n).
      rewrite seq_nth by lia. cbn [Nat.add]. unfold gridCoord, ax, q, fileAxis. cbn [fa_start fa_res].
      unfold Z.sub. rewrite !inject_Z_plus, inject_Z_opp, inject_Z_mult, inject_Z_plus. field. }
  split; [|split; [exact SL|split]].
  - rewrite Len. unfold gridLen. replace (- (b + m + s - (a - m))) with ((- (N + 1)) * s) by lia.
    rewrite Z.div_mul by lia. lia.
  - unfold fits. rewrite SL, Len, Wn.
    repeat (apply andb_true_iff; split); try apply Z.leb_le; try apply Z.ltb_lt; try apply Z.eqb_eq; lia.
  - intros k K. unfold fa_coord. rewrite Len.
    destruct (N + 1 =? 1) eqn:Z1.
    + apply Z.eqb_eq in Z1. assert (k = 0) by lia. subst k.
      unfold gridCoord, ax, q, fileAxis. cbn [fa_start]. rewrite Z.mul_0_l, Z.add_0_r.
      unfold Z.sub. rewrite inject_Z_plus, inject_Z_opp. field.
    + apply Z.eqb_neq in Z1. replace (N + 1 - 1) with N by lia. rewrite W.
      assert (Nq : ~ (inject_Z N == 0)%Q).
      { intros X. unfold Qeq in X. cbn in X. lia. }
      unfold gridCoord, ax, q, fileAxis. cbn [fa_start].
      unfold Z.sub. rewrite !inject_Z_plus, inject_Z_opp, !inject_Z_mult. field. exact Nq.
Qed.

Section Layers.
  Context {V : Type}.

  Lemma writeAll_spec : forall (cs : list (call V)) ax ay f f',
    (f_layers f = [] \/ f_units f <> None) ->
    writeAll ax ay f cs = Some f' ->
    Forall (fun c => fits ax (c_lon c) && fits ay (c_lat c) = true) cs /\
    (cs <> [] -> f_units f' <> None) /\
    (f_layers f <> [] -> f_units f' = f_units f) /\
    exists ls, f_layers f' = f_layers f ++ ls /\
      Forall2 (fun c l => (decode f' (fst l) == c_time c)%Q /\ snd l = window ax ay c) cs ls.
  Proof.
    induction cs as [|c cs IH]; intros ax ay f f' I H; cbn [writeAll] in H.
    - injection H as <-. split; [constructor|]. split; [intros X; now elim X|].
      split; [reflexivity|]. exists []. rewrite app_nil_r. split; [reflexivity|constructor].
    - unfold callFile in H. destruct (fits ax (c_lon c) && fits ay (c_lat c)) eqn:F; [|discriminate].
      set (units := match f_layers f with [] => _ | _ => _ end) in H.
      set (f1 := mkFile (Some units) _) in H.
      destruct (IH ax ay f1 f') as (Fa & Un & Keep & ls & El & F2).
      + right. discriminate.
      + exact H.
      + assert (N1 : f_layers f1 <> []) by (cbn; intros Z; destruct (f_layers f); discriminate Z).
        specialize (Keep N1). cbn [f_units f1] in Keep.
        split; [now constructor|]. split; [rewrite Keep; discriminate|]. split.
        { intros Nf. rewrite Keep. unfold units. destruct (f_layers f) as [|x l]; [now elim Nf|].
          destruct I as [I|I]; [discriminate I|]. destruct (f_units f); [reflexivity|now elim I]. }
        exists ((((c_time c - units) / 1440)%Q, window ax ay c) :: ls). split.
        * rewrite El. cbn [f_layers f1]. now rewrite <- app_assoc.
        * constructor; [|exact F2]. cbn [fst snd]. split; [|reflexivity].
          unfold decode. rewrite Keep. field.
  Qed.
End Layers.

(** A file holds one layer for each time step handed over, in that order,
    with its time; the layer holds the values of the window in its cells and
    the fill value elsewhere.  The file can be written exactly when every
    window fits. *)
Theorem c146_layers : forall (V : Type) (ax ay : faxis) (cs : list (call V)),
  (writeAll ax ay emptyFile cs <> None <->
   Forall (fun c => fits ax (c_lon c) && fits ay (c_lat c) = true) cs) /\
  forall f, writeAll ax ay emptyFile cs = Some f ->
    Forall2 (fun c l =>
      (decode f (fst l) == c_time c)%Q /\
      forall i j, snd l i j =
        let '(i0, i1) := fa_slice ay (c_lat c) in
        let '(j0, j1) := fa_slice ax (c_lon c) in
        if (i0 <=? i) && (i <? i1) && (j0 <=? j) && (j <? j1)
        then Some (c_val c (i - i0) (j - j0)) else None) cs (f_layers f).
Proof.
  intros V ax ay cs. split.
  - split.
    + intros N. destruct (writeAll ax ay emptyFile cs) as [f|] eqn:E; [|now elim N].
      apply (writeAll_spec cs ax ay emptyFile f); [now left|exact E].
    + generalize (@emptyFile V). induction cs as [|c cs IH]; intros f F; cbn [writeAll]; [discriminate|].
      inversion F as [|? ? F1 F2]; subst. unfold callFile. rewrite F1. now apply IH.
  - intros f E. destruct (writeAll_spec cs ax ay emptyFile f (or_introl eq_refl) E)
      as (_ & _ & _ & ls & El & F2). cbn [emptyFile f_layers app] in El. rewrite El.
    clear -F2. induction F2 as [|c l cs ls [H1 H2] F IH]; constructor; [|exact IH].
    split; [exact H1|]. intros i j. exact (f_equal (fun g : layer V => g i j) H2).
Qed.

(** The stored times count from the whole minute at which the first time
    step falls. *)
Theorem c146_reference : forall (V : Type) (ax ay : faxis) (c : call V) cs f,
  writeAll ax ay emptyFile (c :: cs) = Some f ->
  exists z, f_units f = Some (inject_Z z) /\ (inject_Z z <= c_time c)%Q /\ (c_time c < inject_Z (z + 1))%Q.
Proof.
  intros V ax ay c cs f H. exists (Qround.Qfloor (c_time c)).
  split; [|split; [apply Qround.Qfloor_le|apply Qround.Qlt_floor]].
  cbn [writeAll] in H. unfold callFile in H. cbn [emptyFile f_layers] in H.
  destruct (fits ax (c_lon c) && fits ay (c_lat c)); [|discriminate].
  match type of H with writeAll _ _ ?g _ = _ => destruct (writeAll_spec cs ax ay g f) as (_ & _ & U & _) end.
  - right. discriminate.
  - exact H.
  - rewrite U by discriminate. reflexivity.
Qed.

(** Together: with a domain that is a whole number of cells, every value of
    every time step is found in the file at its own time, longitude and
    latitude. *)
Theorem c146_value : forall (V : Type) a b m s N k0 k1 a' b' M k0' k1' t (val : Z -> Z -> V),
  0 < s -> b - a + 2 * m = s * N -> b' - a' + 2 * m = s * M ->
  0 <= k0 -> k0 < k1 -> k1 <= N + 1 -> 0 <= k0' -> k0' < k1' -> k1' <= M + 1 ->
  let q z := (inject_Z z / 100)%Q in
  let ax := fileAxis (q a) (q b) (q m) (q s) in
  let ay := fileAxis (q a') (q b') (q m) (q s) in
  exists f d l,
    writeAll ax ay emptyFile
      [mkCall t (gridWindow (a - m) s k0 k1) (gridWindow (a' - m) s k0' k1') val] = Some f /\
    f_layers f = [(d, l)] /\ (decode f d == t)%Q /\
    forall i j, k0' <= i < k1' -> k0 <= j < k1 ->
      l i j = Some (val (i - k0') (j - k0)) /\
      (fa_coord ax j == gridCoord (a - m) s j)%Q /\ (fa_coord ay i == gridCoord (a' - m) s i)%Q.
Proof.
  intros V a b m s N k0 k1 a' b' M k0' k1' t val S E E' K0 K1 KN K0' K1' KN' q ax ay.
  destruct (c146_place a b m s N k0 k1 S E K0 K1 KN) as (_ & SLx & FX & CX).
  destruct (c146_place a' b' m s M k0' k1' S E' K0' K1' KN') as (_ & SLy & FY & CY).
  change (fa_slice ax (gridWindow (a - m) s k0 k1) = (k0, k1)) in SLx.
  change (fits ax (gridWindow (a - m) s k0 k1) = true) in FX.
  change (fa_slice ay (gridWindow (a' - m) s k0' k1') = (k0', k1')) in SLy.
  change (fits ay (gridWindow (a' - m) s k0' k1') = true) in FY.
  destruct (c146_layers V ax ay
    [mkCall t (gridWindow (a - m) s k0 k1) (gridWindow (a' - m) s k0' k1') val]) as [OK L].
  destruct (writeAll _ _ _ _) as [f|] eqn:W.
  2: { exfalso. apply (proj2 OK); [|reflexivity]. constructor; [|constructor].
       cbn [c_lon c_lat]. now rewrite FX, FY. }
  specialize (L f eq_refl). inversion L as [|c l cs ls [H1 H2] F Ec El]; subst.
  inversion F; subst. destruct l as [d l]. exists f, d, l. cbn [c_time c_lon c_lat c_val fst snd] in *.
  split; [reflexivity|]. split; [now symmetry|]. split; [exact H1|].
  intros i j I J. rewrite H2, SLx, SLy. split.
  - replace ((k0' <=? i) && (i <? k1') && (k0 <=? j) && (j <? k1)) with true; [reflexivity|].
    symmetry. repeat (apply andb_true_iff; split); try apply Z.leb_le; try apply Z.ltb_lt; lia.
  - split; [apply CX; lia|apply CY; lia].
Qed.

Example c146_example :
  let ax := fileAxis (inject_Z 11000 / 100) (inject_Z 11500 / 100) 0 (inject_Z 50 / 100) in
  fa_len ax = 11 /\ fa_slice ax (gridWindow 11000 50 2 5) = (2, 5) /\
  fits ax (gridWindow 11000 50 2 5) = true.
Proof. repeat split. Qed.

(** * C147 *)

(** Refuted: the window of the local wind field fits into the file for every
    resolution.  regionalExtremes truncates the step to hundredths of a
    degree, the file does not: at 0.025 degrees the step is 0.02 and no
    window of four or more points fits, whatever the domain. *)
Theorem c147_resolution_refuted : forall (lo hi margin : Q) (n : nat), (4 <= n)%nat ->
  let ax := fileAxis lo hi margin (1 # 40) in
  fits ax (map (fun k => fa_start ax + inject_Z (Z.of_nat k) * (2 # 100))%Q (seq 0 n)) = false.
Proof.
  intros lo hi margin n L ax. unfold fits.
  set (cs := map _ _).
  assert (Ln : length cs = n) by (unfold cs; now rewrite map_length, seq_length).
  assert (Nth : forall k, (k < n)%nat -> nth k cs 0%Q = (fa_start ax + inject_Z (Z.of_nat k) * (2 # 100))%Q).
  { intros k K. unfold cs.
    rewrite nth_indep with (d' := (fa_start ax + inject_Z (Z.of_nat 0) * (2 # 100))%Q)
      by (rewrite map_length, seq_length; lia).
    rewrite (map_nth (fun k => fa_start ax + inject_Z (Z.of_nat k) * (2 # 100))%Q (seq 0 n) 0%nat k).
    now rewrite seq_nth by lia. }
  unfold fa_slice. rewrite hd_nth, last_nth', Ln, !Nth by lia.
  assert (I0 : fa_index ax (fa_start ax + inject_Z (Z.of_nat 0) * (2 # 100)) = 0).
  { unfold fa_index. rewrite (rint_proper _ (inject_Z 0)); [apply rint_int|].
    cbn [Z.of_nat]. unfold ax, fileAxis. cbn [fa_res fa_start]. field. }
  rewrite I0.
  set (x := fa_index ax (fa_start ax + inject_Z (Z.of_nat (n - 1)) * (2 # 100))).
  assert (X : (inject_Z x <= inject_Z (Z.of_nat (n - 1)) * (4 # 5) + (1 # 2))%Q).
  { unfold x, fa_index. pose proof (rint_half (((fa_start ax + inject_Z (Z.of_nat (n - 1)) * (2 # 100)) - fa_start ax) / fa_res ax)) as H.
    assert (Y : (((fa_start ax + inject_Z (Z.of_nat (n - 1)) * (2 # 100)) - fa_start ax) / fa_res ax
                == inject_Z (Z.of_nat (n - 1)) * (4 # 5))%Q).
    { unfold ax, fileAxis. cbn [fa_res fa_start]. field. }
    rewrite Y in H at 2 4. lra. }
  assert (C : x < Z.of_nat (n - 1)).
  { rewrite Zlt_Qlt.
    assert (3 <= inject_Z (Z.of_nat (n - 1)))%Q.
    { change 3%Q with (inject_Z 3). rewrite <- Zle_Qle. lia. }
    lra. }
  replace (x + 1 - 0 =? Z.of_nat n) with false; [now rewrite !andb_false_r|].
  symmetry. apply Z.eqb_neq. lia.
Qed.

(** Refuted: every domain can be recorded.  If the domain is a whole number
    of cells and less than half a cell more, the regional grid has one more
    point than the file, and no window that reaches it fits. *)
Theorem c147_remainder_refuted : forall a b m s N r k0 : Z,
  0 < r -> 2 * r < s -> b - a + 2 * m = s * N + r -> 0 <= N -> 0 <= k0 <= N + 1 ->
  let q z := (inject_Z z / 100)%Q in
  let ax := fileAxis (q a) (q b) (q m) (q s) in
  gridLen (a - m) (b + m) s = fa_len ax + 1 /\
  fits ax (gridWindow (a - m) s k0 (N + 2)) = false.
Proof.
  intros a b m s N r k0 R1 R2 E HN K q ax.
  assert (Sq : (0 < inject_Z s)%Q) by (change 0%Q with (inject_Z 0); rewrite <- Zlt_Qlt; lia).
  assert (Rp : (0 < inject_Z r)%Q) by (change 0%Q with (inject_Z 0); rewrite <- Zlt_Qlt; lia).
  assert (Rs : (2 * inject_Z r < inject_Z s)%Q)
    by (change 2%Q with (inject_Z 2); rewrite <- inject_Z_mult, <- Zlt_Qlt; lia).
  assert (Len : fa_len ax = N + 1).
  { unfold fa_len.
    assert (W : ((fa_stop ax - fa_start ax) / fa_res ax == inject_Z N + inject_Z r / inject_Z s)%Q).
    { unfold ax, q, fileAxis. cbn [fa_start fa_stop fa_res].
      assert (X : (inject_Z b - inject_Z a + 2 * inject_Z m == inject_Z s * inject_Z N + inject_Z r)%Q).
      { rewrite <- inject_Z_mult. change 2%Q with (inject_Z 2). rewrite <- inject_Z_mult.
        unfold Qminus. rewrite <- inject_Z_opp, <- !inject_Z_plus.
        replace (b + - a + 2 * m) with (s * N + r) by lia. reflexivity. }
      transitivity ((inject_Z b - inject_Z a + 2 * inject_Z m) / inject_Z s)%Q; [field; lra|].
      rewrite X. field. lra. }
    assert (A : (0 < inject_Z r / inject_Z s)%Q) by (apply Qlt_shift_div_l; [exact Sq|lra]).
    assert (B : (inject_Z r / inject_Z s < 1 # 2)%Q) by (apply Qlt_shift_div_r; [exact Sq|lra]).
    rewrite (rint_near _ N); [reflexivity| |]; rewrite W; lra. }
  split.
  - rewrite Len. unfold gridLen.
    replace (- (b + m + s - (a - m))) with ((- (N + 2)) * s + (s - r)) by lia.
    rewrite Z.div_add_l by lia. rewrite (Z.div_small (s - r) s) by lia. lia.
  - unfold fits.
    assert (Wn : length (gridWindow (a - m) s k0 (N + 2)) = Z.to_nat (N + 2 - k0)).
    { unfold gridWindow. now rewrite map_length, seq_length. }
    rewrite (c146_nearest ax (gridWindow (a - m) s k0 (N + 2)) k0 0).
    + rewrite Len, Wn. replace (k0 + Z.of_nat (Z.to_nat (N + 2 - k0)) <=? N + 1) with false; [now rewrite andb_false_r|].
      symmetry. apply Z.leb_gt. lia.
    + unfold ax, q, fileAxis. cbn [fa_res]. apply Qlt_shift_div_l; [reflexivity|]. lra.
    + intros Z. apply (f_equal (@length _)) in Z. rewrite Wn in Z. cbn in Z. lia.
    + unfold ax, q, fileAxis. cbn [fa_res].
      assert (0 < inject_Z s / 100)%Q by (apply Qlt_shift_div_l; [reflexivity|lra]). lra.
    + unfold ax, q, fileAxis. cbn [fa_res].
      assert (0 < inject_Z s / 100)%Q by (apply Qlt_shift_div_l; [reflexivity|lra]). lra.
    + intros n L. rewrite Wn in L. unfold gridWindow.
      rewrite nth_indep with (d' := gridCoord (a - m) s (k0 + Z.of_nat 0))
        by (rewrite map_length, seq_length; lia).
      rewrite (map_nth (fun n => gridCoord (a - m) s (k0 + Z.of_nat n)) (seq 0 (Z.to_nat (N + 2 - k0))) 0%nat n).
      rewrite seq_nth by lia. cbn [Nat.add]. unfold gridCoord, ax, q, fileAxis. cbn [fa_start fa_res].
      unfold Z.sub. rewrite !inject_Z_plus, inject_Z_opp, inject_Z_mult, inject_Z_plus. field.
Qed.

(** Refuted: the coordinates of the file are those of the values.  If the
    domain is more than half a cell over a whole number of cells, the file
    has as many points as the regional grid but spreads them over the
    domain: the last values are stored at the edge of the domain, not at
    their coordinate beyond it. *)
Theorem c147_coordinates_refuted :
  let ax := fileAxis 110 (11104 # 100) 0 (5 # 100) in
  gridLen 11000 11104 5 = 22 /\ fa_len ax = 22 /\
  fits ax (gridWindow 11000 5 0 22) = true /\
  (gridCoord 11000 5 21 == 11105 # 100)%Q /\ (fa_coord ax 21 == 11104 # 100)%Q.
Proof. repeat split. Qed.

Example c147_example :
  fits (fileAxis 110 111 0 (1 # 40)) (gridWindow 11000 2 0 4) = false /\
  gridLen 11000 11102 5 = 22 /\ fa_len (fileAxis 110 (11102 # 100) 0 (5 # 100)) = 21.
Proof. repeat split. Qed.

Print Assumptions c146_nearest.
Print Assumptions c146_place.
Print Assumptions c146_layers.
Print Assumptions c146_reference.
Print Assumptions c146_value.
Print Assumptions c147_resolution_refuted.
Print Assumptions c147_remainder_refuted.
Print Assumptions c147_coordinates_refuted.
