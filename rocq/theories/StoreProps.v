(** Properties of the files that carry tracks and cell statistics *)
From Coq Require Import List Arith ZArith Bool QArith Qround String Lia Psatz Znumtheory.
From Verif Require Import Base TileModel TileProofs CellModel StoreModel.
Import ListNotations.
Close Scope Q_scope. Open Scope Z_scope.

(** ** C121 A saved track file gives the tracks back *)
Definition isDate (s : stamp) : Prop := exists d, s = Date d.
Definition dated (t : trk) : Prop := Forall (fun r => isDate (fst r)) (rows t).
Definition nonempty (t : trk) : bool := match rows t with [] => false | _ => true end.
(** The values of the field [n] of a track *)
Definition column (n : string) (t : trk) : list (option Q) := map (fun r => field n (names t) (snd r)) (rows t).

Lemma num2date_date2num d : exists q, date2num hours1900 (Date d) = Some q /\ num2date hours1900 q = d.
Proof.
  eexists. split; [reflexivity|]. unfold num2date, hours1900. cbn [perUnit refDate].
  rewrite (Qfloor_comp _ (inject_Z d)); [rewrite Qfloor_Z; lia|]. rewrite Z.sub_0_r. rewrite Qmult_comm. apply Qmult_div_r. discriminate.
Qed.
Lemma nums_ok rs : Forall (fun r : stamp * list Q => isDate (fst r)) rs ->
  exists nums, allSomeQ (map (fun x => date2num hours1900 (fst x)) rs) = Some nums /\ List.length nums = List.length rs /\
    map (fun '(q, x) => (Date (num2date hours1900 q), snd x)) (combine nums rs) = rs.
Proof.
  induction 1 as [|[s vs] rs [d E] H (nums & A & L & B)]; cbn [map allSomeQ fst].
  - exists []. auto.
  - cbn [fst] in E. subst s. destruct (num2date_date2num d) as (q & Q1 & Q2). rewrite Q1, A. exists (q :: nums). split; [reflexivity|].
    split; [cbn; lia|]. cbn [combine map snd]. now rewrite Q2, B.
Qed.
Lemma field_pos cols vs : List.length vs = List.length cols -> forall n, In n cols -> exists v, field n cols vs = Some v.
Proof.
  revert vs. induction cols as [|m cols IH]; intros [|v vs] L n H; cbn in L; try lia; [destruct H|]. cbn [field].
  destruct (String.eqb_spec n m); [eauto|]. destruct H as [H|H]; [congruence|]. apply IH; [lia|exact H].
Qed.
Lemma field_map cols (f : string -> Q) n : In n cols -> field n cols (map f cols) = Some (f n).
Proof.
  induction cols as [|m cols IH]; intros H; [destruct H|]. cbn [map field]. destruct (String.eqb_spec n m) as [->|N]; [reflexivity|].
  apply IH. destruct H as [H|H]; [congruence|exact H].
Qed.
Definition sameTrack (t t' : trk) : Prop :=
  tid t' = tid t /\ map fst (rows t') = map fst (rows t) /\ forall n, In n tcrmCols -> column n t' = column n t.
Lemma saveLoop_ok cols n ts : incl tcrmCols cols ->
  Forall (fun t => names t = cols /\ dated t /\ Forall (fun r => List.length (snd r) = List.length cols) (rows t)) ts ->
  exists gs ts', saveLoop cols hours1900 n ts = (gs, ts', true) /\ Forall2 sameTrack (filter nonempty ts) (map readGroup gs) /\
    (forall g, In g gs -> (n <= g_no g)%nat) /\ NoDup (map g_no gs) /\ map tid ts' = map tid ts.
Proof.
  intros I H. revert n. induction H as [|t ts (N & D & L) H IH]; intros n.
  - exists [], []. cbn. repeat split; auto using NoDup_nil. intros g [].
  - destruct (IH (S n)) as (gs & ts' & E & F & B & U & T). cbn [saveLoop filter]. unfold nonempty at 1. destruct (rows t) as [|r rs] eqn:R.
    + rewrite E. exists gs, (t :: ts'). repeat split; auto. { intros g Hg. specialize (B g Hg). lia. } cbn. now rewrite T.
    + assert (D' := D). unfold dated in D'. rewrite R in D'. destruct (nums_ok _ D') as (nums & A & LN & M). rewrite A, N, Nat.eqb_refl. cbn [negb]. rewrite E.
      eexists _, _. split; [reflexivity|]. cbn [map tid g_no]. repeat split.
      * constructor; [|exact F]. unfold sameTrack, readGroup. cbn [tid rows names g_tid g_rows g_units g_names].
        split; [reflexivity|]. split.
        -- rewrite R. rewrite <- M at 2. rewrite !map_map. apply map_ext. intros [q x]. reflexivity.
        -- intros c Hc. unfold column. cbn [rows names]. rewrite R, N. rewrite !map_map.
           clear - LN L Hc I R. clear R. revert nums LN. induction L as [|x l HX L IHl]; intros [|q nums] LN; cbn in LN; try lia; [reflexivity|].
           cbn [combine map snd]. f_equal; [|apply IHl; lia].
           ++ rewrite field_map by exact Hc. destruct (field_pos cols (snd x) HX c (I c Hc)) as (v & V). now rewrite V.
      * intros g [<-|Hg]; cbn [g_no]; [lia|]. specialize (B g Hg). lia.
      * constructor; [|exact U]. intros Hn. apply in_map_iff in Hn. destruct Hn as (g & G & Hg). specialize (B g Hg). lia.
      * now rewrite T.
Qed.
Theorem c121_roundtrip file ts cols : ts <> [] -> incl tcrmCols cols ->
  (forall t, In t ts -> names t = cols /\ (forall r, In r (rows t) -> isDate (fst r) /\ List.length (snd r) = List.length cols)) ->
  exists gs ts' back, saveTracks file ts hours1900 = (Some gs, ts', true) /\ loadTracks (Some gs) = Some back /\
    Forall2 sameTrack (filter nonempty ts) back /\ NoDup (map g_no gs).
Proof.
  intros N I H. destruct ts as [|t ts]; [congruence|]. unfold saveTracks.
  assert (F : Forall (fun t => names t = cols /\ dated t /\ Forall (fun r => List.length (snd r) = List.length cols) (rows t)) (t :: ts)).
  { apply Forall_forall. intros x Hx. destruct (H x Hx) as [A B]. split; [exact A|]. unfold dated. rewrite !Forall_forall. split; intros r Hr; apply (B r Hr). }
  destruct (H t (or_introl eq_refl)) as [E _]. rewrite E.
  destruct (saveLoop_ok cols 0 (t :: ts) I F) as (gs & ts' & S & R & _ & U & _). rewrite S.
  exists gs, ts', (map readGroup gs). auto.
Qed.
(** Tracks with exactly the fields of the simulator come back unchanged, empty ones apart *)
Lemma sameTrack_eq t t' : names t = tcrmCols -> names t' = tcrmCols ->
  (forall r, In r (rows t) -> List.length (snd r) = List.length tcrmCols) -> (forall r, In r (rows t') -> List.length (snd r) = List.length tcrmCols) ->
  sameTrack t t' -> t' = t.
Proof.
  intros N N' L L' (T & F & C). destruct t as [ns rs i], t' as [ns' rs' i']. cbn [names rows tid] in *. subst ns ns' i'. f_equal.
  unfold column in C. cbn [names rows] in C. revert rs' F C L'. induction rs as [|[s vs] rs IH]; intros [|[s' vs'] rs'] F C L'; cbn [map fst] in F; try discriminate; [reflexivity|].
  injection F as F1 F2. subst s'. f_equal; [f_equal|].
  - pose proof (L _ (or_introl eq_refl)) as L1. pose proof (L' _ (or_introl eq_refl)) as L2. cbn [snd] in L1, L2.
    assert (E : forall n, In n tcrmCols -> field n tcrmCols vs' = field n tcrmCols vs).
    { intros n Hn. specialize (C n Hn). cbn [map snd] in C. now injection C. }
    unfold tcrmCols in L1, L2. cbn [List.length] in L1, L2.
    repeat (destruct vs as [|? vs]; [cbn in L1; lia|cbn [List.length] in L1; apply Nat.succ_inj in L1]). destruct vs; [|cbn in L1; lia].
    repeat (destruct vs' as [|? vs']; [cbn in L2; lia|cbn [List.length] in L2; apply Nat.succ_inj in L2]). destruct vs'; [|cbn in L2; lia].
    pose proof (E "CycloneNumber"%string ltac:(unfold tcrmCols; cbn [In]; tauto)) as E0. cbn in E0. injection E0 as ->.
    pose proof (E "TimeElapsed"%string ltac:(unfold tcrmCols; cbn [In]; tauto)) as E1. cbn in E1. injection E1 as ->.
    pose proof (E "Longitude"%string ltac:(unfold tcrmCols; cbn [In]; tauto)) as E2. cbn in E2. injection E2 as ->.
    pose proof (E "Latitude"%string ltac:(unfold tcrmCols; cbn [In]; tauto)) as E3. cbn in E3. injection E3 as ->.
    pose proof (E "Speed"%string ltac:(unfold tcrmCols; cbn [In]; tauto)) as E4. cbn in E4. injection E4 as ->.
    pose proof (E "Bearing"%string ltac:(unfold tcrmCols; cbn [In]; tauto)) as E5. cbn in E5. injection E5 as ->.
    pose proof (E "CentralPressure"%string ltac:(unfold tcrmCols; cbn [In]; tauto)) as E6. cbn in E6. injection E6 as ->.
    pose proof (E "EnvPressure"%string ltac:(unfold tcrmCols; cbn [In]; tauto)) as E7. cbn in E7. injection E7 as ->.
    pose proof (E "rMax"%string ltac:(unfold tcrmCols; cbn [In]; tauto)) as E8. cbn in E8. injection E8 as ->.
    reflexivity.
  - apply IH; auto; [intros r Hr; apply L; now right| |intros r Hr; apply L'; now right].
    intros n Hn. specialize (C n Hn). cbn [map] in C. now injection C.
Qed.
Theorem c121_exact file ts : ts <> [] ->
  (forall t, In t ts -> names t = tcrmCols /\ (forall r, In r (rows t) -> isDate (fst r) /\ List.length (snd r) = List.length tcrmCols)) ->
  exists gs ts', saveTracks file ts hours1900 = (Some gs, ts', true) /\ loadTracks (Some gs) = Some (filter nonempty ts).
Proof.
  intros N H. destruct (c121_roundtrip file ts tcrmCols N (fun x Hx => Hx) H) as (gs & ts' & back & S & L & F & _).
  exists gs, ts'. split; [exact S|]. rewrite L. f_equal. cbn [loadTracks] in L. injection L as <-.
  assert (B : forall t, In t (filter nonempty ts) -> names t = tcrmCols /\ (forall r, In r (rows t) -> List.length (snd r) = List.length tcrmCols)).
  { intros t Ht. apply filter_In in Ht. destruct (H t (proj1 Ht)) as [A C]. split; [exact A|]. intros r Hr. apply (C r Hr). }
  clear - F B. remember (map readGroup gs) as bk eqn:E. revert gs E B. induction F as [|t t' l l' S F IH]; intros gs E B; [reflexivity|].
  destruct gs as [|g gs]; [discriminate|]. cbn [map] in E. injection E as E1 E2. f_equal.
  - destruct (B t (or_introl eq_refl)) as [B1 B2]. apply sameTrack_eq; auto; [subst t'; reflexivity|].
    intros r Hr. subst t'. unfold readGroup in Hr. cbn [rows] in Hr. apply in_map_iff in Hr. destruct Hr as ([q vs] & <- & _). cbn [snd]. apply map_length.
  - apply (IH gs E2). intros x Hx. apply B. now right.
Qed.
Definition sampleTrack : trk :=
  {| names := tcrmCols; rows := [(Date 3600, [1; 0; 115; -15; 10; 180; 980; 1010; 30]%Q); (Date 7200, [1; 1; 115; -16; 10; 180; 975; 1010; 30]%Q)]; tid := Some (1, 1) |}.
Example c121_example : exists gs ts', saveTracks None [sampleTrack] hours1900 = (Some gs, ts', true) /\ loadTracks (Some gs) = Some [sampleTrack].
Proof.
  apply (c121_exact None [sampleTrack]); [discriminate|]. intros t [<-|[]]. split; [reflexivity|].
  intros r [<-|[<-|[]]]; cbn [fst snd]; (split; [eexists; reflexivity|reflexivity]).
Qed.

(** ** C122 Limits of the track files *)
(** Other time units are recorded as hours since 1900 *)
Theorem c122_units_refuted : exists ts u gs ts' back, saveTracks None ts u = (Some gs, ts', true) /\ loadTracks (Some gs) = Some back /\
  map (fun t => map fst (rows t)) back <> map (fun t => map fst (rows t)) ts.
Proof.
  exists [sampleTrack], {| perUnit := 86400; refDate := 0 |}. eexists _, _, _. split; [reflexivity|]. split; [reflexivity|]. vm_compute. discriminate.
Qed.
(** Saving turns the dates of the tracks into numbers, so saving them again fails *)
Lemma saveLoop_numbers cols u n ts gs ts' : saveLoop cols u n ts = (gs, ts', true) -> forall t, In t ts' -> forall r, In r (rows t) -> exists q, fst r = Num q.
Proof.
  revert n gs ts'. induction ts as [|t ts IH]; intros n gs ts' E x Hx r Hr; cbn [saveLoop] in E.
  - injection E as <- <-. destruct Hx.
  - destruct (rows t) as [|r0 rs] eqn:R.
    + destruct (saveLoop cols u (S n) ts) as [[g r'] ok] eqn:G. injection E as <- <- ->. destruct Hx as [<-|Hx]; [rewrite R in Hr; destruct Hr|]. exact (IH _ _ _ G x Hx r Hr).
    + destruct (allSomeQ _) as [nums|]; [|discriminate]. destruct (negb _); [discriminate|].
      destruct (saveLoop cols u (S n) ts) as [[g r'] ok] eqn:G. injection E as <- <- ->. destruct Hx as [<-|Hx]; [|exact (IH _ _ _ G x Hx r Hr)].
      cbn [rows] in Hr. apply in_map_iff in Hr. destruct Hr as ([q y] & <- & _). cbn [fst]. eauto.
Qed.
Lemma saveLoop_fails cols u n ts : (exists t, In t ts /\ exists r, In r (rows t)) -> (forall t, In t ts -> forall r, In r (rows t) -> exists q, fst r = Num q) ->
  snd (saveLoop cols u n ts) = false.
Proof.
  revert n. induction ts as [|t ts IH]; intros n (x & Hx & r & Hr) H; [destruct Hx|]. cbn [saveLoop]. destruct (rows t) as [|[s vs] rs] eqn:R.
  - assert (Hx' : In x ts) by (destruct Hx as [->|Hx]; [rewrite R in Hr; destruct Hr|exact Hx]).
    specialize (IH (S n) (ex_intro _ x (conj Hx' (ex_intro _ r Hr))) (fun y Hy => H y (or_intror Hy))).
    destruct (saveLoop cols u (S n) ts) as [[g r'] ok]. exact IH.
  - destruct (H t (or_introl eq_refl) (s, vs)) as (q & Q); [rewrite R; now left|]. cbn [fst] in Q. subst s. reflexivity.
Qed.
Lemma saveLoop_rows cols u n ts gs ts' : saveLoop cols u n ts = (gs, ts', true) -> map (fun t => List.length (rows t)) ts' = map (fun t => List.length (rows t)) ts.
Proof.
  revert n gs ts'. induction ts as [|t ts IH]; intros n gs ts' E; cbn [saveLoop] in E.
  - now injection E as <- <-.
  - destruct (rows t) as [|r0 rs] eqn:R.
    + destruct (saveLoop cols u (S n) ts) as [[g r'] ok] eqn:G. injection E as <- <- ->. cbn [map]. now rewrite (IH _ _ _ G).
    + destruct (allSomeQ _) as [nums|] eqn:A; [|discriminate]. destruct (negb _); [discriminate|].
      destruct (saveLoop cols u (S n) ts) as [[g r'] ok] eqn:G. injection E as <- <- ->. cbn [map rows]. rewrite (IH _ _ _ G), map_length, combine_length. f_equal.
      assert (LN : List.length nums = List.length (r0 :: rs)).
      { clear - A. revert nums A. generalize (r0 :: rs) as l. induction l as [|x l IHl]; intros nums A; cbn [map allSomeQ] in A; [now injection A as <-|].
        destruct (date2num u (fst x)); [|discriminate]. destruct (allSomeQ _) as [r'|] eqn:B; [|discriminate]. injection A as <-. cbn. now rewrite (IHl r' eq_refl). }
      rewrite LN, R. lia.
Qed.
Theorem c122_twice_refuted file file' u u' ts gs ts' : (exists t, In t ts /\ rows t <> []) ->
  saveTracks file ts u = (gs, ts', true) -> snd (saveTracks file' ts' u') = false.
Proof.
  intros (t & Ht & Hr) E. unfold saveTracks in E. destruct ts as [|t0 ts]; [destruct Ht|].
  destruct (saveLoop (names t0) u 0 (t0 :: ts)) as [[g r'] ok] eqn:G. injection E as <- <- ->.
  pose proof (saveLoop_rows _ _ _ _ _ _ G) as L. pose proof (saveLoop_numbers _ _ _ _ _ _ G) as N.
  assert (X : exists x, In x r' /\ exists r, In r (rows x)).
  { assert (P : In (List.length (rows t)) (map (fun t => List.length (rows t)) r')) by (rewrite L; apply (in_map (fun t => List.length (rows t))), Ht).
    apply in_map_iff in P. destruct P as (x & P & Hx). exists x. split; [exact Hx|]. destruct (rows x) as [|r rs]; [destruct (rows t); [congruence|discriminate]|]. exists r. now left. }
  unfold saveTracks. destruct r' as [|x r']; [destruct X as (? & [] & _)|].
  pose proof (saveLoop_fails (names x) u' 0 (x :: r') X N) as S. destruct (saveLoop (names x) u' 0 (x :: r')) as [[g' r''] ok']. exact S.
Qed.
(** Saving no tracks keeps the tracks of an earlier run in the file *)
Theorem c122_stale_refuted : exists gs, let '(f, _, ok) := saveTracks (Some gs) [] hours1900 in ok = true /\ loadTracks f = Some [sampleTrack].
Proof.
  destruct c121_example as (gs & ts' & S & L). exists gs. cbn [saveTracks]. auto.
Qed.
(** Tracks read from a file lack the wind speed, so they cannot be interpolated *)
Theorem c122_interpolate_refuted file ts t : loadTracks file = Some ts -> In t ts -> (2 <= List.length (rows t))%nat -> validPressure t = true -> canInterpolate t = false.
Proof.
  intros L I R V. destruct file as [gs|]; [|discriminate]. cbn [loadTracks] in L. injection L as <-. apply in_map_iff in I. destruct I as (g & <- & _).
  unfold canInterpolate. rewrite V. replace (Nat.eqb _ 1) with false by (symmetry; apply Nat.eqb_neq; lia). reflexivity.
Qed.
Example c122_interpolate_example : validPressure sampleTrack = true /\ (2 <= List.length (rows sampleTrack))%nat.
Proof. split; [reflexivity|cbn; lia]. Qed.
(** Tracks with other fields than the first track are stored under the fields of the first *)
Theorem c122_fields_refuted : exists ts gs ts' back t t', saveTracks None ts hours1900 = (Some gs, ts', true) /\ loadTracks (Some gs) = Some back /\
  nth_error ts 1 = Some t /\ nth_error back 1 = Some t' /\ hd_error (column "Longitude" t) <> hd_error (column "Longitude" t').
Proof.
  exists [{| names := ["Longitude"; "Latitude"]; rows := [(Date 0, [115; -15]%Q)]; tid := None |};
          {| names := ["Latitude"; "Longitude"]; rows := [(Date 0, [-20; 120]%Q)]; tid := None |}]%string.
  eexists _, _, _, _, _. split; [reflexivity|]. split; [reflexivity|]. split; [reflexivity|]. split; [reflexivity|]. vm_compute. discriminate.
Qed.

(** ** C123 Saved statistics belong to the cells at their coordinates *)
Lemma setAt_length {A} (l : list A) i a : List.length (setAt l i a) = List.length l.
Proof. revert i. induction l as [|b l IH]; intros [|i]; cbn; auto. Qed.
Lemma setAt_nth {A} (l : list A) i a k d : (i < List.length l)%nat -> nth k (setAt l i a) d = if Nat.eqb k i then a else nth k l d.
Proof.
  revert i k. induction l as [|b l IH]; intros [|i] [|k] H; cbn in *; try lia; try reflexivity. rewrite IH by lia. reflexivity.
Qed.
Lemma fold_set (f : nat -> Q) n m l : (n + m <= List.length l)%nat ->
  List.length (fold_left (fun l i => setAt l i (f i)) (seq n m) l) = List.length l /\
  forall k, nth k (fold_left (fun l i => setAt l i (f i)) (seq n m) l) 0%Q = if ((n <=? k) && (k <? n + m))%nat then f k else nth k l 0%Q.
Proof.
  revert n l. induction m as [|m IH]; intros n l H; cbn [seq fold_left].
  - split; [reflexivity|]. intros k. destruct ((n <=? k) && (k <? n + 0))%nat eqn:E; [lia|reflexivity].
  - destruct (IH (S n) (setAt l n (f n))) as [A B]; [rewrite setAt_length; lia|]. rewrite A, setAt_length. split; [reflexivity|].
    intros k. rewrite B, setAt_nth by lia.
    destruct ((S n <=? k) && (k <? S n + m))%nat eqn:E1, ((n <=? k) && (k <? n + S m))%nat eqn:E2, (Nat.eqb_spec k n); subst; try reflexivity; lia.
Qed.
Lemma cells_nonneg g s : 0 <= latCells g s /\ 0 <= lonCells g s.
Proof. unfold latCells, lonCells, arange_size. lia. Qed.
Lemma calculateAll_spec g s stat : List.length (calculateAll g s stat) = Z.to_nat (latCells g s * lonCells g s) /\
  forall c, 0 <= c < latCells g s * lonCells g s -> nth (Z.to_nat c) (calculateAll g s stat) 0%Q = stat c.
Proof.
  unfold calculateAll, maxCellNum. replace (latCells g s * lonCells g s - 1 + 1) with (latCells g s * lonCells g s) by lia.
  set (n := Z.to_nat (latCells g s * lonCells g s)). cbv zeta.
  destruct (fold_set (fun i => stat (Z.of_nat i)) 0 n (repeat 0%Q n)) as [A B]; [rewrite repeat_length; lia|].
  split; [rewrite A; apply repeat_length|]. intros c C. rewrite B. unfold n.
  replace ((0 <=? Z.to_nat c)%nat && (Z.to_nat c <? 0 + Z.to_nat (latCells g s * lonCells g s))%nat)%bool with true by (symmetry; lia).
  now rewrite Z2Nat.id by lia.
Qed.
Lemma chunks_spec {A} nx ny (l : list A) d : List.length l = (ny * nx)%nat ->
  List.concat (chunks nx ny l) = l /\ forall i j, (i < ny)%nat -> (j < nx)%nat -> nth j (nth i (chunks nx ny l) []) d = nth (i * nx + j) l d.
Proof.
  revert l. induction ny as [|ny IH]; intros l H; cbn [chunks List.concat].
  - cbn in H. destruct l; [|discriminate]. split; [reflexivity|]. intros i j Hi. lia.
  - destruct (IH (skipn nx l)) as [B C]; [rewrite skipn_length; lia|]. rewrite B, firstn_skipn. split; [reflexivity|].
    intros [|i] j Hi Hj; cbn [nth].
    + rewrite <- (firstn_skipn nx l) at 2. rewrite app_nth1 by (rewrite firstn_length; lia). reflexivity.
    + rewrite C by lia. rewrite <- (firstn_skipn nx l) at 2. rewrite app_nth2 by (rewrite firstn_length; lia). rewrite firstn_length. f_equal. lia.
Qed.
Theorem c123_saved g s stat : exists v, saveStat g s (calculateAll g s stat) = Some v /\ loadStat v = calculateAll g s stat /\
  (forall c, 0 <= c < latCells g s * lonCells g s -> nth (Z.to_nat c) (loadStat v) 0%Q = stat c) /\
  forall c lon lat, getCellLonLat c g s = Some (lon, lat) ->
    exists i j, nth_error (v_lat v) i = Some lat /\ nth_error (v_lon v) j = Some lon /\ nth j (nth i (v_data v) []) 0%Q = stat c.
Proof.
  destruct (cells_nonneg g s) as [P1 P2]. destruct (calculateAll_spec g s stat) as [L V].
  unfold saveStat, reshape, latAxis, lonAxis. rewrite !map_length, !seq_length, L.
  replace (Z.to_nat (latCells g s) * Z.to_nat (lonCells g s))%nat with (Z.to_nat (latCells g s * lonCells g s)) by (rewrite Z2Nat.inj_mul by lia; reflexivity).
  rewrite Nat.eqb_refl. eexists. split; [reflexivity|]. unfold loadStat. cbn [v_data v_lat v_lon].
  destruct (chunks_spec (Z.to_nat (lonCells g s)) (Z.to_nat (latCells g s)) (calculateAll g s stat) 0%Q) as [C N]; [rewrite L, Z2Nat.inj_mul by lia; reflexivity|].
  rewrite C. split; [reflexivity|]. split; [exact V|]. intros c lon lat G. unfold getCellLonLat in G.
  destruct (c <? 0) eqn:E0; [discriminate|]. set (nx := lonCells g s) in *. set (ny := latCells g s) in *.
  destruct ((c / nx <? ny) && (c mod nx <? nx)) eqn:E; [|discriminate]. injection G as <- <-. apply andb_true_iff in E.
  assert (0 < nx) by (destruct (Z.eq_dec nx 0) as [Z0|]; [rewrite Z0, Zmod_0_r in E; lia|lia]).
  pose proof (Z.div_mod c nx ltac:(lia)) as DM. pose proof (Z.mod_pos_bound c nx ltac:(lia)) as MB.
  assert (0 <= c / nx) by (apply Z.div_pos; lia).
  exists (Z.to_nat (c / nx)), (Z.to_nat (c mod nx)).
  rewrite !nth_error_map. rewrite !(nth_error_nth' _ 0%nat) by (rewrite seq_length; lia). rewrite !seq_nth by lia. cbn [option_map].
  rewrite !Nat.add_0_l, !Z2Nat.id by lia. split; [reflexivity|]. split; [reflexivity|]. rewrite N by lia.
  replace (Z.to_nat (c / nx) * Z.to_nat nx + Z.to_nat (c mod nx))%nat with (Z.to_nat c); [apply V; nia|].
  apply Nat2Z.inj. rewrite Nat2Z.inj_add, Nat2Z.inj_mul, !Z2Nat.id by lia. lia.
Qed.
Example c123_example : getCellLonLat 3 {| xMin := 110; xMax := 112; yMin := -12; yMax := -8 |} {| gx := 1; gy := 2 |} = Some (111, -10).
Proof. reflexivity. Qed.

(** ** C124 Limits of the statistics files and plots *)
(** The domain is not recorded: loading for another domain of equally many cells is accepted *)
Theorem c124_domain_refuted : exists g g' s stat v c lon lat lon' lat',
  saveStat g s (calculateAll g s stat) = Some v /\ List.length (loadStat v) = Z.to_nat (maxCellNum g' s + 1) /\
  getCellLonLat c g s = Some (lon, lat) /\ getCellLonLat c g' s = Some (lon', lat') /\ (lon, lat) <> (lon', lat').
Proof.
  exists {| xMin := 0; xMax := 2; yMin := 0; yMax := 1 |}, {| xMin := 0; xMax := 1; yMin := 0; yMax := 2 |}, {| gx := 1; gy := 1 |}, (fun _ => 0%Q).
  eexists _, 1, _, _, _, _. split; [reflexivity|]. split; [reflexivity|]. split; [reflexivity|]. split; [reflexivity|]. discriminate.
Qed.
(** The summary plot leaves out the first cell *)
Lemma setAt_app {A} (d : list A) x r a : setAt (d ++ x :: r) (List.length d) a = d ++ a :: r.
Proof. induction d as [|y d IH]; cbn; [reflexivity|]. now rewrite IH. Qed.
Lemma plotLoop_spec stat m : forall k d r, List.length d = k -> List.length r = m ->
  plotLoop stat (map Z.of_nat (seq (S k) m)) (d ++ r) = Some (d ++ map (fun i => Some (stat (Z.of_nat i))) (seq (S k) m)).
Proof.
  induction m as [|m IH]; intros k d r D R; cbn [seq map plotLoop].
  - destruct r; [reflexivity|discriminate].
  - destruct r as [|x r]; [discriminate|]. unfold setCol. rewrite app_length. cbn [List.length] in *. rewrite D.
    replace ((Z.of_nat (S k) - 1 <? - Z.of_nat (k + S (List.length r))) || (Z.of_nat (k + S (List.length r)) <=? Z.of_nat (S k) - 1)) with false by (symmetry; lia).
    replace (Z.of_nat (S k) - 1 <? 0) with false by (symmetry; lia). replace (Z.to_nat (Z.of_nat (S k) - 1)) with (List.length d) by lia. rewrite setAt_app.
    change (Some (stat (Z.of_nat (S k))) :: r) with ([Some (stat (Z.of_nat (S k)))] ++ r). rewrite app_assoc.
    rewrite (IH (S k)) by (rewrite ?app_length; cbn; lia). now rewrite <- app_assoc.
Qed.
Theorem c124_plot_refuted g s stat : 1 <= maxCellNum g s ->
  plotColumns g s stat = Some (map (fun i => Some (stat (Z.of_nat i))) (seq 1 (Z.to_nat (maxCellNum g s)))).
Proof.
  intros H. unfold plotColumns. replace (Z.to_nat (maxCellNum g s + 1)) with (S (Z.to_nat (maxCellNum g s))) by lia.
  set (n := Z.to_nat (maxCellNum g s)). assert (N : (1 <= n)%nat) by (unfold n; lia). clearbody n. cbn [seq map plotLoop]. unfold setCol at 1. rewrite repeat_length.
  replace ((Z.of_nat 0 - 1 <? - Z.of_nat n) || (Z.of_nat n <=? Z.of_nat 0 - 1)) with false by (symmetry; lia).
  apply (plotLoop_spec stat n 0 []); [reflexivity|]. rewrite setAt_length. apply repeat_length.
Qed.
(** and fails for a domain of one cell *)
Theorem c124_plot_one_refuted g s stat : maxCellNum g s = 0 -> plotColumns g s stat = None.
Proof. intros H. unfold plotColumns. rewrite H. reflexivity. Qed.
Example c124_example : maxCellNum {| xMin := 0; xMax := 2; yMin := 0; yMax := 1 |} {| gx := 1; gy := 1 |} = 1 /\
  maxCellNum {| xMin := 0; xMax := 1; yMin := 0; yMax := 1 |} {| gx := 1; gy := 1 |} = 0.
Proof. split; reflexivity. Qed.
Print Assumptions c121_roundtrip.
Print Assumptions c121_exact.
Print Assumptions c122_units_refuted.
Print Assumptions c122_twice_refuted.
Print Assumptions c122_stale_refuted.
Print Assumptions c122_interpolate_refuted.
Print Assumptions c122_fields_refuted.
Print Assumptions c123_saved.
Print Assumptions c124_domain_refuted.
Print Assumptions c124_plot_refuted.
Print Assumptions c124_plot_one_refuted.
