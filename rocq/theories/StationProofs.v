From Coq Require Import List Arith ZArith Lia Bool QArith Qabs String Lqa.
From Verif Require Import CellModel CellProofs GenProofs NumModel NumProofs UtilModel UtilProofs StationModel.
Import ListNotations.
Open Scope Q_scope.

Lemma F2_len {A B} (R : A -> B -> Prop) l l' : Forall2 R l l' -> List.length l' = List.length l.
Proof. induction 1; cbn; auto. Qed.
Lemma F2_impl {A B} (R S : A -> B -> Prop) l l' : (forall a b, R a b -> S a b) -> Forall2 R l l' -> Forall2 S l l'.
Proof. intros H. induction 1; constructor; auto. Qed.

Lemma substring_all s : forall n, (String.length s <= n)%nat -> substring 0 n s = s.
Proof.
  induction s as [|c s IH]; intros [|n] H; cbn in *; try reflexivity; try lia. rewrite IH by lia. reflexivity.
Qed.

(** [v] lies between two values of [a]. *)
Definition spanned (a : list Q) (v : Q) : Prop :=
  (exists x, In x a /\ x <= v) /\ (exists x, In x a /\ v <= x).
Definition inGrid (st : station) (p : tstep) : Prop := spanned (tgx p) (slon st) /\ spanned (tgy p) (slat st).

Lemma amin_le x l v : Qle_bool (amin x l) v = true <-> exists y, In y (x :: l) /\ y <= v.
Proof.
  destruct (amin_spec l x) as (A & B & C). rewrite Qle_bool_iff. split.
  - intros H. destruct C as [C|(y & C1 & C2)].
    + exists x. split; [now left|lra].
    + exists y. split; [now right|lra].
  - intros (y & [<-|Hy] & L); [lra|]. specialize (B y Hy). lra.
Qed.
Lemma amax_ge x l v : Qle_bool v (amax x l) = true <-> exists y, In y (x :: l) /\ v <= y.
Proof.
  destruct (amax_spec l x) as (A & B & C). rewrite Qle_bool_iff. split.
  - intros H. destruct C as [C|(y & C1 & C2)].
    + exists x. split; [now left|lra].
    + exists y. split; [now right|lra].
  - intros (y & [<-|Hy] & L); [lra|]. specialize (B y Hy). lra.
Qed.

Lemma inside_true st p : insideGrid st (tgx p) (tgy p) = Some true <-> inGrid st p.
Proof.
  unfold insideGrid, inGrid, spanned. destruct (tgx p) as [|x lx].
  { split; [discriminate|]. intros (((y & [] & _) & _) & _). }
  destruct (Qle_bool (amin x lx) (slon st)) eqn:E1; cbn [andb].
  2:{ split; [discriminate|]. intros ((H & _) & _). apply amin_le in H. congruence. }
  destruct (Qle_bool (slon st) (amax x lx)) eqn:E2.
  2:{ split; [discriminate|]. intros ((_ & H) & _). apply amax_ge in H. congruence. }
  apply amin_le in E1. apply amax_ge in E2.
  destruct (tgy p) as [|y ly].
  { split; [discriminate|]. intros (_ & ((y & [] & _) & _)). }
  destruct (Qle_bool (amin y ly) (slat st)) eqn:E3; cbn [andb].
  2:{ split; [discriminate|]. intros (_ & H & _). apply amin_le in H. congruence. }
  destruct (Qle_bool (slat st) (amax y ly)) eqn:E4.
  2:{ split; [discriminate|]. intros (_ & _ & H). apply amax_ge in H. congruence. }
  apply amin_le in E3. apply amax_ge in E4. split; auto.
Qed.

(** What a record should hold. *)
Definition nearest (a : list Q) (v : Q) (i : nat) : Prop :=
  (i < List.length a)%nat /\
  (forall j, (j < List.length a)%nat -> Qabs (nth i a 0 - v) <= Qabs (nth j a 0 - v)).
Definition valueAt (g : list (list Q)) (y x : nat) (v : Q) : Prop :=
  exists row, nth_error g y = Some row /\ nth_error row x = Some v.

Lemma cellOf_val g y x v : cellOf g y x = Some v <-> valueAt g y x v.
Proof.
  unfold cellOf, valueAt. destruct (nth_error g y) as [row|]; split.
  - intros H. exists row. auto.
  - intros (r & [= ->] & H). auto.
  - discriminate.
  - intros (r & H & _). discriminate.
Qed.

Section Series.
  Variable brg : Q -> Q -> Q.

  Lemma extract1_spec p st r : extract1 brg p st = Some r ->
    rid r = u16 (sid st) /\ rtm r = u16 (tdt p) /\ rlon r = slon st /\ rlat r = slat st /\
    (inGrid st p -> exists x y, nearest (tgx p) (slon st) x /\ nearest (tgy p) (slat st) y /\
       valueAt (tspd p) y x (rspd r) /\ valueAt (tuu p) y x (ruu r) /\ valueAt (tvv p) y x (rvv r) /\
       valueAt (tprs p) y x (rprs r) /\ rbrg r = brg (ruu r) (rvv r)) /\
    (~ inGrid st p -> rspd r = 0 /\ ruu r = 0 /\ rvv r = 0 /\ valueAt (tprs p) 0 0 (rprs r)).
  Proof.
    unfold extract1. pose proof (inside_true st p) as I.
    destruct (insideGrid st (tgx p) (tgy p)) as [[|]|]; [| |discriminate].
    - assert (G : inGrid st p) by now apply I. clear I. unfold sample.
      destruct G as ((G1 & G2) & (G3 & G4)).
      destruct (find_inside (tgx p) (slon st) G1 G2) as (x & -> & Hx & Nx & _).
      destruct (find_inside (tgy p) (slat st) G3 G4) as (y & -> & Hy & Ny & _).
      destruct (cellOf (tspd p) y x) as [a|] eqn:E1; [|discriminate].
      destruct (cellOf (tuu p) y x) as [b|] eqn:E2; [|discriminate].
      destruct (cellOf (tvv p) y x) as [c|] eqn:E3; [|discriminate].
      destruct (cellOf (tprs p) y x) as [d|] eqn:E4; [|discriminate].
      intros [= <-]. cbn [rid rtm rlon rlat rspd ruu rvv rbrg rprs].
      apply cellOf_val in E1, E2, E3, E4. repeat (split; [reflexivity|]).
      split; [|intros N; exfalso; apply N; unfold inGrid, spanned; auto].
      intros _. exists x, y. unfold nearest. auto 10.
    - destruct (cellOf (tprs p) 0 0) as [d|] eqn:E; [|discriminate].
      intros [= <-]. cbn [rid rtm rlon rlat rspd ruu rvv rbrg rprs].
      apply cellOf_val in E. repeat (split; [reflexivity|]). split; [|auto].
      intros G. apply I in G. discriminate.
  Qed.

  (** The entry [e'] continues the entry [e] by the records of the steps [ps]. *)
  Definition continues (ps : list tstep) (e e' : station * list rcd) : Prop :=
    fst e' = fst e /\ exists rs, snd e' = (snd e ++ rs)%list /\
      Forall2 (fun p r => extract1 brg p (fst e) = Some r) ps rs.

  Lemma extract_spec p tbl : forall t, extract brg p tbl = Some t -> Forall2 (continues [p]) tbl t.
  Proof.
    induction tbl as [|[st rs] tbl IH]; intros t; cbn [extract].
    - intros [= <-]. constructor.
    - destruct (extract1 brg p st) as [r|] eqn:E; [|discriminate].
      destruct (extract brg p tbl) as [t'|]; [|discriminate]. intros [= <-].
      constructor; [|now apply IH]. split; [reflexivity|]. exists [r]. split; [reflexivity|].
      constructor; [exact E|constructor].
  Qed.

  Lemma continues_app ps qs a b c : continues ps a b -> continues qs b c -> continues (ps ++ qs) a c.
  Proof.
    intros (H1 & r1 & H2 & H3) (H4 & r2 & H5 & H6). split; [congruence|].
    exists (r1 ++ r2)%list. split; [rewrite H5, H2; now rewrite app_assoc|].
    apply Forall2_app; [auto|]. now rewrite H1 in H6.
  Qed.
  Lemma continues_nil a : continues [] a a.
  Proof. split; [reflexivity|]. exists []. split; [now rewrite app_nil_r|constructor]. Qed.

  Lemma F2_trans {A} (R S T : A -> A -> Prop) : (forall a b c, R a b -> S b c -> T a c) ->
    forall l l', Forall2 R l l' -> forall l'', Forall2 S l' l'' -> Forall2 T l l''.
  Proof.
    intros H l l' F. induction F; intros l'' F'; inversion F'; subst; constructor; eauto.
  Qed.

  Lemma runSteps_spec ps : forall tbl t, runSteps brg ps tbl = Some t -> Forall2 (continues ps) tbl t.
  Proof.
    induction ps as [|p ps IH]; intros tbl t; cbn [runSteps].
    - intros [= <-]. induction tbl; constructor; auto using continues_nil.
    - destruct (extract brg p tbl) as [t1|] eqn:E; [|discriminate]. intros H.
      eapply (F2_trans (continues [p]) (continues ps) (continues (p :: ps))).
      + intros a b c H1 H2. exact (continues_app [p] ps a b c H1 H2).
      + apply extract_spec. exact E.
      + now apply IH.
  Qed.

  Lemma runSteps_app ps qs : forall tbl, runSteps brg (ps ++ qs) tbl =
    match runSteps brg ps tbl with Some t => runSteps brg qs t | None => None end.
  Proof.
    induction ps as [|p ps IH]; intros tbl; cbn [runSteps app]; [reflexivity|].
    destruct (extract brg p tbl); auto.
  Qed.

  Lemma runTracks_steps {T} (done : T -> bool) stepsOf ts : forall tbl,
    runTracks brg done stepsOf ts tbl =
    runSteps brg (flat_map stepsOf (filter (fun t => negb (done t)) ts)) tbl.
  Proof.
    induction ts as [|t ts IH]; intros tbl; cbn [runTracks filter]; [reflexivity|].
    destruct (done t); cbn [negb]; [apply IH|]. cbn [flat_map]. rewrite runSteps_app.
    destruct (runSteps brg (stepsOf t) tbl); auto.
  Qed.

  Lemma fresh_spec sts ps t : runSteps brg ps (fresh sts) = Some t ->
    map fst t = sts /\ forall st rs, In (st, rs) t ->
      Forall2 (fun p r => extract1 brg p st = Some r) ps rs.
  Proof.
    intros H. apply runSteps_spec in H. unfold fresh in H.
    assert (G : forall l t, Forall2 (continues ps) (map (fun s => (s, [])) l) t -> map fst t = l /\
      forall st rs, In (st, rs) t -> Forall2 (fun p r => extract1 brg p st = Some r) ps rs).
    { clear. induction l as [|s l IH]; intros t H; cbn [map] in H; inversion H; subst.
      - split; [reflexivity|contradiction].
      - destruct (IH _ H4) as (I1 & I2). destruct H2 as (A & rs & B & C). cbn [fst snd] in *.
        split; [cbn [map]; congruence|]. intros st rs' [E|E]; [|now apply I2].
        subst y. cbn [fst snd] in *. subst. rewrite app_nil_l. exact C. }
    now apply G.
  Qed.

  (** ** Success *)
  Definition shaped (g : list (list Q)) (p : tstep) : Prop :=
    List.length g = List.length (tgy p) /\ forall row, In row g -> List.length row = List.length (tgx p).
  Definition wellShaped (p : tstep) : Prop :=
    tgx p <> [] /\ tgy p <> [] /\ shaped (tspd p) p /\ shaped (tuu p) p /\ shaped (tvv p) p /\ shaped (tprs p) p.

  Lemma shaped_cell g p y x : shaped g p -> (y < List.length (tgy p))%nat -> (x < List.length (tgx p))%nat ->
    exists v, cellOf g y x = Some v.
  Proof.
    intros (H1 & H2) Hy Hx. unfold cellOf. destruct (nth_error g y) as [row|] eqn:E.
    - pose proof (H2 row (nth_error_In _ _ E)) as L.
      destruct (nth_error row x) eqn:E2; [eauto|]. apply nth_error_None in E2. lia.
    - apply nth_error_None in E. lia.
  Qed.
  Lemma nonempty_len {A} (l : list A) : l <> [] -> (0 < List.length l)%nat.
  Proof. destruct l; [congruence|cbn; lia]. Qed.

  Lemma inside_some st p : tgx p <> [] -> tgy p <> [] -> exists b, insideGrid st (tgx p) (tgy p) = Some b.
  Proof.
    intros H1 H2. unfold insideGrid. destruct (tgx p); [congruence|].
    destruct (_ && _); [|eauto]. destruct (tgy p); [congruence|eauto].
  Qed.

  Lemma extract1_some p st : wellShaped p -> exists r, extract1 brg p st = Some r.
  Proof.
    intros (X & Y & S1 & S2 & S3 & S4). unfold extract1.
    destruct (inside_some st p X Y) as ([|] & E); rewrite E.
    - apply inside_true in E. destruct E as ((G1 & G2) & (G3 & G4)). unfold sample.
      destruct (find_inside (tgx p) (slon st) G1 G2) as (x & -> & Hx & _).
      destruct (find_inside (tgy p) (slat st) G3 G4) as (y & -> & Hy & _).
      destruct (shaped_cell _ p y x S1 Hy Hx) as (a & ->).
      destruct (shaped_cell _ p y x S2 Hy Hx) as (b & ->).
      destruct (shaped_cell _ p y x S3 Hy Hx) as (c & ->).
      destruct (shaped_cell _ p y x S4 Hy Hx) as (d & ->). eauto.
    - destruct (shaped_cell _ p 0 0 S4) as (d & ->); auto using nonempty_len. eauto.
  Qed.

  Lemma extract_some p : wellShaped p -> forall tbl, exists t, extract brg p tbl = Some t.
  Proof.
    intros W. induction tbl as [|[st rs] tbl (t & IH)]; cbn [extract]; [eauto|].
    destruct (extract1_some p st W) as (r & ->). rewrite IH. eauto.
  Qed.
  Lemma runSteps_some ps : (forall p, In p ps -> wellShaped p) -> forall tbl, exists t, runSteps brg ps tbl = Some t.
  Proof.
    induction ps as [|p ps IH]; intros W tbl; cbn [runSteps]; [eauto|].
    destruct (extract_some p (W p (or_introl eq_refl)) tbl) as (t & ->).
    apply IH. intros q Hq. apply W. now right.
  Qed.
End Series.

(** * First highest *)
Lemma argmax_neg l : forall i b v w, w == - v ->
  argmaxFrom l i b v = argminFrom (map Qopp l) i b w.
Proof.
  induction l as [|y l IH]; intros i b v w E; cbn [argmaxFrom argminFrom map]; [reflexivity|].
  destruct (qlt v y) eqn:Q1; destruct (qlt (- y) w) eqn:Q2.
  - apply IH. reflexivity.
  - apply qlt_iff in Q1. apply qlt_false_iff in Q2. lra.
  - apply qlt_false_iff in Q1. apply qlt_iff in Q2. lra.
  - apply IH. exact E.
Qed.
Lemma argmax_argmin l : argmax l = argmin (map Qopp l).
Proof. destruct l as [|y l]; [reflexivity|]. cbn [argmax argmin map]. apply argmax_neg. reflexivity. Qed.

(** The record [r] is the first of [rs] in the sense of the key [f]: lowest, and lower than before. *)
Definition firstLeast (f : rcd -> Q) (rs : list rcd) (r : rcd) : Prop :=
  exists i, nth_error rs i = Some r /\ forall j r', nth_error rs j = Some r' ->
    f r <= f r' /\ ((j < i)%nat -> f r < f r').

Lemma least_found f rs : rs <> [] -> exists r, nth_error rs (argmin (map f rs)) = Some r /\ firstLeast f rs r.
Proof.
  intros N. assert (M : map f rs <> []) by (destruct rs; [congruence|discriminate]).
  destruct (argmin_spec (map f rs) M) as (A & B & C). set (i := argmin (map f rs)) in *.
  rewrite map_length in *. destruct (nth_error rs i) as [r|] eqn:E.
  2:{ apply nth_error_None in E. lia. }
  exists r. split; [reflexivity|]. exists i. split; [exact E|]. intros j r' E'.
  assert (K : forall k x, nth_error rs k = Some x -> nth k (map f rs) 0 = f x).
  { intros k x Hk. apply nth_error_nth. now apply map_nth_error. }
  rewrite (K _ _ E) in B, C. split.
  - specialize (B j). rewrite (K _ _ E') in B. apply B. apply nth_error_Some. congruence.
  - intros L. specialize (C j L). now rewrite (K _ _ E') in C.
Qed.
Lemma argmax_map (f : rcd -> Q) rs : argmax (map f rs) = argmin (map (fun r => - f r) rs).
Proof. rewrite argmax_argmin, map_map. reflexivity. Qed.

Definition windy (e : station * list rcd) : Prop := exists r, In r (snd e) /\ 0 < rspd r.
Definition windyb (e : station * list rcd) : bool := existsb (fun r => qlt 0 (rspd r)) (snd e).
Lemma windyb_iff e : windyb e = true <-> windy e.
Proof.
  unfold windyb, windy. rewrite existsb_exists. split; intros (r & H1 & H2); exists r; split; auto; now apply qlt_iff.
Qed.

Lemma close1_spec o e : close1 o e =
  if windyb e then
    mkOut (dput (series o) (sid (fst e)) (snd e))
          (maxima o ++ match nth_error (snd e) (argmax (map rspd (snd e))) with Some r => [r] | None => [] end)%list
          (minima o ++ match nth_error (snd e) (argmin (map rprs (snd e))) with Some r => [r] | None => [] end)%list
  else o.
Proof. destruct e as [st rs]. reflexivity. Qed.

Lemma windy_ne e : windyb e = true -> snd e <> [].
Proof. unfold windyb. destruct (snd e); [discriminate|discriminate]. Qed.

Lemma shutdown_gen tbl : forall o,
  let o' := fold_left close1 tbl o in
  (exists mx, maxima o' = (maxima o ++ mx)%list /\
     Forall2 (fun e r => firstLeast (fun x => - rspd x) (snd e) r) (filter windyb tbl) mx) /\
  (exists mn, minima o' = (minima o ++ mn)%list /\
     Forall2 (fun e r => firstLeast rprs (snd e) r) (filter windyb tbl) mn).
Proof.
  induction tbl as [|e tbl IH]; intros o; cbn [fold_left filter].
  - split; exists []; (split; [now rewrite app_nil_r|constructor]).
  - specialize (IH (close1 o e)). cbv zeta in *.
    destruct IH as ((mx & H1 & H2) & (mn & H3 & H4)). rewrite H1, H3, close1_spec.
    destruct (windyb e) eqn:W.
    + cbn [maxima minima]. pose proof (windy_ne e W) as N. rewrite argmax_map.
      destruct (least_found (fun r => - rspd r) (snd e) N) as (r & -> & F1).
      destruct (least_found rprs (snd e) N) as (s & -> & F2).
      split; eexists; (split; [rewrite <- app_assoc; reflexivity|]); constructor; auto.
    + split; eexists; (split; [reflexivity|]); auto.
Qed.

Lemma series_other tbl : forall o k, (forall e, In e tbl -> windyb e = true -> sid (fst e) <> k) ->
  series (fold_left close1 tbl o) k = series o k.
Proof.
  induction tbl as [|e tbl IH]; intros o k H; cbn [fold_left]; [reflexivity|].
  rewrite IH by (intros e' He; apply H; now right). rewrite close1_spec.
  destruct (windyb e) eqn:W; [|reflexivity]. cbn [series].
  apply dput_other. intros ->. exact (H e (or_introl eq_refl) W eq_refl).
Qed.

Lemma series_own tbl : forall o e, NoDup (map (fun x => sid (fst x)) tbl) -> In e tbl -> windyb e = true ->
  series (fold_left close1 tbl o) (sid (fst e)) = Some (snd e).
Proof.
  induction tbl as [|a tbl IH]; intros o e N I W; [contradiction|]. cbn [fold_left map] in *.
  inversion N; subst. destruct I as [->|I]; [|now apply IH].
  rewrite series_other.
  - rewrite close1_spec, W. cbn [series]. apply dput_same.
  - intros e' He' _ E. apply H1. rewrite <- E. exact (in_map (fun x => sid (fst x)) tbl e' He').
Qed.

(** * Multipliers *)
Definition octants (m : mults) : list Q := [mcn m; mcne m; mce m; mcse m; mcs m; mcsw m; mcw m; mcnw m].
(** The multiplier of the compass direction number [k], clockwise from north. *)
Definition dirMult (m : mults) (k : nat) : Q := nth (k mod 8) (octants m) 0.

Ltac side b lo := let E := fresh "E" in
  destruct (Qlt_le_dec b lo) as [E|E].
Lemma between_true b lo hi : lo <= b -> b < hi -> between b lo hi = true.
Proof. intros. unfold between. rewrite (proj2 (Qle_bool_iff lo b)) by auto. now apply qlt_iff. Qed.
Lemma between_hi b lo hi : hi <= b -> between b lo hi = false.
Proof. intros. unfold between. rewrite (proj2 (qlt_false_iff b hi)) by auto. apply andb_false_r. Qed.
Lemma between_lo b lo hi : b < lo -> between b lo hi = false.
Proof. intros. unfold between. apply andb_false_iff. left. apply qle_false_iff. auto. Qed.

Lemma applyMult_octant m g b (k : nat) : (k < 8)%nat ->
  45 * inject_Z (Z.of_nat k) <= b -> b < 45 * inject_Z (Z.of_nat k) + 45 ->
  applyMult m g b == g * (dirMult m k * ((b - 45 * inject_Z (Z.of_nat k)) / 45)
                          + dirMult m (S k) * ((45 * inject_Z (Z.of_nat k) + 45 - b) / 45)).
Proof.
  intros Hk L U. unfold applyMult.
  assert (K : (k = 0 \/ k = 1 \/ k = 2 \/ k = 3 \/ k = 4 \/ k = 5 \/ k = 6 \/ k = 7)%nat) by lia.
  assert (last : 315 <= b -> b <= 360 -> Qle_bool 315 b && Qle_bool b 360 = true).
  { intros. apply andb_true_iff. split; now apply Qle_bool_iff. }
  assert (notlast : b < 315 -> Qle_bool 315 b && Qle_bool b 360 = false).
  { intros. apply andb_false_iff. left. apply qle_false_iff. auto. }
  destruct K as [->|[->|[->|[->|[->|[->|[->| ->]]]]]]];
    match type of L with 45 * inject_Z ?z <= _ => let z' := eval cbv in z in change z with z' in * end;
    unfold inject_Z in *; unfold dirMult;
    match goal with |- context [nth (?k mod 8) _ _] => idtac end; cbn [Nat.modulo Nat.divmod fst snd Nat.sub nth octants];
    repeat match goal with |- context [between b ?lo ?hi] =>
      first [ rewrite (between_true b lo hi) by lra | rewrite (between_hi b lo hi) by lra
            | rewrite (between_lo b lo hi) by lra ] end;
    first [rewrite last by lra | rewrite notlast by lra];
    cbv zeta iota; unfold weight; field.
Qed.

Lemma octant_of b : 0 <= b -> b < 360 -> exists k, (k < 8)%nat /\
  45 * inject_Z (Z.of_nat k) <= b /\ b < 45 * inject_Z (Z.of_nat k) + 45.
Proof.
  intros L U.
  destruct (Qlt_le_dec b 45); [exists 0%nat; repeat split; [lia|cbn; unfold inject_Z; lra|cbn; unfold inject_Z; lra]|].
  destruct (Qlt_le_dec b 90); [exists 1%nat; repeat split; [lia|cbn; unfold inject_Z; lra|cbn; unfold inject_Z; lra]|].
  destruct (Qlt_le_dec b 135); [exists 2%nat; repeat split; [lia|cbn; unfold inject_Z; lra|cbn; unfold inject_Z; lra]|].
  destruct (Qlt_le_dec b 180); [exists 3%nat; repeat split; [lia|cbn; unfold inject_Z; lra|cbn; unfold inject_Z; lra]|].
  destruct (Qlt_le_dec b 225); [exists 4%nat; repeat split; [lia|cbn; unfold inject_Z; lra|cbn; unfold inject_Z; lra]|].
  destruct (Qlt_le_dec b 270); [exists 5%nat; repeat split; [lia|cbn; unfold inject_Z; lra|cbn; unfold inject_Z; lra]|].
  destruct (Qlt_le_dec b 315); [exists 6%nat; repeat split; [lia|cbn; unfold inject_Z; lra|cbn; unfold inject_Z; lra]|].
  exists 7%nat; repeat split; [lia|cbn; unfold inject_Z; lra|cbn; unfold inject_Z; lra].
Qed.
