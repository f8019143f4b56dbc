(** C55, C106, C107: station time series, their summaries and local adjustment. *)
From Coq Require Import List Arith ZArith Lia Bool QArith Qabs String Lqa.
From Verif Require Import CellModel NumModel UtilModel UtilProofs StationModel StationProofs.
Import ListNotations.
Open Scope Q_scope.

(** Two time steps on a 2 x 2 grid and stations inside and outside of it, for the examples. *)
Definition exStep (t : string) (s p : Q) : tstep :=
  mkTs t [[s; s]; [s; s]] [[s; s]; [s; s]] [[0; 0]; [0; 0]] [[p; p + 1]; [p + 2; p + 3]] [10; 11] [-20; -19].
Definition exFar (t : string) (s p : Q) : tstep :=
  mkTs t [[s; s]; [s; s]] [[s; s]; [s; s]] [[0; 0]; [0; 0]] [[p; p]; [p; p]] [50; 51] [-20; -19].
Definition exIn : station := mkSt "in" 10.6 (-19.9).
Definition exOut : station := mkSt "out" 30 (-19.9).

(** * C55 *)
(** Every step adds one record to every station, in order: the values of the nearest grid point
    for a station within the coordinates of the grid, calm for the others. *)
Theorem c55_series : forall brg sts ps tbl, runSteps brg ps (fresh sts) = Some tbl ->
  map fst tbl = sts /\
  forall st rs, In (st, rs) tbl -> List.length rs = List.length ps /\
    forall k p r, nth_error ps k = Some p -> nth_error rs k = Some r ->
      rlon r = slon st /\ rlat r = slat st /\
      (inGrid st p -> exists x y, nearest (tgx p) (slon st) x /\ nearest (tgy p) (slat st) y /\
         valueAt (tspd p) y x (rspd r) /\ valueAt (tuu p) y x (ruu r) /\ valueAt (tvv p) y x (rvv r) /\
         valueAt (tprs p) y x (rprs r) /\ rbrg r = brg (ruu r) (rvv r)) /\
      (~ inGrid st p -> rspd r = 0 /\ ruu r = 0 /\ rvv r = 0).
Proof.
  intros brg sts ps tbl H. destruct (fresh_spec brg sts ps tbl H) as (A & B). split; [exact A|].
  intros st rs I. pose proof (B st rs I) as F. clear - F. split.
  - now apply F2_len in F.
  - induction F as [|p r ps rs E F IH]; intros k p' r' Hp Hr; [destruct k; discriminate|].
    destruct k as [|k]; cbn in Hp, Hr.
    + injection Hp as <-. injection Hr as <-.
      destruct (extract1_spec brg p st r E) as (_ & _ & H3 & H4 & H5 & H6).
      split; [exact H3|]. split; [exact H4|]. split; [exact H5|]. intros N. destruct (H6 N) as (Z1 & Z2 & Z3 & _). auto.
    + eapply IH; eauto.
Qed.
Print Assumptions c55_series.
(** The extraction succeeds on every grid with matching fields. *)
Theorem c55_runs : forall brg sts ps,
  (forall p, In p ps -> tgx p <> [] /\ tgy p <> [] /\
     forall g, In g [tspd p; tuu p; tvv p; tprs p] ->
       List.length g = List.length (tgy p) /\ forall row, In row g -> List.length row = List.length (tgx p)) ->
  exists tbl, runSteps brg ps (fresh sts) = Some tbl.
Proof.
  intros brg sts ps H. apply runSteps_some. intros p I. destruct (H p I) as (A & B & C).
  unfold wellShaped, shaped. split; [exact A|]. split; [exact B|].
  repeat split; try (apply C; cbn; auto 6); intros row; apply C; cbn; auto 6.
Qed.
Print Assumptions c55_runs.
(** The summaries list, in the order of the stations, one record for every station with wind: the
    first with the highest speed, the first with the lowest pressure.  The series file of such a
    station holds its records, provided no two stations have the same name. *)
Theorem c55_summaries : forall d tbl, let o := shutdown d tbl in
  exists ws, (forall e, In e ws <-> In e tbl /\ exists r, In r (snd e) /\ 0 < rspd r) /\
    (exists keep, ws = filter keep tbl) /\
    Forall2 (fun e m => exists i, nth_error (snd e) i = Some m /\ forall j r, nth_error (snd e) j = Some r ->
               rspd r <= rspd m /\ ((j < i)%nat -> rspd r < rspd m)) ws (maxima o) /\
    Forall2 (fun e m => exists i, nth_error (snd e) i = Some m /\ forall j r, nth_error (snd e) j = Some r ->
               rprs m <= rprs r /\ ((j < i)%nat -> rprs m < rprs r)) ws (minima o) /\
    (NoDup (map (fun e => sid (fst e)) tbl) -> forall e, In e ws -> series o (sid (fst e)) = Some (snd e)).
Proof.
  intros d tbl o. destruct (shutdown_gen tbl (mkOut d [] [])) as ((mx & E1 & F1) & (mn & E2 & F2)).
  fold (shutdown d tbl) in E1, E2. fold o in E1, E2. cbn [maxima minima app] in E1, E2. subst mx mn.
  exists (filter windyb tbl). split; [|split; [|split; [|split]]].
  - intros e. rewrite filter_In, windyb_iff. reflexivity.
  - now exists windyb.
  - eapply F2_impl; [|exact F1]. cbv beta. intros e m (i & H1 & H2). exists i. split; [exact H1|].
    intros j r Hj. destruct (H2 j r Hj) as (A & B). split; [lra|]. intros L. specialize (B L). lra.
  - exact F2.
  - intros N e I. apply filter_In in I as (I & W). exact (series_own tbl (mkOut d [] []) e N I W).
Qed.
Print Assumptions c55_summaries.
Example c55_example : exists tbl,
  runSteps (fun _ _ => 0) [exStep "a" 5 990; exFar "b" 7 1000; exStep "c" 9 985] (fresh [exOut; exIn]) = Some tbl /\
  map rspd (maxima (shutdown dempty tbl)) = [9] /\ map rtm (minima (shutdown dempty tbl)) = ["c"%string] /\
  inGrid exIn (exStep "a" 5 990) /\ ~ inGrid exOut (exStep "a" 5 990).
Proof.
  eexists. split; [reflexivity|]. split; [reflexivity|]. split; [reflexivity|]. split.
  - repeat split; cbn; [exists 10|exists 11|exists (-20)|exists (-19)]; (split; [auto|]); unfold Qle; cbn; lia.
  - intros ((_ & (x & [<-|[<-|[]]] & H)) & _); unfold Qle in H; cbn in H; lia.
Qed.

(** * C110 *)
(** Missing: steps with the station outside the grid and long or equal names, see below.  For a
    station that stays within the grids the minimum record holds the lowest of the pressures at
    its nearest grid points, and its name and time are those given, up to sixteen characters. *)
Theorem c110_inside_partial : forall brg st ps tbl m, runSteps brg ps (fresh [st]) = Some tbl ->
  (forall p, In p ps -> inGrid st p) -> In m (minima (shutdown dempty tbl)) ->
  exists p x y, In p ps /\ nearest (tgx p) (slon st) x /\ nearest (tgy p) (slat st) y /\
    valueAt (tprs p) y x (rprs m) /\
    (forall q, In q ps -> exists x' y' v, nearest (tgx q) (slon st) x' /\ nearest (tgy q) (slat st) y' /\
       valueAt (tprs q) y' x' v /\ rprs m <= v) /\
    (String.length (sid st) <= 16 -> String.length (tdt p) <= 16 -> rid m = sid st /\ rtm m = tdt p)%nat.
Proof.
  intros brg st ps tbl m H G I. destruct (fresh_spec brg [st] ps tbl H) as (A & B).
  destruct tbl as [|[st' rs] [|]]; try discriminate. cbn in A. injection A as ->.
  specialize (B st rs (or_introl eq_refl)). clear H.
  destruct (shutdown_gen [(st, rs)] (mkOut dempty [] [])) as (_ & (mn & E2 & F2)).
  change (minima (shutdown dempty [(st, rs)]) = [] ++ mn)%list in E2. rewrite E2 in I. cbn [app] in I.
  cbn [filter] in F2. destruct (windyb (st, rs)); [|inversion F2; subst; contradiction].
  inversion F2 as [|e r l l' F F' Q1 Q2]; subst. inversion F'; subst. destruct I as [<-|[]]. clear F2 F' E2.
  destruct F as (i & Hi & Hm). cbn [snd] in *.
  assert (K : forall j r, nth_error rs j = Some r -> exists p, In p ps /\ extract1 brg p st = Some r).
  { clear - B. induction B as [|p r ps rs E B IH]; intros j r0 Hj; [destruct j; discriminate|].
    destruct j as [|j]; cbn in Hj.
    - injection Hj as <-. exists p. split; [now left|exact E].
    - destruct (IH j r0 Hj) as (q & Q1 & Q2). exists q. split; [now right|exact Q2]. }
  assert (K' : forall p, In p ps -> exists j r, nth_error rs j = Some r /\ extract1 brg p st = Some r).
  { clear - B. induction B as [|p r ps rs E B IH]; intros q Hq; [contradiction|].
    destruct Hq as [<-|Hq]; [exists 0%nat, r; split; [reflexivity|exact E]|].
    destruct (IH q Hq) as (j & r0 & J1 & J2). exists (S j), r0. split; [exact J1|exact J2]. }
  destruct (K i r Hi) as (p & Ip & Ep).
  destruct (extract1_spec brg p st r Ep) as (N1 & N2 & _ & _ & N5 & _).
  destruct (N5 (G p Ip)) as (x & y & X & Y & _ & _ & _ & V & _).
  exists p, x, y. split; [exact Ip|]. split; [exact X|]. split; [exact Y|]. split; [exact V|]. split.
  - intros q Iq. destruct (K' q Iq) as (j & r' & J1 & J2).
    destruct (extract1_spec brg q st r' J2) as (_ & _ & _ & _ & M5 & _).
    destruct (M5 (G q Iq)) as (x' & y' & X' & Y' & _ & _ & _ & V' & _).
    exists x', y', (rprs r'). repeat (split; [assumption|]). now apply (Hm j r').
  - intros L1 L2. rewrite N1, N2. unfold u16. split; apply substring_all; assumption.
Qed.
Print Assumptions c110_inside_partial.
(** The record of a station outside the grid carries the pressure of the first grid corner, and
    that value enters the minimum: the lowest pressure listed for a station may never have been
    the pressure at the station. *)
Theorem c110_lowest_pressure_refuted : exists brg ps tbl r,
  runSteps brg ps (fresh [exIn]) = Some tbl /\ minima (shutdown dempty tbl) = [r] /\
  forall p, In p ps -> inGrid exIn p -> forall x y v, nearest (tgx p) (slon exIn) x ->
    nearest (tgy p) (slat exIn) y -> valueAt (tprs p) y x v -> rprs r < v.
Proof.
  exists (fun _ _ => 0), [exStep "a" 5 1000; exFar "b" 7 980]. eexists. eexists.
  split; [reflexivity|]. split; [reflexivity|].
  intros p [<-|[<-|[]]] G x y v Nx Ny (row & V1 & V2).
  - cbn in V1. destruct y as [|[|y]]; cbn in V1.
    + injection V1 as <-. destruct x as [|[|x]]; cbn in V2.
      * injection V2 as <-. reflexivity.
      * injection V2 as <-. reflexivity.
      * destruct x; discriminate.
    + injection V1 as <-. destruct x as [|[|x]]; cbn in V2.
      * injection V2 as <-. reflexivity.
      * injection V2 as <-. reflexivity.
      * destruct x; discriminate.
    + destruct y; discriminate.
  - destruct G as (((z & [<-|[<-|[]]] & H) & _) & _); unfold Qle in H; cbn in H; lia.
Qed.
Print Assumptions c110_lowest_pressure_refuted.
(** Station names are cut to sixteen characters in the records, so the lines of two stations in
    the summaries may carry the same name; two stations of one name share a file. *)
Theorem c110_names_refuted :
  (exists s t, sid s <> sid t /\ forall brg p rs rt, extract1 brg p s = Some rs -> extract1 brg p t = Some rt ->
     rid rs = rid rt) /\
  (exists s t tbl, sid s = sid t /\ s <> t /\ runSteps (fun _ _ => 0) [exStep "a" 5 990] (fresh [s; t]) = Some tbl /\
     forall rs, In (s, rs) tbl -> series (shutdown dempty tbl) (sid s) <> Some rs).
Proof.
  split.
  - exists (mkSt "Willis Island Airport 1" 0 0), (mkSt "Willis Island Airport 2" 0 0).
    split; [discriminate|]. intros brg p rs rt H1 H2.
    destruct (extract1_spec _ _ _ _ H1) as (-> & _). destruct (extract1_spec _ _ _ _ H2) as (-> & _). reflexivity.
  - exists (mkSt "x" 10 (-20)), (mkSt "x" 11 (-20)). eexists. split; [reflexivity|]. split; [discriminate|].
    split; [reflexivity|]. intros rs [E|[E|[]]].
    + injection E as <-. vm_compute. intros [= H].
    + discriminate (f_equal (fun e => Qnum (slon (fst e))) E).
Qed.
Print Assumptions c110_names_refuted.

(** * C106 *)
(** Missing: several processes and resumed runs, see below.  A single process that starts afresh
    gathers the steps of all its tracks. *)
Theorem c106_single_run_partial : forall (T : Type) brg (stepsOf : T -> list tstep) tracks sts,
  runTracks brg (fun _ => false) stepsOf tracks (fresh sts) =
  runSteps brg (flat_map stepsOf tracks) (fresh sts).
Proof.
  intros. rewrite runTracks_steps. f_equal. f_equal. induction tracks as [|t ts IH]; cbn; [reflexivity|now f_equal].
Qed.
Print Assumptions c106_single_run_partial.
(** The summaries are those of the process that writes last, whatever the others recorded. *)
Theorem c106_last_writer : forall o order tbl,
  maxima (shutdowns o (order ++ [tbl])) = maxima (shutdown dempty tbl) /\
  minima (shutdowns o (order ++ [tbl])) = minima (shutdown dempty tbl).
Proof.
  assert (D : forall tbl o o', maxima o = maxima o' -> minima o = minima o' ->
    maxima (fold_left close1 tbl o) = maxima (fold_left close1 tbl o') /\
    minima (fold_left close1 tbl o) = minima (fold_left close1 tbl o')).
  { induction tbl as [|e tbl IH]; intros o o' H1 H2; cbn [fold_left]; [auto|]. apply IH.
    - rewrite !close1_spec. destruct (windyb e); cbn [maxima]; congruence.
    - rewrite !close1_spec. destruct (windyb e); cbn [minima]; congruence. }
  intros o order. revert o. induction order as [|a order IH]; intros o tbl; cbn [app shutdowns].
  - unfold shutdown. now apply D.
  - apply IH.
Qed.
Print Assumptions c106_last_writer.
(** Two tracks handled by two processes: in either order the summary differs from that of one
    process handling both, and the highest wind of a station may be lost. *)
Theorem c106_processes_refuted : exists brg p q t12 t1 t2,
  runSteps brg [p; q] (fresh [exIn]) = Some t12 /\ runSteps brg [p] (fresh [exIn]) = Some t1 /\
  runSteps brg [q] (fresh [exIn]) = Some t2 /\
  (forall o, series (shutdowns o [t1; t2]) (sid exIn) <> series (shutdown dempty t12) (sid exIn)) /\
  (forall o, series (shutdowns o [t2; t1]) (sid exIn) <> series (shutdown dempty t12) (sid exIn)) /\
  (forall o, map rspd (maxima (shutdown dempty t12)) = [9] /\ map rspd (maxima (shutdowns o [t2; t1])) = [5]).
Proof.
  exists (fun _ _ => 0), (exStep "a" 5 990), (exStep "b" 9 980). do 3 eexists.
  split; [reflexivity|]. split; [reflexivity|]. split; [reflexivity|].
  split; [|split]; intros [d a b]; cbn [shutdowns]; [vm_compute; discriminate..|split; reflexivity].
Qed.
Print Assumptions c106_processes_refuted.
(** A resumed run skips the tracks with a complete gust file before the stations are sampled, so
    its series and summaries lack them, and it replaces the files of the interrupted run. *)
Theorem c106_resume_refuted :
  (forall (T : Type) brg (done : T -> bool) stepsOf tracks sts,
     runTracks brg done stepsOf tracks (fresh sts) =
     runSteps brg (flat_map stepsOf (filter (fun t => negb (done t)) tracks)) (fresh sts)) /\
  exists brg (stepsOf : bool -> list tstep) full rest,
    runTracks brg (fun _ => false) stepsOf [true; false] (fresh [exIn]) = Some full /\
    runTracks brg (fun t => t) stepsOf [true; false] (fresh [exIn]) = Some rest /\
    map rspd (maxima (shutdown dempty full)) = [9] /\
    forall d, map rspd (maxima (shutdown d rest)) = [5] /\
      option_map (@List.length rcd) (series (shutdown d rest) (sid exIn)) = Some 1%nat.
Proof.
  split; [intros; apply runTracks_steps|].
  exists (fun _ _ => 0), (fun t : bool => if t then [exStep "a" 9 980] else [exStep "b" 5 990]). do 2 eexists.
  split; [reflexivity|]. split; [reflexivity|]. split; [reflexivity|]. intros d. split; reflexivity.
Qed.
Print Assumptions c106_resume_refuted.
Example c106_example : exists t, runTracks (fun _ _ => 0) (fun _ : nat => false) (fun n => [exStep "a" (inject_Z (Z.of_nat n)) 990])
  [1; 2; 3]%nat (fresh [exIn]) = Some t /\ map rspd (maxima (shutdown dempty t)) = [3].
Proof. eexists. split; reflexivity. Qed.

(** * C107 *)
(** The factor applied to a gust always lies between the multipliers of the two compass
    directions on either side of its bearing. *)
Theorem c107_between_neighbours : forall m g b, 0 <= g -> 0 <= b -> b < 360 ->
  exists k, (k < 8)%nat /\ 45 * inject_Z (Z.of_nat k) <= b /\ b <= 45 * inject_Z (Z.of_nat k) + 45 /\
    exists f, applyMult m g b == g * f /\
      (forall lo, lo <= dirMult m k -> lo <= dirMult m (S k) -> lo <= f) /\
      (forall hi, dirMult m k <= hi -> dirMult m (S k) <= hi -> f <= hi).
Proof.
  intros m g b Hg H0 H1. destruct (octant_of b H0 H1) as (k & Hk & L & U).
  exists k. split; [exact Hk|]. split; [exact L|]. split; [lra|].
  eexists. split; [exact (applyMult_octant m g b k Hk L U)|].
  set (z := 45 * inject_Z (Z.of_nat k)) in *.
  set (u := (b - z) / 45). set (v := (z + 45 - b) / 45).
  assert (0 <= u) by (unfold u; apply Qle_shift_div_l; lra).
  assert (0 <= v) by (unfold v; apply Qle_shift_div_l; lra).
  assert (u + v == 1) by (unfold u, v; field).
  set (a := dirMult m k) in *. set (c := dirMult m (S k)) in *. clearbody u v a c. clear L U.
  split; intros w A C.
  - assert (w == w * u + w * v) by (setoid_replace (w * u + w * v) with (w * (u + v)) by ring; rewrite H3; ring).
    assert (w * u <= a * u) by (apply Qmult_le_compat_r; auto).
    assert (w * v <= c * v) by (apply Qmult_le_compat_r; auto). lra.
  - assert (w == w * u + w * v) by (setoid_replace (w * u + w * v) with (w * (u + v)) by ring; rewrite H3; ring).
    assert (a * u <= w * u) by (apply Qmult_le_compat_r; auto).
    assert (c * v <= w * v) by (apply Qmult_le_compat_r; auto). lra.
Qed.
Print Assumptions c107_between_neighbours.
(** The weights of the two directions are exchanged: a wind exactly from a compass direction is
    multiplied with the multiplier of the next direction clockwise. *)
Theorem c107_weights_refuted :
  (forall m g k, (k < 8)%nat -> applyMult m g (45 * inject_Z (Z.of_nat k)) == g * dirMult m (S k)) /\
  (exists m g, 0 < g /\ mcn m == 2 /\ applyMult m g 0 == g * 1).
Proof.
  split.
  - intros m g k Hk. rewrite (applyMult_octant m g _ k Hk) by lra.
    set (z := inject_Z (Z.of_nat k)). field.
  - exists (mkM 2 1 1 1 1 1 1 1), 10. repeat split.
Qed.
Print Assumptions c107_weights_refuted.
(** With equal multipliers in all directions the gusts are scaled by that number. *)
Theorem c107_uniform : forall c g b, 0 <= b -> b < 360 -> applyMult (mkM c c c c c c c c) g b == g * c.
Proof.
  intros c g b H0 H1. destruct (octant_of b H0 H1) as (k & Hk & L & U).
  rewrite (applyMult_octant _ g b k Hk L U).
  assert (E : forall n, dirMult (mkM c c c c c c c c) n = c).
  { intros n. unfold dirMult. pose proof (Nat.mod_upper_bound n 8). destruct (n mod 8)%nat as [|[|[|[|[|[|[|[|]]]]]]]]; try reflexivity. lia. }
  rewrite !E. set (z := inject_Z (Z.of_nat k)). field.
Qed.
Print Assumptions c107_uniform.
(** The adjusted series keeps the records in order, and its summary records are the first with
    the highest adjusted gust and the first with the lowest pressure. *)
Theorem c107_summaries : forall brg2 m rs, rs <> [] -> exists out mx mn,
  tsmultiply brg2 m rs = Some (out, mx, mn) /\
  Forall2 (fun r o => rtm o = rtm r /\ rprs o = rprs r /\ ruu o = ruu r /\ rvv o = rvv r /\
                      rspd o = applyMult m (rspd r) (brg2 (ruu r) (rvv r))) rs out /\
  (exists i, nth_error out i = Some mx /\ forall j r, nth_error out j = Some r ->
     rspd r <= rspd mx /\ ((j < i)%nat -> rspd r < rspd mx)) /\
  (exists i, nth_error out i = Some mn /\ forall j r, nth_error out j = Some r ->
     rprs mn <= rprs r /\ ((j < i)%nat -> rprs mn < rprs r)).
Proof.
  intros brg2 m rs N. unfold tsmultiply.
  set (out := map (tsmult1 brg2 m) rs).
  assert (N' : out <> []) by (unfold out; destruct rs; [congruence|discriminate]).
  rewrite argmax_map. destruct (least_found (fun r => - rspd r) out N') as (mx & -> & i & A1 & A2).
  destruct (least_found rprs out N') as (mn & -> & B).
  exists out, mx, mn. split; [reflexivity|]. split; [|split; [|exact B]].
  - unfold out. clear. induction rs; cbn [map]; constructor; [repeat split|assumption].
  - exists i. split; [exact A1|]. intros j r Hj. destruct (A2 j r Hj) as (H1 & H2). split; [lra|].
    intros L. specialize (H2 L). lra.
Qed.
Print Assumptions c107_summaries.
Example c107_example : applyMult (mkM 1 2 3 4 5 6 7 8) 9 15 == 15 /\
  applyMult (mkM 1 2 3 4 5 6 7 8) 9 350 == 58.
Proof. split; vm_compute; reflexivity. Qed.
