(** C198, C199: conversion of NetCDF files to ASCII grids. *)
From Coq Require Import List Arith ZArith Lia Bool QArith Qabs Lqa.
From Verif Require Import CellModel CellProofs NumModel NumProofs GenModel LoadProofs3 GridFileModel GridFileProofs NctxtModel.
Import ListNotations.
Open Scope Q_scope.

(** The coordinates of a grid with equal spacing in both directions, from west to east and from south to north *)
Definition gridded (lon lat : list Q) (x0 y0 d : Q) : Prop :=
  0 < d /\ (2 <= List.length lon)%nat /\ lat <> [] /\
  (forall i, (i < List.length lon)%nat -> nth i lon 0 == x0 + inject_Z (Z.of_nat i) * d) /\
  (forall j, (j < List.length lat)%nat -> nth j lat 0 == y0 + inject_Z (Z.of_nat j) * d).
Definition shaped (lon lat : list Q) (data : list (list Q)) : Prop :=
  List.length data = List.length lat /\ (forall row, In row data -> List.length row = List.length lon).

(** What the program's own reader gives for the file: coordinates half a cell to the south-west, and at the
    latitude of row [j] the values of row [j], rounded to hundredths; the missing value becomes NaN *)
Definition shows (f : gridfile) (lon lat : list Q) (data : list (list Q)) (d mv : Q) : Prop :=
  exists lon' lat' vals, grdRead f = Some (lon', lat', vals) /\
    List.length lon' = List.length lon /\ List.length lat' = List.length lat /\ List.length vals = List.length lat /\
    (forall i, (i < List.length lon)%nat -> nth i lon' 0 == nth i lon 0 - d / 2) /\
    (forall j, (j < List.length lat)%nat -> let r := (List.length lat - 1 - j)%nat in
       nth r lat' 0 == nth j lat 0 - d / 2 /\
       forall i, (i < List.length lon)%nat -> exists w, Qabs (w - nth i (nth j data []) 0) <= 1 # 200 /\
         (exists k, w == inject_Z k / 100) /\
         nth i (nth r vals []) None = if Qeq_bool w mv then None else Some w).

Lemma fmt2_close v : Qabs (fmt2 v - v) <= 1 # 200.
Proof.
  unfold fmt2. pose proof (rint_half (v * 100)) as [H1 H2]. set (z := inject_Z (rint (v * 100))) in *.
  assert (Ez : z / 100 * 100 == z) by field. apply Qabs_Qle_condition. lra.
Qed.

Lemma nth_moved l c i : (i < List.length l)%nat -> nth i (map (fun x => x - c) l) 0 == nth i l 0 - c.
Proof.
  intros H. rewrite (nth_indep _ 0 (0 - c)) by (rewrite map_length; exact H).
  rewrite (map_nth (fun x => x - c)). reflexivity.
Qed.

Lemma moved_regular l x0 c d : (forall i, (i < List.length l)%nat -> nth i l 0 == x0 + inject_Z (Z.of_nat i) * d) ->
  regular (map (fun x => x - c) l) (x0 - c) d.
Proof. intros R i Hi. rewrite map_length in Hi. rewrite nth_moved, (R i Hi) by exact Hi. ring. Qed.

Lemma moved_some lon lat x0 y0 d : gridded lon lat x0 y0 d ->
  exists delta, delta == d /\
    moved lon lat = Some (map (fun x => x - delta / 2) lon, map (fun y => y - delta / 2) lat, delta).
Proof.
  intros (D & L & _ & R & _). destruct lon as [|a [|b l]]; cbn in L; try lia.
  exists (b - a). split; [|reflexivity].
  pose proof (R 0%nat ltac:(cbn; lia)) as R0. pose proof (R 1%nat ltac:(cbn; lia)) as R1. cbn in R0, R1.
  unfold inject_Z in *. rewrite R1, R0. ring.
Qed.

Lemma regular_wd a x0 d d' : d == d' -> regular a x0 d -> regular a x0 d'.
Proof. intros E R i Hi. rewrite (R i Hi), E. reflexivity. Qed.

Lemma gen_shows present n lon lat lat1 data mv x0 y0 d delta : gridded lon lat x0 y0 d -> shaped lon lat data ->
  delta == d -> existsb (sameName n) present = false -> List.length lat1 = List.length lat ->
  (forall y ly, map (fun y => y - delta / 2) lat1 = y :: ly -> amin y ly == y0 - delta / 2) ->
  exists f, saveOne present n data (map (fun x => x - delta / 2) lon) (map (fun y => y - delta / 2) lat1) delta mv = SaveOk f /\
    shows f lon lat data d mv.
Proof.
  intros (D & L & NT & R & Rt) (LD & LR) Ed Nw L1 Am. unfold saveOne. rewrite Nw.
  set (lo := map (fun x => x - delta / 2) lon). set (la := map (fun y => y - delta / 2) lat1) in *.
  assert (Dd : 0 < delta) by (rewrite Ed; exact D).
  assert (Rl : regular lo (x0 - delta / 2) delta) by (apply (regular_wd _ _ d); [now symmetry|]; now apply moved_regular).
  destruct (save_read fmt2 (rev data) lo la delta mv (x0 - delta / 2) (y0 - delta / 2) Dd) as
    (f & A & lon' & lat' & vals & B & C & (y & E & ->) & F).
  - unfold lo. destruct lon; cbn in *; [lia|discriminate].
  - unfold la. destruct lat, lat1; cbn in *; congruence.
  - exact Rl.
  - unfold la. rewrite rev_length, map_length. congruence.
  - intros row Hr. apply in_rev in Hr. unfold lo. rewrite map_length. now apply LR.
  - exact Am.
  - exists f. split; [exact A|]. exists lon', (rev (axis (List.length la) delta y)), vals.
    assert (Lo : List.length lo = List.length lon) by apply map_length.
    assert (La : List.length la = List.length lat) by (unfold la; now rewrite map_length).
    assert (Lv : List.length vals = List.length lat) by (rewrite F, map_length, rev_length; exact LD).
    split; [exact B|]. split; [rewrite <- Lo; clear - C; induction C; cbn; congruence|].
    split; [rewrite rev_length, axis_len; exact La|]. split; [exact Lv|]. split.
    + intros i Hi. assert (Cn : nth i lon' 0 == nth i lo 0).
      { rewrite <- Lo in Hi. clear - C Hi. revert i Hi. induction C as [|a b l m E C IH]; intros i Hi; cbn in Hi; [lia|].
        destruct i; [exact E|]. apply IH. lia. }
      rewrite Cn. unfold lo. rewrite nth_moved by exact Hi. now rewrite Ed.
    + intros j Hj. cbv zeta. split.
      * rewrite rev_nth by (rewrite axis_len, La; lia). rewrite axis_len, La.
        replace (List.length lat - S (List.length lat - 1 - j))%nat with j by lia.
        rewrite axis_nth by lia. rewrite E, (Rt j Hj). rewrite !Ed. ring.
      * intros i Hi. exists (fmt2 (nth i (nth j data []) 0)). split; [apply fmt2_close|].
        split; [exists (rint (nth i (nth j data []) 0 * 100)); reflexivity|].
        rewrite F. set (g := fun v => if Qeq_bool (fmt2 v) mv then None else Some (fmt2 v)).
        change (@nil (option Q)) with (map g []). rewrite map_nth. rewrite rev_nth by lia.
        replace (List.length data - S (List.length lat - 1 - j))%nat with j by lia.
        assert (Li : (i < List.length (nth j data []))%nat) by (rewrite (LR (nth j data [])); [exact Hi|apply nth_In; lia]).
        rewrite (nth_indep _ None (g 0)) by (rewrite map_length; exact Li). rewrite map_nth. reflexivity.
Qed.

Lemma one_shows present n lon lat data mv x0 y0 d delta : gridded lon lat x0 y0 d -> shaped lon lat data ->
  delta == d -> existsb (sameName n) present = false ->
  exists f, saveOne present n data (map (fun x => x - delta / 2) lon) (map (fun y => y - delta / 2) lat) delta mv = SaveOk f /\
    shows f lon lat data d mv.
Proof.
  intros G Sh Ed Nw. apply (gen_shows present n lon lat lat data mv x0 y0); auto.
  destruct G as (D & L & NT & R & Rt). intros y ly E.
  assert (Ra : regular (y :: ly) (y0 - delta / 2) delta).
  { rewrite <- E. apply (regular_wd _ _ d); [now symmetry|]. now apply moved_regular. }
  apply (amin_regular y ly _ delta); [rewrite Ed; exact D|exact Ra].
Qed.

(** ** C198 *)
(** One grid: the file written shows the data, each value at its own place *)
Theorem c198_grid : forall present lon lat data mv x0 y0 d,
  gridded lon lat x0 y0 d -> shaped lon lat data -> existsb (sameName None) present = false ->
  exists f, nc2txt present lon lat mv (OneGrid data) = ([(None, f)], true) /\ shows f lon lat data d mv.
Proof.
  intros present lon lat data mv x0 y0 d G Sh N. unfold nc2txt.
  destruct (moved_some lon lat x0 y0 d G) as (delta & Ed & ->).
  destruct (one_shows present None lon lat data mv x0 y0 d delta G Sh Ed N) as (f & -> & H). eauto.
Qed.

(** A record dimension: one file for each record, in order, under the value of the record, showing its grid *)
Theorem c198_records : forall present lon lat recs data mv x0 y0 d,
  gridded lon lat x0 y0 d -> List.length data = List.length recs -> (forall g, In g data -> shaped lon lat g) ->
  (forall v, In v recs -> forall n, In n present -> sameName (Some v) n = false) ->
  (forall i j, (i < j < List.length recs)%nat -> ~ nth i recs 0 == nth j recs 0) ->
  exists fs, nc2txt present lon lat mv (Records recs data) = (combine (map Some recs) fs, true) /\
    List.length fs = List.length recs /\
    forall k, (k < List.length recs)%nat -> exists f, nth_error fs k = Some f /\ shows f lon lat (nth k data []) d mv.
Proof.
  intros present lon lat recs data mv x0 y0 d G L Sh Np Nd. unfold nc2txt.
  destruct (moved_some lon lat x0 y0 d G) as (delta & Ed & ->).
  revert present data L Sh Np Nd. induction recs as [|v recs IH]; intros present data L Sh Np Nd.
  - exists []. destruct data; [|discriminate]. repeat split; cbn; lia.
  - destruct data as [|g data]; [discriminate|]. cbn [saveRecords].
    destruct (one_shows present (Some v) lon lat g mv x0 y0 d delta G (Sh g (or_introl eq_refl)) Ed) as (f & -> & H).
    { destruct (existsb (sameName (Some v)) present) eqn:X; [|reflexivity].
      apply existsb_exists in X as (n & I & X). now rewrite (Np v (or_introl eq_refl) n I) in X. }
    destruct (IH (Some v :: present) data) as (fs & E & Lf & K).
    + cbn in L. lia.
    + intros q Hq. apply Sh. now right.
    + intros w Hw n [<-|Hn]; [|apply (Np w); [now right|exact Hn]].
      cbn. destruct (Qeq_bool w v) eqn:X; [|reflexivity]. apply Qeq_bool_iff in X.
      apply In_nth with (d := 0) in Hw as (i & Hi & <-).
      exfalso. apply (Nd 0%nat (S i)); [cbn; lia|]. cbn. now symmetry.
    + intros i j Hij. apply (Nd (S i) (S j)). cbn. lia.
    + rewrite E. exists (f :: fs). split; [reflexivity|]. split; [cbn; lia|].
      intros [|k] Hk; [exists f; auto|]. cbn in Hk. destruct (K k ltac:(lia)) as (f' & A & B). exists f'. auto.
Qed.

(** ** C199 *)
(** Latitudes from north to south: the rows are turned over although they are in order already, and every value is
    read at the latitude at the other side *)
Theorem c199_descending_refuted : forall lon lat data mv x0 y0 d,
  0 < d -> (2 <= List.length lon)%nat -> lat <> [] -> shaped lon lat data ->
  (forall i, (i < List.length lon)%nat -> nth i lon 0 == x0 + inject_Z (Z.of_nat i) * d) ->
  (forall j, (j < List.length lat)%nat -> nth j lat 0 == y0 + inject_Z (Z.of_nat (List.length lat - 1 - j)) * d) ->
  exists f, nc2txt [] lon lat mv (OneGrid data) = ([(None, f)], true) /\ shows f lon (rev lat) data d mv.
Proof.
  intros lon lat data mv x0 y0 d D L NT Sh R Rt.
  assert (G : gridded lon (rev lat) x0 y0 d).
  { repeat split; auto.
    - destruct lat; [congruence|]. cbn. intros E. apply (f_equal (@List.length Q)) in E. rewrite app_length in E. cbn in E. lia.
    - intros j Hj. rewrite rev_length in Hj. rewrite rev_nth by exact Hj. rewrite Rt by lia.
      replace (List.length lat - 1 - (List.length lat - S j))%nat with j by lia. reflexivity. }
  assert (Sh' : shaped lon (rev lat) data) by (destruct Sh; split; [now rewrite rev_length|assumption]).
  unfold nc2txt. destruct (moved_some lon (rev lat) x0 y0 d G) as (delta & Ed & M).
  assert (M' : moved lon lat = Some (map (fun x => x - delta / 2) lon, map (fun y => y - delta / 2) lat, delta)).
  { unfold moved in *. destruct lon as [|a [|b l]]; try discriminate.
    assert (E : b - a = delta) by (exact (f_equal (fun o => match o with Some (_, _, z) => z | None => 0 end) M)).
    rewrite <- E. reflexivity. }
  rewrite M'.
  destruct (gen_shows [] None lon (rev lat) lat data mv x0 y0 d delta G Sh' Ed eq_refl) as (f & -> & H).
  - now rewrite rev_length.
  - intros y ly E. apply (amin_regularDown y ly _ delta); [rewrite Ed; exact D|]. rewrite <- E.
    intros i Hi. rewrite map_length in *. rewrite nth_moved, (Rt i Hi) by exact Hi. rewrite Ed. ring.
  - eauto.
Qed.

(** The coordinates the program's reader gives are half a cell away from those of the data, in both directions *)
Theorem c199_half_cell_refuted : forall lon lat data mv x0 y0 d i,
  gridded lon lat x0 y0 d -> shaped lon lat data -> (i < List.length lon)%nat ->
  exists f lon' lat' vals, nc2txt [] lon lat mv (OneGrid data) = ([(None, f)], true) /\
    grdRead f = Some (lon', lat', vals) /\ ~ nth i lon' 0 == nth i lon 0.
Proof.
  intros lon lat data mv x0 y0 d i G Sh Hi.
  destruct (c198_grid [] lon lat data mv x0 y0 d G Sh eq_refl) as (f & E & lon' & lat' & vals & B & _ & _ & _ & C & _).
  exists f, lon', lat', vals. split; [exact E|]. split; [exact B|]. rewrite (C i Hi).
  destruct G as (D & _). intros X. assert (E2 : d / 2 == d * (1 # 2)) by (unfold Qdiv; reflexivity).
  rewrite E2 in X. lra.
Qed.

(** Different spacings: the latitudes come out with the spacing of the longitudes *)
Theorem c199_spacing_refuted : exists f lon' lat' vals,
  nc2txt [] [0; 1] [10; 12] (-9999) (OneGrid [[1; 2]; [3; 4]]) = ([(None, f)], true) /\
  grdRead f = Some (lon', lat', vals) /\ nth 0 lat' 0 - nth 1 lat' 0 == 1.
Proof. do 4 eexists. split; [reflexivity|]. split; reflexivity. Qed.

(** The program cannot be run a second time: a file that is there stops it, and with a record dimension all records
    after that one are lost *)
Theorem c199_again_refuted : forall present lon lat mv data,
  existsb (sameName None) present = true -> nc2txt present lon lat mv (OneGrid data) = ([], false).
Proof.
  intros. unfold nc2txt, saveOne. destruct (moved lon lat) as [[[a b] c]|]; [|reflexivity].
  rewrite H. reflexivity.
Qed.
Theorem c199_repeated_refuted : forall lon lat mv v recs g data,
  nc2txt [] lon lat mv (Records (v :: v :: recs) (g :: data)) = ([], false) \/
  exists f, nc2txt [] lon lat mv (Records (v :: v :: recs) (g :: data)) = ([(Some v, f)], false).
Proof.
  intros. unfold nc2txt. destruct (moved lon lat) as [[[a b] c]|]; [|now left]. cbn [saveRecords].
  destruct (saveOne [] (Some v) g a b c mv) as [| |f]; [now left|now left|]. right. exists f.
  destruct data as [|g2 data]; [reflexivity|].
  unfold saveOne. cbn [existsb sameName]. rewrite (proj2 (Qeq_bool_iff v v)) by reflexivity. reflexivity.
Qed.

(** Values below half a hundredth are lost: probabilities and rates become zero *)
Theorem c199_small_refuted : forall v, Qabs v < 1 # 200 -> fmt2 v == 0.
Proof.
  intros v H. apply Qabs_Qlt_condition in H as [H1 H2]. unfold fmt2.
  assert (E : rint (v * 100) = 0%Z); [|rewrite E; reflexivity].
  pose proof (rint_half (v * 100)) as [B1 B2]. set (z := rint (v * 100)) in *.
  assert (-1 < inject_Z z < 1) as [L U] by (split; lra).
  change (-1) with (inject_Z (-1)) in L. change 1 with (inject_Z 1) in U.
  rewrite <- Zlt_Qlt in L, U. lia.
Qed.

(** ** Examples *)
Example c198_met : gridded [100; 101] [-20; -19] 100 (-20) 1 /\ shaped [100; 101] [-20; -19] [[1; 2]; [3; -9999]] /\
  exists f lon' lat', nc2txt [] [100; 101] [-20; -19] (-9999) (OneGrid [[1; 2]; [3; -9999]]) = ([(None, f)], true) /\
    grdRead f = Some (lon', lat', [[Some (300 # 100); None]; [Some (100 # 100); Some (200 # 100)]]).
Proof.
  split; [|split; [split; [reflexivity|]; intros row [<-|[<-|[]]]; reflexivity|]].
  - repeat split; try reflexivity; cbn; try lia; try discriminate; intros [|[|i]] Hi; try lia; reflexivity.
  - do 3 eexists. split; [reflexivity|]. reflexivity.
Qed.
Print Assumptions c198_grid.
Print Assumptions c198_records.
Print Assumptions c199_descending_refuted.
Print Assumptions c199_half_cell_refuted.
Print Assumptions c199_spacing_refuted.
Print Assumptions c199_again_refuted.
Print Assumptions c199_repeated_refuted.
Print Assumptions c199_small_refuted.
