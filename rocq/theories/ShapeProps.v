(** Properties C142 and C143: shape files of tracks and shape file helpers. *)
From Coq Require Import List QArith ZArith Bool String Lia Lqa.
From Verif Require Import Base CellModel CellProofs GenProofs ShapeModel ShapeProofs.
Import ListNotations.
Local Open Scope nat_scope.

(** * C142 *)

(** Every observation of every track becomes one point, in order, at its
    position and with its record. *)
Theorem c142_points : forall (R : Type) (tracks : list (list (obs R))),
  map fst (tracks2point tracks) = map at_pos (List.concat tracks) /\
  map snd (tracks2point tracks) = map o_rec (List.concat tracks).
Proof.
  intros R. induction tracks as [|tr l [IH1 IH2]]; [now split|].
  unfold tracks2point in *. cbn [flat_map List.concat].
  rewrite !map_app, IH1, IH2, !map_map. now split.
Qed.

(** Every observation of a track that has observations becomes one line
    segment that starts at the observation and carries its record.  Unless
    the longitude drops by more than 180 degrees the segment ends where the
    next one starts; the last one ends where it starts. *)
Theorem c142_segments : forall (R : Type) (tr : list (obs R)), tr <> [] ->
  exists fs, segments tr = Some fs /\ List.length fs = List.length tr /\
  forall n a, nth_error tr n = Some a ->
    exists p, nth_error fs n = Some ([[at_pos a; p]], o_rec a) /\
      match nth_error tr (S n) with
      | Some b => ((- inject_Z 180 <= o_lon b - o_lon a)%Q -> p = at_pos b)
      | None => p = at_pos a
      end.
Proof.
  intros R [|o rest] N; [now elim N|]. destruct (segmentsFrom_spec rest o) as [L K].
  exists (segmentsFrom o rest). split; [reflexivity|]. split; [exact L|].
  intros n a A. destruct (K n a A) as (p & E & P1 & _ & P3).
  exists p. split; [exact E|].
  destruct (nth_error (o :: rest) (S n)) as [b|]; [exact (P1 b eq_refl)|exact (P3 eq_refl)].
Qed.

(** All tracks of a file are written, one after the other. *)
Theorem c142_all_tracks : forall (R : Type) (tracks : list (list (obs R))),
  Forall (fun tr => tr <> []) tracks ->
  exists fs, tracks2segments tracks = Some fs /\
    List.length fs = List.length (List.concat tracks) /\
    map snd fs = map o_rec (List.concat tracks) /\
    map (fun f => hd_error (List.concat (fst f))) fs
      = map (fun o => Some (at_pos o)) (List.concat tracks).
Proof.
  intros R tracks F. unfold tracks2segments.
  assert (H : exists gs, sequence (map segments tracks) = Some gs /\
            map snd (List.concat gs) = map o_rec (List.concat tracks) /\
            map (fun f => hd_error (List.concat (fst f))) (List.concat gs)
              = map (fun o => Some (at_pos o)) (List.concat tracks)).
  { induction F as [|tr l N F (gs & E & S1 & S2)]; [exists []; now repeat split|].
    destruct tr as [|o rest]; [now elim N|].
    cbn [map segments sequence]. rewrite E. cbn [option_map].
    exists (segmentsFrom o rest :: gs). split; [reflexivity|].
    cbn [List.concat].
    assert (X : map snd (segmentsFrom o rest) = map o_rec (o :: rest) /\
                map (fun f => hd_error (List.concat (fst f))) (segmentsFrom o rest)
                = map (fun o => Some (at_pos o)) (o :: rest)).
    { clear. revert o. induction rest as [|o' rest IH]; intros o; [now split|].
      destruct (IH o') as [A B]. cbn [segmentsFrom map].
      rewrite A, B. cbn [map]. destruct (qlt _ _); now split. }
    destruct X as [X1 X2]. split; rewrite !map_app; f_equal; assumption. }
  destruct H as (gs & E & S1 & S2). rewrite E. cbn [option_map].
  exists (List.concat gs). repeat split; try assumption.
  apply (f_equal (@List.length _)) in S1. now rewrite !map_length in S1.
Qed.

(** A track whose longitude never drops by more than 180 degrees becomes one
    line through all its positions, with the date of the first observation,
    the longest elapsed time, the lowest pressure and the highest wind. *)
Theorem c142_dissolved : forall (R D : Type) (start : R -> D) (el pc wd : R -> Q)
    (tr : list (obs R)) (o : obs R),
  hd_error tr = Some o ->
  (forall k a b, nth_error tr k = Some a -> nth_error tr (S k) = Some b ->
     (- inject_Z 180 <= o_lon b - o_lon a)%Q) ->
  exists age pmin wmax,
    tracks2lines start el pc wd [tr] = Some [([map at_pos tr], (start (o_rec o), (age, pmin, wmax)))] /\
    In age (map (fun a => el (o_rec a)) tr) /\
    In pmin (map (fun a => pc (o_rec a)) tr) /\
    In wmax (map (fun a => wd (o_rec a)) tr) /\
    forall a, In a tr ->
      (el (o_rec a) <= age)%Q /\ (pmin <= pc (o_rec a))%Q /\ (wd (o_rec a) <= wmax)%Q.
Proof.
  intros R D start el pc wd [|o' rest] o H N; [discriminate|].
  cbn in H. injection H as ->.
  destruct (dissolved_spec (o :: rest)) as [S _].
  unfold tracks2lines. cbn [map sequence]. rewrite S.
  2: { intros k (a & b & A & B & L). specialize (N k a b A B). lra. }
  unfold eventRecord. cbn [map option_map sequence].
  rewrite !map_map.
  set (ls := fun f : R -> Q => map (fun x : obs R => f (o_rec x)) rest).
  eexists _, _, _. split; [reflexivity|].
  destruct (fold_qmax (ls el) (el (o_rec o))) as [I1 M1].
  destruct (fold_qmin (ls pc) (pc (o_rec o))) as [I2 M2].
  destruct (fold_qmax (ls wd) (wd (o_rec o))) as [I3 M3].
  split; [exact I1|]. split; [exact I2|]. split; [exact I3|].
  intros a I. repeat split.
  - apply M1. destruct I as [<-|I]; [now left|right]. now apply (in_map (fun x : obs R => el (o_rec x))).
  - apply M2. destruct I as [<-|I]; [now left|right]. now apply (in_map (fun x : obs R => pc (o_rec x))).
  - apply M3. destruct I as [<-|I]; [now left|right]. now apply (in_map (fun x : obs R => wd (o_rec x))).
Qed.

(** The categories are the bands of the central pressure bounded by 930,
    955, 970, 985 and 999 hPa. *)
Theorem c142_category : forall p : Q,
  category (Some p) <= 5 /\
  (5 <= category (Some p) <-> (p < inject_Z 930)%Q) /\
  (4 <= category (Some p) <-> (p < inject_Z 955)%Q) /\
  (3 <= category (Some p) <-> (p < inject_Z 970)%Q) /\
  (2 <= category (Some p) <-> (p < inject_Z 985)%Q) /\
  (1 <= category (Some p) <-> (p < inject_Z 999)%Q).
Proof.
  intros p. unfold category.
  change (inject_Z 930) with 930%Q. change (inject_Z 955) with 955%Q.
  change (inject_Z 970) with 970%Q. change (inject_Z 985) with 985%Q.
  change (inject_Z 999) with 999%Q.
  repeat match goal with |- context [if qlt ?a ?b then _ else _] =>
    let E := fresh "E" in destruct (qlt a b) eqn:E;
      [apply qlt_iff in E|apply qlt_false_iff in E] end;
  (split; [lia|]); repeat split; intros;
  try (match goal with |- (_ < _)%Q => lra end || lra); try lia; exfalso; try lra; try lia.
Qed.

(** A lower central pressure never has a lower category. *)
Theorem c142_category_order : forall p q : Q, (p <= q)%Q ->
  category (Some q) <= category (Some p).
Proof.
  intros p q L. unfold category.
  repeat match goal with |- context [if qlt ?a ?b then _ else _] =>
    let E := fresh "E" in destruct (qlt a b) eqn:E;
      [apply qlt_iff in E|apply qlt_false_iff in E] end;
  try lia; exfalso; lra.
Qed.

(** Removing the dates and adding the category leaves the other columns as
    they were. *)
Theorem c142_columns : forall (V : Type) (t : table V) (cats : list V) (name : string),
  name <> "Category"%string ->
  column name (add_field "Category" cats (recdropfields ["Datetime"%string] t))
  = (if String.eqb name "Datetime" then None else column name t) /\
  (column "Category" t = None ->
   column "Category" (add_field "Category" cats (recdropfields ["Datetime"%string] t)) = Some cats).
Proof.
  intros V t cats name N.
  assert (A : forall n (u : table V), column n (add_field "Category" cats u)
            = match column n u with Some c => Some c
              | None => if String.eqb n "Category" then Some cats else None end).
  { intros n u. unfold column, add_field. induction u as [|[m c] u IH]; cbn [app find fst].
    - destruct (String.eqb n "Category"); reflexivity.
    - destruct (String.eqb n m); [reflexivity|exact IH]. }
  rewrite !A, !column_drop. cbn [existsb]. rewrite !orb_false_r. split.
  - destruct (String.eqb name "Datetime"); [|destruct (column name t); [reflexivity|]];
      destruct (String.eqb_spec name "Category"); congruence.
  - intros H. change (String.eqb "Category" "Datetime") with false. rewrite H. reflexivity.
Qed.

(** Without a key, and with a key field whose values are distinct, every
    shape of a file is returned with its own vertices, in file order. *)
Theorem c142_vertices : forall (shapes : list shape) (keys : list nat),
  shpGetVertices None shapes
    = combine (seq 0 (List.length shapes)) (map s_points shapes) /\
  (NoDup keys -> List.length keys = List.length shapes ->
   shpGetVertices (Some keys) shapes = combine keys (map s_points shapes)).
Proof.
  intros shapes keys.
  assert (A : forall ks, NoDup ks -> List.length ks = List.length shapes ->
            shpGetVertices (Some ks) shapes = combine ks (map s_points shapes)).
  { intros ks N L. unfold shpGetVertices. rewrite fold_dset.
    - cbn [app]. clear N. revert ks L. induction shapes as [|s l IH]; intros [|k ks] L; cbn in L; try lia; [reflexivity|].
      cbn. f_equal. apply IH. lia.
    - cbn [app map]. replace (map fst (combine ks shapes)) with ks; [exact N|].
      clear N. revert ks L. induction shapes as [|s l IH]; intros [|k ks] L; cbn in L; try lia; [reflexivity|].
      cbn. f_equal. apply IH. lia. }
  split; [|apply A].
  exact (A (seq 0 (List.length shapes)) (seq_NoDup _ _) (seq_length _ _)).
Qed.

(** With a key field whose values repeat, each key is returned once, with
    the vertices of the last shape that has it. *)
Lemma dset_keys : forall {V} k (v : V) d, NoDup (map fst d) -> NoDup (map fst (dset k v d)).
Proof.
  intros V k v d N.
  assert (I : forall d j, In j (map fst (dset k v d)) -> j = k \/ In j (map fst d)).
  { induction d0 as [|[k' v'] d0 IH]; cbn [dset map fst]; intros j J.
    - destruct J as [<-|[]]. now left.
    - destruct (k =? k')%nat eqn:E; cbn [map fst In] in *.
      + destruct J as [<-|J]; [now left|right; now right].
      + destruct J as [<-|J]; [right; now left|]. destruct (IH j J); [now left|right; now right]. }
  induction d as [|[k' v'] d IH]; cbn [dset map fst].
  - constructor; [intros []|constructor].
  - inversion N as [|? ? N1 N2]; subst. destruct (Nat.eqb_spec k k') as [->|Ne]; cbn [map fst].
    + now constructor.
    + constructor; [|now apply IH]. intros J. destruct (I d k' J); [congruence|contradiction].
Qed.

Lemma dset_in : forall {V} k (v : V) d j w, NoDup (map fst d) ->
  (In (j, w) (dset k v d) <-> (j = k /\ w = v) \/ (j <> k /\ In (j, w) d)).
Proof.
  intros V k v. induction d as [|[k' v'] d IH]; intros j w N; cbn [dset].
  - cbn [In]. split.
    + intros [E|[]]. injection E as <- <-. now left.
    + intros [[-> ->]|[_ []]]. now left.
  - cbn [map fst] in N. inversion N as [|? ? N1 N2]; subst. destruct (Nat.eqb_spec k k') as [->|Ne]; cbn [In].
    + split.
      * intros [E|I]; [injection E as <- <-; now left|]. right. split; [|now right].
        intros ->. apply N1. apply in_map_iff. exists (k', w). now split.
      * intros [[-> ->]|[D [E|I]]]; [now left| |now right]. injection E as <- <-. congruence.
    + rewrite (IH j w N2). split.
      * intros [E|[H|[D H]]]; [injection E as <- <-; right; split; [congruence|now left]|now left|right; split; [exact D|now right]].
      * intros [H|[D [E|H]]]; [right; now left|left; exact E|right; right; now split].
Qed.

Theorem c142_repeated_keys : forall (shapes : list shape) (keys : list nat),
  let r := shpGetVertices (Some keys) shapes in
  NoDup (map fst r) /\
  forall k pts, In (k, pts) r <->
    exists i s, nth_error keys i = Some k /\ nth_error shapes i = Some s /\ s_points s = pts /\
      forall j, (i < j < List.length shapes)%nat -> nth_error keys j <> Some k.
Proof.
  intros shapes keys. cbv zeta. unfold shpGetVertices.
  set (l := combine keys shapes).
  assert (G : forall (l : list (nat * shape)),
    let r := fold_left (fun d ks => dset (fst ks) (s_points (snd ks)) d) l [] in
    NoDup (map fst r) /\ forall k pts, In (k, pts) r <->
      exists i s, nth_error l i = Some (k, s) /\ s_points s = pts /\ forall j s', (i < j)%nat -> nth_error l j <> Some (k, s')).
  { clear. intros l. cbv zeta. induction l as [|[k0 s0] l [IH1 IH2]] using rev_ind.
    - cbn. split; [constructor|]. intros k pts. split; [intros []|]. intros (i & s & E & _). destruct i; discriminate.
    - rewrite fold_left_app. cbn [fold_left fst snd]. split; [now apply dset_keys|].
      intros k pts. rewrite dset_in by exact IH1. rewrite IH2. split.
      + intros [[-> ->]|[D (i & s & E & P & L)]].
        * exists (List.length l), s0. rewrite nth_error_app2, Nat.sub_diag by lia. split; [reflexivity|]. split; [reflexivity|].
          intros j s' J X. assert (nth_error (l ++ [(k0, s0)]) j <> None) by congruence.
          apply nth_error_Some in H. rewrite app_length in H. cbn in H. lia.
        * exists i, s. assert (I : (i < List.length l)%nat) by (apply nth_error_Some; congruence).
          rewrite nth_error_app1 by exact I. split; [exact E|]. split; [exact P|].
          intros j s' J X. destruct (Nat.lt_ge_cases j (List.length l)) as [J2|J2].
          -- rewrite nth_error_app1 in X by exact J2. now apply (L j s' J).
          -- rewrite nth_error_app2 in X by exact J2. destruct (j - List.length l)%nat as [|m]; [|destruct m; discriminate].
             injection X as -> _. congruence.
      + intros (i & s & E & P & L). destruct (Nat.lt_ge_cases i (List.length l)) as [I|I].
        * right. rewrite nth_error_app1 in E by exact I. split.
          -- intros ->. apply (L (List.length l) s0 I). now rewrite nth_error_app2, Nat.sub_diag by lia.
          -- exists i, s. split; [exact E|]. split; [exact P|]. intros j s' J X. apply (L j s' J).
             rewrite nth_error_app1; [exact X|]. apply nth_error_Some. congruence.
        * left. rewrite nth_error_app2 in E by exact I. destruct (i - List.length l)%nat as [|m]; [|destruct m; discriminate].
          injection E as -> ->. now split. }
  destruct (G l) as [G1 G2]. split; [exact G1|]. intros k pts. rewrite G2. unfold l. clear.
  assert (C : forall (ks : list nat) (ss : list shape) i k s, nth_error (combine ks ss) i = Some (k, s) <-> nth_error ks i = Some k /\ nth_error ss i = Some s).
  { induction ks as [|k0 ks IH]; intros [|s0 ss] [|i] kk s; cbn; try (split; [discriminate|intros [? ?]; discriminate]).
    - split; [intros E; injection E as <- <-; now split|]. intros [E1 E2]. congruence.
    - apply IH. }
  split.
  - intros (i & s & E & P & L). apply C in E as [E1 E2]. exists i, s. split; [exact E1|]. split; [exact E2|]. split; [exact P|].
    intros j [J1 J2] X. destruct (nth_error shapes j) as [s'|] eqn:Es.
    + apply (L j s' J1). apply C. now split.
    + apply nth_error_None in Es. lia.
  - intros (i & s & E1 & E2 & P & L). exists i, s. split; [apply C; now split|]. split; [exact P|].
    intros j s' J X. apply C in X as [X1 X2]. apply (L j); [|exact X1]. split; [exact J|]. apply nth_error_Some. congruence.
Qed.

Example c142_repeated_keys_example :
  shpGetVertices (Some [7; 8; 7]%nat) [mkShape [(0, 0)%Q] [0]%nat; mkShape [(1, 1)%Q] [0]%nat; mkShape [(2, 2)%Q] [0]%nat]
  = [(7%nat, [(2, 2)%Q]); (8%nat, [(1, 1)%Q])].
Proof. reflexivity. Qed.

(** A field is read from every record at its own position; a missing field
    is an error. *)
Theorem c142_field : forall (V : Type) (d : V) (names : list string) (name : string)
    (records : list (list V)),
  match shpGetField d names name records with
  | Some vs => exists i, nth_error names i = Some name /\
      List.length vs = List.length records /\
      forall k r, nth_error records k = Some r -> nth_error vs k = Some (nth i r d)
  | None => ~ In name names
  end.
Proof.
  intros V d names name records. unfold shpGetField.
  pose proof (indexOf_spec names name) as H. destruct (indexOf name names) as [i|]; cbn.
  - exists i. split; [exact H|]. split; [apply map_length|].
    intros k r E. now apply map_nth_error with (f := fun r => nth i r d).
  - exact H.
Qed.

(** Shapes with one part are written with all their points and their own
    record. *)
Theorem c142_write_single : forall (A : Type) (shapes : list shape) (records : list A) k s r,
  nth_error shapes k = Some s -> nth_error records k = Some r ->
  List.length (s_parts s) <= 1 ->
  nth_error (shpWriteShapeFile shapes records) k = Some ([s_points s], r).
Proof.
  intros A shapes records k s r H1 H2 L. unfold shpWriteShapeFile.
  revert records k H1 H2. induction shapes as [|s' l IH]; intros records [|k] H1 H2;
    try discriminate; destruct records as [|r' rs]; try discriminate.
  - cbn in H1, H2. injection H1 as ->. injection H2 as ->. cbn.
    unfold outParts. destruct (1 <? _) eqn:E; [apply Nat.ltb_lt in E; lia|reflexivity].
  - cbn in H1, H2 |- *. now apply IH.
Qed.

Example c142_example :
  let tr := [mkObs 100 (-10) 1; mkObs 101 (-11) 2; mkObs 102 (-12) 3]%Q in
  segments (map (fun o => mkObs (o_lon o) (o_lat o) (o_rec o)) tr)
    = Some [([[(100, -10); (101, -11)]], 1); ([[(101, -11); (102, -12)]], 2);
            ([[(102, -12); (102, -12)]], 3)]%Q /\
  dissolved tr = [[(100, -10); (101, -11); (102, -12)]]%Q /\
  category (Some 954)%Q = 4 /\
  map fst (shpGetVertices None [shapeOf [[(1, 1)]]; shapeOf [[(2, 2)]]])%Q = [0; 1].
Proof. repeat split. Qed.

(** * C143 *)

(** Refuted: a dissolved line goes through every position of the track.
    Whenever the longitude of a track drops by more than 180 degrees, one
    position, the last one before a crossing, is left out. *)
Theorem c143_crossing_refuted : forall (R : Type) (tr : list (obs R)) k a b,
  nth_error tr k = Some a -> nth_error tr (S k) = Some b ->
  (o_lon b - o_lon a < - inject_Z 180)%Q ->
  S (List.length (List.concat (dissolved tr))) = List.length tr.
Proof.
  intros R tr k a b A B L. destruct (dissolved_spec tr) as [_ H].
  destruct (H k) as (j & (a' & b' & A' & B' & _) & E); [now exists a, b|].
  assert (G : S j < List.length tr) by (apply nth_error_Some; now rewrite B').
  rewrite E. cbn [List.concat]. rewrite app_nil_r, app_length, !map_length.
  rewrite firstn_length, skipn_length. lia.
Qed.

(** Refuted: a line does not run around the globe.  A track that steps over
    Greenwich to the west (the longitude rises by more than 180 degrees) is
    drawn across all longitudes in between, as a segment and dissolved. *)
Theorem c143_westward_refuted : forall (R : Type) (a b : obs R),
  (inject_Z 180 < o_lon b - o_lon a)%Q ->
  segments [a; b] = Some [([[at_pos a; at_pos b]], o_rec a); ([[at_pos b; at_pos b]], o_rec b)] /\
  dissolved [a; b] = [[at_pos a; at_pos b]].
Proof.
  intros R a b L.
  assert (E : qlt (o_lon b - o_lon a) (- inject_Z 180) = false).
  { apply qlt_false_iff. change (inject_Z 180) with 180%Q in *. lra. }
  split.
  - cbn [segments segmentsFrom]. now rewrite E.
  - destruct (dissolved_spec [a; b]) as [S _]. apply S.
    intros [|[|k]] (x & y & A & B & D); cbn in A, B; try discriminate.
    injection A as <-. injection B as <-. change (inject_Z 180) with 180%Q in *. lra.
Qed.

(** Refuted: a track that crosses twice is cut twice.  Only the larger of
    its drops is cut; the other one stays inside a part. *)
Theorem c143_second_crossing_refuted :
  exists (tr : list (obs nat)) p q pre post,
    In (pre ++ p :: q :: post) (dissolved tr) /\
    (fst q - fst p < - inject_Z 180)%Q.
Proof.
  exists [mkObs 359 0 0%nat; mkObs 1 0 1%nat; mkObs 350 1 2%nat; mkObs 2 1 3%nat]%Q,
    (350, 1)%Q, (2, 1)%Q, [(1, 0)%Q], [].
  split; [|reflexivity]. vm_compute. right. left. reflexivity.
Qed.

(** Refuted: a shape with several parts is written as it was read.  Every
    part loses its last point, whatever its length. *)
Theorem c143_parts_refuted : forall qs : list (list pos),
  1 < List.length qs -> Forall (fun p => p <> []) qs ->
  outParts (shapeOf qs) = map (@removelast _) qs /\
  List.length (List.concat (outParts (shapeOf qs))) + List.length qs
    = List.length (List.concat qs).
Proof.
  intros qs L F. rewrite outParts_many by assumption. split; [reflexivity|]. clear L.
  induction F as [|q qs N F IH]; [reflexivity|].
  cbn [map List.concat List.length]. rewrite !app_length, removelast_firstn_len, firstn_length.
  assert (1 <= List.length q) by (destruct q; [now elim N|cbn; lia]). lia.
Qed.

(** Refuted: a created shape file holds every shape with its own values.
    The number of features is at most the number of fields, and the record
    of feature k is the whole column of field k. *)
Theorem c143_records_refuted : forall (V : Type) (shapes : list shape) (data : list (field V)),
  List.length (shpCreateFile shapes data) = Nat.min (List.length shapes) (List.length data) /\
  forall k s f, nth_error shapes k = Some s -> nth_error data k = Some f ->
    nth_error (shpCreateFile shapes data) k = Some (outParts s, [f_data f]).
Proof.
  intros V shapes data. unfold shpCreateFile, parseData. cbn [snd]. split.
  - now rewrite combine_length, !map_length.
  - revert data. induction shapes as [|s' l IH]; intros data [|k] s f H1 H2; try discriminate;
      destruct data as [|f' fs]; try discriminate.
    + cbn in H1, H2. injection H1 as ->. injection H2 as ->. reflexivity.
    + cbn in H1, H2 |- *. now apply IH.
Qed.

(** Refuted: the default format of shpSaveTrackFile saves the tracks.  It is
    not one of the three names the function accepts. *)
Theorem c143_default_refuted :
  shpSaveTrackFile defaultFmt = None /\
  forall fmt, shpSaveTrackFile fmt <> None <->
    In fmt ["points"; "lines"; "segments"]%string.
Proof.
  split; [reflexivity|]. intros fmt. unfold shpSaveTrackFile.
  destruct (String.eqb_spec fmt "points"); [subst; split; [intros _; now left|discriminate]|].
  destruct (String.eqb_spec fmt "lines"); [subst; split; [intros _; right; now left|discriminate]|].
  destruct (String.eqb_spec fmt "segments"); [subst; split; [intros _; right; right; now left|discriminate]|].
  split; [intros H; now elim H|]. intros [H|[H|[H|[]]]]; congruence.
Qed.

(** Refuted: a file with a track without observations can be written: the
    segments of such a track raise, and so do those of any list with it. *)
Theorem c143_empty_refuted : forall (R : Type) (l1 l2 : list (list (obs R))),
  tracks2segments (l1 ++ [] :: l2) = None.
Proof.
  intros R l1 l2. unfold tracks2segments.
  replace (sequence (map segments (l1 ++ [] :: l2))) with (@None (list (list (linef R)))); [reflexivity|].
  symmetry. induction l1 as [|tr l IH]; [reflexivity|].
  cbn [app map sequence]. destruct (segments tr); [|reflexivity].
  rewrite IH. reflexivity.
Qed.

Example c143_example :
  dissolved [mkObs 358 0 0; mkObs 359 1 1; mkObs 1 2 2]%Q = [[(358, 0)]; [(1, 2)]]%Q /\
  outParts (shapeOf [[(0, 0); (1, 0); (0, 1)]; [(5, 5); (6, 5); (5, 6)]])%Q
    = [[(0, 0); (1, 0)]; [(5, 5); (6, 5)]]%Q /\
  shpCreateFile [shapeOf [[(0, 0)]]; shapeOf [[(1, 1)]]]%Q
                [mkField nat "Index"%string 1%nat 5%nat 0%nat [7%nat; 8%nat]]
    = [([[(0, 0)%Q]], [[7; 8]])].
Proof. repeat split. Qed.

Print Assumptions c142_points.
Print Assumptions c142_segments.
Print Assumptions c142_all_tracks.
Print Assumptions c142_dissolved.
Print Assumptions c142_category.
Print Assumptions c142_category_order.
Print Assumptions c142_columns.
Print Assumptions c142_vertices.
Print Assumptions c142_repeated_keys.
Print Assumptions c142_field.
Print Assumptions c142_write_single.
Print Assumptions c143_crossing_refuted.
Print Assumptions c143_westward_refuted.
Print Assumptions c143_second_crossing_refuted.
Print Assumptions c143_parts_refuted.
Print Assumptions c143_records_refuted.
Print Assumptions c143_default_refuted.
Print Assumptions c143_empty_refuted.
