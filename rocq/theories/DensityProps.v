(** C129 and C130: maps of track density and central pressure. *)
From Coq Require Import List Arith ZArith Lia Bool QArith Qround Lqa Permutation.
From Verif Require Import Base CellModel CellProofs NumModel NumProofs SampModel FitModel FitProofs DensityModel DensityProofs.
Import ListNotations.
Close Scope Q_scope. Open Scope nat_scope.

(** * C129 *)
(** The spacing [d] cuts the interval from [a] to [b] into [n] cells *)
Definition cutInto (a b d : Q) (n : nat) : Prop := 0 < n /\ (1 # 10 < d)%Q /\ (b == a + inject_Z (Z.of_nat n) * d)%Q.
Definition cells (d : dom) (nx ny : nat) : Prop := cutInto (dx0 d) (dx1 d) (ddx d) nx /\ cutInto (dy0 d) (dy1 d) (ddy d) ny.
(** The lower end of a cell *)
Definition low (a d : Q) (i : nat) : Q := (a + inject_Z (Z.of_nat i) * d)%Q.

(** Every position in the closed domain is counted once, no other position is counted. *)
Theorem c129_total : forall d nx ny tracks, cells d nx ny ->
  list_sum (map list_sum (density d tracks)) =
  length (filter (fun r => (Qle_bool (dx0 d) (rlon r) && Qle_bool (rlon r) (dx1 d)) && (Qle_bool (dy0 d) (rlat r) && Qle_bool (rlat r) (dy1 d)))
            (concat tracks)).
Proof.
  intros d nx ny tracks ((N1 & D1 & E1) & (N2 & D2 & E2)). rewrite (density_total d nx ny D1 D2 E1 E2 tracks N1 N2), filter_map, map_length. reflexivity.
Qed.
(** A cell counts the positions on its lower edges and inside; the last cells also count those on the upper edge. *)
Theorem c129_cell : forall d nx ny tracks i j, cells d nx ny -> i < nx -> j < ny ->
  exists row, nth_error (density d tracks) i = Some row /\ length row = ny /\
  nth_error row j = Some (length (filter (fun r =>
     (Qle_bool (low (dx0 d) (ddx d) i) (rlon r) && (if S i =? nx then Qle_bool (rlon r) (dx1 d) else qlt (rlon r) (low (dx0 d) (ddx d) (S i)))) &&
     (Qle_bool (low (dy0 d) (ddy d) j) (rlat r) && (if S j =? ny then Qle_bool (rlat r) (dy1 d) else qlt (rlat r) (low (dy0 d) (ddy d) (S j)))))
     (concat tracks))).
Proof.
  intros d nx ny tracks i j ((N1 & D1 & E1) & (N2 & D2 & E2)) Hi Hj. unfold density, histogram2d, lonRange, latRange.
  rewrite (range_len _ _ _ nx D1 E1), (range_len _ _ _ ny D2 E2). cbn [Nat.sub]. rewrite !Nat.sub_0_r.
  eexists. split; [erewrite map_nth_error; [reflexivity|]; rewrite (nth_error_nth' _ 0) by (now rewrite seq_length); now rewrite seq_nth|].
  split; [now rewrite map_length, seq_length|].
  erewrite map_nth_error; [|rewrite (nth_error_nth' _ 0) by (now rewrite seq_length); now rewrite seq_nth].
  f_equal. rewrite filter_map, map_length. f_equal. apply filter_ext. intros r. cbn [fst snd Nat.add].
  rewrite (range_bin _ _ _ nx i (rlon r) D1 E1 Hi), (range_bin _ _ _ ny j (rlat r) D2 E2 Hj).
  assert (G : forall x0 x1 dd n k x, (1 # 10 < dd)%Q -> (x1 == x0 + inject_Z (Z.of_nat n) * dd)%Q ->
    closedBin x0 dd n k x = Qle_bool (low x0 dd k) x && (if S k =? n then Qle_bool x x1 else qlt x (low x0 dd (S k)))).
  { clear. intros x0 x1 dd n k x P E. unfold closedBin, half, low. change (x0 + inject_Z (Z.of_nat k) * dd)%Q with (edge x0 dd k).
    change (x0 + inject_Z (Z.of_nat (S k)) * dd)%Q with (edge x0 dd (S k)). pose proof (edge_S x0 dd k) as Ek.
    destruct (S k =? n) eqn:En.
    - apply Nat.eqb_eq in En. subst n. change (x0 + inject_Z (Z.of_nat (S k)) * dd)%Q with (edge x0 dd (S k)) in E.
      set (a := edge x0 dd k) in *. set (b := edge x0 dd (S k)) in *. clearbody a b. qb; cbn [andb orb]; try reflexivity; exfalso; lra.
    - cbn [andb]. now rewrite orb_false_r. }
  now rewrite (G _ _ _ _ i (rlon r) D1 E1), (G _ _ _ _ j (rlat r) D2 E2).
Qed.

(** A central pressure that is not missing *)
Definition given (p : Q) : bool := qlt 0 p && qlt p maxsize.
Definition inDomain (d : dom) (r : rec) : bool :=
  (Qle_bool (dx0 d) (rlon r) && qlt (rlon r) (dx1 d)) && (Qle_bool (dy0 d) (rlat r) && qlt (rlat r) (dy1 d)).
(** The cells of the pressure maps use every given pressure of the half-open domain once and no other. *)
Theorem c129_pressures : forall d nx ny tracks, cells d nx ny ->
  Permutation (flat_map (fun k => flat_map (fun l => cellValues d tracks k l) (seq 0 ny)) (seq 0 nx))
    (map rp (filter (fun r => inDomain d r && given (rp r)) (concat tracks))).
Proof.
  intros d nx ny tracks ((N1 & D1 & E1) & (N2 & D2 & E2)). pose proof (pressure_split d nx ny D1 D2 E1 E2 tracks) as P.
  replace (flat_map (fun k => flat_map (fun l => cellValues d tracks k l) (seq 0 ny)) (seq 0 nx))
    with (flat_map (fun c => cellValues d tracks (fst c) (snd c)) (list_prod (seq 0 nx) (seq 0 ny))); [exact P|].
  clear. induction (seq 0 nx) as [|k ks IH]; [reflexivity|]. cbn [list_prod flat_map]. rewrite flat_map_app, IH. f_equal.
  rewrite !flat_map_concat_map, map_map. reflexivity.
Qed.
(** The statistics of a cell: none if no pressure is given in the cell, otherwise the lowest and the highest pressure,
    the mean and a value with half of the pressures on either side. *)
Theorem c129_statistics : forall d nx ny tracks k l, cells d nx ny -> k < nx -> l < ny ->
  let here r := (Qle_bool (low (dx0 d) (ddx d) k) (rlon r) && qlt (rlon r) (low (dx0 d) (ddx d) (S k))) &&
                (Qle_bool (low (dy0 d) (ddy d) l) (rlat r) && qlt (rlat r) (low (dy0 d) (ddy d) (S l))) in
  let ps := map rp (filter (fun r => here r && given (rp r)) (concat tracks)) in
  exists row s, nth_error (pressureMap d tracks) k = Some row /\ nth_error row l = Some s /\
  (s = None <-> ps = []) /\
  (forall v, s = Some v ->
    (exists p, In p ps /\ (smin v == p)%Q) /\ (exists p, In p ps /\ (smax v == p)%Q) /\
    (forall p, In p ps -> (smin v <= p <= smax v)%Q) /\
    (smean v * inject_Z (Z.of_nat (length ps)) == fold_right Qplus 0 ps)%Q /\ (smin v <= smean v <= smax v)%Q /\
    length ps <= 2 * length (filter (fun p => Qle_bool p (smed v)) ps) /\
    length ps <= 2 * length (filter (fun p => Qle_bool (smed v) p) ps)).
Proof.
  intros d nx ny tracks k l ((N1 & D1 & E1) & (N2 & D2 & E2)) Hk Hl here ps.
  exists (map (fun l => cellStats d tracks k l) (seq 0 ny)), (cellStats d tracks k l).
  assert (V : cellValues d tracks k l = ps).
  { rewrite (cellValues_eq d nx ny D1 D2 E1 E2 tracks k l Hk Hl). reflexivity. }
  split; [|split].
  - unfold pressureMap, lonRange, latRange. rewrite (range_len _ _ _ nx D1 E1), (range_len _ _ _ ny D2 E2). cbn [Nat.sub]. rewrite !Nat.sub_0_r.
    erewrite map_nth_error; [reflexivity|]. rewrite (nth_error_nth' _ 0) by (now rewrite seq_length). now rewrite seq_nth.
  - erewrite map_nth_error; [reflexivity|]. rewrite (nth_error_nth' _ 0) by (now rewrite seq_length). now rewrite seq_nth.
  - unfold cellStats. rewrite V. clearbody ps. clear V. destruct ps as [|a r]; [split; [tauto|discriminate]|]. split; [split; discriminate|].
    intros v Ev. injection Ev as <-. cbn [smin smax smean smed].
    destruct (amin_spec r a) as (A1 & A2 & A3). destruct (amax_spec r a) as (B1 & B2 & B3).
    assert (Bd : forall p, In p (a :: r) -> (amin a r <= p <= amax a r)%Q).
    { intros p [<-|Hp]; [now split|]. split; [now apply A2|now apply B2]. }
    split; [destruct A3 as [A3|(y & Hy & A3)]; [exists a; split; [now left|exact A3]|exists y; split; [now right|exact A3]]|].
    split; [destruct B3 as [B3|(y & Hy & B3)]; [exists a; split; [now left|exact B3]|exists y; split; [now right|exact B3]]|].
    split; [exact Bd|]. split; [now apply mean_times|]. split; [apply mean_bounds; [discriminate|exact Bd]|].
    apply median_half. discriminate.
Qed.
Definition d22 : dom := mkDom 0 2 0 2 1 1.
Definition some_tracks : list (list rec) :=
  [[mkRec (1 # 2) (1 # 2) 980 2000; mkRec 1 1 970 2000; mkRec 2 (3 # 2) 960 2000]; [mkRec (1 # 2) (1 # 4) 990 2003; mkRec (3 # 2) (3 # 2) 0 2003; mkRec 3 1 950 2003]].
Example c129_example : cells d22 2 2 /\ density d22 some_tracks = [[2; 0]; [0; 3]] /\
  map (map (option_map (fun v => (Qred (smean v), smin v, smax v, Qred (smed v))))) (pressureMap d22 some_tracks) =
  [[Some ((985#1)%Q, (980#1)%Q, (990#1)%Q, (985#1)%Q); None]; [None; Some ((970#1)%Q, (970#1)%Q, (970#1)%Q, (970#1)%Q)]].
Proof. split; [|split; vm_compute; reflexivity]. split; (split; [lia|]; split; [reflexivity|]; vm_compute; reflexivity). Qed.

(** The distribution of lowest pressures has integral one over bins of 5 hPa if some track that starts in the domain
    has its lowest pressure in the bins. *)
Definition startsIn (d : dom) (t : list rec) : Prop :=
  exists r rest, t = r :: rest /\ (dx0 d <= rlon r <= dx1 d)%Q /\ (dy0 d <= rlat r <= dy1 d)%Q.
Definition lowest (t : list rec) (p : Q) : Prop := (exists r, In r t /\ (rp r == p)%Q) /\ (forall r, In r t -> (p <= rp r)%Q).
Lemma cpBins_nth i : i < 34 -> nth i cpBins 0%Q = edge 850 5 i \/ (nth i cpBins 0 == edge 850 5 i)%Q.
Proof. intros H. right. unfold edge. do 34 (destruct i as [|i]; [vm_compute; reflexivity|]). lia. Qed.
Lemma cpBin_closed i x : i < 33 -> inBin cpBins i x = closedBin 850 5 33 i x.
Proof.
  intros H. unfold inBin, closedBin, half. change (length cpBins) with 34. change (S (S i) =? 34) with (S i =? 33).
  assert (E1 : (nth i cpBins 0 == edge 850 5 i)%Q) by (destruct (cpBins_nth i ltac:(lia)) as [->|E]; [reflexivity|exact E]).
  assert (E2 : (nth (S i) cpBins 0 == edge 850 5 (S i))%Q) by (destruct (cpBins_nth (S i) ltac:(lia)) as [->|E]; [reflexivity|exact E]).
  pose proof (edge_S 850 5 i) as E3. set (a := nth i cpBins 0%Q) in *. set (b := nth (S i) cpBins 0%Q) in *.
  destruct (S i =? 33) eqn:En; [apply Nat.eqb_eq in En; rewrite <- En|];
    set (a' := edge 850 5 i) in *; set (b' := edge 850 5 (S i)) in *; clearbody a b a' b'; cbn [andb];
    qb; cbn [andb orb]; try reflexivity; exfalso; lra.
Qed.
Definition counts (d : dom) (tracks : list (list rec)) : list nat :=
  map (fun i => length (filter (inBin cpBins i) (map (minCP d) tracks))) (seq 0 33).
Lemma counts_total d tracks : list_sum (counts d tracks) = length (filter (fun x => Qle_bool 850 x && Qle_bool x 1015) (map (minCP d) tracks)).
Proof.
  assert (S : Permutation (flat_map (fun i => filter (closedBin 850 5 33 i) (map (minCP d) tracks)) (seq 0 33))
                (filter (fun x => Qle_bool 850 x && Qle_bool x (edge 850 5 33)) (map (minCP d) tracks))).
  { apply cells_split. intros x _. apply closed_sum; [reflexivity|lia]. }
  assert (T : forall x, Qle_bool 850 x && Qle_bool x 1015 = Qle_bool 850 x && Qle_bool x (edge 850 5 33)).
  { intros x. assert (E : (edge 850 5 33 == 1015)%Q) by reflexivity. set (a := edge 850 5 33) in *. clearbody a. qb; cbn [andb]; try reflexivity; exfalso; lra. }
  rewrite (filter_ext _ _ T), <- (Permutation_length S).
  unfold counts. assert (H : forall i, In i (seq 0 33) -> i < 33) by (intros i Hi; apply in_seq in Hi; lia).
  clear S T. revert H. generalize (seq 0 33). induction l as [|i l IH]; intros H; [reflexivity|]. cbn [map list_sum fold_right flat_map].
  rewrite app_length. fold (list_sum (map (fun i => length (filter (inBin cpBins i) (map (minCP d) tracks))) l)).
  rewrite IH by (intros; apply H; now right). f_equal. f_equal. apply filter_ext. intros x. apply cpBin_closed, H. now left.
Qed.
Lemma minCP_spec d t : startsIn d t -> lowest t (minCP d t).
Proof.
  intros (r & rest & -> & (X1 & X2) & (Y1 & Y2)). unfold minCP, inRegion.
  apply Qle_bool_iff in X1, X2, Y1, Y2. rewrite X1, X2, Y1, Y2. cbn [andb map].
  destruct (amin_spec (map rp rest) (rp r)) as (A1 & A2 & A3). split.
  - destruct A3 as [A3|(y & Hy & A3)]; [exists r; split; [now left|now symmetry]|].
    apply in_map_iff in Hy. destruct Hy as (q & <- & Hq). exists q. split; [now right|now symmetry].
  - intros q [<-|Hq]; [exact A1|]. apply A2, in_map, Hq.
Qed.
Lemma sum_div (t : nat) l : 0 < t -> (fold_right Qplus 0 (map (fun n => 5 * (inject_Z (Z.of_nat n) / (5 * inject_Z (Z.of_nat t)))) l) * inject_Z (Z.of_nat t) == inject_Z (Z.of_nat (list_sum l)))%Q.
Proof.
  intros Ht. assert (N : ~ (inject_Z (Z.of_nat t) == 0)%Q).
  { intros C. change 0%Q with (inject_Z 0) in C. unfold Qeq in C. cbn in C. lia. }
  induction l as [|n l IH]; [cbn [map fold_right list_sum]; change (inject_Z (Z.of_nat 0)) with 0%Q; ring|].
  cbn [map fold_right list_sum]. fold (list_sum l). rewrite Qmult_plus_distr_l, IH, Nat2Z.inj_add, inject_Z_plus. field. exact N.
Qed.
Theorem c129_minima : forall d tracks t p, In t tracks -> startsIn d t -> lowest t p -> (850 <= p <= 1015)%Q ->
  exists h, map Some h = minCPDist d tracks /\ length h = 33 /\ (fold_right Qplus 0 (map (fun x => 5 * x) h) == 1)%Q /\ (forall x, In x h -> (0 <= x)%Q).
Proof.
  intros d tracks t p Ht Hs Hp Hb. unfold minCPDist. cbv zeta. fold (counts d tracks).
  change (fold_right Nat.add 0 (counts d tracks)) with (list_sum (counts d tracks)).
  assert (T : 0 < list_sum (counts d tracks)).
  { rewrite counts_total. destruct (filter _ (map (minCP d) tracks)) eqn:E; [exfalso|cbn; lia].
    assert (In (minCP d t) []); [|contradiction]. rewrite <- E. apply filter_In. split; [now apply in_map|].
    destruct (minCP_spec d t Hs) as ((r & Hr & Er) & B). destruct Hp as ((r' & Hr' & Er') & B'). specialize (B r' Hr'). specialize (B' r Hr).
    apply andb_true_iff. rewrite !Qle_bool_iff. lra. }
  exists (map (fun n => (inject_Z (Z.of_nat n) / (5 * inject_Z (Z.of_nat (list_sum (counts d tracks)))))%Q) (counts d tracks)).
  destruct (list_sum (counts d tracks) =? 0) eqn:E0; [apply Nat.eqb_eq in E0; lia|]. split; [|split; [|split]].
  - rewrite map_map. reflexivity.
  - unfold counts. now rewrite !map_length, seq_length.
  - rewrite map_map. pose proof (sum_div (list_sum (counts d tracks)) (counts d tracks) T) as S.
    set (s := fold_right _ _ _) in *. assert (N : (0 < inject_Z (Z.of_nat (list_sum (counts d tracks))))%Q).
    { change 0%Q with (inject_Z 0). rewrite <- Zlt_Qlt. lia. }
    set (n := inject_Z _) in *. apply (Qmult_inj_r s 1 n); [lra|]. rewrite S. ring.
  - intros x Hx. apply in_map_iff in Hx. destruct Hx as (n & <- & _).
    assert (N : (0 < inject_Z (Z.of_nat (list_sum (counts d tracks))))%Q) by (change 0%Q with (inject_Z 0); rewrite <- Zlt_Qlt; lia).
    assert (0 <= inject_Z (Z.of_nat n))%Q by (change 0%Q with (inject_Z 0); rewrite <- Zle_Qle; lia).
    apply Qle_shift_div_l; lra.
Qed.
Example c129_minima_example : exists t p, In t some_tracks /\ startsIn d22 t /\ lowest t p /\ (850 <= p <= 1015)%Q.
Proof.
  exists [mkRec (1 # 2) (1 # 2) 980 2000; mkRec 1 1 970 2000; mkRec 2 (3 # 2) 960 2000], 960%Q. split; [now left|]. split; [|split].
  - eexists _, _. split; [reflexivity|]. cbn. split; split; discriminate.
  - split; [exists (mkRec 2 (3 # 2) 960 2000); split; [right; right; now left|reflexivity]|].
    intros r [<-|[<-|[<-|[]]]]; discriminate.
  - split; discriminate.
Qed.

(** The entries are proportional to the numbers of tracks; [isIn] tells which tracks start in the domain, [lw] is their
    lowest pressure. *)
Lemma inj_nonzero n : n <> 0 -> ~ (inject_Z (Z.of_nat n) == 0)%Q.
Proof. intros H C. change 0%Q with (inject_Z 0) in C. unfold Qeq in C. cbn in C. lia. Qed.
Theorem c129_minima_share : forall d tracks isIn lw i h, map Some h = minCPDist d tracks ->
  (forall t, In t tracks -> (isIn t = true <-> startsIn d t)) -> (forall t, In t tracks -> startsIn d t -> lowest t (lw t)) ->
  i < 33 ->
  (nth i h 0 * (5 * inject_Z (Z.of_nat (length (filter (fun t => isIn t && (Qle_bool 850 (lw t) && Qle_bool (lw t) 1015)) tracks)))) ==
   inject_Z (Z.of_nat (length (filter (fun t => isIn t && (Qle_bool (850 + 5 * inject_Z (Z.of_nat i)) (lw t) &&
      (if i =? 32 then Qle_bool (lw t) 1015 else qlt (lw t) (850 + 5 * inject_Z (Z.of_nat (S i)))))) tracks))))%Q.
Proof.
  intros d tracks isIn lw i h Hh HI HL Hi.
  assert (M : forall t, In t tracks -> if isIn t then (minCP d t == lw t)%Q else minCP d t = 0%Q).
  { intros t Ht. destruct (isIn t) eqn:E.
    - apply HI in E; [|exact Ht]. destruct (minCP_spec d t E) as ((r & Hr & Er) & B). destruct (HL t Ht E) as ((r' & Hr' & Er') & B').
      specialize (B r' Hr'). specialize (B' r Hr). lra.
    - unfold minCP. destruct (inRegion d t) eqn:R; [|reflexivity]. exfalso. assert (isIn t = true); [|congruence]. apply HI; [exact Ht|].
      destruct t as [|r rest]; [discriminate|]. cbn [inRegion] in R. rewrite !andb_true_iff, !Qle_bool_iff in R.
      exists r, rest. tauto. }
  assert (T : length (filter (fun t => isIn t && (Qle_bool 850 (lw t) && Qle_bool (lw t) 1015)) tracks) = list_sum (counts d tracks)).
  { rewrite counts_total, filter_map, map_length. f_equal. apply filter_ext_in. intros t Ht. specialize (M t Ht). destruct (isIn t); cbn [andb].
    - set (a := minCP d t) in *. set (b := lw t) in *. clearbody a b. qb; cbn [andb]; try reflexivity; exfalso; lra.
    - rewrite M. reflexivity. }
  assert (N : nth_error (counts d tracks) i = Some (length (filter (fun t => isIn t && (Qle_bool (850 + 5 * inject_Z (Z.of_nat i)) (lw t) &&
      (if i =? 32 then Qle_bool (lw t) 1015 else qlt (lw t) (850 + 5 * inject_Z (Z.of_nat (S i)))))) tracks))).
  { unfold counts. erewrite map_nth_error; [|rewrite (nth_error_nth' _ 0) by (now rewrite seq_length); now rewrite seq_nth].
    cbn [Nat.add]. rewrite filter_map, map_length. do 2 f_equal. apply filter_ext_in. intros t Ht. specialize (M t Ht).
    rewrite cpBin_closed by exact Hi. unfold closedBin, half. change (S i =? 33) with (i =? 32).
    assert (E1 : (850 + 5 * inject_Z (Z.of_nat i) == edge 850 5 i)%Q) by (unfold edge; ring).
    assert (E2 : (850 + 5 * inject_Z (Z.of_nat (S i)) == edge 850 5 (S i))%Q) by (unfold edge; ring).
    assert (E3 : (850 <= edge 850 5 i)%Q) by (apply edge_up; reflexivity). pose proof (edge_S 850 5 i) as E4.
    assert (E5 : (edge 850 5 33 == 1015)%Q) by reflexivity.
    set (e := (850 + 5 * inject_Z (Z.of_nat i))%Q) in *. set (e' := (850 + 5 * inject_Z (Z.of_nat (S i)))%Q) in *.
    destruct (i =? 32) eqn:En.
    - apply Nat.eqb_eq in En. rewrite En in *. set (z := edge 850 5 33) in *. set (y := edge 850 5 32) in *. destruct (isIn t); cbn [andb].
      + set (a := minCP d t) in *. set (b := lw t) in *. clearbody a b e e' y z. qb; cbn [andb orb]; try reflexivity; exfalso; lra.
      + rewrite M. clearbody e e' y z. qb; cbn [andb orb]; try reflexivity; exfalso; lra.
    - cbn [andb]. rewrite orb_false_r. set (z := edge 850 5 (S i)) in *. set (y := edge 850 5 i) in *. destruct (isIn t); cbn [andb].
      + set (a := minCP d t) in *. set (b := lw t) in *. clearbody a b e e' y z. qb; cbn [andb orb]; try reflexivity; exfalso; lra.
      + rewrite M. clearbody e e' y z. qb; cbn [andb orb]; try reflexivity; exfalso; lra. }
  rewrite T. set (c := length (filter (fun t => isIn t && (Qle_bool (850 + 5 * inject_Z (Z.of_nat i)) (lw t) && _)) tracks)) in *. clearbody c.
  clear T M. unfold minCPDist in Hh. cbv zeta in Hh. fold (counts d tracks) in Hh.
  change (fold_right Nat.add 0 (counts d tracks)) with (list_sum (counts d tracks)) in Hh.
  set (cs := counts d tracks) in *. clearbody cs.
  assert (E : nth_error (map Some h) i = nth_error (map (fun n => if list_sum cs =? 0 then None else Some (inject_Z (Z.of_nat n) / (5 * inject_Z (Z.of_nat (list_sum cs))))%Q) cs) i) by now rewrite Hh.
  rewrite (map_nth_error _ _ _ N) in E. destruct (nth_error h i) as [v|] eqn:V.
  - rewrite (map_nth_error _ _ _ V) in E. rewrite (nth_error_nth h i 0%Q V). destruct (list_sum cs =? 0) eqn:Z; [discriminate|].
    apply Nat.eqb_neq in Z. injection E as ->. pose proof (inj_nonzero _ Z) as NZ. field. exact NZ.
  - apply nth_error_None in V. rewrite (proj2 (nth_error_None (map Some h) i)) in E by (now rewrite map_length). discriminate.
Qed.
Example c129_minima_share_example : map Some [0; 0; 0; 0; 0; 0; 0; 0; 0; 0; 0; 0; 0; 0; 0; 0; 0; 0; 0; 0; 1 # 10; 0; 1 # 10; 0; 0; 0; 0; 0; 0; 0; 0; 0; 0]%Q =
  map (option_map Qred) (minCPDist d22 [[mkRec 1 1 950 2000]; [mkRec 1 1 960 2000; mkRec 1 1 970 2000]]).
Proof. vm_compute. reflexivity. Qed.

(** * C130: what the maps leave out *)
(** A domain that the spacing does not divide: positions in the rest of the domain are not counted. *)
Theorem c130_remainder_refuted : exists d t r, (0 < ddx d)%Q /\ (0 < ddy d)%Q /\ t = [r] /\
  (dx0 d <= rlon r < dx1 d)%Q /\ (dy0 d <= rlat r < dy1 d)%Q /\
  list_sum (map list_sum (density d [t])) = 0 /\ forall k l, nth l (nth k (pressureMap d [t]) []) None = None.
Proof.
  exists (mkDom 0 (5 # 2) 0 2 1 1), [mkRec (9 # 4) (1 # 2) 980 2000], (mkRec (9 # 4) (1 # 2) 980 2000).
  split; [reflexivity|]. split; [reflexivity|]. split; [reflexivity|]. split; [split; [discriminate|reflexivity]|]. split; [split; [discriminate|reflexivity]|].
  split; [vm_compute; reflexivity|].
  intros k l. set (m := pressureMap _ _). vm_compute in m. subst m.
  destruct k as [|[|[|k]]]; destruct l as [|[|[|l]]]; reflexivity.
Qed.
(** With a spacing below 0.1 degree positions outside the domain are counted. *)
Theorem c130_fine_refuted : exists d t r, cutInto (dy0 d) (dy1 d) (ddy d) 2 /\ (0 < ddx d)%Q /\ (dx1 d == dx0 d + 20 * ddx d)%Q /\
  t = [r] /\ (dx1 d < rlon r)%Q /\ list_sum (map list_sum (density d [t])) = 1.
Proof.
  exists (mkDom 0 1 0 2 (1 # 20) 1), [mkRec (102 # 100) (1 # 2) 980 2000], (mkRec (102 # 100) (1 # 2) 980 2000).
  split; [split; [lia|split; [reflexivity|vm_compute; reflexivity]]|]. split; [reflexivity|]. split; [reflexivity|]. split; [reflexivity|].
  split; [reflexivity|]. vm_compute. reflexivity.
Qed.
(** A position on the upper edge of the domain has a density but no pressure. *)
Theorem c130_upper_edge_refuted : exists d t r, cells d 2 2 /\ t = [r] /\ given (rp r) = true /\
  list_sum (map list_sum (density d [t])) = 1 /\ forall k l, nth l (nth k (pressureMap d [t]) []) None = None.
Proof.
  exists d22, [mkRec 2 (1 # 2) 980 2000], (mkRec 2 (1 # 2) 980 2000). split; [apply c129_example|]. split; [reflexivity|]. split; [reflexivity|].
  split; [vm_compute; reflexivity|]. intros k l. set (m := pressureMap _ _). vm_compute in m. subst m.
  destruct k as [|[|[|k]]]; destruct l as [|[|[|l]]]; reflexivity.
Qed.
(** The annual rate divides by the difference of the last and the first year, one less than the number of years; a
    record of one year gives no numbers. *)
Lemma fold_max l : forall a, (a <= fold_left Z.max l a)%Z /\ (forall y, In y l -> (y <= fold_left Z.max l a)%Z) /\ (fold_left Z.max l a = a \/ In (fold_left Z.max l a) l).
Proof.
  induction l as [|b l IH]; intros a; cbn [fold_left]; [split; [lia|split; [contradiction|now left]]|].
  destruct (IH (Z.max a b)) as (H1 & H2 & H3). split; [lia|]. split.
  - intros y [<-|Hy]; [lia|now apply H2].
  - destruct H3 as [H3|H3]; [|right; now right]. rewrite H3. destruct (Z.max_spec a b) as [[_ ->]|[_ ->]]; [right; now left|now left].
Qed.
Lemma fold_min l : forall a, (fold_left Z.min l a <= a)%Z /\ (forall y, In y l -> (fold_left Z.min l a <= y)%Z) /\ (fold_left Z.min l a = a \/ In (fold_left Z.min l a) l).
Proof.
  induction l as [|b l IH]; intros a; cbn [fold_left]; [split; [lia|split; [contradiction|now left]]|].
  destruct (IH (Z.min a b)) as (H1 & H2 & H3). split; [lia|]. split.
  - intros y [<-|Hy]; [lia|now apply H2].
  - destruct H3 as [H3|H3]; [|right; now right]. rewrite H3. destruct (Z.min_spec a b) as [[_ ->]|[_ ->]]; [now left|right; now left].
Qed.
Theorem c130_years_refuted : forall d tracks first last,
  (forall r, In r (concat tracks) -> (0 <= first <= ryear r)%Z /\ (ryear r <= last <= 9999)%Z) ->
  (exists r, In r (concat tracks) /\ ryear r = first) -> (exists r, In r (concat tracks) /\ ryear r = last) ->
  historicDensity d tracks = map (map (fun n => if (last =? first)%Z then None
    else Some (inject_Z (Z.of_nat n) / inject_Z ((last - first + 1) - 1))%Q)) (density d tracks).
Proof.
  intros d tracks first last B (r & Hr & Er) (q & Hq & Eq).
  assert (N : numYears tracks = (last - first)%Z).
  { unfold numYears. set (ys := map ryear (concat tracks)).
    assert (By : forall y, In y ys -> (0 <= first <= y /\ y <= last <= 9999)%Z).
    { intros y Hy. apply in_map_iff in Hy. destruct Hy as (s & <- & Hs). now apply B. }
    assert (I1 : In first ys) by (rewrite <- Er; now apply in_map). assert (I2 : In last ys) by (rewrite <- Eq; now apply in_map).
    destruct (fold_max ys 0%Z) as (M1 & M2 & M3). destruct (fold_min ys 9999%Z) as (m1 & m2 & m3).
    pose proof (By _ I1) as P1. pose proof (By _ I2) as P2. specialize (M2 _ I2). specialize (m2 _ I1).
    assert (fold_left Z.max ys 0%Z <= last)%Z by (destruct M3 as [->|M3]; [lia|apply By in M3; lia]).
    assert (first <= fold_left Z.min ys 9999%Z)%Z by (destruct m3 as [->|m3]; [lia|apply By in m3; lia]). lia. }
  unfold historicDensity. rewrite N. apply map_ext. intros row. apply map_ext. intros n.
  replace (last - first =? 0)%Z with (last =? first)%Z by (destruct (Z.eqb_spec last first), (Z.eqb_spec (last - first) 0); lia).
  now replace (last - first + 1 - 1)%Z with (last - first)%Z by lia.
Qed.
Example c130_years_example : historicDensity d22 [[mkRec (1 # 2) (1 # 2) 980 2000]; [mkRec (1 # 2) (1 # 2) 980 2001]] =
    [[Some (2 / 1)%Q; Some (0 / 1)%Q]; [Some (0 / 1)%Q; Some (0 / 1)%Q]] /\
  historicDensity d22 [[mkRec (1 # 2) (1 # 2) 980 2000]] = [[None; None]; [None; None]].
Proof. split; vm_compute; reflexivity. Qed.
(** A track that reaches the domain from outside has no lowest pressure, and a simulation in which no track has one
    gives no numbers. *)
Theorem c130_minima_refuted : exists d t p, (exists r, In r t /\ inDomain d r = true /\ rp r = p) /\ lowest t p /\ (850 < p < 1015)%Q /\
  forall x, In x (minCPDist d [t]) -> x = None.
Proof.
  exists d22, [mkRec 3 1 990 2000; mkRec (3 # 2) 1 950 2000], 950%Q. split; [|split; [|split]].
  - exists (mkRec (3 # 2) 1 950 2000). split; [right; now left|]. split; reflexivity.
  - split; [exists (mkRec (3 # 2) 1 950 2000); split; [right; now left|reflexivity]|]. intros r [<-|[<-|[]]]; discriminate.
  - split; reflexivity.
  - intros x Hx. set (m := minCPDist _ _) in Hx. vm_compute in m. subst m. repeat (destruct Hx as [<-|Hx]; [reflexivity|]). contradiction.
Qed.

Print Assumptions c129_total.
Print Assumptions c129_cell.
Print Assumptions c129_pressures.
Print Assumptions c129_statistics.
Print Assumptions c129_minima.
Print Assumptions c129_minima_share.
Print Assumptions c130_remainder_refuted.
Print Assumptions c130_fine_refuted.
Print Assumptions c130_upper_edge_refuted.
Print Assumptions c130_years_refuted.
Print Assumptions c130_minima_refuted.
