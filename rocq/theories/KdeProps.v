(** Properties C150 and C151: kernel density estimates, their bandwidth, the
    genesis density and ranges of cells. *)
From Coq Require Import Reals ZArith QArith Qround List Bool Lia Lqa Lra.
From Verif Require Import Base CircleModel CircleProofs SeriesModel SeriesProofs SampModel SampProofs
  SmoothModel SmoothProofs MapModel MapProps KdeModel.
Import ListNotations.
Local Open Scope R_scope.

Lemma sumR_ext {A} (f g : A -> R) l : (forall a, In a l -> f a = g a) -> sumR (map f l) = sumR (map g l).
Proof.
  unfold sumR. induction l as [|a l IH]; intros H; cbn [map fold_right]; [reflexivity|].
  rewrite (H a (or_introl eq_refl)), IH; [reflexivity|]. intros b B. apply H. now right.
Qed.

Lemma sumR_nonneg l : (forall a, In a l -> 0 <= a) -> 0 <= sumR l.
Proof.
  unfold sumR. induction l as [|a l IH]; intros H; cbn [fold_right]; [lra|].
  pose proof (H a (or_introl eq_refl)). specialize (IH (fun b B => H b (or_intror B))). lra.
Qed.

Lemma sumR_zero l : (forall a, In a l -> 0 <= a) -> sumR l = 0 -> forall a, In a l -> a = 0.
Proof.
  unfold sumR. induction l as [|b l IH]; intros H E a; cbn [fold_right In] in *; [tauto|].
  pose proof (H b (or_introl eq_refl)).
  pose proof (sumR_nonneg l (fun c C => H c (or_intror C))) as N. unfold sumR in N.
  intros [->|I]; [lra|]. apply IH; [intros c C; apply H; now right|lra|exact I].
Qed.

Lemma INR_len {A} (l : list A) : l <> [] -> 0 < INR (length l).
Proof. intros H. destruct l; [congruence|]. apply lt_0_INR. cbn. lia. Qed.

Lemma variance_nonneg l : l <> [] -> 0 <= variance l.
Proof.
  intros H. unfold variance. unfold mean at 1. rewrite map_length. pose proof (INR_len l H).
  apply Rmult_le_pos; [|left; now apply Rinv_0_lt_compat].
  apply sumR_nonneg. intros a I. apply in_map_iff in I as (d & <- & _). apply Rle_0_sqr.
Qed.

Lemma variance_zero l : l <> [] -> variance l = 0 -> forall d, In d l -> d = mean l.
Proof.
  intros H E d I. unfold variance in E. unfold mean at 1 in E. rewrite map_length in E. pose proof (INR_len l H).
  assert (S0 : sumR (map (fun d => (d - mean l) * (d - mean l)) l) = 0).
  { apply Rmult_eq_reg_r with (/ INR (length l)); [|apply Rinv_neq_0_compat; lra]. unfold Rdiv in E. rewrite E. ring. }
  assert (Z : (d - mean l) * (d - mean l) = 0).
  { apply (sumR_zero _ ltac:(intros a A; apply in_map_iff in A as (e & <- & _); apply Rle_0_sqr) S0).
    apply in_map_iff. exists d. split; [reflexivity|exact I]. }
  assert (d - mean l = 0) by (apply Rsqr_0_uniq; exact Z). lra.
Qed.

Lemma bandwidth_pos l : l <> [] -> (0 < bandwidth l <-> exists a b, In a l /\ In b l /\ a <> b).
Proof.
  intros H. unfold bandwidth.
  assert (P : 0 < Rpower (INR (length l)) (- 1 / 5)) by (unfold Rpower; apply exp_pos).
  pose proof (variance_nonneg l H) as V. split.
  - intros B. destruct (Req_EM_T (variance l) 0) as [E|N].
    { rewrite E, sqrt_0 in B. lra. }
    assert (Ex : existsb (fun b => if Req_EM_T (hd 0 l) b then false else true) l = true).
    { destruct (existsb _ l) eqn:E; [reflexivity|exfalso]. apply N.
      assert (All : forall b, In b l -> b = hd 0 l).
      { intros b I. destruct (Req_EM_T (hd 0 l) b) as [->|Ne]; [reflexivity|].
        assert (T : existsb (fun b => if Req_EM_T (hd 0 l) b then false else true) l = true).
        { apply existsb_exists. exists b. split; [exact I|]. destruct (Req_EM_T (hd 0 l) b); congruence. }
        congruence. }
      assert (M : mean l = hd 0 l).
      { unfold mean. replace (sumR l) with (INR (length l) * hd 0 l).
        - field. pose proof (INR_len l H). lra.
        - remember (hd 0 l) as c. clear - All. induction l as [|x l IH]; [cbn; lra|].
          change (length (x :: l)) with (S (length l)). rewrite S_INR. unfold sumR. cbn [fold_right].
          fold (sumR l). rewrite <- IH by (intros b B; apply All; now right).
          rewrite (All x (or_introl eq_refl)). ring. }
      unfold variance. unfold mean at 1.
      rewrite (sumR_ext _ (fun _ => 0) l).
      - replace (sumR (map (fun _ => 0) l)) with 0; [unfold Rdiv; ring|].
        clear. induction l as [|x l IH]; [reflexivity|]. unfold sumR in *. cbn [map fold_right]. lra.
      - intros a A. rewrite M, (All a A). ring. }
    apply existsb_exists in Ex as (b & I & D). exists (hd 0 l), b. split; [|split; [exact I|]].
    + destruct l; [congruence|now left].
    + destruct (Req_EM_T (hd 0 l) b); congruence.
  - intros (a & b & Ia & Ib & N).
    assert (0 < variance l).
    { destruct V as [V|V]; [exact V|exfalso]. symmetry in V.
      pose proof (variance_zero l H V a Ia). pose proof (variance_zero l H V b Ib). congruence. }
    apply Rmult_lt_0_compat; [|exact P]. apply Rmult_lt_0_compat; [lra|]. now apply sqrt_lt_R0.
Qed.

Lemma triple_len p l : length (triple p l) = (3 * length l)%nat.
Proof. unfold triple. rewrite !app_length, !map_length. lia. Qed.

Lemma triple_bw p l : 0 < p -> l <> [] -> 0 < bandwidth (triple p l).
Proof.
  intros P H. apply bandwidth_pos.
  - intros E. apply (f_equal (@length _)) in E. rewrite triple_len in E. destruct l; [congruence|cbn in E; lia].
  - destruct l as [|d l]; [congruence|]. exists (d - p), d. unfold triple. split; [now left|]. split; [|lra].
    apply in_or_app. right. now left.
Qed.

Lemma sumR_plus3 {A} (f g h : A -> R) l :
  sumR (map f l) + sumR (map g l) + sumR (map h l) = sumR (map (fun a => f a + g a + h a) l).
Proof.
  unfold sumR. induction l as [|a l IH]; cbn [map fold_right]; [ring|]. rewrite <- IH. ring.
Qed.

Lemma kdens_triple K h p data x : data <> [] -> 0 < h ->
  3 * kdens K h (triple p data) x =
  sumR (map (fun d => K ((d - p - x) / h) + K ((d - x) / h) + K ((d + p - x) / h)) data) / (h * INR (length data)).
Proof.
  intros H Ph. unfold kdens. rewrite triple_len. unfold triple.
  rewrite !map_app, !map_map, !sumR_app, <- (sumR_plus3 (fun d => K ((d - p - x) / h)) (fun d => K ((d - x) / h)) (fun d => K ((d + p - x) / h))).
  pose proof (INR_len data H). rewrite mult_INR. change (INR 3) with (2 + 1). 
  field. lra.
Qed.

Lemma zsum_out f : forall m, (1 <= m)%nat -> (forall i, (1 < Z.abs i)%Z -> f i = 0) -> zsum m f = f (-1)%Z + f 0%Z + f 1%Z.
Proof.
  intros m M Z0. induction m as [|m IH]; [lia|]. destruct (Nat.eq_dec m 0) as [->|N].
  - unfold zsum. cbn [sumn Nat.mul Nat.add Z.of_nat]. cbn. ring.
  - rewrite <- IH by lia. unfold zsum.
    replace (2 * S m + 1)%nat with (S (S (2 * m + 1))) by lia. rewrite sumn_shift. cbn [sumn].
    rewrite (Z0 (Z.of_nat 0 - Z.of_nat (S m))%Z) by lia.
    rewrite (Z0 (Z.of_nat (S (2 * m + 1)) - Z.of_nat (S m))%Z) by lia.
    rewrite (sumn_ext _ _ (fun k => f (Z.of_nat k - Z.of_nat m)%Z)); [ring|].
    intros k _. f_equal. lia.
Qed.

Lemma out_of_reach (r h p u : R) : 0 < h -> r * h < p -> p <= Rabs u -> r < Rabs (u / h).
Proof.
  intros Ph B U. unfold Rdiv. rewrite Rabs_mult, (Rabs_pos_eq (/ h)) by (left; now apply Rinv_0_lt_compat).
  apply Rmult_lt_reg_r with h; [exact Ph|]. rewrite Rmult_assoc, Rinv_l by lra. lra.
Qed.

(** * C150 *)

(** The density of periodic data is the density of the data wrapped around
    the period: each observation counts with all its repetitions (any number
    [m] of them before and after, since a kernel that reaches less than one
    period does not see the further ones), as if there were only the
    original observations. *)
Theorem c150_wrap : forall K libbw p r data a x m,
  0 < p -> data <> [] -> (forall d, In d data -> a <= d <= a + p) -> a <= x <= a + p ->
  0 < libbw (triple p data) -> (forall u, r < Rabs u -> K u = 0) -> r * libbw (triple p data) < p ->
  (1 <= m)%nat ->
  kdePdf K libbw (RPeriodic p) data x =
  Some (sumR (map (fun d => zsum m (fun s => K ((d + IZR s * p - x) / libbw (triple p data)))) data)
        / (libbw (triple p data) * INR (length data))).
Proof.
  intros K libbw p r data a x m P H D X Ph C B M. unfold kdePdf, kdeData.
  rewrite (proj2 (rlt_true _ _) (triple_bw p data P H)). f_equal.
  set (h := libbw (triple p data)) in *. rewrite kdens_triple by assumption. f_equal.
  apply sumR_ext. intros d I. specialize (D d I).
  rewrite zsum_out; [|exact M|].
  - replace (d + IZR (-1) * p - x) with (d - p - x) by ring.
    replace (d + IZR 0 * p - x) with (d - x) by ring.
    replace (d + IZR 1 * p - x) with (d + p - x) by ring. reflexivity.
  - intros s S1. apply C. apply out_of_reach with p; [exact Ph|exact B|].
    assert (S2 : (s <= -2 \/ 2 <= s)%Z) by lia. destruct S2 as [S2|S2].
    + apply IZR_le in S2. rewrite Rabs_left1; nra.
    + apply IZR_le in S2. rewrite Rabs_pos_eq; nra.
Qed.

(** The two ends of the period carry the same density. *)
Theorem c150_seam : forall K libbw p r data a,
  0 < p -> data <> [] -> (forall d, In d data -> a <= d <= a + p) ->
  0 < libbw (triple p data) -> (forall u, r < Rabs u -> K u = 0) -> r * libbw (triple p data) < p ->
  kdePdf K libbw (RPeriodic p) data a = kdePdf K libbw (RPeriodic p) data (a + p).
Proof.
  intros K libbw p r data a P H D Ph C B. unfold kdePdf, kdeData.
  rewrite (proj2 (rlt_true _ _) (triple_bw p data P H)). f_equal.
  set (h := libbw (triple p data)) in *. rewrite !kdens_triple by assumption. f_equal.
  apply sumR_ext. intros d I. specialize (D d I).
  rewrite (C ((d + p - a) / h)), (C ((d - p - (a + p)) / h)).
  - replace (d - (a + p)) with (d - p - a) by ring. replace (d + p - (a + p)) with (d - a) by ring. ring.
  - apply out_of_reach with p; [exact Ph|exact B|]. rewrite Rabs_left1; lra.
  - apply out_of_reach with p; [exact Ph|exact B|]. rewrite Rabs_pos_eq; lra.
Qed.

(** Densities are never negative. *)
Theorem c150_nonnegative : forall K libbw k data x v,
  (forall u, 0 <= K u) -> (forall d, d <> [] -> 0 < libbw d) -> data <> [] ->
  kdePdf K libbw k data x = Some v -> 0 <= v.
Proof.
  intros K libbw k data x v HK HB HD. unfold kdePdf. destruct (rlt 0 (bandwidth (kdeData k data))); [|discriminate].
  assert (N : kdeData k data <> []).
  { destruct k; cbn [kdeData]; [exact HD|exact HD|]. intros E. apply (f_equal (@length _)) in E.
    rewrite triple_len in E. destruct data; [congruence|cbn in E; lia]. }
  assert (G : 0 <= kdens K (libbw (kdeData k data)) (kdeData k data) x).
  { unfold kdens. pose proof (HB _ N) as Bp. pose proof (INR_len _ N) as Np.
    apply Rmult_le_pos; [|left; apply Rinv_0_lt_compat; now apply Rmult_lt_0_compat].
    apply sumR_nonneg. intros a A. apply in_map_iff in A as (d & <- & _). apply HK. }
  intros E. injection E as <-. destruct k; lra.
Qed.

(** The bandwidth does not depend on where the data are, grows with their
    scale, and is positive exactly if two observations differ. *)
Theorem c150_bandwidth : forall l : list R, l <> [] ->
  (forall c, bandwidth (map (fun d => d + c) l) = bandwidth l) /\
  (forall c, bandwidth (map (fun d => c * d) l) = Rabs c * bandwidth l) /\
  (0 < bandwidth l <-> exists a b, In a l /\ In b l /\ a <> b).
Proof.
  intros l H. pose proof (INR_len l H) as N. split; [|split; [|now apply bandwidth_pos]].
  - intros c. unfold bandwidth. rewrite map_length. f_equal. f_equal. f_equal.
    assert (M : mean (map (fun d => d + c) l) = mean l + c).
    { unfold mean. rewrite map_length.
      rewrite (sumR_map_lin (fun d => d + c) (fun d => d) (fun _ => 1) 1 c) by (intros; ring).
      rewrite map_id.
      replace (sumR (map (fun _ => 1) l)) with (INR (length l)); [field; lra|].
      clear. induction l as [|x l IH]; [reflexivity|]. change (length (x :: l)) with (S (length l)).
      rewrite S_INR, IH. unfold sumR. cbn [map fold_right]. ring. }
    unfold variance. rewrite M, map_map. f_equal. apply map_ext. intros d. ring.
  - intros c. unfold bandwidth. rewrite map_length.
    assert (M : mean (map (fun d => c * d) l) = c * mean l).
    { unfold mean. rewrite map_length.
      rewrite (sumR_map_lin (fun d => c * d) (fun d => d) (fun d => d) c 0) by (intros; ring).
      rewrite map_id. field. lra. }
    assert (V : variance (map (fun d => c * d) l) = c * c * variance l).
    { assert (Mm : forall f : R -> R, mean (map f l) = sumR (map f l) / INR (length l)).
      { intros f. unfold mean. now rewrite map_length. }
      unfold variance. rewrite M, map_map, !Mm.
      rewrite (sumR_map_lin (fun x => (c * x - c * mean l) * (c * x - c * mean l)) (fun d => (d - mean l) * (d - mean l)) (fun d => d) (c * c) 0) by (intros; ring).
      field. lra. }
    rewrite V, sqrt_mult_alt by apply Rle_0_sqr.
    replace (sqrt (c * c)) with (Rabs c) by (symmetry; apply sqrt_Rsqr_abs). ring.
Qed.

(** Periodic data always have a density; plain and angular data exactly if
    two observations differ. *)
Theorem c150_exists : forall K libbw data x, data <> [] ->
  (forall p, 0 < p -> kdePdf K libbw (RPeriodic p) data x <> None) /\
  (forall k, k = RPlain \/ k = RAngular ->
    (kdePdf K libbw k data x <> None <-> exists a b, In a data /\ In b data /\ a <> b)).
Proof.
  intros K libbw data x H. split.
  - intros p P. unfold kdePdf, kdeData. now rewrite (proj2 (rlt_true _ _) (triple_bw p data P H)).
  - intros k Hk. rewrite <- bandwidth_pos by exact H. unfold kdePdf.
    replace (kdeData k data) with data by (destruct Hk; now subst).
    destruct (rlt 0 (bandwidth data)) eqn:E.
    + apply rlt_true in E. split; [intros _; exact E|discriminate].
    + apply rlt_false in E. split; [congruence|]. intros P. lra.
Qed.

(** The saved genesis density has a row for each latitude, northernmost
    first, and a column for each longitude; the returned one is its
    transpose.  Only observations in the domain enter, none of them is
    lost. *)
Theorem c150_origin : forall (V : Type) (dens : list (Q * Q) -> Q -> Q -> V) xMin xMax yMin yMax step dir file v0,
  let o := originInit xMin xMax yMin yMax step dir file None in
  exists rows cols, originKDE dens o true = Some (Some (dir, rows), cols) /\
    length rows = length (k_y o) /\ length cols = length (k_x o) /\
    (forall i j, (i < length (k_x o))%nat -> (j < length (k_y o))%nat ->
       nth i (nth j rows []) v0 = dens (k_data o) (nth i (k_x o) 0%Q) (nth j (k_y o) 0%Q) /\
       nth j (nth i cols []) v0 = nth i (nth j rows []) v0) /\
    (forall p, In p (k_data o) <-> In p file /\ (xMin <= fst p)%Q /\ (fst p <= xMax)%Q /\ (yMin <= snd p)%Q /\ (snd p <= yMax)%Q).
Proof.
  intros V dens xMin xMax yMin yMax step dir file v0 o.
  exists (gridRows (dens (k_data o)) o), (gridCols (dens (k_data o)) o). split; [reflexivity|].
  unfold gridRows, gridCols. rewrite !map_length. split; [reflexivity|]. split; [reflexivity|]. split.
  - intros i j I J.
    rewrite (nth_map_lt _ (k_y o) j [] 0%Q J), (nth_map_lt _ (k_x o) i v0 0%Q I).
    rewrite (nth_map_lt _ (k_x o) i [] 0%Q I), (nth_map_lt _ (k_y o) j v0 0%Q J). split; reflexivity.
  - intros p. unfold o, originInit. cbn [k_data]. rewrite filter_In. unfold inDomain.
    rewrite !andb_true_iff, !Qle_bool_iff. tauto.
Qed.

(** The upper end of an evenly spaced range lies at or less than one step
    above the wanted maximum; the lower end at or less than one step below
    the minimum. *)
Theorem c150_range : forall lo hi step : Q, (lo <= hi)%Q -> (0 < step)%Q ->
  exists u l k k', statMaxRange lo hi step = Some u /\ statMinRange lo hi step = Some l /\
    (hi <= u)%Q /\ (u < hi + step)%Q /\ (u == lo + inject_Z k * step)%Q /\
    (l <= lo)%Q /\ (lo - step < l)%Q /\ (l == hi - inject_Z k' * step)%Q.
Proof.
  intros lo hi step L P. unfold statMaxRange, statMinRange.
  rewrite (proj2 (Qle_bool_iff _ _) L). replace (Qle_bool step 0) with false.
  2:{ symmetry. destruct (Qle_bool step 0) eqn:E; [apply Qle_bool_iff in E; Lqa.lra|reflexivity]. }
  cbn [negb orb].
  set (t := ((hi - lo) / step)%Q). assert (T : (t * step == hi - lo)%Q) by (unfold t; field; Lqa.lra).
  assert (T0 : (0 <= t)%Q) by (apply Qle_shift_div_l; [exact P|Lqa.lra]).
  assert (Lst : forall a b s, (0 < Z.to_nat (Qceiling ((b - a) / s)))%nat ->
     last (arange a b s) 0%Q = (a + inject_Z (Z.of_nat (Z.to_nat (Qceiling ((b - a) / s)) - 1)) * s)%Q).
  { intros a b s Ps. rewrite <- (arange_nth a b s) by (rewrite arange_len; lia). rewrite <- arange_len.
    set (l := arange a b s) in *. assert (l <> []).
    { intros E. unfold l in E. apply (f_equal (@length _)) in E. rewrite arange_len in E. cbn in E. lia. }
    clearbody l. clear - H. induction l as [|x l IH]; [congruence|]. destruct l as [|y l]; [reflexivity|].
    change (last (x :: y :: l) 0%Q) with (last (y :: l) 0%Q). rewrite (IH ltac:(discriminate)). cbn [length Nat.sub nth]. now rewrite Nat.sub_0_r. }
  assert (C1 : Qceiling ((hi + step - lo) / step) = (Qceiling t + 1)%Z).
  { rewrite (Qceiling_comp _ (t + inject_Z 1)%Q).
    - unfold Qceiling. rewrite (Qfloor_comp (- (t + inject_Z 1)) (- t + inject_Z (-1))%Q) by (change (inject_Z (-1)) with (- inject_Z 1)%Q; ring).
      assert (F : Qfloor (- t + inject_Z (-1)) = (Qfloor (- t) + -1)%Z).
      { pose proof (Qfloor_le (- t)%Q). pose proof (Qlt_floor (- t)%Q) as Q2. rewrite inject_Z_plus in Q2.
        pose proof (Qfloor_le (- t + inject_Z (-1))%Q) as Q3. pose proof (Qlt_floor (- t + inject_Z (-1))%Q) as Q4. rewrite inject_Z_plus in Q4.
        change (inject_Z (-1)) with (-(1))%Q in *. change (inject_Z 1) with 1%Q in *.
        set (A := Qfloor (- t)) in *. set (B := Qfloor (- t + - (1))) in *.
        assert (X1 : (inject_Z A < inject_Z (B + 2))%Q) by (rewrite inject_Z_plus; change (inject_Z 2) with 2%Q; Lqa.lra).
        assert (X2 : (inject_Z B < inject_Z A)%Q) by Lqa.lra.
        rewrite <- Zlt_Qlt in X1, X2. lia. }
      rewrite F. lia.
    - unfold t. change (inject_Z 1) with 1%Q. field. Lqa.lra. }
  destruct (qceil_spec t) as [K1 K2].
  assert (Kp : (0 <= Qceiling t)%Z).
  { assert (X : (inject_Z (-1) < inject_Z (Qceiling t))%Q) by (change (inject_Z (-1)) with (-(1))%Q; Lqa.lra).
    rewrite <- Zlt_Qlt in X. lia. }
  set (c := Qceiling t) in *.
  assert (M1 : (t * step <= inject_Z c * step)%Q) by (apply Qmult_le_compat_r; [exact K2|Lqa.lra]).
  assert (M2 : ((inject_Z c - 1) * step < t * step)%Q) by (apply Qmult_lt_compat_r; [exact P|exact K1]).
  assert (M3 : ((inject_Z c - 1) * step == inject_Z c * step - step)%Q) by ring. rewrite M3 in M2. rewrite T in M1, M2.
  assert (C2 : Qceiling ((lo - step - hi) / - step) = (c + 1)%Z).
  { rewrite <- C1. apply Qceiling_comp. field. Lqa.lra. }
  exists (lo + inject_Z c * step)%Q, (hi - inject_Z c * step)%Q, c, c.
  rewrite !Lst by (rewrite ?C1, ?C2; lia). rewrite C1, C2.
  replace (Z.of_nat (Z.to_nat (c + 1) - 1)) with c by lia.
  split; [reflexivity|]. split.
  { f_equal. unfold Qminus. f_equal. unfold Qmult, Qopp. cbn. f_equal. lia. }
  repeat split; try Lqa.lra; reflexivity.
Qed.

(** The probability of at least one event in a year lies between 0 and 1,
    never above the rate, and falls with the return period. *)
Theorem c150_probability : forall a b : R, 0 < a -> a < b ->
  0 < probability b < probability a /\ probability a < 1 /\ probability a <= 1 / a.
Proof.
  intros a b A B. unfold probability, Rdiv.
  assert (Ia : 0 < / a) by (now apply Rinv_0_lt_compat).
  assert (Ib : / b < / a) by (apply Rinv_lt_contravar; [apply Rmult_lt_0_compat; lra|exact B]).
  assert (Ib0 : 0 < / b) by (apply Rinv_0_lt_compat; lra).
  assert (E1 : exp (- (1) * / b) < exp 0) by (apply exp_increasing; lra). rewrite exp_0 in E1.
  assert (E2 : exp (- (1) * / a) < exp (- (1) * / b)) by (apply exp_increasing; lra).
  pose proof (exp_pos (- (1) * / a)). pose proof (exp_ineq1_le (- (1) * / a)). replace (-1) with (- (1)) in * by ring. repeat split; lra.
Qed.

Lemma variance_ab : bandwidth [0; 2] > 0.
Proof. apply bandwidth_pos; [discriminate|]. exists 0, 2. cbn. intuition lra. Qed.

Definition tri (u : R) : R := if rlt (Rabs u) 1 then 1 - Rabs u else 0.

Lemma tri_out : forall u, 1 < Rabs u -> tri u = 0.
Proof. intros u H. unfold tri. now replace (rlt (Rabs u) 1) with false by (symmetry; apply rlt_false; lra). Qed.

Example c150_example :
  kdePdf tri (fun _ => 10) (RPeriodic 365) [360; 364] 0 = kdePdf tri (fun _ => 10) (RPeriodic 365) [360; 364] 365 /\
  kdePdf tri (fun _ => 10) (RPeriodic 365) [360; 364] 0 = Some ((tri (1 / 2) + tri (1 / 10)) / 20).
Proof.
  split.
  - rewrite (c150_seam tri (fun _ => 10) 365 1 [360; 364] 0).
    + f_equal. ring.
    + lra.
    + discriminate.
    + cbn. intros d [<-|[<-|[]]]; lra.
    + lra.
    + exact tri_out.
    + lra.
  - rewrite (c150_wrap tri (fun _ => 10) 365 1 [360; 364] 0 0 1).
    + f_equal. cbn [map length sumR fold_right]. unfold sumR. cbn [fold_right].
      rewrite !zsum_out; try lia.
      * rewrite (tri_out ((360 + 0 * 365 - 0) / 10)), (tri_out ((360 + 1 * 365 - 0) / 10)),
          (tri_out ((364 + 0 * 365 - 0) / 10)), (tri_out ((364 + 1 * 365 - 0) / 10)).
        -- replace ((360 + -1 * 365 - 0) / 10) with (- (1 / 2)) by field.
           replace ((364 + -1 * 365 - 0) / 10) with (- (1 / 10)) by field.
           unfold tri. rewrite !Rabs_Ropp. cbn [INR]. field.
        -- rewrite Rabs_pos_eq; lra.
        -- rewrite Rabs_pos_eq; lra.
        -- rewrite Rabs_pos_eq; lra.
        -- rewrite Rabs_pos_eq; lra.
      * intros s S1. apply tri_out. assert (S2 : (s <= -2 \/ 2 <= s)%Z) by lia.
        destruct S2 as [S2|S2]; apply IZR_le in S2; [rewrite Rabs_left1|rewrite Rabs_pos_eq]; lra.
      * intros s S1. apply tri_out. assert (S2 : (s <= -2 \/ 2 <= s)%Z) by lia.
        destruct S2 as [S2|S2]; apply IZR_le in S2; [rewrite Rabs_left1|rewrite Rabs_pos_eq]; lra.
    + lra.
    + discriminate.
    + cbn. intros d [<-|[<-|[]]]; lra.
    + lra.
    + lra.
    + exact tri_out.
    + lra.
    + lia.
Qed.

Example c150_example_range : statMaxRange 0 7 2 = Some (0 + inject_Z 4 * 2)%Q /\ (exists l, statMinRange 0 7 2 = Some l /\ l == -(1))%Q.
Proof. split; [reflexivity|]. eexists. split; [reflexivity|]. reflexivity. Qed.

(** * C151 *)

(** Refuted: bearings are treated as directions: storms heading between 350
    and 360 degrees give no density at all to the heading 0, whatever the
    kernel. *)
Theorem c151_bearing_refuted : forall K libbw r data,
  (exists a b, In a data /\ In b data /\ a <> b) -> (forall d, In d data -> 350 <= d < 360) ->
  0 < libbw data -> (forall u, r < Rabs u -> K u = 0) -> r * libbw data < 350 ->
  kdePdf K libbw RAngular data 0 = Some 0.
Proof.
  intros K libbw r data (a & b & Ia & Ib & N) D Ph C B.
  assert (H : data <> []) by (intros ->; destruct Ia).
  unfold kdePdf, kdeData.
  rewrite (proj2 (rlt_true _ _) (proj2 (bandwidth_pos data H) (ex_intro _ a (ex_intro _ b (conj Ia (conj Ib N)))))).
  f_equal. unfold kdens. rewrite (sumR_ext _ (fun _ => 0)).
  - replace (sumR (map (fun _ => 0) data)) with 0; [unfold Rdiv; ring|].
    clear. induction data as [|x l IH]; [reflexivity|]. unfold sumR in *. cbn [map fold_right]. lra.
  - intros d I. specialize (D d I). apply C. apply out_of_reach with 350; [exact Ph|exact B|].
    rewrite Rabs_pos_eq; lra.
Qed.

(** Refuted: every cell with enough observed bearings gets a distribution: if
    all storms of a cell head the same way, the estimate raises. *)
Theorem c151_constant_refuted : forall K libbw n b x, (2 <= n)%nat ->
  kdePdf K libbw RAngular (repeat b n) x = None.
Proof.
  intros K libbw n b x N. unfold kdePdf, kdeData.
  assert (H : repeat b n <> []) by (destruct n; [lia|discriminate]).
  replace (rlt 0 (bandwidth (repeat b n))) with false; [reflexivity|]. symmetry.
  destruct (rlt 0 (bandwidth (repeat b n))) eqn:E; [|reflexivity]. exfalso.
  apply rlt_true, (bandwidth_pos _ H) in E as (u & v & U & V & Ne).
  apply repeat_spec in U, V. congruence.
Qed.

Lemma rows_head : forall g pdf cy, cdf g pdf = SOk cy -> g <> [] -> pdf <> [] ->
  combine (combine g pdf) cy <> [] /\ fst (fst (hd (0, 0, 0)%Q (combine (combine g pdf) cy))) = hd 0%Q g.
Proof.
  intros [|x g] [|y pdf] cy E Hg Hp; try congruence. unfold cdf in E. destruct g as [|x1 g]; [discriminate|].
  cbn [map cumsum] in E. destruct (Qeq_bool _ 0); injection E as <-; cbn [map combine hd fst]; (split; [discriminate|reflexivity]).
Qed.

Lemma grid_two : forall params, let g := slice 182 364 (kdeGrid (Periodic 365) params 2) in
  (hd 0 g == 0)%Q /\ g <> [] /\ forallb (fun x => negb (Qeq_bool x 365)) g = true.
Proof. intros params. vm_compute. repeat split. discriminate. Qed.

(** Refuted: the genesis days run from 1 to 365 for every step: with steps
    of two days the table starts at day 0. *)
Theorem c151_step_refuted : forall dens params rows,
  generateKDE dens (Periodic 365) params 2 = SOk rows ->
  (fst (fst (hd (0, 0, 0) rows)) == 0)%Q /\ rows <> [] /\
  ~ exists r, In r rows /\ (fst (fst r) == 365)%Q.
Proof.
  intros dens params rows. unfold generateKDE. destruct (length params <=? 1)%nat; [discriminate|].
  pose proof (grid_two params) as GT. cbv zeta in GT.
  replace (Z.to_nat (Qfloor (inject_Z 365 / 2))) with 182%nat by reflexivity.
  remember (kdeGrid (Periodic 365) params 2) as grid eqn:Eg. clear Eg.
  destruct (length grid <? 2)%nat; [discriminate|].
  change (2 * 182)%nat with 364%nat.
  assert (Ep : slice 182 364 (map (dens params) grid) = map (dens params) (slice 182 364 grid)).
  { unfold slice. now rewrite skipn_map, firstn_map. }
  rewrite Ep. remember (slice 182 364 grid) as g eqn:E2. clear E2 Ep. destruct GT as (H0 & Hn & No).
  cbv beta iota zeta.
  destruct (cdf g (map (Qmult 3) (map (dens params) g))) as [cy|e] eqn:E; cbn [sbind]; [|discriminate].
  intros X. apply (f_equal (fun r => match r with SOk a => a | SErr _ => [] end)) in X. cbv beta iota in X. subst rows.
  destruct (rows_head _ _ _ E Hn) as [R1 R2].
  { destruct g; [congruence|discriminate]. }
  split; [|split; [exact R1|]].
  - rewrite R2. exact H0.
  - intros (r & I & Er). destruct r as [[rx rp] rc]. cbn [fst] in Er.
    apply in_combine_l, in_combine_l in I. rewrite forallb_forall in No. specialize (No rx I).
    apply negb_true_iff in No. apply Qeq_bool_iff in Er. congruence.
Qed.

(** Refuted: the genesis day distribution is that of the days in the file:
    the file has no influence, and without an earlier estimate the function
    fails. *)
Theorem c151_genesis_refuted : forall K libbw bw params f1 f2 day,
  genesisDate K libbw bw params f1 day = genesisDate K libbw bw params f2 day /\
  genesisDate K libbw bw None f1 day = None.
Proof. intros. split; reflexivity. Qed.

Lemma addv_len a b : length a = length b -> length (addv a b) = length a.
Proof. intros H. unfold addv. rewrite map_length, combine_length, <- H. lia. Qed.

Lemma addv_inj a : forall b c, length a = length c -> length b = length c -> addv a c = addv b c -> a = b.
Proof.
  induction a as [|x a IH]; intros b c La Lb E; destruct b as [|y b]; destruct c as [|z c]; cbn in La, Lb; try discriminate; [reflexivity|].
  unfold addv in E. cbn [combine map fst snd] in E. injection E as E1 E2.
  f_equal; [lra|]. apply (IH b c); [lia|lia|exact E2].
Qed.

Lemma map_div_inj (c : R) : c <> 0 -> forall a b, map (fun v => v / c) a = map (fun v => v / c) b -> a = b.
Proof.
  intros C. induction a as [|x a IH]; intros [|y b] E; cbn in E; try discriminate; [reflexivity|].
  injection E as E1 E2. f_equal; [|now apply IH].
  apply Rmult_eq_reg_r with (/ c); [exact E1|]. now apply Rinv_neq_0_compat.
Qed.

Lemma fold_kernel_len (kernel : R -> list R) n : (forall k, length (kernel k) = n) -> forall params mem,
  length mem = n ->
  length (fold_left (fun pdf k => let kH := kernel k in addv pdf (map (fun v => v / sumR kH) kH)) params mem) = n.
Proof.
  intros HK. induction params as [|k ps IH]; intros mem L; cbn [fold_left]; [exact L|].
  apply IH. rewrite addv_len; [exact L|]. now rewrite map_length, HK.
Qed.

(** Refuted: the circular density is determined by the observations: it
    contains what was in the memory before, and different contents always
    give different densities. *)
Theorem c151_memory_refuted : forall (kernel : R -> list R) params n mem1 mem2,
  (0 < n)%nat -> (forall k, length (kernel k) = n) -> length mem1 = n -> length mem2 = n ->
  mem1 <> mem2 -> circularPdf mem1 kernel params <> circularPdf mem2 kernel params.
Proof.
  intros kernel params n mem1 mem2 N HK L1 L2 Ne E. apply Ne. clear Ne. unfold circularPdf in E.
  cbv zeta in E. rewrite !(fold_kernel_len kernel n HK) in E by assumption.
  apply map_div_inj in E; [|apply not_0_INR; lia].
  revert mem1 mem2 L1 L2 E. induction params as [|k ps IH]; intros m1 m2 L1 L2 E; cbn [fold_left] in E; [exact E|].
  apply IH in E.
  - apply addv_inj in E; [exact E| |]; rewrite map_length, HK; assumption.
  - rewrite addv_len; [exact L1|]. now rewrite map_length, HK.
  - rewrite addv_len; [exact L2|]. now rewrite map_length, HK.
Qed.

Lemma sumR_addv a : forall b, length a = length b -> sumR (addv a b) = sumR a + sumR b.
Proof.
  unfold sumR, addv. induction a as [|x a IH]; intros [|y b] L; cbn in L; try discriminate; cbn [combine map fold_right fst snd]; [ring|].
  rewrite IH by lia. ring.
Qed.

(** Refuted: the circular density sums to one even if the memory is zero: it
    sums to the number of observations per grid point. *)
Theorem c151_circular_refuted : forall (kernel : R -> list R) params n,
  (0 < n)%nat -> (forall k, length (kernel k) = n) -> (forall k, sumR (kernel k) <> 0) ->
  sumR (circularPdf (repeat 0 n) kernel params) = INR (length params) / INR n.
Proof.
  intros kernel params n N HK HS. unfold circularPdf. cbv zeta.
  rewrite (fold_kernel_len kernel n HK) by apply repeat_length.
  assert (Sc : forall l c, sumR (map (fun v => v / c) l) = sumR l / c).
  { intros l c. rewrite (sumR_map_lin (fun v => v / c) (fun v => v) (fun v => v) (/ c) 0) by (intros; unfold Rdiv; ring).
    rewrite map_id. unfold Rdiv. ring. }
  rewrite Sc. f_equal.
  assert (G : forall ps mem, length mem = n ->
    sumR (fold_left (fun pdf k => let kH := kernel k in addv pdf (map (fun v => v / sumR kH) kH)) ps mem) = sumR mem + INR (length ps)).
  { induction ps as [|k ps IH]; intros mem L; cbn [fold_left]; [cbn; ring|].
    rewrite IH.
    - rewrite sumR_addv by (now rewrite map_length, HK). rewrite Sc.
      change (length (k :: ps)) with (S (length ps)). rewrite S_INR. unfold Rdiv. rewrite Rinv_r by apply HS. ring.
    - rewrite addv_len; [exact L|]. now rewrite map_length, HK. }
  rewrite G by apply repeat_length.
  replace (sumR (repeat 0 n)) with 0; [ring|]. clear. induction n as [|n IH]; [reflexivity|]. unfold sumR in *. cbn [repeat fold_right]. lra.
Qed.

(** Refuted: the genesis density of given positions can be saved. *)
Theorem c151_save_refuted : forall (V : Type) (dens : list (Q * Q) -> Q -> Q -> V) xMin xMax yMin yMax step dir file l,
  originKDE dens (originInit xMin xMax yMin yMax step dir file (Some l)) true = None.
Proof. reflexivity. Qed.

Example c151_example :
  kdePdf tri (fun _ => 10) RAngular [352; 356] 0 = Some 0 /\
  circularPdf [0; 0] (fun _ => [1; 1]) [1] = [(0 + 1 / (1 + (1 + 0))) / 2; (0 + 1 / (1 + (1 + 0))) / 2].
Proof.
  split; [|reflexivity]. apply (c151_bearing_refuted tri (fun _ => 10) 1).
  - exists 352, 356. cbn. intuition lra.
  - cbn. intros d [<-|[<-|[]]]; lra.
  - lra.
  - exact tri_out.
  - lra.
Qed.

Print Assumptions c150_wrap.
Print Assumptions c150_seam.
Print Assumptions c150_nonnegative.
Print Assumptions c150_bandwidth.
Print Assumptions c150_exists.
Print Assumptions c150_origin.
Print Assumptions c150_range.
Print Assumptions c150_probability.
Print Assumptions c151_bearing_refuted.
Print Assumptions c151_constant_refuted.
Print Assumptions c151_step_refuted.
Print Assumptions c151_genesis_refuted.
Print Assumptions c151_memory_refuted.
Print Assumptions c151_circular_refuted.
Print Assumptions c151_save_refuted.
