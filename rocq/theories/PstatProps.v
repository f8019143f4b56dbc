(** Properties of the statistical figures of the input data: C188 and C189. *)
From Coq Require Import List Arith ZArith Bool QArith Qround Lqa Lia Reals Lra.
From Verif Require Import Base CellModel CellProofs NumModel FitModel DensityModel CurveModel SeriesModel CoefModel CoefProps PstatModel.
Import ListNotations.
Local Open Scope Q_scope.

Lemma lag_pairs (d : list Q) : combine (tl d) (removelast d) = map (fun i => (nth (S i) d 0, nth i d 0)) (seq 0 (length d - 1)).
Proof.
  destruct d as [|a d]; [reflexivity|]. revert a. induction d as [|b d IH]; intros a; [reflexivity|].
  change (removelast (a :: b :: d)) with (a :: removelast (b :: d)). cbn [tl combine]. specialize (IH b). cbn [tl] in IH. rewrite IH.
  replace (length (a :: b :: d) - 1)%nat with (S (length d)) by (cbn; lia). replace (length (b :: d) - 1)%nat with (length d) by (cbn; lia).
  cbn [seq map]. rewrite <- seq_shift, map_map. reflexivity.
Qed.
Lemma filter_map_comm {A B} (f : A -> B) (p : B -> bool) l : filter p (map f l) = map f (filter (fun a => p (f a)) l).
Proof. induction l as [|a l IH]; [reflexivity|]. cbn. rewrite IH. destruct (p (f a)); reflexivity. Qed.
Lemma there_iff x : there x = true <-> (x < maxsize)%Q.
Proof. apply qlt_iff. Qed.

(** ** C188 What the figures show *)
(** A lagged figure has one point for each two consecutive values that are not missing, in their order, the later value to
    the right as its label says *)
Theorem c188_lagged : forall A (f : Q -> A) data,
  exists pos, snd (laggedFigure f data) = map (fun i => (f (nth (S i) data 0), f (nth i data 0))) pos /\
    (forall i, In i pos <-> (S i < length data)%nat /\ (nth i data 0 < maxsize)%Q /\ (nth (S i) data 0 < maxsize)%Q) /\
    (forall a b, (a < b < length pos)%nat -> (nth a pos 0 < nth b pos 0)%nat) /\ fst (laggedFigure f data) = (Now, Before).
Proof.
  intros A f data. set (ok := fun i => there (nth (S i) data 0) && there (nth i data 0)).
  exists (filter ok (seq 0 (length data - 1))). split; [|split; [|split; [|reflexivity]]].
  - unfold laggedFigure, scatter. cbn [snd]. rewrite lag_pairs, filter_map_comm, map_map. reflexivity.
  - intros i. rewrite filter_In, in_seq. unfold ok. rewrite andb_true_iff, !there_iff. split; [intros [B [C D]]; repeat split; auto; lia|].
    intros [B [C D]]; repeat split; auto; lia.
  - assert (G : forall l, (forall a b, (a < b < length l)%nat -> (nth a l 0 < nth b l 0)%nat) ->
      forall a b, (a < b < length (filter ok l))%nat -> (nth a (filter ok l) 0 < nth b (filter ok l) 0)%nat).
    { induction l as [|x l IH]; intros H a b L; [cbn in L; lia|].
      assert (Hl : forall a b, (a < b < length l)%nat -> (nth a l 0 < nth b l 0)%nat) by (intros c d D; apply (H (S c) (S d)); cbn; lia).
      cbn [filter] in *. destruct (ok x); [|now apply IH]. destruct b as [|b]; [lia|]. cbn [length] in L. destruct a as [|a].
      - cbn [nth]. assert (I : In (nth b (filter ok l) 0%nat) l). { assert (In (nth b (filter ok l) 0%nat) (filter ok l)) by (apply nth_In; lia). apply filter_In in H0. tauto. }
        destruct (In_nth l _ 0%nat I) as (k & K & E). rewrite <- E. apply (H 0%nat (S k)). cbn. lia.
      - cbn [nth]. apply IH; [exact Hl|lia]. }
    apply G. intros a b L. rewrite seq_length in L. rewrite !seq_nth by lia. lia.
Qed.
(** If the first value of each cyclone is missing, as speeds, bearings and rates are, each point belongs to one cyclone *)
Theorem c188_one_cyclone : forall (ind : list Z) data, length ind = length data ->
  (forall i, (i < length data)%nat -> nth i ind 0%Z = 1%Z -> ~ (nth i data 0 < maxsize)%Q) ->
  forall i, (S i < length data)%nat -> (nth i data 0 < maxsize)%Q -> (nth (S i) data 0 < maxsize)%Q ->
  nth (S i) ind 0%Z <> 1%Z /\ nth i ind 0%Z <> 1%Z.
Proof. intros ind data L H i I A B. split; intros E; [apply (H (S i))|apply (H i)]; auto; lia. Qed.
Example c188_one_cyclone_met : let ind := [1; 0; 0; 1; 0]%Z in let data := [maxsize; 10; 12; maxsize; 20] in
  (forall i, (i < 5)%nat -> nth i ind 0%Z = 1%Z -> ~ (nth i data 0 < maxsize)%Q) /\ snd (laggedFigure (fun x => x) data) = [(12, 10)].
Proof.
  cbv zeta. split; [|reflexivity]. intros i I E C. do 5 (destruct i as [|i]; [first [discriminate E|revert C; apply Qlt_irrefl]|]). lia.
Qed.
(** The angle at which a bearing is drawn carries the bearing as its label *)
Theorem c188_theta : forall speed bearing s b k, In (s, b) (combine speed bearing) -> (s < maxsize)%Q -> (b < maxsize)%Q ->
  (k < 8)%nat -> (exists n : Z, 90 - b == inject_Z (45 * Z.of_nat k + 360 * n)) ->
  In (90 - b, s) (polarPoints speed bearing) /\
  (0 <= nth k thetaLabels 0 < 360)%Z /\ exists m : Z, b == inject_Z (nth k thetaLabels 0%Z + 360 * m).
Proof.
  intros speed bearing s b k I S B K [n E]. split.
  { unfold polarPoints. apply in_map_iff. exists (s, b). split; [reflexivity|]. apply filter_In. split; [exact I|].
    apply andb_true_iff. split; now apply there_iff. }
  assert (G : (0 <= nth k thetaLabels 0 < 360)%Z /\ exists m, (nth k thetaLabels 0 = 90 - 45 * Z.of_nat k + 360 * m)%Z).
  { do 8 (destruct k as [|k]; [split; [cbn; lia|first [exists 0%Z; reflexivity|exists 1%Z; reflexivity]]|]). lia. }
  destruct G as [R [m M]]. split; [exact R|]. exists (- m - n)%Z. rewrite M.
  replace (90 - 45 * Z.of_nat k + 360 * m + 360 * (- m - n))%Z with (90 - (45 * Z.of_nat k + 360 * n))%Z by ring.
  unfold Z.sub. rewrite inject_Z_plus, inject_Z_opp, <- E. change (inject_Z 90) with 90. ring.
Qed.
(** Standardised values have mean 0 and standard deviation 1 *)
Lemma sumR_lin (l : list R) a c : sumR (map (fun x => ((x - a) / c)%R) l) = ((sumR l - INR (length l) * a) / c)%R.
Proof.
  induction l as [|x l IH]; [cbn; unfold Rdiv; ring|]. cbn [map length]. rewrite S_INR. cbn [sumR fold_right]. fold (sumR l).
  fold (sumR (map (fun x => ((x - a) / c)%R) l)). rewrite IH. unfold Rdiv. ring.
Qed.
Theorem c188_standard : forall d, d <> [] -> std d <> 0%R -> mean (standardised d) = 0%R /\ std (standardised d) = 1%R.
Proof.
  intros d N S. assert (L : length (standardised d) = length d) by apply map_length. pose proof (len_pos d N) as P.
  assert (M : mean (standardised d) = 0%R).
  { unfold mean at 1. rewrite L. unfold standardised. rewrite sumR_lin. rewrite <- (mean_sum d N). field; split; first [exact S|Lra.lra]. }
  split; [exact M|]. destruct (std_sum d N) as [S0 S2].
  unfold std at 1. rewrite M. unfold mean. rewrite map_length, L. unfold standardised. rewrite map_map.
  assert (E : sumR (map (fun x => (((x - mean d) / std d - 0) ^ 2)%R) d) = (sumR (map (fun x => ((x - mean d) ^ 2)%R) d) / std d ^ 2)%R).
  { clear - S. generalize (mean d) as a. revert S. generalize (std d) as c. intros c C a. induction d as [|x d IH]; [cbn; field; exact C|].
    cbn [map sumR fold_right]. fold (sumR (map (fun x => (((x - a) / c - 0) ^ 2)%R) d)). fold (sumR (map (fun x => ((x - a) ^ 2)%R) d)).
    rewrite IH. field. exact C. }
  rewrite E, <- S2. replace (std d ^ 2 * INR (length d) / std d ^ 2 / INR (length d))%R with 1%R by (field; split; first [exact S|Lra.lra]). apply sqrt_1.
Qed.
Example c188_standard_met : std [1; 3]%R <> 0%R.
Proof.
  destruct (std_sum [1; 3]%R ltac:(discriminate)) as [_ E]. intros Z. rewrite Z in E. unfold mean in E. cbn in E. Lra.lra.
Qed.
(** Differences of positions are taken within cyclones only *)
Lemma steps_spec ind x : length ind = length x ->
  steps ind x = map (fun i => nth (S i) x 0 - nth i x 0) (filter (fun i => (nth (S i) ind 0 =? 0)%Z) (seq 0 (length x - 1))).
Proof.
  revert x. destruct ind as [|a ind]; intros x L; destruct x as [|b x]; try discriminate; [reflexivity|].
  unfold steps. cbn [tl length]. replace (S (length x) - 1)%nat with (length x) by lia. injection L as L.
  revert a b x L. induction ind as [|c ind IH]; intros a b x L; destruct x as [|d x]; try discriminate; [reflexivity|].
  cbn [combine map filter length seq fst snd]. injection L as L.
  specialize (IH c d x L). rewrite <- seq_shift, filter_map_comm. cbn [nth].
  destruct (c =? 0)%Z; cbn [map snd]; rewrite map_map; [f_equal|]; exact IH.
Qed.
Theorem c188_steps : forall ind lon d, length ind = length lon -> In d (dlon ind lon) <->
  exists i, (S i < length lon)%nat /\ nth (S i) ind 0%Z = 0%Z /\ d = wrapStep (nth (S i) lon 0 - nth i lon 0).
Proof.
  intros ind lon d L. unfold dlon. rewrite (steps_spec ind lon L), map_map, in_map_iff. split.
  - intros (i & E & I). apply filter_In in I as [I J]. apply in_seq in I. exists i. split; [lia|]. split; [lia|]. now symmetry.
  - intros (i & I & J & ->). exists i. split; [reflexivity|]. apply filter_In. split; [apply in_seq; lia|lia].
Qed.

(** ** C189 Every figure shows what its label says *)
(** The minimum pressures of the cyclones are those of all records but the last *)
Definition flags {A} (c : list A) : list Z := match c with [] => [] | _ :: r => 1%Z :: map (fun _ => 0%Z) r end.
Definition lowest (c : list Q) : Q := match c with [] => 0 | p :: r => fold_left (fun m q => if qlt q m then q else m) r p end.
Lemma minLoop_tail r : forall m acc rest, minLoop (combine (map (fun _ : Q => 0%Z) r) r ++ rest) (m :: acc) =
  minLoop rest (fold_left (fun m q => if qlt q m then q else m) r m :: acc).
Proof. induction r as [|p r IH]; intros m acc rest; [reflexivity|]. cbn [map combine app minLoop fold_left]. cbn [Z.eqb]. apply IH. Qed.
Lemma minLoop_cyclones cs : Forall (fun c => c <> []) cs -> forall acc,
  minLoop (combine (flat_map flags cs) (concat cs)) acc = Some (rev acc ++ map lowest cs).
Proof.
  intros F. induction F as [|c cs N F IH]; intros acc; [cbn; now rewrite app_nil_r|]. destruct c as [|p r]; [congruence|].
  cbn [flat_map flags concat app combine minLoop]. cbn [Z.eqb Pos.eqb].
  assert (E : combine (map (fun _ : Q => 0%Z) r ++ flat_map flags cs) (r ++ concat cs) = combine (map (fun _ => 0%Z) r) r ++ combine (flat_map flags cs) (concat cs)).
  { clear. induction r as [|x r IH]; [reflexivity|]. cbn. now rewrite IH. }
  rewrite E, minLoop_tail, IH. cbn [rev map lowest]. now rewrite <- app_assoc.
Qed.
Lemma combine_snoc {A B} (a : list A) (b : list B) x y : length a = length b -> combine (a ++ [x]) (b ++ [y]) = combine a b ++ [(x, y)].
Proof. revert b. induction a as [|u a IH]; intros [|v b] L; try discriminate; [reflexivity|]. injection L as L. cbn. now rewrite IH. Qed.
Lemma flags_len cs : length (flat_map (@flags Q) cs) = length (concat cs).
Proof. induction cs as [|c cs IH]; [reflexivity|]. cbn. rewrite !app_length, IH. destruct c; [reflexivity|]. cbn. now rewrite map_length. Qed.
Theorem c189_minimum_partial : forall cs lastFlag lastPressure, Forall (fun c => c <> []) cs ->
  minPressures (flat_map flags cs ++ [lastFlag]) (concat cs ++ [lastPressure]) = Some (filter there (map lowest cs)) /\
  forall c, In c cs -> In (lowest c) c /\ forall p, In p c -> lowest c <= p.
Proof.
  intros cs f p F. split.
  - unfold minPressures. rewrite combine_snoc by apply flags_len. rewrite removelast_last, minLoop_cyclones by exact F. reflexivity.
  - intros c I. rewrite Forall_forall in F. specialize (F c I). destruct c as [|a r]; [congruence|]. clear. cbn [lowest].
    revert a. induction r as [|b r IH]; intros a; [split; [now left|intros p [->|[]]; apply Qle_refl]|]. cbn [fold_left].
    destruct (qlt b a) eqn:E.
    + apply qlt_iff in E. destruct (IH b) as [J L]. split; [right; exact J|]. intros p [<-|P]; [|now apply L].
      apply Qle_trans with b; [apply L; now left|now apply Qlt_le_weak].
    + assert (~ b < a) by (intros C; apply qlt_iff in C; congruence). destruct (IH a) as [J L].
      split; [destruct J as [J|J]; [now left|right; now right]|]. intros p [<-|[<-|P]]; [apply L; now left| |apply L; now right].
      apply Qle_trans with a; [apply L; now left|]. now apply Qnot_lt_le.
Qed.
Example c189_minimum_ex : minPressures [1; 0; 0; 1; 0]%Z [1000; 980; 990; 995; 960] = Some [980; 995].
Proof. reflexivity. Qed.
(** The lowest pressure of the last cyclone is not seen if it is its last record, and a last cyclone of one record is lost *)
Theorem c189_last_refuted : forall cs (c : list Q) p, Forall (fun c => c <> []) cs -> c <> [] -> (forall q, In q c -> p < q) ->
  let fl := flat_map flags (cs ++ [c ++ [p]]) in let ps := concat (cs ++ [c ++ [p]]) in
  minPressures fl ps = Some (filter there (map lowest (cs ++ [c]))) /\ p < lowest c /\
  minPressures (flat_map flags cs ++ [1%Z]) (concat cs ++ [p]) = Some (filter there (map lowest cs)).
Proof.
  intros cs c p F N H. cbv zeta. split; [|split].
  - assert (E1 : flat_map flags (cs ++ [c ++ [p]]) = flat_map flags (cs ++ [c]) ++ [0%Z]).
    { rewrite !flat_map_app, <- app_assoc. f_equal. cbn [flat_map]. rewrite !app_nil_r. destruct c as [|a r]; [congruence|]. cbn [app flags].
      rewrite map_app. reflexivity. }
    assert (E2 : concat (cs ++ [c ++ [p]]) = concat (cs ++ [c]) ++ [p]) by (rewrite !concat_app, <- app_assoc; cbn; now rewrite !app_nil_r).
    rewrite E1, E2. apply c189_minimum_partial. apply Forall_app. split; [exact F|]. now constructor.
  - assert (F1 : Forall (fun c : list Q => c <> []) [c]) by now constructor.
    destruct (c189_minimum_partial [c] 0%Z p F1) as [_ G]. destruct (G c (or_introl eq_refl)) as [I _]. now apply H.
  - now apply c189_minimum_partial.
Qed.
(** Pressures have no missing first value: points join the last pressure of a cyclone with the first of the next *)
Theorem c189_joined_refuted : exists (ind : list Z) data i, length ind = length data /\ nth (S i) ind 0%Z = 1%Z /\
  In (nth (S i) data 0, nth i data 0) (snd (laggedFigure (fun x => x) data)).
Proof. exists [1; 0; 1; 0]%Z, [1000; 960; 1005; 990], 1%nat. repeat split. right. now left. Qed.
(** The later difference of longitudes is drawn to the right, where the label says the earlier one; it may belong to
    another cyclone *)
Theorem c189_steps_refuted : forall ind lon, fst (dlonFigure ind lon) = (Before, Now) /\
  forall i, (S i < length (dlon ind lon))%nat -> (nth i (dlon ind lon) 0 < maxsize)%Q -> (nth (S i) (dlon ind lon) 0 < maxsize)%Q ->
  In (nth (S i) (dlon ind lon) 0, nth i (dlon ind lon) 0) (snd (dlonFigure ind lon)).
Proof.
  intros ind lon. split; [reflexivity|]. intros i I A B. destruct (c188_lagged Q (fun x => x) (dlon ind lon)) as (pos & E & P & _).
  change (snd (dlonFigure ind lon)) with (snd (laggedFigure (fun x => x) (dlon ind lon))). rewrite E. apply in_map_iff. exists i. split; [reflexivity|]. apply P. auto.
Qed.
Example c189_steps_ex : snd (dlonFigure [1; 0; 1; 0]%Z [150; 151; 170; 172]) = [(172 - 170, 151 - 150)].
Proof. reflexivity. Qed.
(** A step west across the meridian of Greenwich counts as almost a full turn east, one east across it as what it is *)
Theorem c189_wrap_refuted : forall a b, 0 <= a < 10 -> 350 <= b < 360 ->
  (exists d, dlon [1; 0]%Z [b; a] = [d] /\ d == a + (360 - b)) /\ (exists d, dlon [1; 0]%Z [a; b] = [d] /\ 340 < d).
Proof.
  intros a b A B. split.
  - eexists. split; [reflexivity|]. unfold wrapStep. cbn [fst snd]. destruct (qlt (a - b) (-(180))) eqn:E; [ring|].
    exfalso. assert (~ (a - b < -(180))) by (intros C; apply qlt_iff in C; congruence). Lqa.lra.
  - eexists. split; [reflexivity|]. unfold wrapStep. cbn [fst snd]. destruct (qlt (b - a) (-(180))) eqn:E; [apply qlt_iff in E|]; Lqa.lra.
Qed.
(** The correlation of speed and bearing is that of the fourth to the eighth record, missing or not *)
Theorem c189_correlation_refuted : forall (s1 s2 s3 b1 b2 b3 : Q) s b s' b', length s = 5%nat -> length b = 5%nat ->
  corrSample (s1 :: s2 :: s3 :: s ++ s') (b1 :: b2 :: b3 :: b ++ b') = Some (b, s).
Proof.
  intros until b'. intros Ls Lb. destruct s as [|? [|? [|? [|? [|? [|? s]]]]]]; try discriminate.
  destruct b as [|? [|? [|? [|? [|? [|? b]]]]]]; try discriminate. reflexivity.
Qed.
Theorem c189_few_refuted : forall speed bearing, (length bearing < 8)%nat -> corrSample speed bearing = None.
Proof.
  intros speed bearing L. unfold corrSample. assert (E : pick bearing corrIndices = None); [|now rewrite E].
  change corrIndices with [3; 4; 5; 6; 7]%nat. cbn [pick]. assert (N : nth_error bearing 7 = None) by (apply nth_error_None; lia).
  rewrite N. destruct (nth_error bearing 3), (nth_error bearing 4), (nth_error bearing 5), (nth_error bearing 6); reflexivity.
Qed.
(** Bearings that are not the same are drawn at the same place: the cosine takes degrees for radians *)
Theorem c189_bearing_refuted : exists b b' : R, (0 <= b < 360)%R /\ (0 <= b' < 360)%R /\ (10 <= b' - b)%R /\
  bearingTransform b = bearingTransform b' /\ (forall x y : R, 0 <= x < y -> y <= 360 -> cos (y * (PI / 180) / 2) < cos (x * (PI / 180) / 2))%R.
Proof.
  pose proof PI_RGT_0. pose proof PI_4. assert (P3 : (3 < PI)%R) by (pose proof PI2_3_2; Lra.lra).
  exists (1 / 2)%R, (4 * PI - 1 / 2)%R. split; [Lra.lra|]. split; [Lra.lra|]. split; [Lra.lra|]. split.
  - unfold bearingTransform. replace ((4 * PI - 1 / 2) / 2)%R with (- (1 / 2 / 2) + 2 * PI)%R by field.
    rewrite cos_plus, cos_2PI, sin_2PI, cos_neg. ring.
  - intros x y X Y. apply cos_decreasing_1; Psatz.nra.
Qed.
(** Cyclones with a minimum above 1015 hPa are not in the histogram *)
Theorem c189_bins_refuted : forall p, inHistogram p = true <-> 850 <= p <= 1015.
Proof.
  intros p. unfold inHistogram. change (last pressureBins 0) with (inject_Z 1015). change (nth 0 pressureBins 0) with (inject_Z 850).
  rewrite andb_true_iff, !Qle_bool_iff. reflexivity.
Qed.
Example c189_bins_ex : minPressures [1; 0; 1]%Z [1018; 1017; 990] = Some [1017] /\ inHistogram 1017 = false.
Proof. split; reflexivity. Qed.

Print Assumptions c188_lagged.
Print Assumptions c188_one_cyclone.
Print Assumptions c188_theta.
Print Assumptions c188_standard.
Print Assumptions c188_steps.
Print Assumptions c189_minimum_partial.
Print Assumptions c189_last_refuted.
Print Assumptions c189_joined_refuted.
Print Assumptions c189_steps_refuted.
Print Assumptions c189_wrap_refuted.
Print Assumptions c189_correlation_refuted.
Print Assumptions c189_few_refuted.
Print Assumptions c189_bearing_refuted.
Print Assumptions c189_bins_refuted.
