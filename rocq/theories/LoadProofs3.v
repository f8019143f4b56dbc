(** Proofs about [LoadModel]: rates of change, initial values, made up years, frequency, jumps. *)
From Coq Require Import QArith Qabs Qround Lqa Lia Permutation.
From Verif Require Import Base CellModel CellProofs LoadModel LoadProofs LoadProofs2.
From Verif Require GenModel GenProofs.
Close Scope Q_scope. Open Scope list_scope. Open Scope nat_scope.
Local Notation qlt_false_iff := GenProofs.qlt_false_iff.

(** * Lists *)
Lemma map2_len {A B C} (f : A -> B -> C) l : forall m, length l = length m -> length (map2 f l m) = length l.
Proof. induction l; intros [|b m] H; cbn in *; auto; try lia. Qed.
Lemma map2_nth {A B C} (f : A -> B -> C) (a : A) (b : B) (c : C) l : forall m i, i < length l -> i < length m ->
  nth i (map2 f l m) c = f (nth i l a) (nth i m b).
Proof.
  induction l as [|x l IH]; intros [|y m] i Hl Hm; cbn in *; try lia.
  destruct i; auto. apply IH; lia.
Qed.
Lemma shifted_len fl : length (shifted fl) = length fl.
Proof. destruct fl as [|f fl]; auto. cbn [shifted length]. f_equal.
  destruct (@exists_last _ (f :: fl) ltac:(discriminate)) as (l & x & E). rewrite E, removelast_last.
  apply (f_equal (@length Z)) in E. rewrite app_length in E. cbn in E. lia.
Qed.
Lemma shifted_nth fl i : S i < length fl -> nth (S i) (shifted fl) 0%Z = nth i fl 0%Z.
Proof.
  intros H. destruct fl as [|f fl]; cbn in H; [lia|]. change (nth i (removelast (f :: fl)) 0%Z = nth i (f :: fl) 0%Z).
  destruct (@exists_last _ (f :: fl) ltac:(discriminate)) as (l & x & E). rewrite E, removelast_last.
  apply (f_equal (@length Z)) in E. rewrite app_length in E. cbn in E. rewrite app_nth1 by lia. reflexivity.
Qed.
Lemma diffs_len l : forall p, length (diffsFrom p l) = length l.
Proof. induction l; intros; cbn; auto. Qed.
Lemma diffs_nth l : forall p i, i < length l -> nth i (diffsFrom p l) 0%Q = (nth i l 0 - nth i (p :: l) 0)%Q.
Proof.
  induction l as [|a l IH]; intros p i Hi; cbn in Hi; [lia|]. destruct i; [reflexivity|].
  cbn [diffsFrom nth]. now rewrite IH by lia.
Qed.
Lemma changes_len j l : length (changes j l) = length l.
Proof. destruct l; cbn; auto. now rewrite diffs_len. Qed.
Lemma changes_nth j l i : S i < length l -> nth (S i) (changes j l) 0%Q = (nth (S i) l 0 - nth i l 0)%Q.
Proof.
  destruct l as [|a l]; cbn [length]; [lia|]. intros H. cbn [changes nth]. now rewrite diffs_nth by lia.
Qed.
Lemma map_nth' {A B} (f : A -> B) (a : A) (b : B) l i : i < length l -> nth i (map f l) b = f (nth i l a).
Proof. intros H. rewrite (nth_indep _ b (f a)) by now rewrite map_length. apply map_nth. Qed.

(** * Bearing rates *)
Lemma wrap_spec c : (-360 <= c <= 360)%Q ->
  (-180 <= wrap c <= 180)%Q /\ exists k : Z, (k = -1 \/ k = 0 \/ k = 1)%Z /\ (wrap c == c + 360 * inject_Z k)%Q.
Proof.
  intros H. unfold wrap. destruct (qlt 180 c) eqn:E1.
  - apply qlt_iff in E1. split; [lra|]. exists (-1)%Z. split; auto. change (inject_Z (-1)) with (-1)%Q. lra.
  - apply qlt_false_iff in E1. destruct (qlt c (-180)) eqn:E2.
    + apply qlt_iff in E2. split; [lra|]. exists 1%Z. split; auto. change (inject_Z 1) with 1%Q. lra.
    + apply qlt_false_iff in E2. split; [lra|]. exists 0%Z. split; auto. change (inject_Z 0) with 0%Q. lra.
Qed.
Section Rate.
Variables (junk : Q) (bear : list Q) (fl : list Z).
Hypothesis Hb : length bear = length fl.
Let mb := maskedBearings fl bear.
Lemma mb_len : length mb = length fl.
Proof using Hb. unfold mb, maskedBearings. now rewrite map2_len. Qed.
Lemma mb_nth i : i < length fl -> nth i fl 0%Z = 0%Z -> nth i mb 0%Q = nth i bear 0%Q.
Proof using Hb.
  intros Hi Hz. unfold mb, maskedBearings. rewrite (map2_nth _ 0%Z 0%Q) by lia. rewrite Hz. reflexivity.
Qed.
Definition chs : list Q := match mb with [] => [] | b :: r => junk :: map wrap (diffsFrom b r) end.
Lemma chs_len : length chs = length fl.
Proof using Hb. rewrite <- mb_len. unfold chs. destruct mb; cbn; auto. now rewrite map_length, diffs_len. Qed.
Variable dt : list Q.
Hypothesis Hd : length dt = length fl.
Lemma chs_nth i : S i < length fl -> nth (S i) chs 0%Q = wrap (nth (S i) mb 0 - nth i mb 0)%Q.
Proof using Hb Hd.
  rewrite <- mb_len. unfold chs. destruct mb as [|b r]; cbn [length]; [lia|]. intros H. cbn [nth].
  rewrite (map_nth' wrap 0%Q) by (rewrite diffs_len; lia). now rewrite diffs_nth by lia.
Qed.
Lemma rate_nth i : S i < length fl ->
  nth (S i) (bearingRate junk mb dt fl) 0%Q =
  settle (mask (nz (nth i fl 0%Z)) (mask (nz (nth (S i) fl 0%Z)) (rate (wrap (nth (S i) mb 0 - nth i mb 0)%Q) (nth (S i) dt 0%Q)))).
Proof using Hb Hd.
  intros H. unfold bearingRate. fold chs.
  assert (H2 : length (map2 rate chs dt) = length fl) by (rewrite map2_len; rewrite chs_len; auto; lia).
  assert (H1 : length (map2 (fun f x => mask (nz f) x) fl (map2 rate chs dt)) = length fl) by (now rewrite map2_len by lia).
  rewrite (map_nth' settle None) by (rewrite map2_len; rewrite shifted_len; lia).
  rewrite (map2_nth _ 0%Z None) by (rewrite ?shifted_len; lia).
  rewrite shifted_nth by lia.
  rewrite (map2_nth _ 0%Z None) by lia.
  rewrite (map2_nth rate 0%Q 0%Q) by (rewrite ?chs_len; lia).
  now rewrite chs_nth by lia.
Qed.
End Rate.
Lemma settle_max : settle (Some maxsize) = maxsize.
Proof. reflexivity. Qed.
Lemma c31_l junk bear dt fl i : length bear = length fl -> length dt = length fl -> S i < length fl ->
  (forall k, k < length fl -> (0 <= nth k bear 0 < 360)%Q) ->
  let r := nth (S i) (bearingRate junk (maskedBearings fl bear) dt fl) 0%Q in
  (nth (S i) fl 0%Z <> 0%Z -> r = maxsize) /\
  (nth i fl 0%Z <> 0%Z -> r = maxsize) /\
  (nth (S i) fl 0%Z = 0%Z -> nth i fl 0%Z = 0%Z ->
     (r = maxsize /\ (nth (S i) dt 0 < 1)%Q) \/
     exists k : Z, (-180 <= r * nth (S i) dt 0 <= 180)%Q /\
       (r * nth (S i) dt 0 == nth (S i) bear 0 - nth i bear 0 + 360 * inject_Z k)%Q).
Proof.
  intros Hb Hd Hi Hr r. unfold r. rewrite rate_nth by auto. split; [|split].
  - intros Hn. unfold nz at 2. destruct (Z.eqb_spec (nth (S i) fl 0%Z) 0); [contradiction|]. cbn [negb mask].
    destruct (nz (nth i fl 0%Z)); apply settle_max.
  - intros Hn. unfold nz at 1. destruct (Z.eqb_spec (nth i fl 0%Z) 0); [contradiction|]. apply settle_max.
  - intros H1 H2. rewrite H1, H2. cbn [nz Z.eqb negb mask].
    rewrite !mb_nth by (auto; lia).
    set (dv := nth (S i) dt 0%Q). set (c := (nth (S i) bear 0 - nth i bear 0)%Q).
    destruct (wrap_spec c) as [Hw (k & _ & Hk)].
    { pose proof (Hr (S i) Hi). pose proof (Hr i ltac:(lia)). unfold c. lra. }
    unfold rate. destruct (Qeq_bool dv 0) eqn:Ez.
    + left. split; [reflexivity|]. apply Qeq_bool_iff in Ez. lra.
    + apply Qeq_bool_neq in Ez. unfold settle.
      destruct (Qle_bool maxsize (wrap c / dv) || Qle_bool (wrap c / dv) (- maxsize)) eqn:Es.
      * left. split; [reflexivity|]. apply Qnot_le_lt. intros Hge.
        assert (Hq : ((wrap c / dv) * dv == wrap c)%Q) by (field; auto).
        apply orb_true_iff in Es. rewrite !Qle_bool_iff in Es. unfold maxsize in Es.
        destruct Es as [Es|Es]; nra.
      * right. exists k. assert (Hq : ((wrap c / dv) * dv == wrap c)%Q) by (field; auto).
        rewrite Hq. auto.
Qed.

(** * Pressure and size rates *)
Lemma pr_nth junk p dt fl i : length p = length fl -> length dt = length fl -> S i < length fl ->
  nth (S i) (pressureRate junk p dt fl) 0%Q =
    match mask (nz (nth (S i) fl 0%Z)) (rate (nth (S i) p 0 - nth i p 0)%Q (nth (S i) dt 0%Q)) with
    | None => maxsize
    | Some r => if Qle_bool maxsize (nth (S i) p 0%Q) || qlt 10 (Qabs r) then maxsize else r
    end.
Proof.
  intros Hp Hd Hi. unfold pressureRate.
  assert (H1 : length (map2 rate (changes junk p) dt) = length fl) by (rewrite map2_len; rewrite changes_len; lia).
  assert (H2 : length (map2 (fun f x => mask (nz f) x) fl (map2 rate (changes junk p) dt)) = length fl) by (now rewrite map2_len by lia).
  rewrite (map2_nth _ 0%Q None) by lia. rewrite (map2_nth _ 0%Z None) by lia.
  rewrite (map2_nth rate 0%Q 0%Q) by (rewrite ?changes_len; lia). now rewrite changes_nth by lia.
Qed.
Lemma c76_l junk p dt fl i : length p = length fl -> length dt = length fl -> S i < length fl ->
  (forall k, k < length fl -> nth k p 0%Q = maxsize \/ (600 <= nth k p 0 <= 1100)%Q) ->
  (forall k, k < length fl -> (0 <= nth k dt 0 <= 1000000)%Q) ->
  let r := nth (S i) (pressureRate junk p dt fl) 0%Q in
  r = maxsize \/
  (nth (S i) fl 0%Z = 0%Z /\ (600 <= nth i p 0 <= 1100)%Q /\ (600 <= nth (S i) p 0 <= 1100)%Q /\
   (-10 <= r <= 10)%Q /\ (r * nth (S i) dt 0 == nth (S i) p 0 - nth i p 0)%Q).
Proof.
  intros Hp Hd Hi Hr Ht r. unfold r. rewrite pr_nth by auto.
  destruct (Hr (S i) Hi) as [E1|E1].
  { left. rewrite E1. replace (Qle_bool maxsize maxsize) with true by reflexivity. cbn [orb].
    destruct (mask _ _); reflexivity. }
  unfold nz. destruct (Z.eqb_spec (nth (S i) fl 0%Z) 0) as [Ez|Ez]; cbn [negb mask].
  2:{ left. replace (qlt 10 (Qabs maxsize)) with true by reflexivity. now rewrite orb_true_r. }
  unfold rate. destruct (Qeq_bool (nth (S i) dt 0%Q) 0) eqn:Ed; [now left|]. apply Qeq_bool_neq in Ed.
  set (dv := nth (S i) dt 0%Q) in *. set (q := nth (S i) p 0%Q) in *.
  pose proof (Ht (S i) Hi) as Hdv. fold dv in Hdv.
  destruct (Qle_bool maxsize q || qlt 10 (Qabs ((q - nth i p 0) / dv)%Q)) eqn:E; [now left|].
  apply orb_false_iff in E. destruct E as [_ E]. apply qlt_false_iff in E. apply Qabs_Qle_condition in E.
  assert (Hq : ((q - nth i p 0) / dv * dv == q - nth i p 0)%Q) by (field; auto).
  right. split; [auto|].
  destruct (Hr i ltac:(lia)) as [E0|E0].
  - exfalso. rewrite E0 in *. set (x := ((q - maxsize) / dv)%Q) in *. unfold maxsize in Hq.
    assert (dv > 0)%Q by (apply Qnot_le_lt; intros Hle; apply Ed; lra). nra.
  - split; [auto|]. split; [auto|]. split; [lra|exact Hq].
Qed.
Lemma rr_nth junk p dt fl i : length p = length fl -> length dt = length fl -> S i < length fl ->
  nth (S i) (rmaxRate junk p dt fl) 0%Q =
    settle (mask (Qle_bool maxsize (nth (S i) p 0%Q)) (mask (nz (nth (S i) fl 0%Z)) (rate (nth (S i) p 0 - nth i p 0)%Q (nth (S i) dt 0%Q)))).
Proof.
  intros Hp Hd Hi. unfold rmaxRate.
  assert (H1 : length (map2 rate (changes junk p) dt) = length fl) by (rewrite map2_len; rewrite changes_len; lia).
  assert (H2 : length (map2 (fun f x => mask (nz f) x) fl (map2 rate (changes junk p) dt)) = length fl) by (now rewrite map2_len by lia).
  assert (H3 : length (map2 (fun p x => mask (Qle_bool maxsize p) x) p (map2 (fun f x => mask (nz f) x) fl (map2 rate (changes junk p) dt))) = length fl) by (rewrite map2_len; lia).
  rewrite (map_nth' settle None) by lia.
  rewrite (map2_nth _ 0%Q None) by lia. rewrite (map2_nth _ 0%Z None) by lia.
  rewrite (map2_nth rate 0%Q 0%Q) by (rewrite ?changes_len; lia). now rewrite changes_nth by lia.
Qed.
Lemma c77_l junk p dt fl i : length p = length fl -> length dt = length fl -> S i < length fl ->
  let r := nth (S i) (rmaxRate junk p dt fl) 0%Q in
  r = maxsize \/
  (nth (S i) fl 0%Z = 0%Z /\ (nth (S i) p 0 < maxsize)%Q /\ (r * nth (S i) dt 0 == nth (S i) p 0 - nth i p 0)%Q).
Proof.
  intros Hp Hd Hi r. unfold r. rewrite rr_nth by auto.
  destruct (Qle_bool maxsize (nth (S i) p 0%Q)) eqn:E1; [now left|].
  unfold nz. destruct (Z.eqb_spec (nth (S i) fl 0%Z) 0) as [Ez|Ez]; cbn [negb mask]; [|now left].
  unfold rate. destruct (Qeq_bool (nth (S i) dt 0%Q) 0) eqn:Ed; [now left|]. apply Qeq_bool_neq in Ed.
  unfold settle. destruct (Qle_bool maxsize _ || _); [now left|]. right. split; auto. split.
  - apply Qnot_le_lt. intros H. apply Qle_bool_iff in H. congruence.
  - field. auto.
Qed.
Lemma speeds_nth dist dt fl i : length dist = length fl -> length dt = length fl -> i < length fl ->
  nth i (speeds dist dt fl) 0%Q =
    match rate (nth i dist 0%Q) (nth i dt 0%Q) with
    | None => maxsize
    | Some v => if qlt v 0 || qlt 200 v || nz (nth i fl 0%Z) then maxsize else v
    end.
Proof.
  intros Hp Hd Hi. unfold speeds.
  rewrite (map2_nth _ 0%Z None) by (rewrite ?map2_len; lia). now rewrite (map2_nth rate 0%Q 0%Q) by lia.
Qed.
Lemma speeds_l dist dt fl i : length dist = length fl -> length dt = length fl -> i < length fl ->
  let v := nth i (speeds dist dt fl) 0%Q in
  v = maxsize \/ (nth i fl 0%Z = 0%Z /\ (0 <= v <= 200)%Q /\ (v * nth i dt 0 == nth i dist 0)%Q).
Proof.
  intros Hp Hd Hi v. unfold v. rewrite speeds_nth by auto. unfold rate.
  destruct (Qeq_bool (nth i dt 0%Q) 0) eqn:Ed; [now left|]. apply Qeq_bool_neq in Ed.
  destruct (qlt (nth i dist 0 / nth i dt 0) 0 || qlt 200 (nth i dist 0 / nth i dt 0) || nz (nth i fl 0%Z))%Q eqn:E; [now left|]. right.
  apply orb_false_iff in E. destruct E as [E En]. apply orb_false_iff in E. destruct E as [E1 E2].
  apply qlt_false_iff in E1. apply qlt_false_iff in E2. unfold nz in En. apply negb_false_iff in En.
  split; [lia|]. split; [auto|]. field. auto.
Qed.

(** * Origins, initial and later values *)
Fixpoint maskFrom (p : Z) (fl : list Z) : list bool :=
  match fl with [] => [] | f :: r => ((0 <? p)%Z && negb (0 <? f)%Z) :: maskFrom f r end.
Lemma initMask_from f fl : initMask (f :: fl) = false :: maskFrom f fl.
Proof.
  unfold initMask. f_equal. revert f. induction fl as [|g fl IH]; intros f; [reflexivity|].
  cbn [initIndex maskFrom]. rewrite <- IH. destruct fl; reflexivity.
Qed.
Lemma compress_app {R} m1 m2 (l1 l2 : list R) : length m1 = length l1 ->
  compress (m1 ++ m2) (l1 ++ l2) = compress m1 l1 ++ compress m2 l2.
Proof.
  intros H. unfold compress. revert l1 H. induction m1 as [|b m1 IH]; intros [|x l1] H; cbn in H; try lia; auto.
  injection H as H. cbn. destruct b; cbn; rewrite IH by auto; reflexivity.
Qed.
Lemma compress_false {R} n (l : list R) : compress (repeat false n) l = [].
Proof. unfold compress. revert l. induction n; intros [|x l]; cbn; auto. Qed.
Lemma compress_true {R} (l : list R) : compress (repeat true (length l)) l = l.
Proof. unfold compress. induction l; cbn; auto. now rewrite IHl. Qed.
Lemma maskFrom_zeros n : forall rest, maskFrom 0 (repeat 0%Z n ++ rest) = repeat false n ++ maskFrom 0 rest.
Proof. induction n; intros; cbn; auto. now rewrite IHn. Qed.
Definition m1 {R} (t : list R) : list bool := true :: repeat false (length t - 1).
Definition m2 {R} (t : list R) : list bool :=
  match t with [] => [false] | [_] => [false] | _ :: _ :: r => false :: true :: repeat false (length r) end.
Definition m3 {R} (t : list R) : list bool :=
  match t with [] => [false] | [_] => [false] | _ :: _ :: r => false :: false :: repeat true (length r) end.
Lemma origin_mask {R} (ts : list (list R)) : map nz (flat_map stretch ts) = flat_map m1 ts.
Proof.
  induction ts as [|t ts IH]; auto. cbn [flat_map]. rewrite map_app, IH. f_equal. unfold stretch, m1. cbn. f_equal.
  induction (length t - 1); cbn; auto. now f_equal.
Qed.
Lemma init_mask {R} (ts : list (list R)) : initMask (flat_map stretch ts) = flat_map m2 ts.
Proof.
  assert (G : forall p, p = 0%Z \/ p = 1%Z -> maskFrom p (flat_map stretch ts) = flat_map m2 ts).
  { induction ts as [|t ts IH]; intros p Hp; auto. cbn [flat_map]. unfold stretch at 1. cbn [app maskFrom].
    replace (negb (0 <? 1)%Z) with false by reflexivity. rewrite andb_false_r.
    destruct t as [|a [|b r]]; cbn [length Nat.sub repeat app m2].
    - now rewrite IH by auto.
    - now rewrite IH by auto.
    - cbn [maskFrom app]. f_equal. f_equal. rewrite maskFrom_zeros, IH by auto. reflexivity. }
  destruct ts as [|t ts]; [reflexivity|].
  change (initMask (1%Z :: (repeat 0%Z (length t - 1) ++ flat_map stretch ts)) = flat_map m2 (t :: ts)).
  rewrite initMask_from. specialize (G 0%Z ltac:(auto)). cbn [flat_map] in G. unfold stretch at 1 in G. cbn [app maskFrom] in G.
  exact G.
Qed.
Lemma noinit_mask {R} (ts : list (list R)) :
  map2 (fun f b => negb (nz f) && negb b) (flat_map stretch ts) (initMask (flat_map stretch ts)) = flat_map m3 ts.
Proof.
  rewrite init_mask. induction ts as [|t ts IH]; auto. cbn [flat_map].
  assert (A : forall (l1 : list Z) (k1 : list bool) l2 k2, length l1 = length k1 ->
    map2 (fun f b => negb (nz f) && negb b) (l1 ++ l2) (k1 ++ k2) =
    map2 (fun f b => negb (nz f) && negb b) l1 k1 ++ map2 (fun f b => negb (nz f) && negb b) l2 k2).
  { induction l1 as [|x l1 IHl]; intros [|y k1] l2 k2 H; cbn in H; try lia; auto. cbn. now rewrite IHl by lia. }
  rewrite A, IH; [f_equal|].
  - destruct t as [|a [|b r]]; auto. unfold stretch, m2, m3. cbn [length Nat.sub repeat map2].
    f_equal. f_equal. induction (length r); cbn; auto. now f_equal.
  - destruct t as [|a [|b r]]; auto. unfold stretch, m2. cbn. now rewrite !repeat_length.
Qed.
Lemma compress_ts {R} (m : list R -> list bool) (f : list R -> list R) ts :
  Forall (fun t => t <> []) ts -> (forall t, t <> [] -> length (m t) = length t /\ compress (m t) t = f t) ->
  compress (flat_map m ts) (concat ts) = flat_map f ts.
Proof.
  intros HF Hm. induction HF as [|t ts Ht HF IH]; auto. cbn [flat_map concat].
  destruct (Hm t Ht) as [H1 H2]. rewrite compress_app by auto. now rewrite H2, IH.
Qed.
Lemma c79_l {R} fl (l : list R) : length fl = length l -> binary fl -> nth 0 fl 0%Z = 1%Z ->
  exists ts, tracksOf fl l = Some ts /\ origins fl l = flat_map (firstn 1) ts /\
    initValues fl l = flat_map (fun t => firstn 1 (skipn 1 t)) ts /\ noInitValues fl l = flat_map (skipn 2) ts.
Proof.
  intros Hl Hb H1. destruct (tracks_partition fl l Hl Hb H1) as (ts & Ht & Hc & Hn & Hf).
  exists ts. split; [exact Ht|]. unfold origins, initValues, noInitValues. rewrite Hf, <- Hc. split; [|split].
  - rewrite origin_mask. apply compress_ts; auto. intros [|a t] Hne; [congruence|]. split.
    + unfold m1. cbn. now rewrite repeat_length, Nat.sub_0_r.
    + unfold m1. cbn. unfold compress. cbn. f_equal. apply compress_false.
  - rewrite init_mask. apply compress_ts; auto. intros [|a [|b t]] Hne; [congruence| |]; split; auto.
    + cbn. now rewrite repeat_length.
    + unfold m2, compress. cbn. f_equal. apply compress_false.
  - rewrite noinit_mask. apply compress_ts; auto. intros [|a [|b t]] Hne; [congruence| |]; split; auto.
    + cbn. now rewrite repeat_length.
    + unfold m3, compress. cbn. apply compress_true.
Qed.

(** * Jumps *)
Lemma splitFrom_len dx dy : forall fl p pts, length fl = length pts -> length (splitFrom dx dy p fl pts) = length fl.
Proof. induction fl; intros p [|q pts] H; cbn in *; auto; lia. Qed.
Lemma splitJumps_len dx dy fl pts : length fl = length pts -> length (splitJumps dx dy fl pts) = length fl.
Proof. destruct fl, pts; cbn; intros; auto; try lia. rewrite splitFrom_len; lia. Qed.
Lemma splitFrom_nth dx dy d : forall fl p pts i, length fl = length pts -> i < length fl ->
  nth i (splitFrom dx dy p fl pts) 0%Z = if jump dx dy (nth i (p :: pts) d) (nth i pts d) then 1%Z else nth i fl 0%Z.
Proof.
  induction fl as [|f fl IH]; intros p [|q pts] i Hl Hi; cbn in Hl, Hi; try lia.
  destruct i; [reflexivity|]. cbn [splitFrom nth]. rewrite IH by lia. reflexivity.
Qed.
Lemma splitJumps_nth dx dy d fl pts i : length fl = length pts -> S i < length fl ->
  nth (S i) (splitJumps dx dy fl pts) 0%Z = if jump dx dy (nth i pts d) (nth (S i) pts d) then 1%Z else nth (S i) fl 0%Z.
Proof.
  destruct fl as [|f fl], pts as [|p pts]; cbn [length]; try lia. intros Hl Hi. cbn [splitJumps nth].
  rewrite (splitFrom_nth dx dy d) by lia. reflexivity.
Qed.
Lemma splitJumps_binary dx dy fl pts : binary fl -> binary (splitJumps dx dy fl pts).
Proof.
  assert (G : forall fl p pts, binary fl -> binary (splitFrom dx dy p fl pts)).
  { clear. induction fl as [|f fl IH]; intros p [|q pts] H; cbn; try constructor.
    - inversion H; subst. destruct jump; auto.
    - apply IH. now inversion H. }
  intros H. destruct fl as [|f fl], pts as [|p pts]; cbn; try constructor.
  - now inversion H.
  - apply G. now inversion H.
Qed.
Lemma splitJumps_0 dx dy fl pts : length fl = length pts -> nth 0 (splitJumps dx dy fl pts) 0%Z = nth 0 fl 0%Z.
Proof. destruct fl, pts; cbn; auto; lia. Qed.

(** * Years made up *)
Lemma fillYears_app a : forall b fy ys, fillYears fy (a ++ b) = Some ys ->
  exists ya yb fy', fillYears fy a = Some ya /\ fillYears fy' b = Some yb /\ ys = ya ++ yb.
Proof.
  induction a as [|(f, m) a IH]; intros b fy ys H.
  - exists [], ys, fy. auto.
  - cbn [app fillYears] in H |- *.
    set (fy1 := if (m =? 1)%Z then Some 2001%Z else if (0 <? f)%Z then Some 2000%Z else fy) in *.
    destruct fy1 as [y|]; [|discriminate]. destruct (fillYears (Some y) (a ++ b)) as [r|] eqn:E; [|discriminate].
    injection H as <-. destruct (IH b (Some y) r E) as (ya & yb & fy' & H1 & H2 & H3).
    exists (y :: ya), yb, fy'. rewrite H1. cbn. subst r. auto.
Qed.
(** What follows the first record of a cyclone: months and true years [tl] = (flag 0, month, year). *)
Fixpoint follows (y0 : Z) (jan : bool) (m y : Z) (tl : list (Z * Z)) : Prop :=
  match tl with
  | [] => True
  | (m', y') :: r =>
      ((y' = y /\ m <= m') \/ (y' = y + 1 /\ y = y0 /\ m' = 1 /\ jan = false))%Z /\ follows y0 jan m' y' r
  end.
Lemma fill_tail y0 jan : forall tl m y c ys,
  (1 <= m)%Z -> (y = y0 \/ y = y0 + 1)%Z -> (jan = true -> y = y0) ->
  c = ((if jan then 2001 else 2000) + (y - y0))%Z -> (m = 1%Z -> c = 2001%Z) -> follows y0 jan m y tl ->
  fillYears (Some c) (map (fun r => (0%Z, fst r)) tl) = Some ys ->
  ys = map (fun r => ((if jan then 2001 else 2000) + (snd r - y0))%Z) tl.
Proof.
  induction tl as [|(m', y') tl IH]; intros m y c ys Hm Hy Hj Hc H1 Hf H.
  - cbn in H. now injection H as <-.
  - cbn [map fst fillYears] in H. change (0 <? 0)%Z with false in H. cbv iota in H. destruct Hf as [Hd Hf].
    set (c' := if (m' =? 1)%Z then 2001%Z else c).
    assert (E : (if (m' =? 1)%Z then Some 2001%Z else Some c) = Some c') by (subst c'; destruct (m' =? 1)%Z; reflexivity).
    rewrite E in H. destruct (fillYears (Some c') _) as [r|] eqn:Er; [|discriminate]. injection H as <-.
    assert (Hc' : c' = ((if jan then 2001 else 2000) + (y' - y0))%Z).
    { subst c'. destruct (Z.eqb_spec m' 1).
      - destruct Hd as [[-> Hle]|(-> & -> & _ & ->)]; [|lia]. rewrite <- Hc. symmetry. apply H1. lia.
      - destruct Hd as [[-> Hle]|(_ & _ & E1 & _)]; [exact Hc|congruence]. }
    cbn [map snd]. rewrite Hc' at 1. f_equal.
    apply (IH m' y' c' r); auto.
    + destruct Hd as [[_ Hle]|(_ & _ & -> & _)]; lia.
    + destruct Hd as [[-> _]|(-> & -> & _ & _)]; auto.
    + intros ->. destruct Hd as [[-> _]|(_ & _ & _ & D)]; [auto|discriminate].
    + intros ->. subst c'. reflexivity.
Qed.

(** * Frequency *)
Lemma fold_min_spec l : forall a, (fold_left Z.min l a <= a)%Z /\ Forall (fun x => (fold_left Z.min l a <= x)%Z) l /\
  (fold_left Z.min l a = a \/ In (fold_left Z.min l a) l).
Proof.
  induction l as [|b l IH]; intros a; cbn.
  - repeat split; auto. lia.
  - destruct (IH (Z.min a b)) as (H1 & H2 & H3). split; [lia|]. split; [constructor; [lia|auto]|].
    destruct H3 as [H3|H3]; auto. lia.
Qed.
Lemma rint_half x : (-(1 # 2) <= inject_Z (GenModel.rint x) - x <= 1 # 2)%Q.
Proof.
  unfold GenModel.rint. pose proof (Qfloor_le x) as H1. pose proof (Qlt_floor x) as H2.
  rewrite inject_Z_plus in H2. change (inject_Z 1) with 1%Q in H2.
  destruct (qlt _ (1#2)%Q) eqn:E1; [apply qlt_iff in E1; lra|]. apply qlt_false_iff in E1.
  destruct (qlt (1#2)%Q _) eqn:E2.
  - apply qlt_iff in E2. rewrite inject_Z_plus. change (inject_Z 1) with 1%Q. lra.
  - apply qlt_false_iff in E2. destruct (Z.even _); [lra|]. rewrite inject_Z_plus. change (inject_Z 1) with 1%Q. lra.
Qed.
Definition strictly (d : box) (p : Q * Q) : bool :=
  qlt (b_x0 d) (fst p) && qlt (fst p) (b_x1 d) && qlt (b_y0 d) (snd p) && qlt (snd p) (b_y1 d).
Lemma counts_sum d os lo n :
  list_sum (map (fun y => length (filter (inYear d y) os)) (map (fun k => lo + Z.of_nat k)%Z (seq 0 n))) =
  length (filter (fun o => (lo <=? fst o)%Z && (fst o <? lo + Z.of_nat n)%Z && strictly d (snd o)) os).
Proof.
  induction n as [|n IH].
  - cbn. induction os as [|o os IHo]; auto. cbn [filter].
    replace ((lo <=? fst o)%Z && (fst o <? lo + 0)%Z) with false by lia. exact IHo.
  - rewrite seq_S, !map_app, list_sum_app, IH. cbn [map list_sum fold_right Nat.add]. rewrite Nat.add_0_r. clear IH.
    induction os as [|o os IHo]; auto. cbn [filter].
    assert (Es : inYear d (lo + Z.of_nat n) o = ((fst o =? lo + Z.of_nat n)%Z && strictly d (snd o))).
    { unfold inYear, strictly. now rewrite !andb_assoc. }
    rewrite Es. destruct (strictly d (snd o)); rewrite ?andb_true_r, ?andb_false_r; [|exact IHo].
    destruct (Z.leb_spec lo (fst o)), (Z.ltb_spec (fst o) (lo + Z.of_nat n)), (Z.ltb_spec (fst o) (lo + Z.of_nat (S n))),
      (Z.eqb_spec (fst o) (lo + Z.of_nat n)); cbn [andb length]; lia.
Qed.
Lemma c34_l d os ymin ymax :
  In ymin (map fst os) -> In ymax (map fst os) -> Forall (fun o => ymin <= fst o <= ymax)%Z os ->
  (0 <= ymin)%Z -> (ymin < ymax <= 3000)%Z ->
  exists q, calcFrequency d os = FOk q /\
    (Qabs (q - inject_Z (Z.of_nat (length (filter (fun o => (fst o <? ymax)%Z && strictly d (snd o)) os))) / inject_Z (ymax - ymin)) <= 1 # 200)%Q /\
    exists z : Z, (q * 100 == inject_Z z)%Q.
Proof.
  intros Hlo Hhi HF H0 H1. unfold calcFrequency. destruct (map fst os) as [|a r] eqn:Em; [destruct Hlo|].
  assert (HF' : Forall (fun y => ymin <= y <= ymax)%Z (a :: r)).
  { rewrite <- Em, Forall_map. exact HF. }
  inversion HF' as [|x y Ha Hr]; subst. rewrite Forall_forall in Hr.
  assert (Emin : fold_left Z.min r a = ymin).
  { destruct (fold_min_spec r a) as (M1 & M2 & M3). rewrite Forall_forall in M2.
    assert (fold_left Z.min r a <= ymin)%Z by (destruct Hlo as [->|Hlo]; auto).
    destruct M3 as [M3|M3]; [lia|]. specialize (Hr _ M3). lia. }
  assert (Emax : fold_left Z.max r a = ymax).
  { destruct (zmaxl_spec r a) as (M1 & M2 & M3). unfold zmaxl in *. rewrite Forall_forall in M2.
    assert (ymax <= fold_left Z.max r a)%Z by (destruct Hhi as [->|Hhi]; auto).
    destruct M3 as [M3|M3]; [lia|]. specialize (Hr _ M3). lia. }
  rewrite Emin, Emax. replace (ymax - 1 <? ymin)%Z with false by lia.
  replace ((ymin <? 0)%Z || (3000 <=? ymax - 1)%Z) with false by lia. cbv iota zeta.
  rewrite counts_sum, map_length, seq_length.
  replace (ymax - 1 - ymin + 1)%Z with (ymax - ymin)%Z by lia. rewrite !Z2Nat.id by lia.
  replace (ymin + (ymax - ymin))%Z with ymax by lia.
  assert (Ef : filter (fun o => (ymin <=? fst o)%Z && (fst o <? ymax)%Z && strictly d (snd o)) os =
               filter (fun o => (fst o <? ymax)%Z && strictly d (snd o)) os).
  { apply filter_ext_in. intros o Ho. rewrite Forall_forall in HF. specialize (HF o Ho).
    replace (ymin <=? fst o)%Z with true by lia. reflexivity. }
  rewrite Ef. set (x := (inject_Z (Z.of_nat (length (filter (fun o => (fst o <? ymax)%Z && strictly d (snd o)) os))) / inject_Z (ymax - ymin))%Q).
  eexists. split; [reflexivity|]. split.
  - pose proof (rint_half (x * 100)) as Hh. apply Qabs_Qle_condition.
    set (z := inject_Z (GenModel.rint (x * 100))) in *.
    assert (Ez : (z / 100 * 100 == z)%Q) by field. lra.
  - exists (GenModel.rint (x * 100)). field.
Qed.
