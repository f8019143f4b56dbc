(** Lemmas about the interpolation of tracks *)
From Coq Require Import List Arith ZArith Bool QArith Qabs Qround Lia Lqa.
From Verif Require Import CellModel NumModel SampModel FitModel CellProofs GenProofs NumProofs SampProofs FitProofs InterpModel.
Import ListNotations.
Open Scope Q_scope.

(** ** The new times *)
Lemma qn_S n : qn (S n) == qn n + 1.
Proof. unfold qn. rewrite Nat2Z.inj_succ. unfold Z.succ. now rewrite inject_Z_plus. Qed.
Lemma qn_0 : qn 0 = 0. Proof. reflexivity. Qed.
Lemma qn_nonneg n : 0 <= qn n.
Proof. unfold qn. change 0 with (inject_Z 0). rewrite <- Zle_Qle. lia. Qed.
Lemma qn_le i j : (i <= j)%nat -> qn i <= qn j.
Proof. intros H. unfold qn. rewrite <- Zle_Qle. lia. Qed.

Lemma removelast_firstn_len {A} (l : list A) : removelast l = firstn (length l - 1) l.
Proof.
  induction l as [|a l IH]; [reflexivity|]. destruct l as [|b l]; [reflexivity|].
  change (removelast (a :: b :: l)) with (a :: removelast (b :: l)). rewrite IH. cbn [length].
  replace (S (S (length l)) - 1)%nat with (S (S (length l) - 1)) by lia. reflexivity.
Qed.
Lemma nth_firstn_lt {A} (l : list A) d i n : (i < n)%nat -> nth i (firstn n l) d = nth i l d.
Proof. revert i n. induction l as [|a l IH]; intros [|i] [|n] H; cbn; try lia; auto. apply IH. lia. Qed.

Record shape (T delta : Q) (nt : list Q) (n : nat) : Prop := mkShape {
  s_len : length nt = S n;
  s_reg : forall i, (i < n)%nat -> nth i nt 0 == qn i * delta;
  s_end : nth n nt 0 = T;
  s_lo : qn n * delta < T + (1 # 100);
  s_hi : T + (1 # 100) <= qn (S n) * delta }.

Lemma newtimes_shape T delta : 0 <= T -> 0 < delta -> exists nt n, newtimes T delta = Some nt /\ shape T delta nt n.
Proof.
  intros HT Hd. unfold newtimes.
  assert (E : Qeq_bool delta 0 = false).
  { destruct (Qeq_bool delta 0) eqn:E; [|reflexivity]. apply Qeq_bool_iff in E. lra. }
  rewrite E.
  set (l := arange 0 (T + (1 # 100)) delta).
  set (r := (T + (1 # 100) - 0) / delta).
  assert (R : r * delta == T + (1 # 100)) by (unfold r; field; lra).
  assert (R0 : 0 < r). { unfold r. apply Qlt_shift_div_l; [exact Hd|]. lra. }
  assert (L : length l = Z.to_nat (Qceiling r)) by apply arange_len.
  assert (C1 : (0 < Qceiling r)%Z).
  { pose proof (Qle_ceiling r). rewrite Zlt_Qlt. eapply Qlt_le_trans; eauto. }
  assert (exists n, length l = S n) as [n Hn] by (exists (length l - 1)%nat; lia).
  exists (removelast l ++ [T]), n.
  assert (LR : length (removelast l) = n) by (rewrite removelast_firstn_len, firstn_length; lia).
  split; [destruct l; [cbn in Hn; lia|reflexivity]|]. split.
  - rewrite app_length, LR. cbn. lia.
  - intros i Hi. rewrite app_nth1 by lia. rewrite removelast_firstn_len, nth_firstn_lt by lia.
    unfold l. rewrite arange_nth by (fold l; lia). fold (qn i). ring.
  - rewrite app_nth2, LR, Nat.sub_diag by lia. reflexivity.
  - pose proof (arange_hi 0 (T + (1 # 100)) delta n Hd ltac:(fold l; lia)) as H.
    rewrite arange_nth in H by (fold l; lia). fold (qn n) in H. lra.
  - assert (r <= qn (S n)).
    { eapply Qle_trans; [apply Qle_ceiling|]. unfold qn. rewrite <- Zle_Qle. lia. }
    rewrite <- R. apply Qmult_le_compat_r; [exact H|lra].
Qed.

Lemma shape_incr T delta nt n : 1 # 100 <= delta -> shape T delta nt n -> incr nt.
Proof.
  intros Hd [L RG EN LO HI] i j Hij. rewrite L in Hij.
  pose proof (qn_le (S i) j ltac:(lia)) as Q. rewrite qn_S in Q.
  assert ((qn i + 1) * delta <= qn j * delta) by (apply Qmult_le_compat_r; [exact Q|lra]).
  destruct (Nat.eq_dec j n) as [->|N].
  - rewrite EN. rewrite RG by lia. lra.
  - rewrite !RG by lia. lra.
Qed.
Lemma shape_start T delta nt n : (1 <= n)%nat -> shape T delta nt n -> nth 0 nt 0 == 0.
Proof. intros Hn [L RG EN LO HI]. rewrite RG by lia. rewrite qn_0. ring. Qed.
Lemma shape_range T delta nt n i : 0 <= T -> 1 # 100 <= delta -> shape T delta nt n -> (i <= n)%nat -> 0 <= nth i nt 0 <= T.
Proof.
  intros HT Hd S Hi. pose proof (shape_incr _ _ _ _ Hd S) as I. destruct S as [L RG EN LO HI].
  destruct (Nat.eq_dec i n) as [->|N]; [rewrite EN; lra|].
  split.
  - rewrite RG by lia. apply Qmult_le_0_compat; [apply qn_nonneg|lra].
  - rewrite <- EN. apply Qlt_le_weak, I. lia.
Qed.
Lemma shape_gap T delta nt n i : shape T delta nt n -> (S i < n)%nat -> nth (S i) nt 0 - nth i nt 0 == delta.
Proof. intros [L RG EN LO HI] Hi. rewrite !RG by lia. rewrite qn_S. ring. Qed.
Lemma shape_last T delta nt n : shape T delta nt (S n) -> 
  delta - (1 # 100) < nth (S n) nt 0 - nth n nt 0 /\ nth (S n) nt 0 - nth n nt 0 <= 2 * delta - (1 # 100).
Proof.
  intros [L RG EN LO HI]. rewrite EN, RG by lia. rewrite !qn_S in *. split; lra.
Qed.
Lemma shape_multiple T delta nt n k : 1 # 100 <= delta -> T == qn k * delta -> shape T delta nt n -> n = k.
Proof.
  intros Hd E [L RG EN LO HI].
  assert (A : qn n * delta < qn (S k) * delta) by (rewrite qn_S; lra).
  assert (B : qn k * delta < qn (S n) * delta) by lra.
  apply Qmult_lt_r in A; [|lra]. apply Qmult_lt_r in B; [|lra].
  unfold qn in A, B. rewrite <- Zlt_Qlt in A, B. lia.
Qed.

(** ** Linear interpolation *)
Lemma interp_eq xs ys t t' : t == t' -> (interp xs ys t = None /\ interp xs ys t' = None) \/
  exists v v', interp xs ys t = Some v /\ interp xs ys t' = Some v' /\ v == v'.
Proof.
  intros E. destruct xs as [|x0 r]; [left; split; reflexivity|]. unfold interp.
  assert (Q1 : qlt t x0 = qlt t' x0).
  { destruct (qlt t' x0) eqn:H; [apply qlt_iff in H; apply qlt_iff; lra|apply qlt_false_iff in H; apply qlt_false_iff; lra]. }
  assert (Q2 : qlt (last (x0 :: r) 0) t = qlt (last (x0 :: r) 0) t').
  { destruct (qlt (last (x0 :: r) 0) t') eqn:H; [apply qlt_iff in H; apply qlt_iff; lra|apply qlt_false_iff in H; apply qlt_false_iff; lra]. }
  rewrite Q1, Q2. destruct (qlt t' x0 || qlt (last (x0 :: r) 0) t'); [left; auto|right].
  assert (S1 : searchsorted (x0 :: r) t = searchsorted (x0 :: r) t').
  { apply Nat.le_antisymm; apply ss_mono; lra. }
  rewrite S1. cbv zeta. do 2 eexists. split; [reflexivity|]. split; [reflexivity|]. now rewrite E.
Qed.
Lemma interp_at xs ys t i : (2 <= length xs)%nat -> length ys = length xs -> incr xs -> (i < length xs)%nat ->
  t == nth i xs 0 -> exists v, interp xs ys t = Some v /\ v == nth i ys 0.
Proof.
  intros H2 HL I Hi E. destruct (interp_knot xs ys i H2 HL I Hi) as (v & V1 & V2).
  destruct (interp_eq xs ys _ _ E) as [[_ N]|(w & w' & W1 & W2 & W3)]; [congruence|].
  exists w. split; [exact W1|]. rewrite W2 in V1. injection V1 as ->. lra.
Qed.
Lemma interp_range xs ys t v : xs <> [] -> interp xs ys t = Some v -> nth 0 xs 0 <= t <= nth (length xs - 1) xs 0.
Proof. intros N E. split; apply Qnot_lt_le; intros C; rewrite interp_none in E; try discriminate; auto. Qed.

Lemma lerp_any a b y1 y2 t : a < b -> a <= t <= b ->
  (y1 <= (y2 - y1) / (b - a) * (t - a) + y1 <= y2) \/ (y2 <= (y2 - y1) / (b - a) * (t - a) + y1 <= y1).
Proof.
  intros Hab Ht. destruct (Qlt_le_dec y2 y1) as [H|H]; [right|left; now apply lerp_between].
  pose proof (lerp_between a b (- y1) (- y2) t Hab Ht ltac:(lra)) as P.
  assert (E : (- y2 - - y1) / (b - a) * (t - a) + - y1 == - ((y2 - y1) / (b - a) * (t - a) + y1)) by (field; lra).
  rewrite E in P. lra.
Qed.
(** The value on the segment from observation [i] to [i + 1] is the weighted mean of the two *)
Lemma interp_segment xs ys t v i : (2 <= length xs)%nat -> length ys = length xs -> incr xs -> (S i < length xs)%nat ->
  nth i xs 0 <= t <= nth (S i) xs 0 -> interp xs ys t = Some v ->
  v * (nth (S i) xs 0 - nth i xs 0) == nth i ys 0 * (nth (S i) xs 0 - t) + nth (S i) ys 0 * (t - nth i xs 0).
Proof.
  intros H2 HL I Hi Ht E.
  assert (N : xs <> []) by (intros ->; cbn in H2; lia).
  destruct (interp_range _ _ _ _ N E) as [L U].
  pose proof (I i (S i) ltac:(lia)) as P.
  destruct (Qlt_le_dec (nth i xs 0) t) as [A|A].
  - destruct (Qlt_le_dec t (nth (S i) xs 0)) as [B|B].
    + rewrite interp_some in E by auto. cbv zeta in E. injection E as <-.
      destruct (bracket xs t H2 I L U) as [B1 B2]. set (h := hiOf xs t) in *. clearbody h.
      assert (h = S i) as ->.
      { destruct (Nat.lt_trichotomy h (S i)) as [C|[C|C]]; [|exact C|].
        - destruct (Nat.eq_dec h i) as [->|]; [lra|]. pose proof (I h i ltac:(lia)). lra.
        - destruct (Nat.eq_dec (h - 1) (S i)) as [D|]; [rewrite D in B2; lra|]. pose proof (I (S i) (h - 1)%nat ltac:(lia)). lra. }
      replace (S i - 1)%nat with i by lia. field. lra.
    + assert (Et : t == nth (S i) xs 0) by lra.
      destruct (interp_at xs ys t (S i) H2 HL I Hi Et) as (w & W1 & W2). rewrite E in W1. injection W1 as ->.
      rewrite W2, Et. ring.
  - assert (Et : t == nth i xs 0) by lra.
    destruct (interp_at xs ys t i H2 HL I ltac:(lia) Et) as (w & W1 & W2). rewrite E in W1. injection W1 as ->.
    rewrite W2, Et. ring.
Qed.
(** All values lie within the range of the observations *)
Lemma interp_within xs ys t v lo hi : (2 <= length xs)%nat -> length ys = length xs -> incr xs ->
  (forall y, In y ys -> lo <= y <= hi) -> interp xs ys t = Some v -> lo <= v <= hi.
Proof.
  intros H2 HL I B E.
  assert (N : xs <> []) by (intros ->; cbn in H2; lia).
  destruct (interp_range _ _ _ _ N E) as [L U].
  rewrite interp_some in E by auto. cbv zeta in E. injection E as <-.
  destruct (bracket xs t H2 I L U) as [B1 B2]. set (h := hiOf xs t) in *. clearbody h.
  pose proof (lerp_any (nth (h - 1) xs 0) (nth h xs 0) (nth (h - 1) ys 0) (nth h ys 0) t (I (h - 1)%nat h ltac:(lia)) B2).
  pose proof (B (nth (h - 1) ys 0) ltac:(apply nth_In; lia)). pose proof (B (nth h ys 0) ltac:(apply nth_In; lia)). lra.
Qed.

Lemma interpAll_some ts ys nt r : interpAll ts ys nt = Some r -> length r = length nt /\
  forall k, (k < length nt)%nat -> interp ts ys (nth k nt 0) = Some (nth k r 0).
Proof.
  unfold interpAll. intros E. apply allSome_spec in E.
  assert (L : length r = length nt) by (rewrite <- (map_length Some r), <- E, map_length; reflexivity).
  split; [exact L|]. intros k Hk.
  pose proof (f_equal (fun l => nth k l None) E) as F. cbv beta in F.
  rewrite (nth_indep _ None (interp ts ys 0)) in F by (rewrite map_length; lia). rewrite map_nth in F.
  rewrite F. rewrite (nth_indep _ None (Some 0)) by (rewrite map_length; lia). now rewrite map_nth.
Qed.
Lemma interpAll_total ts ys nt : (2 <= length ts)%nat -> incr ts ->
  (forall t, In t nt -> nth 0 ts 0 <= t <= nth (length ts - 1) ts 0) -> exists r, interpAll ts ys nt = Some r.
Proof.
  intros H2 I H. unfold interpAll. destruct (allSome (map (interp ts ys) nt)) as [r|] eqn:E; [eauto|].
  apply allSome_none in E. apply in_map_iff in E. destruct E as (t & E & Ht). destruct (H _ Ht).
  rewrite interp_some in E by auto. discriminate.
Qed.

(** ** Cubic segments *)
Lemma incr_seg x j : incr x -> (S j < length x)%nat -> nth j x 0 < nth (j + 1) x 0.
Proof. intros I H. apply I. lia. Qed.
Lemma cubic_left x y b j t : t == nth j x 0 -> cubic x y b j t == nth j y 0.
Proof.
  intros E. unfold cubic. cbv zeta. set (h := nth (j + 1) x 0 - nth j x 0).
  set (m := _ / h). set (c := _ / h). set (d := _ / (h * h)). clearbody h m c d. rewrite E. ring.
Qed.
Lemma cubic_right x y b j t : nth j x 0 < nth (j + 1) x 0 -> t == nth (j + 1) x 0 -> cubic x y b j t == nth (j + 1) y 0.
Proof. intros I E. unfold cubic. cbv zeta. rewrite E. field. lra. Qed.
Lemma cubic_line x y b j t p q : nth j x 0 < nth (j + 1) x 0 ->
  nth j y 0 == p * nth j x 0 + q -> nth (j + 1) y 0 == p * nth (j + 1) x 0 + q -> nth j b 0 == p -> nth (j + 1) b 0 == p ->
  cubic x y b j t == p * t + q.
Proof. intros I E1 E2 B1 B2. unfold cubic. cbv zeta. rewrite E1, E2, B1, B2. field. lra. Qed.
(** Expansion at the left and right end of a segment: the derivatives are those of [b] *)
Lemma cubic_exp_left x y b j : nth j x 0 < nth (j + 1) x 0 -> exists c d, forall t,
  cubic x y b j t - nth j y 0 - nth j b 0 * (t - nth j x 0) == (t - nth j x 0) * (t - nth j x 0) * (c + d * (t - nth j x 0)).
Proof.
  intros _. set (h := nth (j + 1) x 0 - nth j x 0). set (m := (nth (j + 1) y 0 - nth j y 0) / h).
  exists ((3 * m - 2 * nth j b 0 - nth (j + 1) b 0) / h), ((nth j b 0 + nth (j + 1) b 0 - 2 * m) / (h * h)).
  intros t. unfold cubic. cbv zeta. fold h. fold m. set (c := _ / h). set (d := _ / (h * h)). clearbody c d. ring.
Qed.
Lemma cubic_exp_right x y b j : nth j x 0 < nth (j + 1) x 0 -> exists c d, forall t,
  cubic x y b j t - nth (j + 1) y 0 - nth (j + 1) b 0 * (t - nth (j + 1) x 0) ==
    (t - nth (j + 1) x 0) * (t - nth (j + 1) x 0) * (c + d * (t - nth (j + 1) x 0)).
Proof.
  intros I. set (h := nth (j + 1) x 0 - nth j x 0). set (m := (nth (j + 1) y 0 - nth j y 0) / h).
  set (c := (3 * m - 2 * nth j b 0 - nth (j + 1) b 0) / h). set (d := (nth j b 0 + nth (j + 1) b 0 - 2 * m) / (h * h)).
  exists (c + 3 * d * h), d.
  intros t. unfold cubic. cbv zeta. fold h. fold m. fold c. fold d. unfold c, d, m, h. field. lra.
Qed.
Lemma quad_bound u c d h : Qabs u <= h -> Qabs (u * u * (c + d * u)) <= (Qabs c + Qabs d * h) * (u * u).
Proof.
  intros H. rewrite Qabs_Qmult. rewrite (Qabs_pos (u * u)) by nra. rewrite Qmult_comm.
  apply Qmult_le_compat_r; [|nra]. eapply Qle_trans; [apply Qabs_triangle|]. apply Qplus_le_r.
  rewrite Qabs_Qmult. rewrite (Qmult_comm (Qabs d)), (Qmult_comm (Qabs d)). apply Qmult_le_compat_r; [exact H|apply Qabs_nonneg].
Qed.

(** ** Which segment *)
Lemma digitize_le x t : (digitize x t <= length x)%nat.
Proof. induction x as [|a x IH]; cbn; [lia|]. destruct (Qle_bool a t); lia. Qed.
Lemma digitize_below x t i : (i < digitize x t)%nat -> nth i x 0 <= t.
Proof.
  revert i. induction x as [|a x IH]; cbn; intros i H; [lia|]. destruct (Qle_bool a t) eqn:E; [|lia].
  destruct i as [|i]; [now apply Qle_bool_iff|apply IH; lia].
Qed.
Lemma digitize_at x t : (digitize x t < length x)%nat -> t < nth (digitize x t) x 0.
Proof.
  induction x as [|a x IH]; cbn; intros H; [lia|]. destruct (Qle_bool a t) eqn:E.
  - apply IH. lia.
  - apply Qnot_le_lt. intros C. apply Qle_bool_iff in C. congruence.
Qed.
Definition pySeg (x : list Q) (t : Q) : nat := Nat.min (digitize x t) (length x - 1) - 1.
Lemma pySeg_spec x t : (2 <= length x)%nat -> nth 0 x 0 <= t <= nth (length x - 1) x 0 ->
  (S (pySeg x t) < length x)%nat /\ nth (pySeg x t) x 0 <= t <= nth (pySeg x t + 1) x 0.
Proof.
  intros H2 [L U]. unfold pySeg. pose proof (digitize_le x t) as D.
  assert (P : (1 <= digitize x t)%nat).
  { destruct (digitize x t) eqn:E; [|lia]. pose proof (digitize_at x t ltac:(lia)) as A. rewrite E in A. lra. }
  split; [lia|]. split; [apply digitize_below; lia|].
  destruct (Nat.eq_dec (digitize x t) (length x)) as [E|N].
  - rewrite E. replace (Nat.min (length x) (length x - 1) - 1 + 1)%nat with (length x - 1)%nat by lia. exact U.
  - replace (Nat.min (digitize x t) (length x - 1) - 1 + 1)%nat with (digitize x t) by lia.
    apply Qlt_le_weak, digitize_at. lia.
Qed.

Lemma cwalk_le fuel : forall x t k, (k <= length x - 1)%nat -> (length x <= fuel + k)%nat ->
  let k' := cwalk fuel x t k in (k <= k' <= length x - 1)%nat /\ (forall i, (k <= i < k')%nat -> nth i x 0 < t) /\
     (t <= nth k' x 0 \/ (k' = length x - 1)%nat).
Proof.
  induction fuel as [|fuel IH]; intros x t k H1 H2; cbn [cwalk]; cbv zeta.
  - split; [lia|]. split; [lia|right; lia].
  - destruct (qlt (nth k x 0) t && (k <? length x - 1)%nat) eqn:E.
    + apply andb_true_iff in E. destruct E as [E1 E2]. apply qlt_iff in E1. apply Nat.ltb_lt in E2.
      destruct (IH x t (S k) ltac:(lia) ltac:(lia)) as (A & B & C).
      split; [lia|]. split; [|exact C].
      intros i Hi. destruct (Nat.eq_dec i k) as [->|]; [exact E1|apply B; lia].
    + split; [lia|]. split; [lia|]. apply andb_false_iff in E. destruct E as [E|E].
      * left. now apply qlt_false_iff.
      * right. apply Nat.ltb_ge in E. lia.
Qed.
(** Sorted output positions within the range of the data are evaluated on a segment that contains them *)
Lemma ceval_spec x y b xo : forall k, (2 <= length x)%nat -> incr x -> asc xo ->
  (forall t, In t xo -> nth 0 x 0 <= t <= nth (length x - 1) x 0) -> (k <= length x - 1)%nat ->
  (forall t, In t xo -> (1 <= k)%nat -> nth (k - 1) x 0 <= t) ->
  Forall2 (fun t v => exists j, (S j < length x)%nat /\ nth j x 0 <= t <= nth (j + 1) x 0 /\ v = cubic x y b j t) xo (ceval x y b xo k).
Proof.
  induction xo as [|t xo IH]; intros k H2 I A R K P; cbn [ceval]; [constructor|].
  destruct (cwalk_le (length x) x t k K ltac:(lia)) as (B1 & B2 & B3). cbv zeta in B1, B2, B3.
  set (k' := cwalk (length x) x t k) in *. clearbody k'.
  assert (Lo : (1 <= k')%nat -> nth (k' - 1) x 0 <= t).
  { intros H. destruct (Nat.eq_dec k k') as [->|N]; [apply P; [now left|exact H]|]. apply Qlt_le_weak, B2. lia. }
  assert (Lo' : nth (Nat.max 1 k' - 1) x 0 <= t).
  { destruct k' as [|k']; [cbn [Nat.max Nat.sub]; apply R; now left|]. replace (Nat.max 1 (S k') - 1)%nat with (S k' - 1)%nat by lia. apply Lo. lia. }
  assert (Hi' : t <= nth (Nat.max 1 k' - 1 + 1) x 0 \/ (k' = 0)%nat).
  { destruct k' as [|k']; [now right|left]. replace (Nat.max 1 (S k') - 1 + 1)%nat with (S k') by lia.
    destruct B3 as [B3|B3]; [exact B3|]. rewrite B3. apply R. now left. }
  constructor.
  - exists (Nat.max 1 k' - 1)%nat. split; [lia|]. split; [|reflexivity]. split; [exact Lo'|].
    destruct Hi' as [H|H]; [exact H|]. subst k'. cbn [Nat.max Nat.sub Nat.add].
    destruct B3 as [B3|B3]; [|lia]. pose proof (I 0%nat 1%nat ltac:(lia)). lra.
  - apply IH; auto.
    + now inversion A.
    + intros s Hs. apply R. now right.
    + lia.
    + intros s Hs _. eapply Qle_trans; [exact Lo'|]. inversion A. auto.
Qed.

(** ** The two implementations *)
Lemma diffs_len l : length (diffs l) = (length l - 1)%nat.
Proof. induction l as [|a l IH]; [reflexivity|]. destruct l as [|b l]; [reflexivity|].
  change (diffs (a :: b :: l)) with ((b - a) :: diffs (b :: l)). cbn [length] in *. lia. Qed.
Lemma diffs_nth l i : (S i < length l)%nat -> nth i (diffs l) 0 = nth (S i) l 0 - nth i l 0.
Proof.
  revert i. induction l as [|a l IH]; intros i H; [cbn in H; lia|]. destruct l as [|b l]; [cbn in H; lia|].
  destruct i as [|i]; [reflexivity|]. change (diffs (a :: b :: l)) with ((b - a) :: diffs (b :: l)).
  change (nth (S i) ((b - a) :: diffs (b :: l)) 0) with (nth i (diffs (b :: l)) 0). rewrite IH by (cbn in *; lia). reflexivity.
Qed.
Lemma zipdiv_len a b : length (zipdiv a b) = Nat.min (length a) (length b).
Proof. revert b. induction a as [|x a IH]; intros [|y b]; cbn; auto. Qed.
Lemma zipdiv_nth a b i : (i < length a)%nat -> (i < length b)%nat -> nth i (zipdiv a b) 0 = nth i a 0 / nth i b 0.
Proof. revert b i. induction a as [|x a IH]; intros [|y b] [|i] H1 H2; cbn in *; try lia; auto. apply IH; lia. Qed.
Lemma slopes_len x y : length y = length x -> length (slopes x y) = (length x - 1)%nat.
Proof. intros H. unfold slopes. rewrite zipdiv_len, !diffs_len. lia. Qed.
Lemma slopes_nth x y i : length y = length x -> (S i < length x)%nat ->
  nth i (slopes x y) 0 = (nth (S i) y 0 - nth i y 0) / (nth (S i) x 0 - nth i x 0).
Proof. intros H Hi. unfold slopes. rewrite zipdiv_nth by (rewrite diffs_len; lia). rewrite !diffs_nth by lia. reflexivity. Qed.

Lemma steps_incr x : (forall i, (S i < length x)%nat -> nth i x 0 < nth (S i) x 0) -> incr x.
Proof.
  intros H i j [Hij Hj]. induction j as [|j IH]; [lia|]. destruct (Nat.eq_dec i j) as [->|]; [apply H; lia|].
  eapply Qlt_trans; [apply IH; lia|apply H; lia].
Qed.
Lemma check_incr f x : (forall d, f d = false -> 0 < d) -> existsb f (diffs x) = false -> incr x.
Proof.
  intros Hf E. apply steps_incr. intros i Hi.
  destruct (f (nth i (diffs x) 0)) eqn:F.
  - exfalso. rewrite <- not_true_iff_false in E. apply E. apply existsb_exists. exists (nth i (diffs x) 0). split; [|exact F].
    apply nth_In. rewrite diffs_len. lia.
  - apply Hf in F. rewrite diffs_nth in F by lia. lra.
Qed.
Lemma check_pass f x : (forall i, (S i < length x)%nat -> f (nth (S i) x 0 - nth i x 0) = false) -> existsb f (diffs x) = false.
Proof.
  intros H. apply not_true_iff_false. intros E. apply existsb_exists in E. destruct E as (d & D & F).
  apply (In_nth _ _ 0) in D. destruct D as (i & Hi & <-). rewrite diffs_len in Hi. rewrite diffs_nth in F by lia.
  rewrite H in F by lia. discriminate.
Qed.

(** The values are those of the cubics with the derivatives [b], each on a segment that contains the position *)
Definition onSegments (x y b xo r : list Q) : Prop :=
  Forall2 (fun t v => exists j, (S j < length x)%nat /\ nth j x 0 <= t <= nth (j + 1) x 0 /\ v = cubic x y b j t) xo r.
Lemma pyAkima_spec x y xo r : pyAkima x y xo = Some r ->
  (3 <= length x)%nat /\ length y = length x /\ incr x /\ onSegments x y (pyDerivs (extend (slopes x y)) (length x)) xo r.
Proof.
  unfold pyAkima. destruct (length x <? 3)%nat eqn:E1; [discriminate|]. apply Nat.ltb_ge in E1.
  destruct (length x =? length y)%nat eqn:E2; cbn [negb]; [|discriminate]. apply Nat.eqb_eq in E2.
  destruct (existsb _ (diffs x)) eqn:E3; [discriminate|].
  destruct (existsb _ xo) eqn:E4; [discriminate|].
  intros [= <-]. split; [exact E1|]. split; [auto|]. split.
  { eapply check_incr; [|exact E3]. intros d Hd. apply Qnot_le_lt. intros C. apply Qle_bool_iff in C. congruence. }
  unfold onSegments. clear E3. induction xo as [|t xo IH]; cbn [map]; [constructor|].
  cbn [existsb] in E4. apply orb_false_iff in E4. destruct E4 as [E4 E5]. apply orb_false_iff in E4. destruct E4 as [A B].
  apply qlt_false_iff in A. apply qlt_false_iff in B. constructor; [|now apply IH].
  exists (pySeg x t). destruct (pySeg_spec x t ltac:(lia) ltac:(split; assumption)) as [P1 P2]. split; [exact P1|]. split; [exact P2|reflexivity].
Qed.
Lemma cAkima_spec x y xo r : cAkima x y xo = Some r ->
  (3 <= length x)%nat /\ length y = length x /\ incr x /\
  (asc xo -> (forall t, In t xo -> nth 0 x 0 <= t <= nth (length x - 1) x 0) ->
   onSegments x y (cDerivs (extend (slopes x y)) (length x)) xo r).
Proof.
  unfold cAkima. destruct (length x <? 3)%nat eqn:E1; [discriminate|]. apply Nat.ltb_ge in E1.
  destruct (length x =? length y)%nat eqn:E2; cbn [negb]; [|discriminate]. apply Nat.eqb_eq in E2.
  destruct (existsb _ (diffs x)) eqn:E3; [discriminate|].
  intros [= <-]. split; [exact E1|]. split; [auto|].
  assert (I : incr x).
  { eapply check_incr; [|exact E3]. intros d Hd. apply qlt_false_iff in Hd. lra. }
  split; [exact I|]. intros A R. apply ceval_spec; auto; try lia.
Qed.
Lemma pyAkima_total x y xo : (3 <= length x)%nat -> length y = length x -> incr x ->
  (forall t, In t xo -> nth 0 x 0 <= t <= nth (length x - 1) x 0) -> exists r, pyAkima x y xo = Some r.
Proof.
  intros H3 HL I R. unfold pyAkima. rewrite (proj2 (Nat.ltb_ge _ _)) by lia. rewrite (proj2 (Nat.eqb_eq _ _)) by lia. cbn [negb].
  rewrite check_pass.
  2:{ intros i Hi. pose proof (I i (S i) ltac:(lia)). apply not_true_iff_false. intros C. apply Qle_bool_iff in C. lra. }
  replace (existsb _ xo) with false; [eauto|]. symmetry. apply not_true_iff_false. intros C. apply existsb_exists in C.
  destruct C as (t & Ht & C). destruct (R t Ht) as [A B]. apply orb_true_iff in C. destruct C as [C|C]; apply qlt_iff in C; lra.
Qed.
Lemma cAkima_total x y xo : (3 <= length x)%nat -> length y = length x ->
  (forall i, (S i < length x)%nat -> nth i x 0 + (1 # 1000000000000) <= nth (S i) x 0) -> exists r, cAkima x y xo = Some r.
Proof.
  intros H3 HL I. unfold cAkima. rewrite (proj2 (Nat.ltb_ge _ _)) by lia. rewrite (proj2 (Nat.eqb_eq _ _)) by lia. cbn [negb].
  rewrite check_pass; [eauto|]. intros i Hi. pose proof (I i ltac:(lia)). apply qlt_false_iff. lra.
Qed.

(** ** Common properties *)
Lemma F2_nth {A B} (P : A -> B -> Prop) l r d e k : Forall2 P l r -> (k < length l)%nat -> P (nth k l d) (nth k r e).
Proof. intros F. revert k. induction F; intros [|k] Hk; cbn in *; try lia; auto. apply IHF. lia. Qed.
Lemma F2_length {A B} (P : A -> B -> Prop) l r : Forall2 P l r -> length r = length l.
Proof. induction 1; cbn; auto. Qed.

Lemma seg_node x i j t : incr x -> (S j < length x)%nat -> (i < length x)%nat -> t == nth i x 0 ->
  nth j x 0 <= t <= nth (j + 1) x 0 -> (i = j \/ i = j + 1)%nat.
Proof.
  intros I Hj Hi E [A B]. destruct (Nat.lt_trichotomy i j) as [C|[C|C]]; [|lia|].
  - pose proof (I i j ltac:(lia)). lra.
  - destruct (Nat.eq_dec i (j + 1)); [lia|]. pose proof (I (j + 1)%nat i ltac:(lia)). lra.
Qed.
Lemma segments_nodes x y b xo r k i : incr x -> onSegments x y b xo r -> (k < length xo)%nat -> (i < length x)%nat ->
  nth k xo 0 == nth i x 0 -> nth k r 0 == nth i y 0.
Proof.
  intros I F Hk Hi E. destruct (F2_nth _ _ _ 0 0 k F Hk) as (j & J1 & J2 & ->).
  destruct (seg_node x i j _ I J1 Hi E J2) as [->| ->].
  - now apply cubic_left.
  - apply cubic_right; [apply incr_seg; auto|exact E].
Qed.
Lemma segments_unique x y b j j' t : incr x -> (S j < length x)%nat -> (S j' < length x)%nat ->
  nth j x 0 <= t <= nth (j + 1) x 0 -> nth j' x 0 <= t <= nth (j' + 1) x 0 -> cubic x y b j t == cubic x y b j' t.
Proof.
  assert (W : forall j j', incr x -> (S j < length x)%nat -> (S j' < length x)%nat -> (j < j')%nat ->
    nth j x 0 <= t <= nth (j + 1) x 0 -> nth j' x 0 <= t <= nth (j' + 1) x 0 -> cubic x y b j t == cubic x y b j' t).
  { clear. intros j j' I J J' L A B. destruct (Nat.eq_dec (j + 1) j') as [E|E].
    - subst j'. rewrite cubic_right by (try apply incr_seg; auto; lra). rewrite cubic_left by lra. reflexivity.
    - pose proof (I (j + 1)%nat j' ltac:(lia)). lra. }
  intros I J J' A B. destruct (Nat.lt_trichotomy j j') as [C|[->|C]]; [now apply W|reflexivity|symmetry; now apply W].
Qed.
Lemma segments_smooth x y b i : incr x -> (1 <= i)%nat -> (S i < length x)%nat -> exists s K,
  forall xo r k, onSegments x y b xo r -> (k < length xo)%nat ->
    nth (i - 1) x 0 < nth k xo 0 < nth (i + 1) x 0 ->
    Qabs (nth k r 0 - nth i y 0 - s * (nth k xo 0 - nth i x 0)) <= K * ((nth k xo 0 - nth i x 0) * (nth k xo 0 - nth i x 0)).
Proof.
  intros I H1 Hi.
  assert (P1 : nth (i - 1) x 0 < nth (i - 1 + 1) x 0) by (apply incr_seg; auto; lia).
  assert (P2 : nth i x 0 < nth (i + 1) x 0) by (apply incr_seg; auto).
  destruct (cubic_exp_right x y b (i - 1) P1) as (c1 & d1 & E1).
  destruct (cubic_exp_left x y b i P2) as (c2 & d2 & E2).
  replace (i - 1 + 1)%nat with i in * by lia.
  set (h := nth (i + 1) x 0 - nth (i - 1) x 0).
  exists (nth i b 0), (Qabs c1 + Qabs d1 * h + (Qabs c2 + Qabs d2 * h)).
  intros xo r k F Hk Ht. destruct (F2_nth _ _ _ 0 0 k F Hk) as (j & J1 & J2 & ->).
  set (t := nth k xo 0) in *. clearbody t.
  assert (J : j = (i - 1)%nat \/ j = i).
  { destruct (Nat.lt_trichotomy j (i - 1)) as [C|[C|C]]; [|lia|].
    - destruct (Nat.eq_dec (j + 1) (i - 1)) as [D|D]; [rewrite D in J2; lra|]. pose proof (I (j + 1)%nat (i - 1)%nat ltac:(lia)). lra.
    - destruct (Nat.eq_dec j i); [lia|]. destruct (Nat.eq_dec j (i + 1)) as [->|D]; [lra|]. pose proof (I (i + 1)%nat j ltac:(lia)). lra. }
  assert (U : Qabs (t - nth i x 0) <= h) by (apply Qabs_Qle_condition; unfold h; split; lra).
  assert (N : forall c d, 0 <= Qabs c + Qabs d * h).
  { intros c d. pose proof (Qabs_nonneg c). pose proof (Qabs_nonneg d). assert (0 <= Qabs d * h) by (apply Qmult_le_0_compat; [auto|unfold h; lra]). lra. }
  pose proof (N c1 d1) as N1. pose proof (N c2 d2) as N2. pose proof (quad_bound (t - nth i x 0) c1 d1 h U) as Q1. pose proof (quad_bound (t - nth i x 0) c2 d2 h U) as Q2.
  specialize (E1 t). specialize (E2 t). set (u := t - nth i x 0) in *. assert (0 <= u * u) by nra.
  set (A := Qabs c1 + Qabs d1 * h) in *. set (B := Qabs c2 + Qabs d2 * h) in *. clearbody A B.
  assert (0 <= A * (u * u)) by (apply Qmult_le_0_compat; auto). assert (0 <= B * (u * u)) by (apply Qmult_le_0_compat; auto).
  destruct J as [->| ->].
  - rewrite E1. lra.
  - rewrite E2. lra.
Qed.

(** ** Data on a line *)
Lemma extend_const m p : (2 <= length m)%nat -> (forall i, (i < length m)%nat -> nth i m 0 == p) ->
  forall i, (i < length m + 4)%nat -> nth i (extend m) 0 == p.
Proof.
  intros H2 H i Hi. unfold extend. cbv zeta.
  pose proof (H 0%nat ltac:(lia)) as A. pose proof (H 1%nat ltac:(lia)) as B.
  pose proof (H (length m - 1)%nat ltac:(lia)) as C. pose proof (H (length m - 2)%nat ltac:(lia)) as D.
  destruct i as [|[|i]]; cbn [nth]; [rewrite A, B; ring|rewrite A, B; ring|].
  destruct (Nat.lt_ge_cases i (length m)) as [L|L]; [rewrite app_nth1 by lia; auto|].
  rewrite app_nth2 by lia. assert (E : (i - length m = 0 \/ i - length m = 1)%nat) by lia.
  destruct E as [-> | ->]; cbn [nth]; rewrite C, D; ring.
Qed.
Lemma f_zero m1 p i : (forall k, (k <= i + 3)%nat -> nth k m1 0 == p) -> f1 m1 i == 0 /\ f2 m1 i == 0.
Proof.
  intros H. unfold f1, f2. rewrite !H by lia. setoid_replace (p - p) with 0 by ring. split; reflexivity.
Qed.
Lemma line_slopes x y p q : incr x -> length y = length x -> (forall i, (i < length x)%nat -> nth i y 0 == p * nth i x 0 + q) ->
  forall i, (i < length (slopes x y))%nat -> nth i (slopes x y) 0 == p.
Proof.
  intros I HL H i Hi. rewrite slopes_len in Hi by auto. rewrite slopes_nth by (auto; lia). rewrite !H by lia.
  pose proof (I i (S i) ltac:(lia)). field. lra.
Qed.
Lemma maxOf_ge l a : In a l -> a <= maxOf l.
Proof.
  destruct l as [|b l]; [intros []|]. cbn [maxOf]. destruct (amax_spec l b) as (A & B & _). intros [->|H]; auto.
Qed.
Lemma derivs_const m p n i : (3 <= n)%nat -> length m = (n - 1)%nat -> (forall i, (i < length m)%nat -> nth i m 0 == p) -> (i < n)%nat ->
  nth i (pyDerivs (extend m) n) 0 == p /\ nth i (cDerivs (extend m) n) 0 == p.
Proof.
  intros H3 HL H Hi. pose proof (extend_const m p ltac:(lia) H) as E. rewrite HL in E.
  destruct (f_zero (extend m) p i) as [Z1 Z2]; [intros k Hk; apply E; lia|].
  unfold pyDerivs, cDerivs. cbv zeta. set (mx := maxOf _).
  assert (M : 0 <= mx).
  { unfold mx. eapply Qle_trans; [|apply maxOf_ge, in_map_iff; exists i; split; [reflexivity|apply in_seq; lia]]. rewrite Z1, Z2. lra. }
  clearbody mx. split.
  - rewrite (nth_map_lt _ _ i 0 0%nat) by (rewrite seq_length; lia). rewrite seq_nth by lia. cbn [Nat.add].
    rewrite (proj2 (qlt_false_iff _ _)); [apply E; lia|]. rewrite Z1, Z2. assert (0 <= (1 # 1000000000) * mx) by (apply Qmult_le_0_compat; [lra|exact M]). lra.
  - rewrite (nth_map_lt _ _ i 0 0%nat) by (rewrite seq_length; lia). rewrite seq_nth by lia. cbn [Nat.add].
    rewrite (proj2 (qlt_iff _ _)); [|rewrite Z1, Z2; lra]. rewrite !E by lia. ring.
Qed.
Lemma segments_line x y b xo r p q k : incr x -> (forall i, (i < length x)%nat -> nth i y 0 == p * nth i x 0 + q) ->
  (forall i, (i < length x)%nat -> nth i b 0 == p) -> onSegments x y b xo r -> (k < length xo)%nat ->
  nth k r 0 == p * nth k xo 0 + q.
Proof.
  intros I HY HB F Hk. destruct (F2_nth _ _ _ 0 0 k F Hk) as (j & J1 & J2 & ->).
  apply cubic_line; auto; try (apply HY; lia); try (apply HB; lia). now apply incr_seg.
Qed.
Lemma derivs_agree m1 n : (forall i, (i < n)%nat -> (1 # 1000000000) * maxOf (map (fun i => f1 m1 i + f2 m1 i) (seq 0 n)) < f1 m1 i + f2 m1 i) ->
  (forall i, (i < n)%nat -> 1 # 1000000000 <= f1 m1 i + f2 m1 i) -> pyDerivs m1 n = cDerivs m1 n.
Proof.
  intros A B. unfold pyDerivs, cDerivs. cbv zeta. apply map_ext_in. intros i Hi. apply in_seq in Hi.
  rewrite (proj2 (qlt_iff _ _)) by (apply A; lia). rewrite (proj2 (qlt_false_iff _ _)) by (apply B; lia). reflexivity.
Qed.
