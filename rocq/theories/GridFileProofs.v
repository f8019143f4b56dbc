From Coq Require Import List Arith ZArith Lia Bool QArith Qabs Lqa Qround.
From Verif Require Import CellModel CellProofs GenModel GenProofs NumModel NumProofs GridFileModel.
Import ListNotations.
Open Scope Q_scope.
Local Notation Qi n := (inject_Z (Z.of_nat n)).

Lemma axis_len n c x0 : List.length (axis n c x0) = n.
Proof. unfold axis. now rewrite map_length, seq_length. Qed.
Lemma axis_nth n c x0 i : (i < n)%nat -> nth i (axis n c x0) 0 = Qi i * c + x0.
Proof.
  intros H. unfold axis.
  rewrite (nth_indep _ 0 ((fun i => Qi i * c + x0) 0%nat)) by (rewrite map_length, seq_length; lia).
  rewrite (map_nth (fun i => Qi i * c + x0)). now rewrite seq_nth.
Qed.
Lemma F2_nth (l l' : list Q) : List.length l = List.length l' ->
  (forall i, (i < List.length l)%nat -> nth i l 0 == nth i l' 0) -> Forall2 Qeq l l'.
Proof.
  revert l'. induction l as [|a l IH]; intros [|b l'] L H; cbn in L; try discriminate; constructor.
  - apply (H 0%nat). cbn. lia.
  - apply IH; [lia|]. intros i Hi. apply (H (S i)). cbn. lia.
Qed.

Lemma Qi_nonneg i : 0 <= Qi i.
Proof. unfold Qle, inject_Z. cbn. lia. Qed.
Lemma Qi_S i : Qi (S i) == Qi i + 1.
Proof. rewrite Nat2Z.inj_succ, <- Z.add_1_r, inject_Z_plus. reflexivity. Qed.
Lemma Qi_le i j : (i <= j)%nat -> Qi i <= Qi j.
Proof. intros. rewrite <- Zle_Qle. lia. Qed.
Lemma Qi_sub i j : (j <= i)%nat -> Qi (i - j) == Qi i - Qi j.
Proof. intros. rewrite Nat2Z.inj_sub by lia. unfold Z.sub. rewrite inject_Z_plus, inject_Z_opp. reflexivity. Qed.

(** The smallest entry when entry [k] is below all. *)
Lemma amin_at x l k v : (k < List.length (x :: l))%nat -> nth k (x :: l) 0 == v ->
  (forall i, (i < List.length (x :: l))%nat -> v <= nth i (x :: l) 0) -> amin x l == v.
Proof.
  intros Hk E H. destruct (amin_spec l x) as (A & B & C).
  assert (L : amin x l <= v).
  { rewrite <- E. assert (I : In (nth k (x :: l) 0) (x :: l)) by now apply nth_In.
    destruct I as [<-|I]; [exact A|now apply B]. }
  assert (G : v <= amin x l).
  { destruct C as [C|(y & Hy & C)]; rewrite C.
    - apply (H 0%nat). cbn. lia.
    - apply (In_nth _ _ 0) in Hy as (i & Hi & <-). apply (H (S i)). cbn. lia. }
  lra.
Qed.

Definition regular (a : list Q) (x0 delta : Q) : Prop :=
  forall i, (i < List.length a)%nat -> nth i a 0 == x0 + Qi i * delta.
Definition regularDown (a : list Q) (y0 delta : Q) : Prop :=
  forall i, (i < List.length a)%nat -> nth i a 0 == y0 + Qi (List.length a - 1 - i) * delta.

Lemma amin_regular x l x0 delta : 0 < delta -> regular (x :: l) x0 delta -> amin x l == x0.
Proof.
  intros D R. apply (amin_at x l 0); [cbn; lia| |].
  - rewrite (R 0%nat) by (cbn; lia). cbn [Z.of_nat]. unfold inject_Z. ring.
  - intros i Hi. rewrite (R i Hi). pose proof (Qmult_le_0_compat (Qi i) delta (Qi_nonneg i)). lra.
Qed.
Lemma amin_regularDown x l x0 delta : 0 < delta -> regularDown (x :: l) x0 delta -> amin x l == x0.
Proof.
  intros D R. apply (amin_at x l (List.length l)); [cbn; lia| |].
  - rewrite (R (List.length l)) by (cbn; lia). cbn [List.length].
    replace (S (List.length l) - 1 - List.length l)%nat with 0%nat by lia. cbn [Z.of_nat]. unfold inject_Z. ring.
  - intros i Hi. rewrite (R i Hi).
    pose proof (Qmult_le_0_compat (Qi (List.length (x :: l) - 1 - i)) delta (Qi_nonneg _)). lra.
Qed.

Lemma axis_regular a x0 x0' delta : x0' == x0 -> regular a x0 delta ->
  Forall2 Qeq (axis (List.length a) delta x0') a.
Proof.
  intros E R. apply F2_nth; [apply axis_len|]. rewrite axis_len. intros i Hi.
  rewrite axis_nth by auto. rewrite (R i Hi), E. ring.
Qed.
Lemma axis_rev a x0 x0' delta : x0' == x0 -> regularDown a x0 delta ->
  Forall2 Qeq (rev (axis (List.length a) delta x0')) a.
Proof.
  intros E R. apply F2_nth; [rewrite rev_length; apply axis_len|].
  rewrite rev_length, axis_len. intros i Hi. rewrite rev_nth by (rewrite axis_len; auto). rewrite axis_len.
  rewrite axis_nth by lia. rewrite (R i Hi), E.
  replace (List.length a - S i)%nat with (List.length a - 1 - i)%nat by lia. ring.
Qed.
Lemma regular_rev a x0 delta : regular a x0 delta -> regularDown (rev a) x0 delta.
Proof.
  intros R i Hi. rewrite rev_length in *. rewrite rev_nth by auto. rewrite (R (List.length a - S i)%nat) by lia.
  replace (List.length a - S i)%nat with (List.length a - 1 - i)%nat by lia. reflexivity.
Qed.

Lemma readRows_full ncols nodata : forall lines, (forall l, In l lines -> List.length l = ncols) ->
  readRows (List.length lines) ncols nodata lines =
  Some (map (map (fun v => if Qeq_bool v nodata then None else Some v)) lines).
Proof.
  induction lines as [|l ls IH]; intros H; cbn [readRows List.length map]; [reflexivity|].
  rewrite IH by (intros; apply H; now right). unfold readRow.
  rewrite (H l (or_introl eq_refl)), Nat.ltb_irrefl, Nat.sub_diag. cbn [repeat]. now rewrite app_nil_r.
Qed.

Lemma save_read fmt data lon lat delta nodata x0 y0 :
  0 < delta -> lon <> [] -> lat <> [] -> regular lon x0 delta ->
  List.length data = List.length lat -> (forall row, In row data -> List.length row = List.length lon) ->
  (forall y ly, lat = y :: ly -> amin y ly == y0) ->
  exists f, grdSave fmt false false data lon lat delta nodata = SaveOk f /\
    exists lon' lat' d, grdRead f = Some (lon', rev lat', d) /\
    Forall2 Qeq lon' lon /\ (exists y, y == y0 /\ lat' = axis (List.length lat) delta y) /\
    d = map (map (fun v => if Qeq_bool (fmt v) nodata then None else Some (fmt v))) data.
Proof.
  intros D NL NT R LD LR Hy. destruct lon as [|x lx]; [congruence|]. destruct lat as [|y ly]; [congruence|].
  eexists. split; [reflexivity|]. unfold grdRead. cbn [gnrows gncols gnodata grows gcell gxll gyll].
  assert (LD' : List.length (y :: ly) = List.length (map (map fmt) data)) by (rewrite map_length; auto).
  rewrite LD', readRows_full.
  2:{ intros l Hl. apply in_map_iff in Hl as (r & <- & Hr). rewrite map_length. now apply LR. }
  do 3 eexists. split; [reflexivity|]. split; [|split].
  - apply (axis_regular (x :: lx) x0); [now apply (amin_regular x lx x0 delta)|exact R].
  - exists (amin y ly). split; [now apply Hy|reflexivity].
  - rewrite map_map. apply map_ext. intros r. now rewrite map_map.
Qed.

(** * Binary search *)
Lemma mid_bounds lo hi : (lo < hi)%nat -> (lo <= lo + (hi - lo) / 2 < hi)%nat.
Proof.
  intros H. split; [lia|]. assert ((hi - lo) / 2 < hi - lo)%nat by (apply Nat.div_lt; lia). lia.
Qed.
Lemma bsearch_sorted a v : (forall i j, (i <= j < List.length a)%nat -> nth i a 0 <= nth j a 0) ->
  forall fuel lo hi, (hi - lo <= fuel)%nat -> (lo <= hi <= List.length a)%nat ->
  (forall j, (j < lo)%nat -> nth j a 0 < v) -> (forall j, (hi <= j < List.length a)%nat -> v <= nth j a 0) ->
  let r := bsearch fuel a v lo hi in
  (r <= List.length a)%nat /\ (forall j, (j < r)%nat -> nth j a 0 < v) /\
  (forall j, (r <= j < List.length a)%nat -> v <= nth j a 0).
Proof.
  intros S. induction fuel as [|fuel IH]; intros lo hi F B L H; cbn [bsearch].
  - assert (lo = hi) by lia. subst hi. cbn. split; [lia|auto].
  - destruct (lo <? hi)%nat eqn:E.
    + apply Nat.ltb_lt in E. pose proof (mid_bounds lo hi E) as M. cbv zeta. set (mid := (lo + (hi - lo) / 2)%nat) in *.
      destruct (qlt (nth mid a 0) v) eqn:Q.
      * apply qlt_iff in Q. apply IH; [lia|lia| |auto].
        intros j Hj. assert (nth j a 0 <= nth mid a 0) by (apply S; lia). lra.
      * apply qlt_false_iff in Q. apply IH; [lia|lia|auto|].
        intros j Hj. assert (nth mid a 0 <= nth j a 0) by (apply S; lia). lra.
    + apply Nat.ltb_ge in E. assert (lo = hi) by lia. subst hi. cbn. split; [lia|auto].
Qed.
Lemma npSearch_sorted a v : (forall i j, (i <= j < List.length a)%nat -> nth i a 0 <= nth j a 0) ->
  (npSearch a v <= List.length a)%nat /\ (forall j, (j < npSearch a v)%nat -> nth j a 0 < v) /\
  (forall j, (npSearch a v <= j < List.length a)%nat -> v <= nth j a 0).
Proof. intros S. apply (bsearch_sorted a v S); lia. Qed.
Lemma npSearch_at a k : (forall i j, (i < j < List.length a)%nat -> nth i a 0 < nth j a 0) ->
  (k < List.length a)%nat -> forall v, v == nth k a 0 -> npSearch a v = k.
Proof.
  intros S K v E. assert (S' : forall i j, (i <= j < List.length a)%nat -> nth i a 0 <= nth j a 0).
  { intros i j H. destruct (Nat.eq_dec i j) as [->|]; [lra|]. apply Qlt_le_weak, S. lia. }
  destruct (npSearch_sorted a v S') as (A & B & C).
  destruct (lt_eq_lt_dec (npSearch a v) k) as [[L|L]|L]; [|exact L|].
  - assert (v <= nth (npSearch a v) a 0) by (apply C; lia).
    assert (nth (npSearch a v) a 0 < nth k a 0) by (apply S; lia). lra.
  - specialize (B k L). lra.
Qed.

(** On values in descending order the search runs to one end. *)
Lemma bsearch_up a v : (forall i j, (i <= j < List.length a)%nat -> nth j a 0 <= nth i a 0) ->
  forall fuel lo hi, (hi - lo <= fuel)%nat -> (lo <= hi <= List.length a)%nat ->
  (forall j, (lo <= j < hi)%nat -> nth j a 0 < v) -> bsearch fuel a v lo hi = hi.
Proof.
  intros S. induction fuel as [|fuel IH]; intros lo hi F B L; cbn [bsearch]; [lia|].
  destruct (lo <? hi)%nat eqn:E; [|apply Nat.ltb_ge in E; lia].
  apply Nat.ltb_lt in E. pose proof (mid_bounds lo hi E) as M. cbv zeta. set (mid := (lo + (hi - lo) / 2)%nat) in *.
  rewrite (proj2 (qlt_iff (nth mid a 0) v)) by (apply L; lia). apply IH; [lia|lia|]. intros; apply L; lia.
Qed.
Lemma bsearch_down a v : forall fuel lo hi, (hi - lo <= fuel)%nat -> (lo <= hi)%nat ->
  (forall j, (lo <= j < hi)%nat -> v <= nth j a 0) -> bsearch fuel a v lo hi = lo.
Proof.
  induction fuel as [|fuel IH]; intros lo hi F B L; cbn [bsearch]; [reflexivity|].
  destruct (lo <? hi)%nat eqn:E; [|reflexivity].
  apply Nat.ltb_lt in E. pose proof (mid_bounds lo hi E) as M. cbv zeta. set (mid := (lo + (hi - lo) / 2)%nat) in *.
  rewrite (proj2 (qlt_false_iff (nth mid a 0) v)) by (apply L; lia). apply IH; [lia|lia|]. intros; apply L; lia.
Qed.
Lemma npSearch_descending a v : a <> [] -> (forall i j, (i <= j < List.length a)%nat -> nth j a 0 <= nth i a 0) ->
  npSearch a v = if qlt (nth (List.length a / 2) a 0) v then List.length a else 0%nat.
Proof.
  intros N D. unfold npSearch. destruct (List.length a) as [|n] eqn:E; [destruct a; [congruence|discriminate]|].
  cbn [bsearch]. change (0 <? S n)%nat with true. cbv iota zeta. rewrite Nat.sub_0_r, Nat.add_0_l.
  assert (M : (S n / 2 < S n)%nat) by (apply Nat.div_lt; lia).
  destruct (qlt (nth (S n / 2) a 0) v) eqn:Q.
  - apply qlt_iff in Q. apply bsearch_up; [rewrite E; exact D|lia|lia|]. intros j Hj.
    assert (nth j a 0 <= nth (S n / 2) a 0) by (apply D; lia). lra.
  - apply qlt_false_iff in Q. apply bsearch_down; [lia|lia|]. intros j Hj.
    assert (nth (S n / 2) a 0 <= nth j a 0) by (apply D; lia). lra.
Qed.

Lemma rev_error {A} (l : list A) i : (i < List.length l)%nat -> nth_error (rev l) i = nth_error l (List.length l - 1 - i).
Proof.
  revert i. induction l as [|a l IH]; intros i H; [cbn in H; lia|]. cbn [rev List.length] in *.
  destruct (Nat.eq_dec i (List.length l)) as [->|].
  - rewrite nth_error_app2 by (rewrite rev_length; lia). rewrite rev_length, Nat.sub_diag.
    replace (S (List.length l) - 1 - List.length l)%nat with 0%nat by lia. reflexivity.
  - rewrite nth_error_app1 by (rewrite rev_length; lia). rewrite IH by lia.
    replace (S (List.length l) - 1 - i)%nat with (S (List.length l - 1 - i)) by lia. reflexivity.
Qed.

Lemma qmod_small x m : 0 <= x -> x < m -> qmod x m == x.
Proof.
  intros H0 H1. unfold qmod. assert (M : 0 < m) by lra.
  assert (F : Qfloor (x / m) = 0%Z).
  { assert (A : 0 <= x / m) by (apply Qle_shift_div_l; lra).
    assert (B : x / m < 1) by (apply Qlt_shift_div_r; lra).
    pose proof (Qfloor_le (x / m)) as C. pose proof (Qlt_floor (x / m)) as D.
    assert (inject_Z (Qfloor (x / m)) < inject_Z 1) by (unfold inject_Z at 2; lra).
    assert (inject_Z 0 < inject_Z (Qfloor (x / m) + 1)) by (unfold inject_Z at 1; lra).
    rewrite <- Zlt_Qlt in *. lia. }
  rewrite F. unfold inject_Z. ring.
Qed.
