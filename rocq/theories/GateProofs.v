(** Lemmas about landfall rates and intensities. *)
From Coq Require Import List Arith ZArith Lia Bool QArith Lqa Permutation.
From Verif Require Import Base CellModel CellProofs GenProofs NumModel NumProofs GeomModel GeomProofs GeomProofs3 DensityModel GateModel.
Import ListNotations.
Close Scope Q_scope. Open Scope nat_scope.

(** * Segments and gates *)
Lemma hit_iff a1 a2 b1 b2 : isInt (fst (lineLine a1 a2 b1 b2)) = true <-> ~ parallel a1 a2 b1 b2 /\ meets a1 a2 b1 b2.
Proof.
  destruct (Qeq_dec ((px a2 - px a1) * (py b2 - py b1)) ((py a2 - py a1) * (px b2 - px b1))) as [P|P].
  - split; [|intros [N _]; now destruct N]. intros H. exfalso. unfold lineLine in H.
    assert (Z : Qeq_bool ((py b2 - py b1) * (px a2 - px a1) - (px b2 - px b1) * (py a2 - py a1)) 0 = true) by (apply Qeq_bool_iff; lra).
    rewrite Z in H. cbn [negb] in H. destruct (_ || _) in H; discriminate.
  - pose proof (c35_crossing_l a1 a2 b1 b2 P) as C. destruct (lineLine a1 a2 b1 b2) as [s l]. cbn [fst]. destruct s; try contradiction.
    + destruct l as [|q [|]]; try contradiction. destruct C as (C1 & C2 & _). split; [|reflexivity]. intros _. split; [exact P|]. now exists q.
    + destruct l; [|contradiction]. split; [discriminate|]. intros (_ & q & Q1 & Q2). now destruct (C q Q1).
Qed.
Lemma parallel_turn a b c d : parallel a b c d <-> parallel b a c d.
Proof. unfold parallel. split; intros H; lra. Qed.
Lemma hit_turn a1 a2 b1 b2 : isInt (fst (lineLine a2 a1 b1 b2)) = isInt (fst (lineLine a1 a2 b1 b2)).
Proof.
  apply eq_iff_eq_true. rewrite !hit_iff, (parallel_turn a2 a1). split; intros [H M]; (split; [exact H|]); now apply meets_swap.
Qed.
Lemma hitGates_turn gates s e : hitGates gates e s = hitGates gates s e.
Proof. unfold hitGates. apply filter_ext. intros j. apply hit_turn. Qed.
Lemma seg_turn gates g : segLandfall gates (snd g, fst g) = segOffshore gates g /\ segOffshore gates (snd g, fst g) = segLandfall gates g.
Proof. unfold segLandfall, segOffshore. cbn [fst snd]. rewrite !(hitGates_turn gates (fst g)). split; now rewrite andb_comm. Qed.
Lemma edges_rev_flat tracks : Permutation (flat_map edges (map (@rev pt) tracks)) (map (fun g => (snd g, fst g)) (flat_map edges tracks)).
Proof.
  induction tracks as [|t ts IH]; [constructor|]. cbn [map flat_map]. rewrite map_app, edges_rev. apply Permutation_app; [|exact IH].
  symmetry. apply Permutation_rev.
Qed.
Lemma flat_map_perm {A B} (f : A -> list B) l m : Permutation l m -> Permutation (flat_map f l) (flat_map f m).
Proof.
  intros P. induction P; cbn [flat_map]; [constructor|now apply Permutation_app_head| |now rewrite IHP1].
  rewrite !app_assoc. apply Permutation_app_tail, Permutation_app_comm.
Qed.
Lemma flat_map_of_map {A B C} (f : B -> list C) (g : A -> B) l : flat_map f (map g l) = flat_map (fun a => f (g a)) l.
Proof. induction l as [|a l IH]; [reflexivity|]. cbn [map flat_map]. now rewrite IH. Qed.
Lemma landfall_rev gates tracks : Permutation (landfall gates (map (@rev pt) tracks)) (offshore gates tracks).
Proof.
  unfold landfall, offshore. rewrite (flat_map_perm _ _ _ (edges_rev_flat tracks)), flat_map_of_map.
  rewrite (flat_map_ext _ (segOffshore gates)); [reflexivity|]. intros g. apply seg_turn.
Qed.
Lemma offshore_rev gates tracks : Permutation (offshore gates (map (@rev pt) tracks)) (landfall gates tracks).
Proof.
  unfold landfall, offshore. rewrite (flat_map_perm _ _ _ (edges_rev_flat tracks)), flat_map_of_map.
  rewrite (flat_map_ext _ (segLandfall gates)); [reflexivity|]. intros g. apply seg_turn.
Qed.
Lemma filter_len_perm {A} (f : A -> bool) l m : Permutation l m -> length (filter f l) = length (filter f m).
Proof.
  intros P. induction P; cbn [filter]; auto; try congruence.
  - destruct (f x); cbn [length]; auto.
  - destruct (f x), (f y); reflexivity.
Qed.
Lemma rates_perm n l m : Permutation l m -> rates n l = rates n m.
Proof.
  intros P. unfold rates. cbv zeta. assert (E : map (fun i => binCount n i l) (seq 0 (n - 1)) = map (fun i => binCount n i m) (seq 0 (n - 1))).
  { apply map_ext. intros i. unfold binCount. now apply filter_len_perm. }
  now rewrite E.
Qed.

(** * Rates *)
Definition bounded (n : nat) (l : list nat) : Prop := forall v, In v l -> 1 <= v <= n - 2.
Lemma hit_bounded gates s e : bounded (length gates) (hitGates gates s e).
Proof. intros v H. apply filter_In in H. destruct H as [H _]. apply in_seq in H. lia. Qed.
Lemma landfall_bounded gates tracks : bounded (length gates) (landfall gates tracks) /\ bounded (length gates) (offshore gates tracks).
Proof.
  split; intros v H; apply in_flat_map in H; destruct H as (g & _ & H); [unfold segLandfall in H|unfold segOffshore in H];
    destruct (_ && _) in H; try contradiction; now apply hit_bounded in H.
Qed.
Lemma binCount_eq n i l : bounded n l -> i < n - 1 -> binCount n i l = count_occ Nat.eq_dec l i.
Proof.
  intros B Hi. unfold binCount. induction l as [|v l IH]; [reflexivity|]. cbn [filter count_occ].
  assert (Hv : 1 <= v <= n - 2) by (apply B; now left). specialize (IH (fun w Hw => B w (or_intror Hw))).
  assert (E : (v =? i) || ((S (S i) =? n) && (v =? S i)) = if Nat.eq_dec v i then true else false).
  { destruct (Nat.eq_dec v i) as [->|N]; [now rewrite Nat.eqb_refl|]. rewrite (proj2 (Nat.eqb_neq v i) N).
    destruct (Nat.eqb_spec (S (S i)) n), (Nat.eqb_spec v (S i)); try reflexivity. lia. }
  rewrite E. destruct (Nat.eq_dec v i); cbn [length]; now rewrite IH.
Qed.
Lemma sum_bins n l : bounded n l -> fold_right Nat.add 0 (map (fun i => binCount n i l) (seq 0 (n - 1))) = length l.
Proof.
  intros B. rewrite (map_ext_in _ (fun i => count_occ Nat.eq_dec l i)) by (intros i Hi; apply in_seq in Hi; apply binCount_eq; [exact B|lia]).
  induction l as [|v l IH].
  - cbn [count_occ length]. induction (seq 0 (n - 1)) as [|a r IHr]; [reflexivity|exact IHr].
  - specialize (IH (fun w Hw => B w (or_intror Hw))). cbn [length]. rewrite <- IH. assert (Hv : 1 <= v <= n - 2) by (apply B; now left).
    assert (Sp : seq 0 (n - 1) = seq 0 v ++ v :: seq (S v) (n - 2 - v)).
    { replace (n - 1) with (v + S (n - 2 - v)) by lia. rewrite seq_app. reflexivity. }
    rewrite Sp, !map_app, !fold_right_app. cbn [map fold_right count_occ].
    destruct (Nat.eq_dec v v) as [_|C]; [|congruence].
    assert (T : forall xs z, (forall x, In x xs -> x <> v) ->
      fold_right Nat.add z (map (fun i => if Nat.eq_dec v i then S (count_occ Nat.eq_dec l i) else count_occ Nat.eq_dec l i) xs) =
      fold_right Nat.add z (map (fun i => count_occ Nat.eq_dec l i) xs)).
    { intros xs z Hx. f_equal. apply map_ext_in. intros x X. destruct (Nat.eq_dec v x) as [->|_]; [|reflexivity]. now destruct (Hx x X). }
    assert (P : forall xs z, fold_right Nat.add (S z) xs = S (fold_right Nat.add z xs)).
    { induction xs as [|x xs IHx]; intros z; [reflexivity|]. cbn [fold_right]. rewrite IHx. lia. }
    rewrite !T by (intros x X; apply in_seq in X; lia). cbn [Nat.add]. apply P.
Qed.
Lemma rates_nth n l j : bounded n l -> j < n - 1 -> l <> [] ->
  nth_error (rates n l) j = Some (Some (inject_Z (Z.of_nat (count_occ Nat.eq_dec l j)) / inject_Z (Z.of_nat (length l)))%Q).
Proof.
  intros B Hj Hl. unfold rates. cbv zeta. rewrite (sum_bins n l B). destruct (Nat.eqb_spec (length l) 0) as [Z|_]; [destruct l; [congruence|discriminate]|].
  erewrite map_nth_error; [reflexivity|]. erewrite map_nth_error; [|rewrite (nth_error_nth' _ 0) by (now rewrite seq_length); now rewrite seq_nth].
  f_equal. cbn [Nat.add]. now apply binCount_eq.
Qed.
Lemma rates_none n l j : bounded n l -> l = [] -> j < n - 1 -> nth_error (rates n l) j = Some None.
Proof.
  intros B -> Hj. unfold rates. cbv zeta. rewrite (sum_bins n [] B). cbn [length Nat.eqb].
  erewrite map_nth_error; [reflexivity|]. erewrite map_nth_error; [reflexivity|]. rewrite (nth_error_nth' _ 0) by (now rewrite seq_length). now rewrite seq_nth.
Qed.
Lemma rates_length n l : length (rates n l) = n - 1.
Proof. unfold rates. cbv zeta. now rewrite !map_length, seq_length. Qed.
(** Occurrences of a gate number *)
Lemma count_occ_flat {A} (f : A -> list nat) l j : (forall a, In a l -> count_occ Nat.eq_dec (f a) j <= 1) ->
  count_occ Nat.eq_dec (flat_map f l) j = length (filter (fun a => if in_dec Nat.eq_dec j (f a) then true else false) l).
Proof.
  induction l as [|a l IH]; intros H; [reflexivity|]. cbn [flat_map filter]. rewrite count_occ_app, IH by (intros; apply H; now right).
  specialize (H a (or_introl eq_refl)). destruct (in_dec Nat.eq_dec j (f a)) as [I|I].
  - apply (count_occ_In Nat.eq_dec) in I. cbn [length]. lia.
  - apply (count_occ_not_In Nat.eq_dec) in I. lia.
Qed.
Lemma hit_nodup gates s e : NoDup (hitGates gates s e).
Proof. apply NoDup_filter, seq_NoDup. Qed.

(** * Sums of rational shares *)
Lemma sum_shares (l : list nat) n : bounded n l -> l <> [] ->
  exists h, rates n l = map Some h /\ (fold_right Qplus 0 h == 1)%Q /\ (forall x, In x h -> (0 <= x)%Q).
Proof.
  intros B Hl. assert (L : 0 < length l) by (destruct l; [congruence|cbn; lia]).
  assert (P : (0 < inject_Z (Z.of_nat (length l)))%Q) by (change 0%Q with (inject_Z 0); rewrite <- Zlt_Qlt; lia).
  pose proof (sum_bins n l B) as S. unfold rates. cbv zeta. rewrite S. destruct (Nat.eqb_spec (length l) 0) as [Z|_]; [lia|].
  set (cs := map (fun i => binCount n i l) (seq 0 (n - 1))) in *. set (t := length l) in *. clearbody cs t.
  exists (map (fun c => (inject_Z (Z.of_nat c) / inject_Z (Z.of_nat t))%Q) cs). split; [now rewrite map_map|]. split.
  - assert (G : (fold_right Qplus 0 (map (fun c => inject_Z (Z.of_nat c) / inject_Z (Z.of_nat t)) cs) * inject_Z (Z.of_nat t) == inject_Z (Z.of_nat (fold_right Nat.add 0%nat cs)))%Q).
    { clear S. induction cs as [|c cs IH]; [cbn [map fold_right]; change (inject_Z (Z.of_nat 0)) with 0%Q; ring|]. cbn [map fold_right].
      rewrite Qmult_plus_distr_l, IH, Nat2Z.inj_add, inject_Z_plus. field. lra. }
    rewrite S in G. apply (Qmult_inj_r _ 1 (inject_Z (Z.of_nat t))); [lra|]. rewrite G. ring.
  - intros x Hx. apply in_map_iff in Hx. destruct Hx as (c & <- & _).
    assert (0 <= inject_Z (Z.of_nat c))%Q by (change 0%Q with (inject_Z 0); rewrite <- Zle_Qle; lia). apply Qle_shift_div_l; lra.
Qed.

(** * The coast *)
Lemma coast_closed gates : gates <> [] -> coastOf gates = closed gates.
Proof. destruct gates; [congruence|reflexivity]. Qed.
Lemma edges_nth v g d : In g (edges v) -> exists j, 1 <= j < length v /\ g = (nth (j - 1) v d, nth j v d).
Proof.
  induction v as [|a v IH]; [contradiction|]. destruct v as [|b v]; [contradiction|].
  change (edges (a :: b :: v)) with ((a, b) :: edges (b :: v)). intros [<-|H].
  - exists 1. split; [cbn [length]; lia|reflexivity].
  - destruct (IH H) as (j & Hj & E). exists (S j). split; [cbn [length] in *; lia|]. rewrite E.
    replace (S j - 1) with (S (j - 1)) by lia. reflexivity.
Qed.
Lemma coast_met gates s e : gates <> [] -> cnPnPoly s (coastOf gates) = false -> cnPnPoly e (coastOf gates) = true ->
  exists g, In g (edges (coastOf gates)) /\ meets s e (fst g) (snd g).
Proof. intros N H1 H2. rewrite (coast_closed gates N) in *. apply cn_changes. congruence. Qed.
Lemma coast_edge gates g : 2 <= length gates -> In g (edges (coastOf gates)) ->
  (exists j, 1 <= j <= length gates - 2 /\ g = (nth (j - 1) gates origin, nth j gates origin)) \/
  g = (nth (length gates - 2) gates origin, nth (length gates - 1) gates origin) \/
  g = (nth (length gates - 1) gates origin, nth 0 gates origin).
Proof.
  intros L H. apply (edges_nth _ _ origin) in H. destruct H as (j & Hj & ->). unfold coastOf in *. rewrite app_length in Hj. cbn [length] in Hj.
  destruct (Nat.eq_dec j (length gates)) as [->|N].
  - right. right. rewrite app_nth1 by lia. rewrite app_nth2 by lia. rewrite Nat.sub_diag. reflexivity.
  - rewrite !app_nth1 by lia. destruct (Nat.eq_dec j (length gates - 1)) as [->|N'].
    + right. left. f_equal. f_equal. lia.
    + left. exists j. split; [lia|reflexivity].
Qed.

(** * Intensities *)
Lemma share x y : ~ (x - y == 0)%Q -> ((0 < x / (x - y))%Q /\ (x / (x - y) < 1)%Q <-> (x * y < 0)%Q).
Proof.
  intros N. split.
  - intros [A B]. set (t := (x / (x - y))%Q) in *.
    assert (E1 : (x == t * (x - y))%Q) by (unfold t; field; exact N).
    assert (E2 : (x * y == - (t * (1 - t) * ((x - y) * (x - y))))%Q).
    { assert (E3 : (y == (t - 1) * (x - y))%Q) by (unfold t; field; exact N). rewrite E3 at 1. rewrite E1 at 1. ring. }
    assert (0 < t * (1 - t))%Q by (apply Qmult_lt_0_compat; lra).
    assert (S : (0 < (x - y) * (x - y))%Q).
    { destruct (Qlt_le_dec (x - y) 0) as [L|L].
      - assert (0 < (- (x - y)) * (- (x - y)))%Q by (apply Qmult_lt_0_compat; lra). lra.
      - apply Qmult_lt_0_compat; destruct (Qlt_le_dec 0 (x - y)); auto; exfalso; apply N; lra. }
    assert (0 < t * (1 - t) * ((x - y) * (x - y)))%Q by (apply Qmult_lt_0_compat; assumption). lra.
  - intros H. apply opposite in H. destruct H as [[X Y]|[X Y]].
    + setoid_replace (x / (x - y))%Q with ((- x) / (y - x))%Q by (field; split; lra).
      split; [apply Qlt_shift_div_l|apply Qlt_shift_div_r]; lra.
    + split; [apply Qlt_shift_div_l|apply Qlt_shift_div_r]; lra.
Qed.
Lemma crosses_iff s b1 b2 : crosses s b1 b2 = true <-> properly (sfrom s) (sto s) b1 b2.
Proof.
  unfold crosses. set (a1 := sfrom s). set (a2 := sto s). cbv zeta.
  set (ua_t := ((px b2 - px b1) * (py a1 - py b1) - (py b2 - py b1) * (px a1 - px b1))%Q).
  set (ub_t := ((px a2 - px a1) * (py a1 - py b1) - (py a2 - py a1) * (px a1 - px b1))%Q).
  set (u_b := ((py b2 - py b1) * (px a2 - px a1) - (px b2 - px b1) * (py a2 - py a1))%Q).
  assert (E1 : (ua_t == isLeft b1 b2 a1)%Q) by (unfold ua_t, isLeft; ring).
  assert (E2 : (u_b == isLeft b1 b2 a1 - isLeft b1 b2 a2)%Q) by (unfold u_b, isLeft; ring).
  assert (E3 : (ub_t == - isLeft a1 a2 b1)%Q) by (unfold ub_t, isLeft; ring).
  assert (E4 : (u_b == - (isLeft a1 a2 b1 - isLeft a1 a2 b2))%Q) by (unfold u_b, isLeft; ring).
  unfold properly. clearbody ua_t ub_t u_b.
  set (l1 := isLeft b1 b2 a1) in *. set (l2 := isLeft b1 b2 a2) in *. set (m1 := isLeft a1 a2 b1) in *. set (m2 := isLeft a1 a2 b2) in *.
  clearbody l1 l2 m1 m2. rewrite !andb_true_iff, negb_true_iff, !qlt_iff.
  destruct (Qeq_bool u_b 0) eqn:Z.
  - apply Qeq_bool_iff in Z. split; [intros []; discriminate|]. intros [H _]. exfalso.
    assert (Em : (m2 == m1)%Q) by lra. rewrite Em in H. assert (0 <= m1 * m1)%Q; [|lra].
    destruct (Qlt_le_dec m1 0) as [L|L]; [assert (0 <= (- m1) * (- m1))%Q by (apply Qmult_le_0_compat; lra); lra|apply Qmult_le_0_compat; lra].
  - apply Qeq_bool_neq in Z.
    assert (F1 : (ua_t / u_b == l1 / (l1 - l2))%Q) by (rewrite E1, E2; reflexivity).
    assert (F2 : (ub_t / u_b == m1 / (m1 - m2))%Q) by (rewrite E3, E4; field; repeat split; intros C; apply Z; lra).
    rewrite F1, F2. pose proof (share l1 l2 ltac:(intros C; apply Z; lra)) as S1. pose proof (share m1 m2 ltac:(intros C; apply Z; lra)) as S2.
    clear - S1 S2. split; [intros [_ [[[H1 H2] H3] H4]]; split; [apply S2|apply S1]; split; assumption|].
    intros [H1 H2]. apply S2 in H1. apply S1 in H2. repeat split; tauto.
Qed.
Lemma leftOf_iff g1 g2 p : leftOf g1 g2 p = true <-> (0 < isLeft g1 g2 p)%Q.
Proof. unfold leftOf. rewrite qlt_iff. unfold isLeft. split; intros H; lra. Qed.
Lemma landfall_filter g tracks : isLandfall g tracks = filter (fun s => crosses s (fst g) (snd g) && leftOf (fst g) (snd g) (sfrom s)) tracks.
Proof.
  unfold isLandfall. induction tracks as [|s r IH]; [reflexivity|]. cbn [filter]. destruct (crosses s (fst g) (snd g)); cbn [filter andb]; rewrite IH; reflexivity.
Qed.
