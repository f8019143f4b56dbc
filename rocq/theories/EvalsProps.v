From Coq Require Import List Arith ZArith Bool QArith Lia Permutation.
From Verif Require Import CellModel NumModel NumProofs SampModel DensityModel DensityProofs DensityProps EvalsModel.
Import ListNotations.
Close Scope Q_scope. Open Scope nat_scope.

(** * Statistics of pressure (C207) *)
Lemma values_app d a b k l : cellValues d (a ++ b) k l = cellValues d a k l ++ cellValues d b k l.
Proof. unfold cellValues. apply flat_map_app. Qed.
Lemma values_cons d t b k l : cellValues d (t :: b) k l = cellValues d [t] k l ++ cellValues d b k l.
Proof. exact (values_app d [t] b k l). Qed.
Lemma stats_none d ts k l : cellStats d ts k l = None <-> cellValues d ts k l = [].
Proof. unfold cellStats. destruct (cellValues d ts k l); split; intros H; try reflexivity; discriminate. Qed.
Lemma values_nil d ts k l : (forall t, In t ts -> cellValues d [t] k l = []) <-> cellValues d ts k l = [].
Proof.
  induction ts as [|t ts IH].
  - split; [reflexivity|contradiction].
  - rewrite values_cons. split.
    + intros H. rewrite (H t) by now left. apply IH. intros u Hu. apply H. now right.
    + intros H. apply app_eq_nil in H as [H1 H2]. intros u [<-|Hu]; [exact H1|]. now apply IH.
Qed.
Definition step d k l (acc : option pstats) (t : list rec) :=
  match cellStats d [t] k l with Some s => Some s | None => acc end.
Lemma steps_nil d k l ts : (forall t, In t ts -> cellValues d [t] k l = []) -> forall acc, fold_left (step d k l) ts acc = acc.
Proof.
  induction ts as [|t ts IH]; intros H acc; cbn [fold_left]; [reflexivity|]. rewrite IH by (intros; apply H; now right).
  unfold step. now rewrite (proj2 (stats_none d [t] k l)) by (apply H; now left).
Qed.
(** A cell without pressures is masked, and no other *)
Theorem c207_masked_partial : forall d tracks k l, lastStats d tracks k l = None <-> cellStats d tracks k l = None.
Proof.
  intros d tracks k l. rewrite stats_none. unfold lastStats. fold (step d k l). rewrite <- values_nil.
  split; [|intros H; now apply steps_nil].
  assert (G : forall ts acc, fold_left (step d k l) ts acc = None -> acc = None /\ forall t, In t ts -> cellValues d [t] k l = []).
  { induction ts as [|t ts IH]; cbn [fold_left]; intros acc H; [split; [exact H|contradiction]|].
    destruct (IH _ H) as [A B]. unfold step in A. destruct (cellStats d [t] k l) eqn:C; [discriminate|].
    split; [exact A|]. intros u [<-|Hu]; [now apply stats_none|auto]. }
  intros H. now apply G in H.
Qed.
(** Where all pressures in a cell are from one track, the statistics are those of the pressures (those of C129) *)
Theorem c207_one_partial : forall d before t after k l,
  (forall u, In u (before ++ after) -> cellValues d [u] k l = []) ->
  lastStats d (before ++ t :: after) k l = cellStats d (before ++ t :: after) k l.
Proof.
  intros d b t a k l H. unfold lastStats. fold (step d k l). rewrite fold_left_app. cbn [fold_left].
  rewrite (steps_nil d k l a) by (intros; apply H, in_or_app; now right).
  rewrite (steps_nil d k l b) by (intros; apply H, in_or_app; now left).
  assert (B : cellValues d b k l = []) by (apply values_nil; intros; apply H, in_or_app; now left).
  assert (A : cellValues d a k l = []) by (apply values_nil; intros; apply H, in_or_app; now right).
  unfold step. unfold cellStats at 2. rewrite values_app, values_cons, A, B, app_nil_r. cbn [app].
  fold (cellStats d [t] k l). now destruct (cellStats d [t] k l).
Qed.
(** Otherwise they are those of one of the tracks *)
Theorem c207_some_partial : forall d tracks k l s, lastStats d tracks k l = Some s ->
  exists before t after, tracks = before ++ t :: after /\ cellStats d [t] k l = Some s /\
    forall u, In u after -> cellValues d [u] k l = [].
Proof.
  intros d tracks k l s. unfold lastStats. fold (step d k l). induction tracks as [|t ts IH] using rev_ind; [discriminate|].
  rewrite fold_left_app. cbn [fold_left]. unfold step at 1. destruct (cellStats d [t] k l) as [s'|] eqn:C.
  - intros E. injection E as <-. exists ts, t, []. repeat split; auto. contradiction.
  - intros E. destruct (IH E) as (b & u & a & -> & Cu & Ha). exists b, u, (a ++ [t]). rewrite <- app_assoc. repeat split; auto.
    intros v Hv. apply in_app_or in Hv as [Hv|[<-|[]]]; [auto|now apply stats_none].
Qed.

(** The lowest pressures: with tracks numbered from 0 every one is counted in its bin *)
Definition least (t : list rec) (p : Q) : Prop := (exists r, In r t /\ (rp r == p)%Q) /\ forall r, In r t -> (p <= rp r)%Q.
Lemma set_len l : forall n x l', setAt l n x = Some l' -> length l' = length l.
Proof.
  induction l as [|a l IH]; intros [|n] x l' H; cbn in H; try discriminate; [now injection H as <-|].
  destruct (setAt l n x) as [r|] eqn:E; [|discriminate]. injection H as <-. cbn. f_equal. eapply IH, E.
Qed.
Lemma set_nth l : forall n x l' i, setAt l n x = Some l' -> nth i l' 0%Q = if i =? n then x else nth i l 0%Q.
Proof.
  induction l as [|a l IH]; intros [|n] x l' i H; cbn in H; try discriminate.
  - injection H as <-. destruct i; reflexivity.
  - destruct (setAt l n x) as [r|] eqn:E; [|discriminate]. injection H as <-. destruct i as [|i]; [reflexivity|].
    cbn [nth]. rewrite (IH _ _ _ i E). reflexivity.
Qed.
Lemma set_ok l : forall n x, n < length l <-> exists l', setAt l n x = Some l'.
Proof.
  induction l as [|a l IH]; intros [|n] x; cbn; split; intros H; try lia; try (destruct H as [? ?]; discriminate); eauto.
  - assert (n < length l) as G by lia. apply (IH n x) in G as [r ->]. eauto.
  - destruct H as [l' H]. destruct (setAt l n x) as [r|] eqn:E; [|discriminate]. assert (n < length l) by (apply (IH n x); eauto). lia.
Qed.
Definition low1 (t : track) : Q := match map rp (snd t) with [] => 0%Q | p :: ps => amin p ps end.
Lemma fill_spec ts : forall a, NoDup (map fst ts) -> (forall t, In t ts -> fst t < length a /\ snd t <> []) ->
  exists v, fillMin ts a = Some v /\ length v = length a /\ (forall t, In t ts -> nth (fst t) v 0%Q = low1 t) /\
    forall i, ~ In i (map fst ts) -> nth i v 0%Q = nth i a 0%Q.
Proof.
  induction ts as [|[i t] ts IH]; intros a N H.
  - exists a. repeat split; auto. contradiction.
  - cbn [fillMin]. destruct (H (i, t) (or_introl eq_refl)) as [Hi Ht]. cbn [fst snd] in Hi, Ht.
    destruct t as [|r t]; [contradiction|]. cbn [map]. inversion N as [|? ? N1 N2]; subst.
    destruct (proj1 (set_ok a i (amin (rp r) (map rp t))) Hi) as [a' E]. rewrite E.
    destruct (IH a' N2) as (v & F & L & V & W).
    { intros u Hu. rewrite (set_len _ _ _ _ E). apply H. now right. }
    exists v. split; [exact F|]. split; [now rewrite L, (set_len _ _ _ _ E)|]. split.
    + intros u [<-|Hu]; [|auto]. cbn [fst]. rewrite W by exact N1. rewrite (set_nth _ _ _ _ i E), Nat.eqb_refl. reflexivity.
    + intros j Hj. rewrite W by (intros C; apply Hj; now right). rewrite (set_nth _ _ _ _ j E).
      destruct (Nat.eqb_spec j i) as [->|]; [|reflexivity]. exfalso. apply Hj. now left.
Qed.
Lemma nth_all (v : list Q) : v = map (fun i => nth i v 0%Q) (seq 0 (length v)).
Proof.
  induction v as [|a v IH]; [reflexivity|]. cbn [length seq map nth]. f_equal. rewrite <- seq_shift, map_map. exact IH.
Qed.
Lemma filter_len {A} (f : A -> bool) a b : Permutation a b -> length (filter f a) = length (filter f b).
Proof. induction 1; cbn; auto; try (destruct (f x); cbn; lia). - destruct (f x), (f y); reflexivity. - lia. Qed.
Lemma low1_least t : snd t <> [] -> least (snd t) (low1 t).
Proof.
  intros H. unfold low1. destruct (snd t) as [|r rs]; [contradiction|]. cbn [map].
  destruct (amin_spec (map rp rs) (rp r)) as (A & B & C). split.
  - destruct C as [C|(y & Hy & C)]; [exists r; split; [now left|now symmetry]|].
    apply in_map_iff in Hy as (q & <- & Hq). exists q. split; [now right|now symmetry].
  - intros q [<-|Hq]; [exact A|]. apply B. now apply in_map.
Qed.
Theorem c207_minima_partial : forall tracks : list track, Permutation (map fst tracks) (seq 0 (length tracks)) ->
  (forall t, In t tracks -> snd t <> []) ->
  exists h lows, calcMinPressure tracks = Some h /\ length h = 43 /\
    Forall2 (fun t p => least (snd t) p) tracks lows /\
    forall i, i < 43 -> nth i h 0 = length (filter (fun p =>
      Qle_bool (800 + 5 * inject_Z (Z.of_nat i)) p &&
      (if i =? 42 then Qle_bool p 1015 else qlt p (800 + 5 * inject_Z (Z.of_nat (S i))))) lows).
Proof.
  intros ts P H. unfold calcMinPressure.
  destruct (fill_spec ts (repeat 0%Q (length ts))) as (v & F & L & V & _).
  { apply (Permutation_NoDup (Permutation_sym P)), seq_NoDup. }
  { intros t Ht. rewrite repeat_length. split; [|now apply H].
    assert (In (fst t) (seq 0 (length ts))) as I by (apply (Permutation_in _ P), in_map, Ht). apply in_seq in I. lia. }
  rewrite F. rewrite repeat_length in L.
  assert (Q : Permutation v (map low1 ts)).
  { rewrite (nth_all v), L. rewrite <- P at 1. rewrite map_map. erewrite map_ext_in; [reflexivity|]. exact V. }
  eexists _, (map low1 ts). split; [reflexivity|]. split; [now rewrite map_length, seq_length|]. split.
  { clear -H. induction ts as [|t ts IH]; cbn; constructor; [apply low1_least, H; now left|]. apply IH. intros; apply H; now right. }
  intros i Hi. rewrite (nth_indep _ 0 ((fun i => length (filter (inBin minCpRange i) v)) 0)) by now rewrite map_length, seq_length.
  rewrite (map_nth (fun i => length (filter (inBin minCpRange i) v))), seq_nth by exact Hi. cbn [Nat.add].
  rewrite (filter_len _ _ _ Q). f_equal. apply filter_ext. intros p. unfold inBin.
  assert (Len : length minCpRange = 44) by reflexivity. rewrite Len.
  assert (E : forall j, j < 44 -> nth j minCpRange 0%Q = (800 + 5 * inject_Z (Z.of_nat j))%Q).
  { intros j Hj. unfold minCpRange. set (f := fun i0 => _). rewrite (nth_indep _ 0%Q (f 0)) by (rewrite map_length, seq_length; exact Hj).
    now rewrite map_nth, seq_nth by exact Hj. }
  rewrite !E by lia. f_equal. change (S (S i) =? 44) with (i =? 42). destruct (Nat.eqb_spec i 42) as [->|]; [|apply orb_false_r].
  cbn [andb]. assert (U : (800 + 5 * inject_Z (Z.of_nat 43) == 1015)%Q) by reflexivity.
  unfold qlt. apply eq_true_iff_eq. rewrite orb_true_iff, negb_true_iff, Qeq_bool_iff, Qle_bool_iff.
  rewrite <- not_true_iff_false, Qle_bool_iff, U. split.
  - intros [A|A]; [apply Qnot_le_lt in A; now apply Qlt_le_weak|rewrite A; apply Qle_refl].
  - intros A. apply Qle_lteq in A as [A|A]; [left; now apply Qlt_not_le|now right].
Qed.

(** The rows of the simulations, if all files can be read *)
Theorem c207_rows_partial : forall (Tr St Mn : Type) (load : nat -> option Tr) (stats : Tr -> St) (minima : Tr -> option Mn) sims
    (t : nat -> Tr) (m : nat -> Mn),
  (forall n, n < sims -> load n = Some (t n) /\ minima (t n) = Some (m n)) ->
  synthetic load stats minima sims = (rev (map (fun n => (m n, stats (t n))) (seq 0 sims)), inr true).
Proof.
  intros Tr St Mn load stats minima sims t m. unfold synthetic.
  assert (G : forall todo n prev rows, (forall k, n <= k < n + todo -> load k = Some (t k) /\ minima (t k) = Some (m k)) ->
    loop load stats minima todo n prev rows = (rev (map (fun n => (m n, stats (t n))) (seq n todo)) ++ rows, inr true)).
  { induction todo as [|todo IH]; intros n prev rows H; [reflexivity|]. cbn [loop].
    destruct (H n) as [E1 E2]; [lia|]. rewrite E1, E2, IH by (intros; apply H; lia).
    cbn [seq map rev]. now rewrite <- app_assoc. }
  intros H. rewrite G by (intros; apply H; lia). now rewrite app_nil_r.
Qed.

(** * False *)
(** No evaluation can be made: the grid of any region of at least one cell is an AttributeError *)
Theorem c207_init_refuted : forall x0 x1 y0 y1 size nx ny, cells (square x0 x1 y0 y1 size) nx ny ->
  init (square x0 x1 y0 y1 size) = inl EAttribute.
Proof.
  intros x0 x1 y0 y1 size nx ny ((N1 & D1 & E1) & (N2 & D2 & E2)). unfold init, initCells, lonRange, latRange.
  rewrite (range_len _ _ _ nx D1 E1), (range_len _ _ _ ny D2 E2). cbn [Nat.sub]. rewrite !Nat.sub_0_r.
  destruct nx as [|nx]; [lia|]. destruct ny as [|ny]; [lia|]. cbn [seq list_prod map app fold_left].
  generalize (map (fun y => (0, y)) (seq 1 ny) ++ list_prod (seq 1 nx) (0 :: seq 1 ny)). intros l.
  induction l as [|c l IH]; [reflexivity|exact IH].
Qed.
(** Of several tracks through a cell only the last counts: the lowest pressure of the first is lost, and the mean is wrong *)
Theorem c207_two_refuted : exists d a b v, cells d 2 2 /\ lastStats d [a; b] 0 0 = Some v /\
  (exists r, In r a /\ (rp r < smin v)%Q /\ (0 < rp r)%Q /\ (0 <= rlon r < 1)%Q /\ (0 <= rlat r < 1)%Q) /\
  exists w, cellStats d [a; b] 0 0 = Some w /\ ~ (smean v == smean w)%Q /\ lastStats d [b; a] 0 0 <> Some v.
Proof.
  exists d22, [mkRec (1 # 2) (1 # 2) 920 2000], [mkRec (1 # 2) (1 # 2) 990 2000]. eexists. split; [apply c129_example|].
  split; [vm_compute; reflexivity|]. split.
  - exists (mkRec (1 # 2) (1 # 2) 920 2000). split; [now left|]. repeat split; try reflexivity; discriminate.
  - eexists. split; [vm_compute; reflexivity|]. split; vm_compute; discriminate.
Qed.
(** A missing file: the first ends the program with an error of its own, a later one is counted with the tracks of the
    simulation before it *)
Theorem c207_missing_refuted : forall (Tr St Mn : Type) (load : nat -> option Tr) (stats : Tr -> St) (minima : Tr -> option Mn) sims,
  (load 0 = None -> synthetic load stats minima (S sims) = ([], inl EUnbound)) /\
  forall n (t : nat -> Tr) (m : nat -> Mn), n < sims -> (forall k, k <= n -> load k = Some (t k) /\ minima (t k) = Some (m k)) ->
    load (S n) = None -> exists rows, synthetic load stats minima (S sims) = ((m n, stats (t n)) :: (m n, stats (t n)) :: rows, inr false).
Proof.
  intros Tr St Mn load stats minima sims. unfold synthetic. split; [intros H; cbn; now rewrite H|].
  intros n t m Hn H E.
  assert (G : forall todo i prev rows, i <= n -> n < i + todo -> (forall k, k <= n -> load k = Some (t k) /\ minima (t k) = Some (m k)) ->
    exists rows', loop load stats minima (S todo) i prev rows = ((m n, stats (t n)) :: (m n, stats (t n)) :: rows', inr false)).
  { induction todo as [|todo IH]; intros i prev rows Hi Hd HH; [lia|].
    change (loop load stats minima (S (S todo)) i prev rows) with
      (match load i with
       | None => match prev with None => (rows, inl EUnbound) | Some t => match minima t with None => (rows, inl EIndex) | Some m => ((m, stats t) :: rows, inr false) end end
       | Some t => match minima t with None => (rows, inl EIndex) | Some m => loop load stats minima (S todo) (S i) (Some t) ((m, stats t) :: rows) end
       end).
    destruct (HH i Hi) as [E1 E2]. rewrite E1, E2. destruct (Nat.eq_dec i n) as [->|Hne].
    - cbn [loop]. rewrite E, E2. eexists. reflexivity.
    - apply IH; auto; lia. }
  apply G; auto; lia.
Qed.
(** Tracks numbered from 1 are an IndexError *)
Theorem c207_numbers_refuted : forall tracks : list track, map fst tracks = seq 1 (length tracks) -> tracks <> [] ->
  calcMinPressure tracks = None.
Proof.
  intros ts H N. unfold calcMinPressure.
  assert (G : forall ts a k, In k (map fst ts) -> length a <= k -> fillMin ts a = None).
  { clear. induction ts as [|[i t] ts IH]; intros a k Hk Ha; [contradiction|]. cbn [fillMin].
    destruct (map rp t) as [|p ps]; [reflexivity|]. destruct (setAt a i (amin p ps)) as [a'|] eqn:E; [|reflexivity].
    destruct Hk as [Hk|Hk].
    - cbn in Hk. subst k. assert (i < length a) by (apply (set_ok a i (amin p ps)); eauto). lia.
    - apply (IH a' k Hk). now rewrite (set_len _ _ _ _ E). }
  rewrite (G ts _ (length ts)); [reflexivity| |now rewrite repeat_length].
  rewrite H. apply in_seq. destruct ts; [contradiction|cbn; lia].
Qed.

(** * The ages (C208, false) *)
Lemma float_none {A} (l : list A) is n : getAll l (is ++ [IFloat n]) = None.
Proof. induction is as [|i is IH]; [reflexivity|]. cbn [app getAll]. rewrite IH. now destruct (getItem l i). Qed.
(** No ages can be calculated from any records *)
Theorem c208_ages_refuted : forall ids times, calculateAge ids times = inl EIndex.
Proof.
  intros ids times. unfold calculateAge, ends. rewrite float_none.
  destruct (starts ids) as [|s ss]; [reflexivity|]. now destruct (getAll times (map IInt (s :: ss))).
Qed.
(** nor is that reached: the tracks are taken apart as if they were arrays *)
Theorem c208_historic_refuted : forall (T : Type) (tracks : list T) age, length tracks <> 14 -> historicAge tracks age = inl EValue.
Proof. intros T tracks age H. unfold historicAge. now rewrite (proj2 (Nat.eqb_neq _ _) H). Qed.
Theorem c208_synthetic_refuted : forall (T : Type) (load : nat -> option (list T)) age sims tracks, load 0 = Some tracks ->
  length tracks <> 14 -> syntheticAge load age (S sims) 0 = inr false.
Proof. intros T load age sims tracks E H. cbn. rewrite E. now rewrite (proj2 (Nat.eqb_neq _ _) H). Qed.
(** A track whose number is not one more than the number before is not seen as a new one *)
Theorem c208_starts_refuted : exists ids, starts ids = [0] /\ exists i, nth i ids 0%Z <> nth (S i) ids 0%Z /\ S i < length ids.
Proof. exists [1; 1; 3; 3]%Z. split; [reflexivity|]. exists 1. split; [discriminate|cbn; lia]. Qed.

(** Where tracks are numbered one after the other their first records are found *)
Theorem c208_starts_partial : forall ids i, In i (starts ids) <->
  i < length ids /\ (i = 0 \/ exists a b, nth_error ids (i - 1) = Some a /\ nth_error ids i = Some b /\ b = (a + 1)%Z /\ 0 < i).
Proof.
  intros ids i. unfold starts. destruct ids as [|a0 ids0] eqn:E; [cbn; split; [contradiction|intros [H _]; lia]|].
  rewrite <- E. clear E. rewrite filter_In, in_seq. split.
  - intros [[_ H] B]. split; [exact H|]. destruct (Nat.eqb_spec i 0) as [->|N]; [now left|]. right.
    exists (nth (i - 1) ids 0%Z), (nth i ids 0%Z). rewrite !(nth_error_nth' ids 0%Z) by lia.
    repeat split; lia.
  - intros [H B]. split; [lia|]. destruct (Nat.eqb_spec i 0) as [->|N]; [reflexivity|].
    destruct B as [B|(a & b & A1 & A2 & -> & _)]; [contradiction|].
    rewrite (nth_error_nth _ _ 0%Z A1), (nth_error_nth _ _ 0%Z A2). apply Z.eqb_eq. lia.
Qed.
(** A file that cannot be read is reported *)
Theorem c208_missing_partial : forall (T : Type) (load : nat -> option (list T)) age sims, load 0 = None ->
  syntheticAge load age (S sims) 0 = inr false.
Proof. intros T load age sims E. cbn. now rewrite E. Qed.

Example c207_example : exists h, calcMinPressure [(1, [mkRec 1 1 950 2000]); (0, [mkRec 1 1 990 2000; mkRec 1 1 984 2000])] = Some h /\
  nth 30 h 0 = 1 /\ nth 36 h 0 = 1 /\ Permutation (map fst [(1, [mkRec 1 1 950 2000]); (0, [mkRec 1 1 990 2000; mkRec 1 1 984 2000])]) (seq 0 2).
Proof. eexists. split; [vm_compute; reflexivity|]. split; [reflexivity|]. split; [reflexivity|apply perm_swap]. Qed.
Example c207_example_one : lastStats d22 [[mkRec (1 # 2) (1 # 2) 920 2000]; [mkRec (3 # 2) (1 # 2) 990 2000]] 0 0 <> None.
Proof. vm_compute. discriminate. Qed.
Example c208_example : starts [1; 1; 2; 2; 2; 3]%Z = [0; 2; 5].
Proof. reflexivity. Qed.
Print Assumptions c207_masked_partial.
Print Assumptions c207_one_partial.
Print Assumptions c207_some_partial.
Print Assumptions c207_minima_partial.
Print Assumptions c207_rows_partial.
Print Assumptions c207_init_refuted.
Print Assumptions c207_two_refuted.
Print Assumptions c207_missing_refuted.
Print Assumptions c207_numbers_refuted.
Print Assumptions c208_ages_refuted.
Print Assumptions c208_historic_refuted.
Print Assumptions c208_synthetic_refuted.
Print Assumptions c208_starts_refuted.
Print Assumptions c208_starts_partial.
Print Assumptions c208_missing_partial.
