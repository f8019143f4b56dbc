From Verif Require Import Base SplitModel.
From Coq Require Import QArith Qminmax Qround Sorting.Sorted.
Ltac Zify.zify_post_hook ::= Z.div_mod_to_equations.
Local Open Scope nat_scope.

Lemma islice_nth {A} P : 1 <= P -> forall (l : list A) k n,
  nth_error (islice P k l) n = nth_error l (k + n * P).
Proof.
  intros HP. induction l as [|x l IH]; intros k n; cbn [islice].
  - now destruct n, (k + _).
  - destruct k as [|k]; cbn [Nat.add].
    + destruct n as [|n]; cbn [nth_error Nat.mul Nat.add]; [reflexivity|].
      rewrite IH. destruct (P + n * P) as [|m] eqn:E; [lia|]. cbn. f_equal. lia.
    + rewrite IH. reflexivity.
Qed.

Lemma islice_length {A} P : 1 <= P -> forall (l : list A) k,
  length (islice P k l) = (length l + P - 1 - k) / P.
Proof.
  intros HP. induction l as [|x l IH]; intros k; cbn [islice length].
  - rewrite Nat.div_small; lia.
  - destruct k as [|k]; cbn [length]; rewrite IH.
    + replace (S (length l) + P - 1 - 0) with (length l + 1 * P) by lia.
      rewrite Nat.div_add by lia. replace (length l + P - 1 - (P - 1)) with (length l) by lia. lia.
    + f_equal. lia.
Qed.

Lemma flat_map_ext_in {A B} (f g : A -> list B) l : (forall x, In x l -> f x = g x) ->
  flat_map f l = flat_map g l.
Proof. induction l as [|a l IH]; cbn; intros H; f_equal; auto. Qed.

Lemma flat_map_seq_shift {A} (f : nat -> list A) n a :
  flat_map f (seq (S a) n) = flat_map (fun k => f (S k)) (seq a n).
Proof. rewrite <- seq_shift, !flat_map_concat_map, map_map. reflexivity. Qed.

Lemma balanced_perm {A} P (l : list A) : 1 <= P ->
  Permutation (flat_map (fun k => islice P k l) (seq 0 P)) l.
Proof.
  intros HP. induction l as [|x l IH].
  - assert (E : forall s, flat_map (fun k => @islice A P k []) s = []) by (induction s; cbn; auto).
    now rewrite E.
  - destruct P as [|P]; [lia|]. cbn [seq flat_map islice app].
    rewrite flat_map_seq_shift. cbn [islice].
    replace (S P - 1) with P by lia.
    constructor.
    rewrite seq_S, flat_map_app in IH. cbn [flat_map Nat.add] in IH. rewrite app_nil_r in IH.
    etransitivity; [apply Permutation_app_comm|exact IH].
Qed.

Lemma nth_error_In_iff {A} (l : list A) x : In x l <-> exists n, nth_error l n = Some x.
Proof. split; [apply In_nth_error|intros [n H]; eapply nth_error_In; eauto]. Qed.

Lemma balanced_sizes {A} P (l : list A) i j : 1 <= P -> i < P -> j < P ->
  length (balanced P i l) <= length (balanced P j l) + 1.
Proof.
  intros HP Hi Hj. unfold balanced. rewrite !islice_length by auto.
  assert (H : forall a, (a + P) / P = a / P + 1).
  { intros a. replace (a + P) with (a + 1 * P) by lia. now rewrite Nat.div_add by lia. }
  rewrite <- H. apply Nat.div_le_mono; lia.
Qed.

(** ** loading *)
Lemma load_all_app load r m a b :
  load_all load r m (a ++ b) =
  match load_all load r m a, load_all load r m b with
  | Some x, Some y => Some (x ++ y) | _, _ => None end.
Proof.
  induction a as [|f a IH]; cbn.
  - now destruct (load_all load r m b).
  - rewrite IH. destruct (filterTracks _ _ _), (load_all load r m a), (load_all load r m b); auto.
    now rewrite app_assoc.
Qed.

Lemma load_all_In load r m fs : forall out, load_all load r m fs = Some out ->
  forall f, In f fs -> exists ts, filterTracks (load f) r m = Some ts.
Proof.
  induction fs as [|f fs IH]; cbn; intros out H f' Hf; [destruct Hf|].
  destruct (filterTracks (load f) r m) as [ts|] eqn:E; [|discriminate].
  destruct (load_all load r m fs) as [o|]; [|discriminate].
  destruct Hf as [<-|Hf]; eauto.
Qed.
Lemma load_all_ok load r m fs :
  (forall f, In f fs -> exists ts, filterTracks (load f) r m = Some ts) ->
  load_all load r m fs = Some (flat_map (fun f => match filterTracks (load f) r m with Some t => t | None => [] end) fs).
Proof.
  induction fs as [|f fs IH]; cbn; intros H; auto.
  destruct (H f (or_introl eq_refl)) as [ts E]. rewrite E, IH; auto.
Qed.

Lemma islice_In {A} P (l : list A) k x : 1 <= P -> In x (islice P k l) -> In x l.
Proof.
  intros HP H. apply In_nth_error in H as [n H]. rewrite islice_nth in H by auto.
  eapply nth_error_In; eauto.
Qed.

(* the union over ranks *)
Lemma load_partition load r m size files : 1 <= size -> files <> [] ->
  (forall f, In f files -> exists ts, filterTracks (load f) r m = Some ts) ->
  exists per_rank : nat -> list track,
    (forall rank, rank < size -> loadTracksFromFiles load r m size rank files = inl (per_rank rank)) /\
    Permutation (flat_map per_rank (seq 0 size))
      (flat_map (fun f => match filterTracks (load f) r m with Some t => t | None => [] end) files).
Proof.
  intros HP Hne Hok.
  destruct files as [|f [|f2 fs]]; [congruence| |].
  - destruct (Hok f (or_introl eq_refl)) as [ts E].
    exists (fun k => balanced size k ts). split.
    + intros rank _. cbn. now rewrite E.
    + cbn. rewrite E, app_nil_r. now apply balanced_perm.
  - set (files := f :: f2 :: fs) in *.
    set (g := fun f => match filterTracks (load f) r m with Some t => t | None => [] end).
    exists (fun k => flat_map g (balanced size k files)). split.
    + intros rank Hr. unfold loadTracksFromFiles, files. fold files.
      rewrite load_all_ok; auto.
      intros f' Hf'. apply Hok. eapply islice_In; eauto.
    + assert (E : flat_map (fun k => flat_map g (balanced size k files)) (seq 0 size)
                  = flat_map g (flat_map (fun k => balanced size k files) (seq 0 size))).
      { induction (seq 0 size) as [|a l IH]; cbn [flat_map]; auto. rewrite flat_map_app. f_equal. exact IH. }
      rewrite E. apply Permutation_flat_map. now apply balanced_perm.
Qed.

(** ** sorting removes the listing order *)
Section Sort.
  Context {F : Type} (leb : F -> F -> bool).
  Hypothesis leb_total : forall x y, leb x y = true \/ leb y x = true.
  Hypothesis leb_trans : forall x y z, leb x y = true -> leb y z = true -> leb x z = true.
  Hypothesis leb_antisym : forall x y, leb x y = true -> leb y x = true -> x = y.
  Lemma ins_perm x l : Permutation (ins leb x l) (x :: l).
  Proof.
    induction l as [|y l IH]; cbn; auto. destruct (leb x y); auto.
    rewrite IH. constructor.
  Qed.
  Lemma isort_perm l : Permutation (isort leb l) l.
  Proof. induction l as [|x l IH]; cbn; auto. now rewrite ins_perm, IH. Qed.
  Notation le := (fun x y => leb x y = true).
  Lemma ins_sorted x l : StronglySorted le l -> StronglySorted le (ins leb x l).
  Proof.
    induction 1 as [|y l Hs IH Hf]; cbn; [repeat constructor|].
    destruct (leb x y) eqn:E.
    - constructor; [constructor; auto|]. constructor; auto.
      eapply Forall_impl; [|exact Hf]. intros a Ha. eauto.
    - constructor; auto. eapply Permutation_Forall; [symmetry; apply ins_perm|].
      constructor; auto. destruct (leb_total x y); congruence.
  Qed.
  Lemma isort_sorted l : StronglySorted le (isort leb l).
  Proof. induction l as [|x l IH]; cbn; [constructor|]. now apply ins_sorted. Qed.
  Lemma sorted_unique l l' : StronglySorted le l -> StronglySorted le l' -> Permutation l l' -> l = l'.
  Proof.
    intros H. revert l'. induction H as [|x l Hs IH Hf]; intros l' Hs' Hp.
    - apply Permutation_nil in Hp. now subst.
    - destruct Hs' as [|y l' Hs' Hf']; [apply Permutation_sym, Permutation_nil in Hp; discriminate|].
      assert (x = y).
      { apply leb_antisym.
        - assert (Hi : In y (x :: l)) by (eapply Permutation_in; [symmetry; exact Hp|now left]).
          destruct Hi as [->|Hi]; [destruct (leb_total y y); auto|].
          rewrite Forall_forall in Hf. auto.
        - assert (Hi : In x (y :: l')) by (eapply Permutation_in; [exact Hp|now left]).
          destruct Hi as [->|Hi]; [destruct (leb_total x x); auto|].
          rewrite Forall_forall in Hf'. auto. }
      subst y. f_equal. apply IH; auto. eapply Permutation_cons_inv; eauto.
  Qed.
  Lemma isort_order_free l l' : Permutation l l' -> isort leb l = isort leb l'.
  Proof.
    intros H. apply sorted_unique; auto using isort_sorted.
    now rewrite !isort_perm.
  Qed.
End Sort.

Lemma isort_nonempty {F} leb (l : list F) : l <> [] -> isort leb l <> [].
Proof. intros H E. apply H. apply Permutation_nil. rewrite <- E. apply isort_perm. Qed.

Lemma ranks_partition (leb : Z -> Z -> bool) load r m size (listing : nat -> list Z) (files : list Z) :
  (forall x y, leb x y = true \/ leb y x = true) ->
  (forall x y z, leb x y = true -> leb y z = true -> leb x z = true) ->
  (forall x y, leb x y = true -> leb y x = true -> x = y) ->
  1 <= size -> files <> [] ->
  (forall rank, rank < size -> Permutation (listing rank) files) ->
  (forall f, In f files -> exists ts, filterTracks (load f) r m = Some ts) ->
  exists per_rank : nat -> list track,
    (forall rank, rank < size ->
       rank_tracks load r m size rank leb (listing rank) = inl (per_rank rank)) /\
    Permutation (flat_map per_rank (seq 0 size))
      (flat_map (fun f => match filterTracks (load f) r m with Some t => t | None => [] end) files).
Proof.
  intros T1 T2 T3 HP Hne Hl Hok.
  destruct (load_partition load r m size (isort leb files) HP) as (pr & H1 & H2).
  - now apply isort_nonempty.
  - intros f Hf. apply Hok. eapply Permutation_in; [apply isort_perm|exact Hf].
  - exists pr. split.
    + intros rank Hr. unfold rank_tracks.
      rewrite (isort_order_free leb T1 T2 T3 _ files); auto.
    + rewrite H2. apply Permutation_flat_map, isort_perm.
Qed.

(** ** region filter *)
Local Open Scope Q_scope.
Lemma qmaximum_none l : qmaximum l = None -> l = [].
Proof. destruct l as [|a l]; auto. cbn. destruct (qmaximum l); discriminate. Qed.
Lemma qminimum_none l : qminimum l = None -> l = [].
Proof. destruct l as [|a l]; auto. cbn. destruct (qminimum l); discriminate. Qed.
Lemma qmaximum_spec l : forall m, qmaximum l = Some m ->
  (forall x, In x l -> x <= m) /\ (exists x, In x l /\ x == m).
Proof.
  induction l as [|a l IH]; cbn; intros m H; [discriminate|].
  destruct (qmaximum l) as [m'|] eqn:E0.
  - injection H as <-. destruct (IH m' eq_refl) as [H1 [x [H2 H3]]]. split.
    + intros y [<-|Hy]; [apply Q.le_max_l|]. eapply Qle_trans; [apply H1; auto|apply Q.le_max_r].
    + destruct (Qlt_le_dec a m') as [E|E].
      * exists x. split; [now right|]. rewrite Q.max_r; auto using Qlt_le_weak.
      * exists a. split; [now left|]. rewrite Q.max_l; auto. reflexivity.
  - injection H as <-. apply qmaximum_none in E0. subst l.
    split; [intros x [<-|[]]; apply Qle_refl|exists a; split; [now left|reflexivity]].
Qed.
Lemma qminimum_spec l : forall m, qminimum l = Some m ->
  (forall x, In x l -> m <= x) /\ (exists x, In x l /\ x == m).
Proof.
  induction l as [|a l IH]; cbn; intros m H; [discriminate|].
  destruct (qminimum l) as [m'|] eqn:E0.
  - injection H as <-. destruct (IH m' eq_refl) as [H1 [x [H2 H3]]]. split.
    + intros y [<-|Hy]; [apply Q.le_min_l|]. eapply Qle_trans; [apply Q.le_min_r|apply H1; auto].
    + destruct (Qlt_le_dec a m') as [E|E].
      * exists a. split; [now left|]. rewrite Q.min_l; auto using Qlt_le_weak. reflexivity.
      * exists x. split; [now right|]. rewrite Q.min_r; auto.
  - injection H as <-. apply qminimum_none in E0. subst l.
    split; [intros x [<-|[]]; apply Qle_refl|exists a; split; [now left|reflexivity]].
Qed.

Lemma inRegion_some t r m : pts t <> [] -> exists b, inRegion t r m = Some b.
Proof.
  intros H. unfold inRegion.
  destruct (qmaximum (map fst (pts t))) eqn:E1; [|apply qmaximum_none, map_eq_nil in E1; congruence].
  destruct (qminimum (map fst (pts t))) eqn:E2; [|apply qminimum_none, map_eq_nil in E2; congruence].
  destruct (qmaximum (map snd (pts t))) eqn:E3; [|apply qmaximum_none, map_eq_nil in E3; congruence].
  destruct (qminimum (map snd (pts t))) eqn:E4; [|apply qminimum_none, map_eq_nil in E4; congruence].
  eauto.
Qed.

Lemma inRegion_iff t r m : pts t <> [] ->
  (inRegion t r m = Some true <->
   (exists p, In p (pts t) /\ xMin r - m <= fst p) /\ (exists p, In p (pts t) /\ fst p <= xMax r + m) /\
   (exists p, In p (pts t) /\ yMin r - m <= snd p) /\ (exists p, In p (pts t) /\ snd p <= yMax r + m)).
Proof.
  intros H. unfold inRegion.
  destruct (qmaximum (map fst (pts t))) as [a|] eqn:E1; [|apply qmaximum_none, map_eq_nil in E1; congruence].
  destruct (qminimum (map fst (pts t))) as [b|] eqn:E2; [|apply qminimum_none, map_eq_nil in E2; congruence].
  destruct (qmaximum (map snd (pts t))) as [c|] eqn:E3; [|apply qmaximum_none, map_eq_nil in E3; congruence].
  destruct (qminimum (map snd (pts t))) as [d|] eqn:E4; [|apply qminimum_none, map_eq_nil in E4; congruence].
  apply qmaximum_spec in E1 as [A1 (a' & A2 & A3)].
  apply qminimum_spec in E2 as [B1 (b' & B2 & B3)].
  apply qmaximum_spec in E3 as [C1 (c' & C2 & C3)].
  apply qminimum_spec in E4 as [D1 (d' & D2 & D3)].
  apply in_map_iff in A2 as (pa & <- & A2). apply in_map_iff in B2 as (pb & <- & B2).
  apply in_map_iff in C2 as (pc & <- & C2). apply in_map_iff in D2 as (pd & <- & D2).
  split.
  - intros E. injection E as E. rewrite !andb_true_iff, !Qle_bool_iff in E.
    destruct E as [[[E1 E2] E3] E4]. repeat split.
    + exists pa. split; auto. now rewrite A3.
    + exists pb. split; auto. now rewrite B3.
    + exists pc. split; auto. now rewrite C3.
    + exists pd. split; auto. now rewrite D3.
  - intros ((p1 & I1 & L1) & (p2 & I2 & L2) & (p3 & I3 & L3) & (p4 & I4 & L4)).
    f_equal. rewrite !andb_true_iff, !Qle_bool_iff. repeat split.
    + eapply Qle_trans; [exact L1|]. apply A1. now apply in_map.
    + eapply Qle_trans; [|exact L2]. apply B1. now apply in_map.
    + eapply Qle_trans; [exact L3|]. apply C1. now apply in_map.
    + eapply Qle_trans; [|exact L4]. apply D1. now apply in_map.
Qed.

Lemma filter_opt_spec f l : forall out, filter_opt f l = Some out ->
  forall t, In t out <-> In t l /\ f t = Some true.
Proof.
  induction l as [|a l IH]; cbn; intros out H t.
  - injection H as <-. cbn. tauto.
  - destruct (f a) as [b|] eqn:E; [|discriminate]. destruct (filter_opt f l) as [o|]; [|discriminate].
    injection H as <-. specialize (IH o eq_refl t). destruct b; cbn; rewrite IH; split.
    + intros [<-|[H1 H2]]; auto.
    + intros [[<-|H1] H2]; auto.
    + intros [H1 H2]; auto.
    + intros [[<-|H1] H2]; auto. congruence.
Qed.
Lemma filter_opt_ok f l : (forall t, In t l -> exists b, f t = Some b) -> exists out, filter_opt f l = Some out.
Proof.
  induction l as [|a l IH]; cbn; intros H; eauto.
  destruct (H a (or_introl eq_refl)) as [b ->]. destruct IH as [o ->]; auto. eauto.
Qed.

(** ** setGridLimit *)
Lemma Qfloor_greatest x (n : Z) : inject_Z n <= x -> (n <= Qfloor x)%Z.
Proof. intros H. rewrite <- (Qfloor_Z n). now apply Qfloor_resp_le. Qed.
Lemma Qceiling_least x (n : Z) : x <= inject_Z n -> (Qceiling x <= n)%Z.
Proof. intros H. rewrite <- (Qceiling_Z n). now apply Qceiling_resp_le. Qed.

(** Positions within the sentinel range used by the code. *)
Lemma setGridLimit_spec t r : pts t <> [] ->
  (forall p, In p (pts t) -> fst p <= 9999 /\ -9999 <= fst p /\ snd p <= 9999 /\ -9999 <= snd p) ->
  setGridLimit t = Some r ->
  exists a b c d : Z, r = {| xMin := inject_Z a; xMax := inject_Z b; yMin := inject_Z c; yMax := inject_Z d |} /\
  (forall p, In p (pts t) -> inject_Z a <= fst p <= inject_Z b /\ inject_Z c <= snd p <= inject_Z d) /\
  (forall a' b' c' d' : Z,
     (forall p, In p (pts t) -> inject_Z a' <= fst p <= inject_Z b' /\ inject_Z c' <= snd p <= inject_Z d') ->
     (a' <= a /\ b <= b' /\ c' <= c /\ d <= d')%Z).
Proof.
  intros H Hr. unfold setGridLimit.
  destruct (qmaximum (map fst (pts t))) as [a|] eqn:E1; [|apply qmaximum_none, map_eq_nil in E1; congruence].
  destruct (qminimum (map fst (pts t))) as [b|] eqn:E2; [|apply qminimum_none, map_eq_nil in E2; congruence].
  destruct (qmaximum (map snd (pts t))) as [c|] eqn:E3; [|apply qmaximum_none, map_eq_nil in E3; congruence].
  destruct (qminimum (map snd (pts t))) as [d|] eqn:E4; [|apply qminimum_none, map_eq_nil in E4; congruence].
  apply qmaximum_spec in E1 as [A1 (a' & A2 & A3)].
  apply qminimum_spec in E2 as [B1 (b' & B2 & B3)].
  apply qmaximum_spec in E3 as [C1 (c' & C2 & C3)].
  apply qminimum_spec in E4 as [D1 (d' & D2 & D3)].
  apply in_map_iff in A2 as (pa & <- & A2). apply in_map_iff in B2 as (pb & <- & B2).
  apply in_map_iff in C2 as (pc & <- & C2). apply in_map_iff in D2 as (pd & <- & D2).
  intros E. injection E as <-.
  eexists _, _, _, _. split; [reflexivity|]. split.
  - intros p Hp. split; split.
    + eapply Qle_trans; [apply Qfloor_le|]. eapply Qle_trans; [apply Q.le_min_r|].
      apply B1. now apply in_map.
    + eapply Qle_trans; [|apply Qle_ceiling]. eapply Qle_trans; [|apply Q.le_max_r].
      apply A1. now apply in_map.
    + eapply Qle_trans; [apply Qfloor_le|]. eapply Qle_trans; [apply Q.le_min_r|].
      apply D1. now apply in_map.
    + eapply Qle_trans; [|apply Qle_ceiling]. eapply Qle_trans; [|apply Q.le_max_r].
      apply C1. now apply in_map.
  - intros a1 b1 c1 d1 Hall.
    destruct (Hall pa A2) as [[_ PA] _]. destruct (Hall pb B2) as [[PB _] _].
    destruct (Hall pc C2) as [_ [_ PC]]. destruct (Hall pd D2) as [_ [PD _]].
    destruct (Hr pa A2) as (_ & RA & _). destruct (Hr pb B2) as (RB & _).
    destruct (Hr pc C2) as (_ & _ & _ & RC). destruct (Hr pd D2) as (_ & _ & RD & _).
    repeat split.
    + apply Qfloor_greatest. apply Q.min_glb; [eapply Qle_trans; eauto|]. now rewrite <- B3.
    + apply Qceiling_least. apply Q.max_lub; [eapply Qle_trans; [exact RA|auto]|]. now rewrite <- A3.
    + apply Qfloor_greatest. apply Q.min_glb; [eapply Qle_trans; eauto|]. now rewrite <- D3.
    + apply Qceiling_least. apply Q.max_lub; [eapply Qle_trans; [exact RC|auto]|]. now rewrite <- C3.
Qed.

Lemma filter_total : forall ts r margin, (forall t, In t ts -> pts t <> []) ->
  exists out, filterTracks ts r margin = Some out /\
    forall t, In t out <-> In t ts /\ (forall reg, r = Some reg -> inRegion t reg margin = Some true).
Proof.
  intros ts [reg|] margin H; cbn.
  - destruct (filter_opt_ok (fun t => inRegion t reg margin) ts) as [out E].
    { intros t Ht. apply inRegion_some; auto. }
    exists out. split; auto. intros t. rewrite (filter_opt_spec _ _ _ E). split.
    + intros [H1 H2]. split; auto. intros reg' Hr. now injection Hr as <-.
    + intros [H1 H2]. split; auto.
  - exists ts. split; auto. intros t. split; [|tauto]. intros Ht. split; auto. discriminate.
Qed.

Lemma keeps_entering : forall t reg margin p,
  In p (pts t) ->
  xMin reg - margin <= fst p <= xMax reg + margin ->
  yMin reg - margin <= snd p <= yMax reg + margin ->
  inRegion t reg margin = Some true.
Proof.
  intros t reg margin p Hp [H1 H2] [H3 H4]. apply inRegion_iff; [intros E; rewrite E in Hp; destruct Hp|].
  repeat split; exists p; auto.
Qed.

Lemma discards_outside : forall t reg margin,
  inRegion t reg margin = Some false ->
  (forall p, In p (pts t) -> fst p < xMin reg - margin) \/
  (forall p, In p (pts t) -> xMax reg + margin < fst p) \/
  (forall p, In p (pts t) -> snd p < yMin reg - margin) \/
  (forall p, In p (pts t) -> yMax reg + margin < snd p).
Proof.
  intros t reg margin. unfold inRegion.
  destruct (qmaximum (map fst (pts t))) as [a|] eqn:E1; [|discriminate].
  destruct (qminimum (map fst (pts t))) as [b|] eqn:E2; [|discriminate].
  destruct (qmaximum (map snd (pts t))) as [c|] eqn:E3; [|discriminate].
  destruct (qminimum (map snd (pts t))) as [d|] eqn:E4; [|discriminate].
  apply qmaximum_spec in E1 as [A1 _]. apply qminimum_spec in E2 as [B1 _].
  apply qmaximum_spec in E3 as [C1 _]. apply qminimum_spec in E4 as [D1 _].
  intros H. injection H as H.
  assert (HN : forall x y, Qle_bool x y = false -> y < x).
  { intros x y Hb. apply Qnot_le_lt. intros Hl. apply Qle_bool_iff in Hl. congruence. }
  rewrite !andb_false_iff in H. destruct H as [[[H|H]|H]|H]; apply HN in H.
  - left. intros p Hp. eapply Qle_lt_trans; [|exact H]. apply A1. now apply in_map.
  - right. left. intros p Hp. eapply Qlt_le_trans; [exact H|]. apply B1. now apply in_map.
  - right. right. left. intros p Hp. eapply Qle_lt_trans; [|exact H]. apply C1. now apply in_map.
  - right. right. right. intros p Hp. eapply Qlt_le_trans; [exact H|]. apply D1. now apply in_map.
Qed.

Lemma kept_without_entering : exists t reg margin,
  inRegion t reg margin = Some true /\
  forall p, In p (pts t) -> ~ (xMin reg - margin <= fst p <= xMax reg + margin /\
                              yMin reg - margin <= snd p <= yMax reg + margin).
Proof.
  exists {| tid := 1; pts := [(-20, 5); (5, 40)] |}, {| xMin := 0; xMax := 10; yMin := 0; yMax := 10 |}, 1.
  split; [vm_compute; reflexivity|].
  intros p [<-|[<-|[]]] [[H1 H2] [H3 H4]]; cbn in *.
  - revert H1. now vm_compute.
  - revert H4. now vm_compute.
Qed.

Lemma first_domain : forall t ts,
  pts t <> [] ->
  (forall p, In p (pts t) -> fst p <= 9999 /\ -9999 <= fst p /\ snd p <= 9999 /\ -9999 <= snd p) ->
  exists a b c d rest,
  domains_used None (t :: ts) =
    Some {| xMin := inject_Z a; xMax := inject_Z b; yMin := inject_Z c; yMax := inject_Z d |} :: rest /\
  (forall p, In p (pts t) -> inject_Z a <= fst p <= inject_Z b /\ inject_Z c <= snd p <= inject_Z d) /\
  (forall a' b' c' d' : Z,
     (forall p, In p (pts t) -> inject_Z a' <= fst p <= inject_Z b' /\ inject_Z c' <= snd p <= inject_Z d') ->
     (a' <= a /\ b <= b' /\ c' <= c /\ d <= d')%Z).
Proof.
  intros t ts H Hr.
  assert (exists r, setGridLimit t = Some r) as [r Er].
  { unfold setGridLimit.
    destruct (qmaximum (map fst (pts t))) eqn:E1; [|apply qmaximum_none, map_eq_nil in E1; congruence].
    destruct (qminimum (map fst (pts t))) eqn:E2; [|apply qminimum_none, map_eq_nil in E2; congruence].
    destruct (qmaximum (map snd (pts t))) eqn:E3; [|apply qmaximum_none, map_eq_nil in E3; congruence].
    destruct (qminimum (map snd (pts t))) eqn:E4; [|apply qminimum_none, map_eq_nil in E4; congruence].
    eauto. }
  destruct (setGridLimit_spec t r H Hr Er) as (a & b & c & d & -> & H1 & H2).
  exists a, b, c, d. eexists. cbn [domains_used]. rewrite Er. split; [reflexivity|]. split; auto.
Qed.

Lemma later_domain : exists t1 t2 r1 r2,
  pts t1 <> [] /\ pts t2 <> [] /\
  domains_used None [t1; t2] = [Some r1; Some r2] /\
  forall p, In p (pts t2) -> ~ (xMin r2 <= fst p <= xMax r2).
Proof.
  exists {| tid := 1; pts := [(5, 5); (6, 6)] |}, {| tid := 2; pts := [(50, 5); (60, 6)] |}.
  exists {| xMin := 5; xMax := 6; yMin := 5; yMax := 6 |}, {| xMin := 5; xMax := 6; yMin := 5; yMax := 6 |}.
  repeat split; try discriminate.
  intros p [<-|[<-|[]]] [H1 H2]; revert H2; now vm_compute.
Qed.

Lemma later_domain_general : forall t ts n, pts t <> [] ->
  (n < length ts)%nat ->
  nth_error (domains_used None (t :: ts)) (S n) = Some (setGridLimit t).
Proof.
  intros t ts n H Hn. cbn [domains_used nth_error].
  assert (exists r, setGridLimit t = Some r) as [r Er].
  { unfold setGridLimit.
    destruct (qmaximum (map fst (pts t))) eqn:E1; [|apply qmaximum_none, map_eq_nil in E1; congruence].
    destruct (qminimum (map fst (pts t))) eqn:E2; [|apply qminimum_none, map_eq_nil in E2; congruence].
    destruct (qmaximum (map snd (pts t))) eqn:E3; [|apply qmaximum_none, map_eq_nil in E3; congruence].
    destruct (qminimum (map snd (pts t))) eqn:E4; [|apply qminimum_none, map_eq_nil in E4; congruence].
    eauto. }
  rewrite Er. clear Er H t. revert n Hn. induction ts as [|t ts IH]; intros n Hn; cbn in Hn; [lia|].
  cbn [domains_used]. destruct n as [|n]; cbn [nth_error]; auto. apply IH. lia.
Qed.
