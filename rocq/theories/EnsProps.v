(** Properties of the maps over all simulations: C179 and C180. *)
From Coq Require Import List Arith ZArith Lia Bool QArith Qround Lqa Permutation.
From Verif Require Import Base CellModel CellProofs NumModel NumProofs SampModel LmomModel LmomProofs FitModel FitProofs DensityModel DensityProofs
  StoreModel StoreProps CurveModel CurveProps EnsModel.
Import ListNotations.
Close Scope Q_scope. Open Scope nat_scope.

(** ** Sorted lists *)
Lemma filter_all {A} (f : A -> bool) l : (forall x, In x l -> f x = false) -> filter f l = [].
Proof. induction l as [|a l IH]; intros H; cbn; [reflexivity|]. rewrite H by now left. apply IH. intros x Hx. apply H. now right. Qed.
Lemma asc_le_count l v : asc l -> forall k, k < length l -> ((nth k l 0 <= v)%Q <-> k < length (filter (fun x => Qle_bool x v) l)).
Proof.
  induction 1 as [|a l H1 H2 IH]; intros k K; cbn [length] in K; [lia|]. cbn [filter].
  destruct (Qle_bool a v) eqn:E.
  - apply Qle_bool_iff in E. cbn [length]. destruct k as [|k]; cbn [nth]; [split; [lia|auto]|]. rewrite IH by lia. lia.
  - assert (N : ~ (a <= v)%Q) by (intros C; apply Qle_bool_iff in C; congruence).
    rewrite filter_all; [|intros x Hx; apply not_true_iff_false; intros C; apply Qle_bool_iff in C; apply N; specialize (H1 x Hx); lra].
    cbn [length]. split; [|lia]. intros C. exfalso. apply N. destruct k as [|k]; cbn [nth] in C; [exact C|].
    assert (In (nth k l 0%Q) l) by (apply nth_In; lia). specialize (H1 _ H). lra.
Qed.
Lemma asc_lt_count l v : asc l -> forall k, k < length l -> (v <= nth k l 0)%Q -> length (filter (fun x => qlt x v) l) <= k.
Proof.
  induction 1 as [|a l H1 H2 IH]; intros k K V; cbn [length] in K; [lia|]. cbn [filter]. destruct k as [|k]; cbn [nth] in V.
  - assert (Z : forall x, In x (a :: l) -> qlt x v = false).
    { intros x Hx. apply not_true_iff_false. intros C. apply qlt_iff in C. destruct Hx as [<-|Hx]; [lra|]. specialize (H1 x Hx). lra. }
    rewrite (Z a) by now left. rewrite filter_all; [cbn; lia|]. intros x Hx. apply Z. now right.
  - specialize (IH k ltac:(lia) V). destruct (qlt a v); cbn [length]; lia.
Qed.
Lemma filter_map_len {A B} (f : A -> B) (p : B -> bool) l : length (filter p (map f l)) = length (filter (fun x => p (f x)) l).
Proof. induction l as [|a l IH]; cbn; [reflexivity|]. destruct (p (f a)); cbn; now rewrite IH. Qed.
Lemma perm_filter {A} (f : A -> bool) l l' : Permutation l l' -> length (filter f l) = length (filter f l').
Proof. induction 1; cbn [filter]; [reflexivity|destruct (f x); cbn; lia|destruct (f x), (f y); reflexivity|lia]. Qed.
Lemma sortq_perm_nth l l' k : Permutation l l' -> k < length l -> (nth k (sortq l) 0 == nth k (sortq l') 0)%Q.
Proof.
  intros P K.
  assert (H : forall a b, Permutation a b -> k < length a -> (nth k (sortq a) 0 <= nth k (sortq b) 0)%Q).
  { intros a b Pab Ka. assert (La : length (sortq a) = length a) by (apply Permutation_length, sortq_perm).
    assert (Lb : length (sortq b) = length a) by (rewrite (Permutation_length (sortq_perm b)); now apply Permutation_length, Permutation_sym).
    apply asc_le_count; [apply sortq_asc|lia|].
    rewrite (perm_filter _ (sortq a) (sortq b)) by (rewrite (sortq_perm a), Pab; apply Permutation_sym, sortq_perm).
    apply asc_le_count; [apply sortq_asc|lia|]. lra. }
  pose proof (H _ _ P K). pose proof (H _ _ (Permutation_sym P) ltac:(rewrite <- (Permutation_length P); exact K)). lra.
Qed.
Lemma percentile_perm l l' q : l <> [] -> (0 <= q <= 100)%Q -> Permutation l l' -> (percentile l q == percentile l' q)%Q.
Proof.
  intros N [Q0 Q1] P. assert (N' : l' <> []) by (intros ->; apply Permutation_sym, Permutation_nil in P; contradiction).
  pose proof (Permutation_length P) as L.
  assert (G : forall k, (nth k (sortq l) 0 == nth k (sortq l') 0)%Q).
  { intros k. destruct (Nat.lt_ge_cases k (length l)) as [K|K]; [now apply sortq_perm_nth|].
    rewrite !nth_overflow; [reflexivity| |]; rewrite (Permutation_length (sortq_perm _)); lia. }
  unfold percentile. rewrite <- L. set (i := Z.to_nat _). set (w := (_ - qn i)%Q).
  destruct (Qeq_bool w 0); rewrite ?(G i), ?(G (i + 1)); reflexivity.
Qed.
Lemma sumq_perm l l' : Permutation l l' -> (sumq l == sumq l')%Q.
Proof. induction 1; cbn; [reflexivity|rewrite IHPermutation; reflexivity|ring|lra]. Qed.
Lemma meanq_perm l l' : Permutation l l' -> (meanq l == meanq l')%Q.
Proof. intros P. unfold meanq. rewrite (sumq_perm _ _ P), (Permutation_length P). reflexivity. Qed.

(** ** Matrices *)
Lemma nth_map_seq {A} (f : nat -> A) n i d : i < n -> nth i (map f (seq 0 n)) d = f i.
Proof. intros H. rewrite nth_indep with (d' := f 0) by (rewrite map_length, seq_length; lia). rewrite map_nth, seq_nth by lia. reflexivity. Qed.
Lemma transpose_at r c m i j : i < r -> j < c -> at2 (transpose r c m) j i = at2 m i j.
Proof. intros Hi Hj. unfold at2 at 1, transpose. rewrite nth_map_seq by exact Hj. now rewrite nth_map_seq by exact Hi. Qed.
Lemma overSims_at f nx ny sims i j : i < nx -> j < ny -> at2 (overSims f nx ny sims) i j = f (map (fun m => at2 m i j) sims).
Proof. intros Hi Hj. unfold at2 at 1, overSims. rewrite nth_map_seq by exact Hi. now rewrite nth_map_seq by exact Hj. Qed.
Lemma evalFile_some shown lons lats hist sims e : evalFile shown lons lats hist sims = Some e ->
  (forall k, In k shown -> k < length sims) /\ e_lat e = lats /\ e_lon e = lons /\
  forall i j, i < length lons -> j < length lats ->
    at2 (e_hist e) j i = at2 hist i j /\
    at2 (e_mean e) j i = meanq (map (fun m => at2 m i j) sims) /\
    at2 (e_upper e) j i = percentile (map (fun m => at2 m i j) sims) 95 /\
    at2 (e_lower e) j i = percentile (map (fun m => at2 m i j) sims) 5.
Proof.
  unfold evalFile. destruct (forallb _ shown) eqn:F; [|discriminate]. intros H. injection H as <-. cbn [e_lat e_lon e_hist e_mean e_upper e_lower].
  split; [intros k Hk; rewrite forallb_forall in F; apply Nat.ltb_lt, F, Hk|]. split; [reflexivity|]. split; [reflexivity|].
  intros i j Hi Hj. rewrite !transpose_at by assumption. rewrite !overSims_at by assumption. auto.
Qed.

(** * C179 *)
(** The file holds, for each latitude and longitude, the historical value of that cell, the mean over the simulations,
    which lies between their smallest and largest value, and a lower and upper value between these, such that no
    more than about a twentieth of the simulations lie below or above: 20 k < n + 19 for k of n simulations. *)
Theorem c179_cells : forall shown lons lats hist sims e i j, evalFile shown lons lats hist sims = Some e -> sims <> [] ->
  i < length lons -> j < length lats ->
  let here m := nth j (nth i m []) 0%Q in
  let above v := length (filter (fun m => negb (Qle_bool (here m) v)) sims) in
  let below v := length (filter (fun m => qlt (here m) v) sims) in
  e_lat e = lats /\ e_lon e = lons /\ at2 (e_hist e) j i = here hist /\
  (forall lo hi, (forall m, In m sims -> lo <= here m <= hi)%Q ->
     (lo <= at2 (e_mean e) j i <= hi /\ lo <= at2 (e_lower e) j i /\ at2 (e_upper e) j i <= hi)%Q) /\
  (at2 (e_mean e) j i * inject_Z (Z.of_nat (length sims)) == fold_right Qplus 0 (map here sims))%Q /\
  (at2 (e_lower e) j i <= at2 (e_upper e) j i)%Q /\
  20 * above (at2 (e_upper e) j i) < length sims + 19 /\ 20 * below (at2 (e_lower e) j i) < length sims + 19.
Proof.
  intros shown lons lats hist sims e i j H N Hi Hj here above below.
  destruct (evalFile_some _ _ _ _ _ _ H) as (_ & La & Lo & C). destruct (C i j Hi Hj) as (C1 & C2 & C3 & C4).
  split; [exact La|]. split; [exact Lo|]. split; [exact C1|]. rewrite C2, C3, C4.
  set (v := map (fun m => at2 m i j) sims). assert (Nv : v <> []) by (unfold v; destruct sims; [congruence|discriminate]).
  assert (Lv : length v = length sims) by apply map_length.
  destruct (c172_percentiles v Nv) as (M & Hi1 & Lo1 & _).
  split; [|split; [|split; [|split]]].
  - intros lo hi B. assert (B' : forall x, In x v -> (lo <= x <= hi)%Q).
    { intros x Hx. apply in_map_iff in Hx. destruct Hx as (m & <- & Hm). apply (B m Hm). }
    split; [now apply mean_bounds|]. split.
    + apply Lo1; try lra. intros x Hx. apply B', Hx.
    + apply Hi1; try lra. intros x Hx. apply B', Hx.
  - rewrite <- Lv. apply mean_times. exact Nv.
  - apply M; lra.
  - unfold above. assert (E : length (filter (fun m => negb (Qle_bool (here m) (percentile v 95))) sims) =
      length v - length (filter (fun x => Qle_bool x (percentile v 95)) (sortq v))).
    { rewrite (perm_filter _ _ v (sortq_perm v)). unfold v at 2 4. rewrite map_length. set (p := percentile v 95). clearbody p. fold here.
      clear. induction sims as [|m sims IH]; [reflexivity|]. cbn [map filter length]. unfold here in *. fold (at2 m i j) in *.
      assert (X : length (filter (fun x => Qle_bool x p) (map (fun m => at2 m i j) sims)) <= length sims).
      { clear. induction sims as [|m sims IH]; [cbn; lia|]. cbn. destruct (Qle_bool _ _); cbn; lia. }
      destruct (Qle_bool (at2 m i j) p); cbn [negb length]; lia. }
    rewrite E. destruct (percentile_spec v 95 Nv ltac:(lra) ltac:(lra)) as (k & w & K & W0 & W1 & WK & X & P).
    destruct (percentile_bounds v k w K W0 W1 WK) as [B _]. rewrite <- P in B.
    assert (SL : length (sortq v) = length v) by apply Permutation_length, sortq_perm.
    apply (asc_le_count _ _ (sortq_asc v) k) in B; [|lia].
    assert (Y : (qn (20 * (length v - 1 - k)) < qn (length v + 19))%Q).
    { unfold qn in *. rewrite Nat2Z.inj_mul, Nat2Z.inj_add, inject_Z_mult, inject_Z_plus.
      replace (Z.of_nat (length v - 1 - k)) with (Z.of_nat (length v) + (- (1) + - Z.of_nat k))%Z by lia.
      rewrite !inject_Z_plus, !inject_Z_opp.
      change (inject_Z (Z.of_nat 20)) with 20%Q. change (inject_Z (Z.of_nat 19)) with 19%Q. change (inject_Z 1) with 1%Q.
      setoid_replace (95 / 100)%Q with (19 # 20)%Q in X by reflexivity. lra. }
    unfold qn in Y. rewrite <- Zlt_Qlt in Y. lia.
  - unfold below. assert (E : length (filter (fun m => qlt (here m) (percentile v 5)) sims) = length (filter (fun x => qlt x (percentile v 5)) (sortq v))).
    { rewrite (perm_filter _ _ v (sortq_perm v)). exact (eq_sym (filter_map_len (fun m => at2 m i j) (fun x => qlt x (percentile v 5)) sims)). }
    rewrite E. destruct (percentile_spec v 5 Nv ltac:(lra) ltac:(lra)) as (k & w & K & W0 & W1 & WK & X & P).
    assert (SL : length (sortq v) = length v) by apply Permutation_length, sortq_perm.
    setoid_replace (5 / 100)%Q with (1 # 20)%Q in X by reflexivity.
    destruct (Qeq_dec w 0) as [Z|Z].
    + assert (B : (percentile v 5 <= nth k (sortq v) 0)%Q) by (rewrite P, Z; lra).
      apply (asc_lt_count _ _ (sortq_asc v) k) in B; [|lia].
      assert (Y : (qn (20 * k) < qn (length v + 19))%Q).
      { unfold qn in *. rewrite !Nat2Z.inj_mul, !Nat2Z.inj_add, !inject_Z_mult, !inject_Z_plus.
        change (inject_Z (Z.of_nat 20)) with 20%Q. change (inject_Z (Z.of_nat 19)) with 19%Q. lra. }
      unfold qn in Y. rewrite <- Zlt_Qlt in Y. lia.
    + destruct WK as [WK|WK]; [contradiction|]. assert (Wp : (0 < w)%Q) by (apply Qle_lt_or_eq in W0; destruct W0 as [W0|W0]; [exact W0|symmetry in W0; contradiction]).
      destruct (percentile_bounds v k w K W0 W1 (or_intror WK)) as [_ B]. specialize (B WK). rewrite <- P in B.
      apply (asc_lt_count _ _ (sortq_asc v) (S k)) in B; [|lia].
      assert (Y : (qn (20 * S k) < qn (length v + 19))%Q).
      { unfold qn in *. rewrite !Nat2Z.inj_mul, !Nat2Z.inj_add, !inject_Z_mult, !inject_Z_plus.
        replace (Z.of_nat (S k)) with (Z.of_nat k + 1)%Z by lia. rewrite inject_Z_plus.
        change (inject_Z (Z.of_nat 20)) with 20%Q. change (inject_Z (Z.of_nat 19)) with 19%Q. change (inject_Z 1) with 1%Q. lra. }
      unfold qn in Y. rewrite <- Zlt_Qlt in Y. lia.
Qed.

(** The order in which the simulations arrive, which differs from run to run on several processors, does not change
    what the file says. *)
Theorem c179_order : forall shown lons lats hist sims sims' e, evalFile shown lons lats hist sims = Some e -> sims <> [] ->
  Permutation sims sims' -> exists e', evalFile shown lons lats hist sims' = Some e' /\
    e_lat e' = e_lat e /\ e_lon e' = e_lon e /\ e_hist e' = e_hist e /\
    forall i j, i < length lons -> j < length lats ->
      (at2 (e_mean e') j i == at2 (e_mean e) j i /\ at2 (e_upper e') j i == at2 (e_upper e) j i /\
       at2 (e_lower e') j i == at2 (e_lower e) j i)%Q.
Proof.
  intros shown lons lats hist sims sims' e H N P.
  assert (X : exists e', evalFile shown lons lats hist sims' = Some e' /\ e_hist e' = e_hist e).
  { unfold evalFile in *. rewrite <- (Permutation_length P). destruct (forallb _ shown); [|discriminate].
    injection H as <-. eexists. split; [reflexivity|]. reflexivity. }
  destruct X as (e' & H' & Hh). exists e'. split; [exact H'|].
  destruct (evalFile_some _ _ _ _ _ _ H) as (_ & A1 & A2 & A). destruct (evalFile_some _ _ _ _ _ _ H') as (_ & B1 & B2 & B).
  rewrite A1, A2, B1, B2. do 3 (split; [auto|]). intros i j Hi Hj.
  destruct (A i j Hi Hj) as (_ & -> & -> & ->). destruct (B i j Hi Hj) as (_ & -> & -> & ->).
  set (f := fun m => at2 m i j). assert (Q1 : Permutation (map f sims') (map f sims)) by (apply Permutation_sym, Permutation_map, P).
  assert (N' : map f sims' <> []).
  { intros E. rewrite E in Q1. apply Permutation_nil in Q1. destruct sims; [contradiction|discriminate]. }
  split; [now apply meanq_perm|]. split; (apply percentile_perm; [exact N'|lra|exact Q1]).
Qed.

Lemma firstn_exact {A} (x y : list A) n : length x = n -> firstn n (x ++ y) = x.
Proof. intros <-. rewrite firstn_app, Nat.sub_diag, firstn_all. cbn [firstn]. apply app_nil_r. Qed.
Lemma skipn_exact {A} (x y : list A) n : length x = n -> skipn n (x ++ y) = y.
Proof. intros <-. now rewrite skipn_app, skipn_all, Nat.sub_diag. Qed.
Lemma chunks_flat {A B} (f : B -> list A) nx l : (forall b, In b l -> length (f b) = nx) -> chunks nx (length l) (flat_map f l) = map f l.
Proof.
  induction l as [|b l IH]; intros H; [reflexivity|]. cbn [length flat_map chunks map].
  rewrite firstn_exact, skipn_exact by (apply H; now left). f_equal. apply IH. intros x Hx. apply H. now right.
Qed.
Lemma map_flat_map {A B C} (g : B -> C) (f : A -> list B) l : map g (flat_map f l) = flat_map (fun x => map g (f x)) l.
Proof. induction l as [|a l IH]; cbn; [reflexivity|]. now rewrite map_app, IH. Qed.
Lemma flat_len {A B} (f : A -> list B) n l : (forall x, In x l -> length (f x) = n) -> length (flat_map f l) = length l * n.
Proof. induction l as [|a l IH]; intros H; cbn; [reflexivity|]. rewrite app_length, H, IH; [reflexivity| |now left]. intros x Hx. apply H. now right. Qed.

(** The genesis density of a set of tracks, as a matrix by longitude and latitude, is the density estimated from the
    starting points that lie in the domain, at each whole degree from the corner of the domain. *)
Theorem c179_genesis : forall kde g tracks, 2 < length (filter (inLimits g) (starts tracks)) ->
  exists m, genesis kde g tracks = Some m /\
    forall i j, i < length (gLons g) -> j < length (gLats g) ->
      nth j (nth i m []) 0%Q = kde (filter (inLimits g) (starts tracks)) (nth i (gLons g) 0%Q, nth j (gLats g) 0%Q).
Proof.
  intros kde g tracks N. unfold genesis. destruct (Nat.leb_spec (length (filter (inLimits g) (starts tracks))) 2); [lia|].
  set (vals := filter (inLimits g) (starts tracks)). rewrite map_flat_map.
  set (row := fun lat => map (kde vals) (map (fun lon => (lon, lat)) (gLons g))).
  assert (L : forall lat, In lat (gLats g) -> length (row lat) = length (gLons g)) by (intros; unfold row; now rewrite !map_length).
  unfold reshape. rewrite (flat_len _ _ _ L), Nat.eqb_refl, (chunks_flat _ _ _ L).
  eexists. split; [reflexivity|]. intros i j Hi Hj.
  change (nth j (nth i (transpose (length (gLats g)) (length (gLons g)) (map row (gLats g))) []) 0%Q)
    with (at2 (transpose (length (gLats g)) (length (gLons g)) (map row (gLats g))) i j).
  rewrite transpose_at by assumption. unfold at2.
  rewrite nth_indep with (d' := row 0%Q) by (now rewrite map_length). rewrite map_nth. unfold row.
  rewrite map_map. rewrite nth_indep with (d' := kde vals (0%Q, nth j (gLats g) 0%Q)) by (now rewrite map_length).
  rewrite (map_nth (fun x => kde vals (x, nth j (gLats g) 0%Q))). reflexivity.
Qed.
(** Where a storm starts is its first record, and only starts in the domain count. *)
Theorem c179_starts : forall g tracks p, In p (filter (inLimits g) (starts tracks)) <->
  exists r t, In (r :: t) tracks /\ p = (gr_lon r, gr_lat r) /\
    (gxMin g <= gr_lon r <= gxMax g)%Q /\ (gyMin g <= gr_lat r <= gyMax g)%Q.
Proof.
  intros g tracks p. rewrite filter_In. unfold starts. rewrite in_flat_map. unfold inLimits. split.
  - intros ((t & T & P) & B). destruct t as [|r t]; [destruct P|]. destruct P as [<-|[]]. exists r, t. cbn [fst snd] in B.
    rewrite !andb_true_iff, !Qle_bool_iff in B. intuition.
  - intros (r & t & T & -> & B1 & B2). split; [exists (r :: t); split; [exact T|now left]|]. cbn [fst snd].
    rewrite !andb_true_iff, !Qle_bool_iff. intuition.
Qed.
(** The file of the genesis densities *)
Theorem c179_genesis_file : forall kde g historic sets e, genesisFile kde g historic sets = Some e -> sets <> [] ->
  forall i j, i < length (gLons g) -> j < length (gLats g) ->
  let there s := kde (filter (inLimits g) (starts s)) (nth i (gLons g) 0%Q, nth j (gLats g) 0%Q) in
  e_lon e = gLons g /\ e_lat e = gLats g /\
  at2 (e_hist e) j i = there historic /\
  (at2 (e_mean e) j i * inject_Z (Z.of_nat (length sets)) == fold_right Qplus 0 (map there sets))%Q.
Proof.
  intros kde g historic sets e H N i j Hi Hj there. unfold genesisFile in H.
  destruct (genesis kde g historic) as [h|] eqn:G; [|discriminate]. destruct (allMaps kde g sets) as [sims|] eqn:A; [|discriminate].
  assert (One : forall s m, genesis kde g s = Some m -> nth j (nth i m []) 0%Q = there s).
  { intros s m E. destruct (Nat.le_gt_cases (length (filter (inLimits g) (starts s))) 2) as [C|C].
    - unfold genesis in E. apply Nat.leb_le in C. rewrite C in E. discriminate.
    - destruct (c179_genesis kde g s C) as (m' & E' & V). rewrite E in E'. injection E' as <-. now apply V. }
  assert (All : map (fun m => nth j (nth i m []) 0%Q) sims = map there sets /\ length sims = length sets).
  { clear H N. revert sims A. induction sets as [|s sets IH]; intros sims A; cbn [allMaps] in A; [injection A as <-; auto|].
    destruct (genesis kde g s) as [m|] eqn:E; [|discriminate]. destruct (allMaps kde g sets) as [l|]; [|discriminate]. injection A as <-.
    destruct (IH l eq_refl) as [I1 I2]. cbn [map length]. rewrite I1, I2, (One s m E). auto. }
  destruct All as [A1 A2]. assert (N2 : sims <> []) by (destruct sims, sets; cbn in A2; congruence).
  destruct (c179_cells _ _ _ _ _ _ i j H N2 Hi Hj) as (R1 & R2 & R3 & _ & R4 & _).
  split; [exact R2|]. split; [exact R1|]. split; [rewrite R3; now apply One|]. cbv zeta in R4. rewrite A1, A2 in R4. exact R4.
Qed.
(** Three storms starting in a domain of two by two degrees, in each of three simulations *)
Definition gdom : glim := {| gxMin := 0; gxMax := 2; gyMin := 0; gyMax := 2 |}.
Definition storm1 (x : Q) (y : Z) : list grec := [{| gr_lon := x; gr_lat := 1; gr_year := y |}; {| gr_lon := 9; gr_lat := 1; gr_year := y |}].
Definition season (y : Z) : list (list grec) := [storm1 0 y; storm1 1 y; storm1 2 y].
Definition kde0 (pts : list (Q * Q)) (p : Q * Q) : Q := inject_Z (Z.of_nat (length (filter (fun q => Qeq_bool (fst p) (fst q) && Qeq_bool (snd p) (snd q)) pts))).
Example c179_example : exists e, genesisFile kde0 gdom (season 2000) [season 1; season 2; season 3] = Some e /\
  e_lon e = [0; 1; 2]%Q /\ Forall2 (Forall2 Qeq) (e_mean e) [[0; 0; 0]; [1; 1; 1]; [0; 0; 0]]%Q /\
  Forall2 (Forall2 Qeq) (e_upper e) [[0; 0; 0]; [1; 1; 1]; [0; 0; 0]]%Q.
Proof.
  eexists. split; [vm_compute; reflexivity|]. split; [vm_compute; reflexivity|]. split; vm_compute; repeat (constructor; try reflexivity).
Qed.

(** * C180 *)
(** The mean lies in the range of the percentiles: false, one exceptional simulation in thirty lifts the mean above it. *)
Definition one (x : Q) : matrix := [[x]].
Theorem c180_mean_refuted : exists sims e, evalFile genesisShown [0%Q] [0%Q] (one 0) sims = Some e /\ length sims = 30 /\
  (at2 (e_upper e) 0 0 < at2 (e_mean e) 0 0)%Q.
Proof.
  exists (one 30 :: repeat (one 0) 29). eexists. split; [vm_compute; reflexivity|]. split; [reflexivity|]. vm_compute. reflexivity.
Qed.
(** The files are written for every number of simulations: false, the track density needs 41 and the genesis density 3. *)
Theorem c180_few_simulations_refuted : forall lons lats hist sims,
  (length sims < 41 -> evalFile densityShown lons lats hist sims = None) /\
  (length sims < 3 -> evalFile genesisShown lons lats hist sims = None) /\
  (41 <= length sims -> evalFile densityShown lons lats hist sims <> None) /\
  (3 <= length sims -> evalFile genesisShown lons lats hist sims <> None).
Proof.
  intros lons lats hist sims.
  assert (A : forall shown, (exists k, In k shown /\ length sims <= k) -> evalFile shown lons lats hist sims = None).
  { intros shown (k & I & L). unfold evalFile. destruct (forallb _ shown) eqn:E; [|reflexivity].
    rewrite forallb_forall in E. specialize (E k I). apply Nat.ltb_lt in E. lia. }
  assert (B : forall shown, (forall k, In k shown -> k < length sims) -> evalFile shown lons lats hist sims <> None).
  { intros shown F. unfold evalFile. replace (forallb _ shown) with true; [discriminate|]. symmetry. apply forallb_forall.
    intros k K. apply Nat.ltb_lt, F, K. }
  split; [intros L; apply A; exists 40; cbn; intuition lia|]. split; [intros L; apply A; exists 2; cbn; intuition lia|].
  split; intros L; apply B; intros k K; cbn in K; intuition lia.
Qed.
(** Every set of simulations has a genesis density: false, one simulation with no more than two storms starting in
    the domain, or as few in the historical record, ends the evaluation without a file. *)
Theorem c180_few_storms_refuted : forall kde g historic sets,
  (exists s, In s (historic :: sets) /\ length (filter (inLimits g) (starts s)) <= 2) -> genesisFile kde g historic sets = None.
Proof.
  intros kde g historic sets (s & I & L).
  assert (G : genesis kde g s = None) by (unfold genesis; apply Nat.leb_le in L; now rewrite L).
  unfold genesisFile. destruct I as [<-|I]; [now rewrite G|]. destruct (genesis kde g historic); [|reflexivity].
  enough (X : allMaps kde g sets = None) by now rewrite X.
  clear L. induction sets as [|a sets IH]; [destruct I|]. cbn [allMaps]. destruct I as [->|I]; [now rewrite G|].
  destruct (genesis kde g a); [|reflexivity]. now rewrite (IH I).
Qed.
(** The genesis density counts storms per year, as its units say: false, the years do not enter. *)
Definition sameStarts (s s' : list (list grec)) : Prop :=
  Forall2 (fun t t' => map (fun r => (gr_lon r, gr_lat r)) t = map (fun r => (gr_lon r, gr_lat r)) t') s s'.
Theorem c180_years_refuted : forall kde g s s', sameStarts s s' -> genesis kde g s = genesis kde g s'.
Proof.
  intros kde g s s' H. enough (E : starts s = starts s') by (unfold genesis; now rewrite E).
  unfold starts. induction H as [|t t' s s' T H IH]; [reflexivity|]. cbn [flat_map]. rewrite IH. f_equal.
  destruct t as [|r t], t' as [|r' t']; cbn [map] in T; try discriminate; [reflexivity|]. now injection T as -> -> _.
Qed.
Example c180_years_example : sameStarts (season 2000) (season 1900) /\ genesis kde0 gdom (season 2000) <> None.
Proof. split; [repeat constructor|discriminate]. Qed.

(** The rate of crossings grows with the number of crossings: false, it is a share per degree, so that it stays the
    same when every storm occurs twice, and sums to one. *)
Theorem c180_crossings_refuted : forall edges lats, 
  Forall2 (fun a b => match a, b with Some x, Some y => (x == y)%Q | None, None => True | _, _ => False end)
    (crossingRate edges (lats ++ lats)) (crossingRate edges lats).
Proof.
  intros edges lats. destruct lats as [|a l]; [cbn [app crossingRate]; induction (length edges - 1); constructor; [reflexivity|assumption]|]. set (v := a :: l).
  assert (D : forall i, length (filter (inBin edges i) (v ++ v)) = 2 * length (filter (inBin edges i) v)).
  { intros i. rewrite filter_app, app_length. lia. }
  unfold crossingRate. unfold v at 1. cbn [app]. change (a :: (l ++ a :: l)) with (v ++ v). unfold v at 4.
  set (n := length edges - 1).
  assert (T : fold_right Nat.add 0 (map (fun i => length (filter (inBin edges i) (v ++ v))) (seq 0 n)) =
              2 * fold_right Nat.add 0 (map (fun i => length (filter (inBin edges i) v)) (seq 0 n))).
  { induction (seq 0 n) as [|i r IH]; cbn [map fold_right]; [reflexivity|]. rewrite IH, D. lia. }
  rewrite T. fold v. set (t := fold_right Nat.add 0 (map (fun i => length (filter (inBin edges i) v)) (seq 0 n))).
  clearbody t. clear T. induction (seq 0 n) as [|i r IH]; cbn [map]; [constructor|]. constructor; [|exact IH].
  destruct (Nat.eqb_spec t 0) as [T0|T0].
  - rewrite T0. exact I.
  - destruct (Nat.eqb_spec (2 * t) 0); [lia|]. rewrite D. rewrite !Nat2Z.inj_mul, !inject_Z_mult.
    set (w := (nth (S i) edges 0 - nth i edges 0)%Q). change (inject_Z (Z.of_nat 2)) with 2%Q.
    assert (P : ~ (inject_Z (Z.of_nat t) == 0)%Q) by (unfold Qeq; cbn [Qnum Qden inject_Z]; rewrite !Z.mul_1_r; intros C; apply T0; lia).
    destruct (Qeq_dec w 0) as [W|W].
    + rewrite W. rewrite !Qmult_0_r. unfold Qdiv. change (/ 0)%Q with 0%Q. ring.
    + field. auto.
Qed.
(** The shares of the gates, times their widths, sum to one whatever the number of storms. *)
Theorem c180_shares_refuted : forall edges lats i0 x, i0 < length edges - 1 -> In x lats -> inBin edges i0 x = true ->
  (forall i, i < length edges - 1 -> (nth i edges 0 < nth (S i) edges 0)%Q) ->
  (fold_right Qplus 0 (map (fun i => match nth i (crossingRate edges lats) None with Some r => r * (nth (S i) edges 0 - nth i edges 0) | None => 0 end)
     (seq 0%nat (length edges - 1)%nat)) == 1)%Q.
Proof.
  intros edges lats i0 x Hi Hx Hb W. destruct lats as [|a l]; [destruct Hx|]. unfold crossingRate. set (v := a :: l) in *.
  set (n := length edges - 1) in *. set (c := fun i => length (filter (inBin edges i) v)).
  set (t := fold_right Nat.add 0 (map c (seq 0 n))).
  assert (C0 : 0 < c i0). { unfold c. assert (I : In x (filter (inBin edges i0) v)) by (apply filter_In; auto). destruct (filter _ v); [destruct I|cbn; lia]. }
  assert (G : forall r, In i0 r -> c i0 <= fold_right Nat.add 0 (map c r)).
  { induction r as [|k r IH]; intros I; [destruct I|]. cbn [map fold_right]. destruct I as [->|I]; [lia|]. specialize (IH I). lia. }
  assert (T0 : t <> 0) by (specialize (G (seq 0 n) ltac:(apply in_seq; lia)); fold t in G; lia).
  assert (P : ~ (inject_Z (Z.of_nat t) == 0)%Q) by (unfold Qeq; cbn [Qnum Qden inject_Z]; rewrite !Z.mul_1_r; intros C; apply T0; lia).
  assert (E : forall r, (forall i, In i r -> i < n) ->
    (fold_right Qplus 0 (map (fun i => match nth i (map (fun i => if (t =? 0)%nat then None else Some (inject_Z (Z.of_nat (c i)) / (inject_Z (Z.of_nat t) * (nth (S i) edges 0 - nth i edges 0)))%Q) (seq 0%nat n)) None with
       Some r => r * (nth (S i) edges 0 - nth i edges 0) | None => 0 end) r)
     == inject_Z (Z.of_nat (fold_right Nat.add 0%nat (map c r))) / inject_Z (Z.of_nat t))%Q).
  { induction r as [|k r IH]; intros Hr; cbn [map fold_right]; [reflexivity|].
    rewrite IH by (intros; apply Hr; now right). assert (K : k < n) by (apply Hr; now left).
    rewrite nth_map_seq by exact K. destruct (Nat.eqb_spec t 0); [contradiction|].
    rewrite Nat2Z.inj_add, inject_Z_plus. specialize (W k K).
    set (w := (nth (S k) edges 0 - nth k edges 0)%Q) in *. assert (~ (w == 0)%Q) by (unfold w; lra). field. auto. }
  eapply Qeq_trans; [exact (E (seq 0 n) ltac:(intros i I; apply in_seq in I; lia))|]. fold t. field. exact P.
Qed.
Example c180_shares_example : crossingRate [0; 2; 4]%Q [1; 3; 3; 3]%Q = [Some (1 # 8); Some (3 # 8)]%Q.
Proof. reflexivity. Qed.
(** Crossings that all lie outside the gates leave numbers that are none. *)
Theorem c180_outside_refuted : forall edges lats, 2 <= length edges -> lats <> [] ->
  (forall x i, In x lats -> i < length edges - 1 -> inBin edges i x = false) ->
  crossingRate edges lats = repeat None (length edges - 1).
Proof.
  intros edges lats E N O. destruct lats as [|a l]; [contradiction|]. unfold crossingRate.
  assert (C : forall i, In i (seq 0 (length edges - 1)) -> length (filter (inBin edges i) (a :: l)) = 0).
  { intros i Hi. apply in_seq in Hi. rewrite filter_all; [reflexivity|]. intros x Hx. apply O; [exact Hx|lia]. }
  assert (T : fold_right Nat.add 0 (map (fun i => length (filter (inBin edges i) (a :: l))) (seq 0 (length edges - 1))) = 0).
  { revert C. generalize (seq 0 (length edges - 1)) as r. induction r as [|i r IH]; intros C; cbn [map fold_right]; [reflexivity|].
    rewrite (C i) by now left. cbn [Nat.add]. apply IH. intros k Hk. apply C. now right. }
  rewrite T. cbn [Nat.eqb]. assert (S : length (seq 0 (length edges - 1)) = length edges - 1) by apply seq_length.
  rewrite <- S at 2. clear. induction (seq 0 _); cbn; congruence.
Qed.
Example c180_outside_example : crossingRate [0; 2; 4]%Q [5%Q] = [None; None].
Proof. reflexivity. Qed.
Print Assumptions c179_cells.
Print Assumptions c179_order.
Print Assumptions c179_genesis.
Print Assumptions c179_starts.
Print Assumptions c179_genesis_file.
Print Assumptions c180_mean_refuted.
Print Assumptions c180_few_simulations_refuted.
Print Assumptions c180_few_storms_refuted.
Print Assumptions c180_years_refuted.
Print Assumptions c180_crossings_refuted.
Print Assumptions c180_shares_refuted.
Print Assumptions c180_outside_refuted.
