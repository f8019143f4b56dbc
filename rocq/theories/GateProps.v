(** C131 to C134: landfall rates and intensities at coastal gates. *)
From Coq Require Import List Arith ZArith Lia Bool QArith Lqa Permutation.
From Verif Require Import Base CellModel CellProofs GenProofs NumModel NumProofs GeomModel GeomProofs GeomProofs3 DensityModel DensityProofs GateModel GateProofs.
Import ListNotations.
Close Scope Q_scope. Open Scope nat_scope.
Definition q2 (x y : Q) : pt := {| px := x; py := y |}.

(** * C131 *)
(** Gate [j] runs from vertex [j - 1] to vertex [j] *)
Definition gate (gates : list pt) (j : nat) : pt * pt := (nth (j - 1) gates origin, nth j gates origin).
(** The segment moves from sea to land and passes gate [j] *)
Definition lands (gates : list pt) (g : pt * pt) (j : nat) : Prop :=
  inLand (fst g) (gates ++ [nth 0 gates origin]) = false /\ inLand (snd g) (gates ++ [nth 0 gates origin]) = true /\
  ~ parallel (fst g) (snd g) (fst (gate gates j)) (snd (gate gates j)) /\
  exists q, on_seg q (fst g) (snd g) /\ on_seg q (fst (gate gates j)) (snd (gate gates j)).
Lemma lands_iff gates g j : 1 <= j <= length gates - 2 -> (In j (segLandfall gates g) <-> lands gates g j).
Proof.
  intros Hj. unfold segLandfall, lands, coastOf. destruct (inLand (fst g) _) eqn:E1, (inLand (snd g) _) eqn:E2; cbn [negb andb].
  all: try (split; [contradiction|intros (H1 & H2 & _); discriminate]).
  unfold hitGates. rewrite filter_In, hit_iff, in_seq. unfold gate. cbn [fst snd]. split.
  - intros (_ & H1 & H2). tauto.
  - intros (_ & _ & H1 & H2). split; [lia|]. tauto.
Qed.
(** The share of gate [j] is the number of landfalls there divided by the number of all landfalls: [counts] tells
    which segments land at which gate. *)
Theorem c131_shares : forall gates tracks (counts : pt * pt -> nat -> bool) j,
  (forall g i, In g (flat_map edges tracks) -> 1 <= i <= length gates - 2 -> (counts g i = true <-> lands gates g i)) ->
  1 <= j <= length gates - 2 ->
  let number i := length (filter (fun g => counts g i) (flat_map edges tracks)) in
  let total := list_sum (map number (seq 1 (length gates - 2))) in
  0 < total ->
  exists r, nth_error (fst (processTracks gates tracks)) j = Some (Some r) /\
    (r * inject_Z (Z.of_nat total) == inject_Z (Z.of_nat (number j)))%Q.
Proof.
  intros gates tracks counts j HC Hj number total Ht.
  assert (N : forall i, 1 <= i <= length gates - 2 -> count_occ Nat.eq_dec (landfall gates tracks) i = number i).
  { intros i Hi. unfold landfall, number. rewrite count_occ_flat.
    - f_equal. apply filter_ext_in. intros g Hg. apply eq_iff_eq_true. rewrite (HC g i Hg Hi), <- (lands_iff gates g i Hi).
      destruct (in_dec Nat.eq_dec i (segLandfall gates g)); split; intros H; try discriminate; tauto.
    - intros g _. apply NoDup_count_occ. unfold segLandfall. destruct (_ && _); [apply hit_nodup|constructor]. }
  destruct (landfall_bounded gates tracks) as [B _].
  assert (T : length (landfall gates tracks) = total).
  { rewrite <- (sum_bins (length gates) _ B). unfold total. replace (length gates - 1) with (S (length gates - 2)) by lia.
    change (seq 0 (S (length gates - 2))) with (0 :: seq 1 (length gates - 2)). cbn [map fold_right].
    rewrite (binCount_eq _ 0 _ B) by lia.
    assert (Z : count_occ Nat.eq_dec (landfall gates tracks) 0 = 0).
    { apply count_occ_not_In. intros C. apply B in C. lia. }
    rewrite Z. cbn [Nat.add]. unfold list_sum. f_equal. apply map_ext_in. intros i Hi. apply in_seq in Hi.
    rewrite (binCount_eq _ i _ B) by lia. apply N. lia. }
  assert (L : landfall gates tracks <> []) by (intros C; rewrite C in T; cbn [length] in T; lia).
  eexists. split; [unfold processTracks; cbn [fst]; apply (rates_nth _ _ j B); [lia|exact L]|].
  rewrite T, (N j Hj). field. change 0%Q with (inject_Z 0). intros C. unfold Qeq in C. cbn in C. lia.
Qed.
(** With at least one landfall the shares are not negative and sum to one. *)
Theorem c131_sum : forall gates tracks g j, In g (flat_map edges tracks) -> 1 <= j <= length gates - 2 -> lands gates g j ->
  exists h, fst (processTracks gates tracks) = map Some h /\ length h = length gates - 1 /\
    (fold_right Qplus 0 h == 1)%Q /\ (forall x, In x h -> (0 <= x)%Q).
Proof.
  intros gates tracks g j Hg Hj HL. destruct (landfall_bounded gates tracks) as [B _].
  assert (L : landfall gates tracks <> []).
  { intros C. assert (I : In j (landfall gates tracks)) by (apply in_flat_map; exists g; split; [exact Hg|now apply lands_iff]). rewrite C in I. contradiction. }
  destruct (sum_shares _ _ B L) as (h & E & S & P). exists h. unfold processTracks. cbn [fst]. split; [exact E|]. split; [|tauto].
  pose proof (rates_length (length gates) (landfall gates tracks)) as RL. rewrite E, map_length in RL. exact RL.
Qed.
(** Tracks in the opposite direction exchange landfall and offshore rates. *)
Theorem c131_reverse : forall gates tracks, processTracks gates (map (@rev pt) tracks) =
  (snd (processTracks gates tracks), fst (processTracks gates tracks)).
Proof.
  intros gates tracks. unfold processTracks. cbn [fst snd]. f_equal; apply rates_perm; [apply landfall_rev|apply offshore_rev].
Qed.
(** A segment from a point that the crossing number test puts outside the coast to a point on land passes a gate,
    except if it meets the last gate or the line that closes the coast or runs along a gate. *)
Theorem c131_passes : forall gates s e, 2 <= length gates ->
  cnPnPoly s (gates ++ [nth 0 gates origin]) = false -> inLand e (gates ++ [nth 0 gates origin]) = true ->
  (exists j, 1 <= j <= length gates - 2 /\ lands gates (s, e) j) \/
  (exists q, on_seg q s e /\ on_seg q (nth (length gates - 2) gates origin) (nth (length gates - 1) gates origin)) \/
  (exists q, on_seg q s e /\ on_seg q (nth (length gates - 1) gates origin) (nth 0 gates origin)) \/
  (exists j q, 1 <= j <= length gates - 2 /\ parallel s e (fst (gate gates j)) (snd (gate gates j)) /\
     on_seg q s e /\ on_seg q (fst (gate gates j)) (snd (gate gates j))).
Proof.
  intros gates s e L H1 H2. assert (N : gates <> []) by (intros ->; cbn in L; lia).
  assert (C : cnPnPoly e (coastOf gates) = true) by (unfold inLand in H2; apply andb_true_iff in H2; apply H2).
  assert (I1 : inLand s (coastOf gates) = false) by (unfold inLand, coastOf; now rewrite H1).
  destruct (coast_met gates s e N H1 C) as (g & G & q & Q1 & Q2).
  destruct (coast_edge gates g L G) as [(j & Hj & ->)|[->| ->]].
  - destruct (Qeq_dec ((px e - px s) * (py (snd (gate gates j)) - py (fst (gate gates j)))) ((py e - py s) * (px (snd (gate gates j)) - px (fst (gate gates j))))) as [P|P].
    + right. right. right. exists j, q. unfold gate. cbn [fst snd] in *. auto.
    + left. exists j. split; [exact Hj|]. unfold lands. cbn [fst snd]. split; [exact I1|]. split; [exact H2|]. split; [exact P|]. now exists q.
  - right. left. now exists q.
  - right. right. left. now exists q.
Qed.
(** A square coast; the track enters through the second gate *)
Definition sqGates : list pt := [q2 0 0; q2 1 0; q2 1 1; q2 0 1].
Definition entering : list pt := [q2 3 (1 # 2); q2 (1 # 2) (1 # 2)].
Example c131_example : lands sqGates (q2 3 (1 # 2), q2 (1 # 2) (1 # 2)) 2 /\
  processTracks sqGates [entering] = ([Some (0 / 1)%Q; Some (0 / 1)%Q; Some (1 / 1)%Q], [None; None; None]).
Proof.
  split; [|vm_compute; reflexivity]. apply lands_iff; [cbn; lia|]. vm_compute. now left.
Qed.

(** * C132: what the rates leave out *)
(** The last gate is not counted. *)
Theorem c132_last_gate_refuted : exists gates s e, inLand s (gates ++ [nth 0 gates origin]) = false /\ inLand e (gates ++ [nth 0 gates origin]) = true /\
  (exists q, on_seg q s e /\ on_seg q (nth (length gates - 2) gates origin) (nth (length gates - 1) gates origin)) /\
  landfall gates [[s; e]] = [].
Proof.
  exists sqGates, (q2 (1 # 2) 3), (q2 (1 # 2) (1 # 2)). split; [reflexivity|]. split; [reflexivity|]. split; [|reflexivity].
  exists (q2 (1 # 2) 1). split; [exists (4 # 5)%Q|exists (1 # 2)%Q]; (split; [split; discriminate|split; reflexivity]).
Qed.
(** The first entry is always zero, the gate from the first to the second vertex has number one. *)
Theorem c132_shift_refuted : forall gates tracks, 2 <= length gates ->
  nth 0 (fst (processTracks gates tracks)) None = None \/ exists r, nth 0 (fst (processTracks gates tracks)) None = Some r /\ (r == 0)%Q.
Proof.
  intros gates tracks L. destruct (landfall_bounded gates tracks) as [B _]. unfold processTracks. cbn [fst].
  assert (D : landfall gates tracks = [] \/ landfall gates tracks <> []) by (destruct (landfall gates tracks); [now left|right; discriminate]).
  destruct D as [E|E].
  - left. apply nth_error_nth. apply (rates_none _ _ 0 B E). lia.
  - right. eexists. split; [apply nth_error_nth, (rates_nth _ _ 0 B); [lia|exact E]|].
    assert (Z : count_occ Nat.eq_dec (landfall gates tracks) 0 = 0) by (apply count_occ_not_In; intros C; apply B in C; lia).
    rewrite Z. reflexivity.
Qed.
Example c132_shift_example : processTracks sqGates [[q2 (1 # 2) (-1); q2 (1 # 2) (1 # 2)]] =
  ([Some (0 / 1)%Q; Some (1 / 1)%Q; Some (0 / 1)%Q], [None; None; None]).
Proof. vm_compute. reflexivity. Qed.
(** A simulation without landfall has no rates, and then no mean over the simulations is a number. *)
Theorem c132_no_landfall_refuted : forall gates sims t j, In t sims -> 2 <= length gates -> j < length gates - 1 ->
  (forall g i, In g (flat_map edges t) -> 1 <= i <= length gates - 2 -> ~ lands gates g i) ->
  meanAt (map (fun t => fst (processTracks gates t)) sims) j = None.
Proof.
  intros gates sims t j Ht L Hj H. unfold meanAt.
  assert (E : landfall gates t = []).
  { destruct (landfall gates t) as [|i l] eqn:El; [reflexivity|]. exfalso. assert (I : In i (landfall gates t)) by (rewrite El; now left).
    pose proof (proj1 (landfall_bounded gates t) i I) as Bi. apply in_flat_map in I. destruct I as (g & Hg & I).
    apply (H g i Hg Bi). now apply lands_iff. }
  assert (Z : nth j (fst (processTracks gates t)) None = None).
  { unfold processTracks. cbn [fst]. apply nth_error_nth. apply rates_none; [apply landfall_bounded|exact E|exact Hj]. }
  assert (G : forall l, In None l -> allQ l = None).
  { induction l as [|o l IH]; [contradiction|]. intros [->|I]; [reflexivity|]. cbn [allQ]. destruct o; [|reflexivity]. now rewrite (IH I). }
  rewrite G; [reflexivity|]. rewrite map_map. apply in_map_iff. exists t. split; [exact Z|exact Ht].
Qed.
Example c132_no_landfall_example : meanAt (map (fun t => fst (processTracks sqGates t)) [[entering]; [[q2 3 3; q2 4 4]]]) 2 = None /\
  meanAt (map (fun t => fst (processTracks sqGates t)) [[entering]; [entering]]) 2 = Some ((1 / 1 + (1 / 1 + 0)) / 2)%Q.
Proof. split; vm_compute; reflexivity. Qed.
(** A landfall through the common vertex of two gates is counted twice. *)
Theorem c132_vertex_refuted : exists gates s e, landfall gates [[s; e]] = [1; 2] /\
  exists q, on_seg q s e /\ on_seg q (fst (gate gates 1)) (snd (gate gates 1)) /\ on_seg q (fst (gate gates 2)) (snd (gate gates 2)) /\
  forall q', on_seg q' s e -> on_seg q' (fst (gate gates 1)) (snd (gate gates 1)) \/ on_seg q' (fst (gate gates 2)) (snd (gate gates 2)) ->
    (px q' == px q /\ py q' == py q)%Q.
Proof.
  exists sqGates, (q2 2 (-1)), (q2 (1 # 2) (1 # 2)). split; [vm_compute; reflexivity|].
  exists (q2 1 0). split; [exists (2 # 3)%Q; split; [split; discriminate|split; reflexivity]|].
  split; [exists 1%Q; split; [split; discriminate|split; reflexivity]|]. split; [exists 0%Q; split; [split; discriminate|split; reflexivity]|].
  intros q' (t & T & X & Y) [(u & U & X' & Y')|(u & U & X' & Y')]; cbn in X, Y, X', Y' |- *; split; lra.
Qed.
(** Gates that run clockwise around the land: the move onto land is not recognised, although it is if the same gates
    run in the other direction. *)
Theorem c132_clockwise_refuted : exists gates s e, in_triangle e (q2 0 2, q2 2 2, q2 1 0) = true /\ (2 < py s)%Q /\
  (exists q, on_seg q s e /\ on_seg q (fst (gate gates 2)) (snd (gate gates 2))) /\
  landfall gates [[s; e]] = [] /\ landfall (rev gates) [[s; e]] = [2].
Proof.
  exists [q2 1 0; q2 0 2; q2 2 2; q2 (3 # 2) 1], (q2 1 3), (q2 1 (1 # 2)). split; [reflexivity|]. split; [reflexivity|].
  split; [exists (q2 1 2); split; [exists (2 # 5)%Q|exists (1 # 2)%Q]; (split; [split; discriminate|split; reflexivity])|].
  split; vm_compute; reflexivity.
Qed.

(** * C133: intensities at landfall *)
Theorem c133_category : forall p, (0 < p)%Q -> (p <= 1020)%Q ->
  exists c, category p = Some c /\ c <= 5 /\ (c = 5 <-> (p <= 930)%Q) /\ (4 <= c <-> (p <= 955)%Q) /\ (3 <= c <-> (p <= 970)%Q) /\
    (2 <= c <-> (p <= 985)%Q) /\ (1 <= c <-> (p <= 990)%Q).
Proof.
  intros p P0 P1. unfold category. rewrite (proj2 (qle_false_iff p 0) P0).
  destruct (Qle_bool p 930) eqn:E5; [apply Qle_bool_iff in E5; exists 5; repeat split; intros; (lra || lia)|apply qle_false_iff in E5].
  destruct (Qle_bool p 955) eqn:E4; [apply Qle_bool_iff in E4; exists 4; repeat split; intros; try (exfalso; lra); (lra || lia)|apply qle_false_iff in E4].
  destruct (Qle_bool p 970) eqn:E3; [apply Qle_bool_iff in E3; exists 3; repeat split; intros; try (exfalso; lra); (lra || lia)|apply qle_false_iff in E3].
  destruct (Qle_bool p 985) eqn:E2; [apply Qle_bool_iff in E2; exists 2; repeat split; intros; try (exfalso; lra); (lra || lia)|apply qle_false_iff in E2].
  destruct (Qle_bool p 990) eqn:E1; [apply Qle_bool_iff in E1; exists 1; repeat split; intros; try (exfalso; lra); (lra || lia)|apply qle_false_iff in E1].
  rewrite (proj2 (Qle_bool_iff p 1020) P1). exists 0. repeat split; intros; try (exfalso; lra); (lra || lia).
Qed.
Example c133_category_example : map category [930%Q; 931%Q; 985%Q; 1000%Q] = [Some 5; Some 4; Some 2; Some 0]. Proof. reflexivity. Qed.
(** The segments counted at a gate are those that cross it from its left to its right side; the row holds their
    number and the mean and lowest pressure of their first records. *)
Definition passes (g : pt * pt) (s : seg) : Prop :=
  (0 < isLeft (fst g) (snd g) (sfrom s))%Q /\ (isLeft (fst g) (snd g) (sto s) < 0)%Q /\
  (isLeft (sfrom s) (sto s) (fst g) * isLeft (sfrom s) (sto s) (snd g) < 0)%Q.
Lemma passes_iff g s : crosses s (fst g) (snd g) && leftOf (fst g) (snd g) (sfrom s) = true <-> passes g s.
Proof.
  rewrite andb_true_iff, crosses_iff, leftOf_iff. unfold properly, passes. split.
  - intros ((H1 & H2) & H3). apply opposite in H2. destruct H2 as [[X Y]|[X Y]]; [lra|]. tauto.
  - intros (H1 & H2 & H3). split; [|exact H1]. split; [exact H3|].
    assert (0 < isLeft (fst g) (snd g) (sfrom s) * (- isLeft (fst g) (snd g) (sto s)))%Q by (apply Qmult_lt_0_compat; lra). lra.
Qed.
Theorem c133_row : forall g tracks (through : seg -> bool), (forall s, In s tracks -> (through s = true <-> passes g s)) ->
  let ps := map sp (filter through tracks) in
  gcount (countCrossings g tracks) = length ps /\
  (gmean (countCrossings g tracks) = None <-> ps = []) /\ (gmin (countCrossings g tracks) = None <-> ps = []) /\
  (forall m, gmean (countCrossings g tracks) = Some m -> (m * inject_Z (Z.of_nat (length ps)) == fold_right Qplus 0 ps)%Q) /\
  (forall m, gmin (countCrossings g tracks) = Some m -> (exists p, In p ps /\ (m == p)%Q) /\ forall p, In p ps -> (m <= p)%Q).
Proof.
  intros g tracks through H. cbv zeta.
  assert (E : filter through tracks = isLandfall g tracks).
  { rewrite landfall_filter. apply filter_ext_in. intros s Hs. apply eq_iff_eq_true. rewrite (H s Hs), passes_iff. reflexivity. }
  rewrite E. unfold countCrossings. cbv zeta. pose proof (map_length sp (isLandfall g tracks)) as L.
  destruct (map sp (isLandfall g tracks)) as [|a r]; cbn [gcount gmean gmin].
  - split; [reflexivity|]. split; [tauto|]. split; [tauto|]. split; discriminate.
  - split; [now symmetry|]. split; [split; discriminate|]. split; [split; discriminate|]. split.
    + intros m Em. injection Em as <-. apply mean_times. discriminate.
    + intros m Em. injection Em as <-. destruct (amin_spec r a) as (A1 & A2 & A3). split.
      * destruct A3 as [A3|(y & Hy & A3)]; [exists a; split; [now left|exact A3]|exists y; split; [now right|exact A3]].
      * intros p [<-|Hp]; [exact A1|now apply A2].
Qed.
(** Crossings in both directions: a segment that crosses the gate is counted for the gate or for the gate in the
    opposite direction, never for both. *)
Theorem c133_directions : forall g1 g2 tracks (through : seg -> bool),
  (forall s, In s tracks -> (through s = true <-> (isLeft g1 g2 (sfrom s) * isLeft g1 g2 (sto s) < 0)%Q /\ (isLeft (sfrom s) (sto s) g1 * isLeft (sfrom s) (sto s) g2 < 0)%Q)) ->
  gcount (countCrossings (g1, g2) tracks) + gcount (countCrossings (g2, g1) tracks) = length (filter through tracks).
Proof.
  intros g1 g2 tracks through H.
  assert (C : forall g, gcount (countCrossings g tracks) = length (isLandfall g tracks)).
  { intros g. unfold countCrossings. cbv zeta. pose proof (map_length sp (isLandfall g tracks)) as L. destruct (map sp (isLandfall g tracks)); cbn [gcount length] in *; lia. }
  rewrite !C, !landfall_filter. clear C. cbn [fst snd]. induction tracks as [|s r IH]; [reflexivity|].
  specialize (IH (fun t Ht => H t (or_intror Ht))). specialize (H s (or_introl eq_refl)). cbn [filter].
  pose proof (passes_iff (g1, g2) s) as P1. pose proof (passes_iff (g2, g1) s) as P2. unfold passes in P1, P2. cbn [fst snd] in P1, P2.
  pose proof (isLeft_swap g1 g2 (sfrom s)) as S1. pose proof (isLeft_swap g1 g2 (sto s)) as S2.
  set (x := isLeft g1 g2 (sfrom s)) in *. set (y := isLeft g1 g2 (sto s)) in *. set (x' := isLeft g2 g1 (sfrom s)) in *. set (y' := isLeft g2 g1 (sto s)) in *.
  set (u := isLeft (sfrom s) (sto s) g1) in *. set (w := isLeft (sfrom s) (sto s) g2) in *.
  set (b1 := crosses s g1 g2 && leftOf g1 g2 (sfrom s)) in *. set (b2 := crosses s g2 g1 && leftOf g2 g1 (sfrom s)) in *. clearbody x y x' y' u w b1 b2.
  destruct (through s) eqn:T.
  - destruct (proj1 H eq_refl) as [H1 H2]. clear H. assert (H2' : (w * u < 0)%Q) by (rewrite Qmult_comm; exact H2). apply opposite in H1. destruct H1 as [[X Y]|[X Y]].
    + destruct b1; [destruct (proj1 P1 eq_refl) as (? & _); exfalso; lra|]. destruct b2; [cbn [length]; lia|].
      assert (false = true) by (apply P2; repeat split; try assumption; lra). discriminate.
    + destruct b2; [destruct (proj1 P2 eq_refl) as (? & _); exfalso; lra|]. destruct b1; [cbn [length]; lia|].
      assert (false = true) by (apply P1; repeat split; try assumption; lra). discriminate.
  - assert (K : forall p q r t : Q, (0 < p)%Q -> (q < 0)%Q -> (r * t < 0)%Q -> (p * q < 0 /\ r * t < 0)%Q).
    { intros p q r0 t Hp Hq Hr. split; [|exact Hr]. assert (0 < p * (- q))%Q by (apply Qmult_lt_0_compat; lra). lra. }
    destruct b1.
    { destruct (proj1 P1 eq_refl) as (? & ? & ?). assert (false = true) by (apply H; now apply K). discriminate. }
    destruct b2.
    { destruct (proj1 P2 eq_refl) as (? & ? & ?). assert (false = true).
      { apply H. assert (Z : (x' * y' == x * y)%Q) by (rewrite S1, S2; ring). destruct (K x' y' w u) as [K1 K2]; try assumption. rewrite Z in K1. rewrite Qmult_comm in K2. split; assumption. }
      discriminate. }
    exact IH.
Qed.
(** The table of a track has one row for each pair of successive records, with the pressure of the first. *)
Theorem c133_segments : forall t i, length (segs t) = length t - 1 /\
  (S i < length t -> let d := (origin, 0%Q) in
   nth_error (segs t) i = Some (mkSeg (fst (nth i t d)) (fst (nth (S i) t d)) (snd (nth i t d)))).
Proof.
  induction t as [|[a p] t IH]; intros i; [split; [reflexivity|cbn; lia]|].
  destruct t as [|[b q] t]; [split; [reflexivity|cbn; lia]|].
  change (segs ((a, p) :: (b, q) :: t)) with (mkSeg a b p :: segs ((b, q) :: t)). split.
  - pose proof (proj1 (IH 0)) as L. cbn [length] in *. lia.
  - intros H. cbv zeta. destruct i as [|i]; [reflexivity|]. cbn [nth_error]. destruct (IH i) as [_ E]. cbv zeta in E. rewrite E by (cbn [length] in *; lia). reflexivity.
Qed.
Definition aGate : pt * pt := (q2 0 0, q2 1 0).
Definition someSegs : list seg := segs [(q2 (1 # 2) 1, 980%Q); (q2 (1 # 2) (-1), 975%Q); (q2 (1 # 4) 1, 990%Q); (q2 (1 # 4) (-1), 925%Q)].
Example c133_example : countCrossings aGate someSegs = mkRow 2 (Some ((980 + (990 + 0)) / 2)%Q) (Some 980%Q) [0; 1; 1; 0; 0] /\
  gcount (countCrossings (snd aGate, fst aGate) someSegs) = 1.
Proof. split; vm_compute; reflexivity. Qed.

(** * C134: categories at landfall *)
(** The columns cat1 to cat5 hold the numbers of landfalls of category 0 to 4; those of category 5 are missing. *)
Theorem c134_shift_refuted : forall g tracks (through : seg -> bool) k, (forall s, In s tracks -> (through s = true <-> passes g s)) -> k < 5 ->
  let lower := nth k [990; 985; 970; 955; 930]%Q 0%Q in let upper := nth k [1020; 990; 985; 970; 955]%Q 0%Q in
  nth k (gcat (countCrossings g tracks)) 0 = length (filter (fun s => through s && (qlt lower (sp s) && Qle_bool (sp s) upper)) tracks).
Proof.
  intros g tracks through k H Hk. cbv zeta.
  assert (E : isLandfall g tracks = filter through tracks).
  { rewrite landfall_filter. apply filter_ext_in. intros s Hs. apply eq_iff_eq_true. rewrite (H s Hs), passes_iff. reflexivity. }
  assert (C : nth k (gcat (countCrossings g tracks)) 0 = catCount (isLandfall g tracks) k).
  { unfold countCrossings. cbv zeta. destruct (isLandfall g tracks) as [|s l]; cbn [map gcat];
    do 5 (destruct k as [|k]; [reflexivity|]); lia. }
  rewrite C, E. unfold catCount. rewrite filter_filter. f_equal. apply filter_ext. intros s.
  destruct (through s); cbn [andb]; [|try rewrite andb_false_r; reflexivity].
  rewrite ?andb_true_r. apply eq_iff_eq_true. rewrite andb_true_iff, qlt_iff, Qle_bool_iff. unfold category.
  set (p := sp s). clearbody p. clear - Hk.
  destruct (Qle_bool p 0) eqn:E0; [apply Qle_bool_iff in E0|apply qle_false_iff in E0];
  (destruct (Qle_bool p 930) eqn:E5; [apply Qle_bool_iff in E5|apply qle_false_iff in E5]);
  (destruct (Qle_bool p 955) eqn:E4; [apply Qle_bool_iff in E4|apply qle_false_iff in E4]);
  (destruct (Qle_bool p 970) eqn:E3; [apply Qle_bool_iff in E3|apply qle_false_iff in E3]);
  (destruct (Qle_bool p 985) eqn:E2; [apply Qle_bool_iff in E2|apply qle_false_iff in E2]);
  (destruct (Qle_bool p 990) eqn:E1; [apply Qle_bool_iff in E1|apply qle_false_iff in E1]);
  (destruct (Qle_bool p 1020) eqn:E6; [apply Qle_bool_iff in E6|apply qle_false_iff in E6]);
  try (exfalso; lra);
  (do 5 (destruct k as [|k]; [cbn [nth Nat.eqb]; split; intros X; try discriminate; try reflexivity; lra|])); lia.
Qed.
Theorem c134_severe_refuted : exists g s, passes g s /\ category (sp s) = Some 5 /\ gcount (countCrossings g [s]) = 1 /\
  gcat (countCrossings g [s]) = [0; 0; 0; 0; 0].
Proof.
  exists aGate, (mkSeg (q2 (1 # 2) 1) (q2 (1 # 2) (-1)) 920%Q). split; [repeat split; vm_compute; reflexivity|]. repeat split; vm_compute; reflexivity.
Qed.
(** A central pressure above 1020 hPa has no category. *)
Theorem c134_high_refuted : forall p, (1020 < p)%Q -> category p = None.
Proof.
  intros p H. unfold category. rewrite !(proj2 (qle_false_iff p _)) by lra. reflexivity.
Qed.
(** The evaluation by area fails as soon as a segment crosses the boundary of the area. *)
Theorem c134_area_refuted : forall crossesArea within tracks s, In s tracks -> crossesArea s = true ->
  isLandfallArea crossesArea within tracks = None.
Proof.
  intros crossesArea within tracks s H C. unfold isLandfallArea. assert (I : In s (filter crossesArea tracks)) by now apply filter_In.
  destruct (filter crossesArea tracks); [contradiction|reflexivity].
Qed.
Example c134_area_example : isLandfallArea (fun _ => true) (fun _ => false) someSegs = None. Proof. reflexivity. Qed.

Print Assumptions c131_shares.
Print Assumptions c131_sum.
Print Assumptions c131_reverse.
Print Assumptions c131_passes.
Print Assumptions c132_last_gate_refuted.
Print Assumptions c132_shift_refuted.
Print Assumptions c132_no_landfall_refuted.
Print Assumptions c132_vertex_refuted.
Print Assumptions c132_clockwise_refuted.
Print Assumptions c133_category.
Print Assumptions c133_row.
Print Assumptions c133_directions.
Print Assumptions c133_segments.
Print Assumptions c134_shift_refuted.
Print Assumptions c134_severe_refuted.
Print Assumptions c134_high_refuted.
Print Assumptions c134_area_refuted.
