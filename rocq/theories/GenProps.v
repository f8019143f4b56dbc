(** C22, C23, C24, C25, C26, C27, C64, C72, C73, C74. *)
From Coq Require Import QArith Qabs Qround Lqa Lia.
From Verif Require Import Base SplitModel CellModel CellProofs SampModel SampProofs GenModel GenProofs GenProofs2 GenProofs3.
Close Scope Q_scope. Close Scope Z_scope. Open Scope list_scope. Open Scope nat_scope.

(** A small world for the examples: generators are counters, a storm moves half a degree east per
    step, tables have one or two rows. [f] is about 1/(1-x) below zero and 1+10x above,
    rounded to small fractions: it has the properties of exp that are used. *)
Definition f (x : Q) : Q :=
  if Qle_bool x 0 then (4 / (4 + inject_Z (Qceiling (-4 * x))))%Q else (1 + inject_Z (Qceiling (100 * x)) / 10)%Q.
Definition zero : coeffs := {| c_alpha := fun _ => 0%Q; c_phi := fun _ => 0%Q; c_mu := fun _ => 0%Q; c_sig := fun _ => 0%Q;
  c_min := fun _ => 0%Q; c_lalpha := fun _ => 0%Q; c_lphi := fun _ => 0%Q; c_lmu := fun _ => 0%Q; c_lsig := fun _ => 0%Q |}.
Definition tab (l : list (Q * Q)) : list (nat * Q * Q) :=
  flat_map (fun c => map (fun r => (c, fst r, snd r)) l) [0; 1; 2; 3].
Definition tw (uni : Z -> Q) (mask : Q -> Q -> option Q) (lf : Q) (size : bool) (steps : nat) : world Z Z :=
  {| w_uniform := fun a b g => ((a + (b - a) * uni g)%Q, (g + 1)%Z);
     w_logistic := fun g => (0%Q, g); w_normal := fun _ _ g => (0%Q, g); w_lognorm := fun _ _ _ g => (lf, g);
     w_npnormal := fun n => ((inject_Z n / 100)%Q, (n + 1)%Z); w_key := fun k => k; w_npseed := fun s => s;
     w_poisson := fun _ n ng => (repeat 1 n, (ng + 1)%Z);
     w_bear2 := fun _ _ lo la => ((lo + (1 # 2))%Q, la);
     w_mslp := fun _ _ lo => (909 + lo)%Q; w_cos := fun _ => 0%Q; w_exp := f; w_deg := fun x => x; w_mask := mask;
     w_origin := ([101; 106]%Q, [-12 # 1; -17 # 1]%Q, [[1; 1]; [1; 1]]%Q);
     w_vStats := zero; w_pStats := zero; w_bStats := zero; w_dpStats := zero;
     w_cdfBearing := tab [(90, 1)]%Q; w_cdfSpeed := tab [(20, 1)]%Q; w_cdfDay := tab [(40, 1)]%Q;
     w_cdfPressure := tab [(985, 1 # 2); (990, 1)]%Q; w_sizeFile := size;
     w_limit := {| xMin := 100; xMax := 110; yMin := -20; yMax := -10 |}; w_space := {| gx := 5; gy := 5 |};
     w_inner := None; w_dt := 6; w_maxSteps := steps |}.
Definition sea : Q -> Q -> option Q := fun _ _ => Some 0%Q.
Definition half : Z -> Q := fun _ => (1 # 4)%Q.
Definition w0 := tw half sea 0 false 4.
Definition st0 : gstate Z Z := {| g_prng := 0%Z; g_np := 0%Z; g_clock := 0%Q; g_rmw := 0%Q |}.
Lemma f_explike : explike f.
Proof.
  assert (N : forall x, (x <= 0)%Q -> f x = (4 / (4 + inject_Z (Qceiling (-4 * x))))%Q).
  { intros x H. unfold f. apply Qle_bool_iff in H. now rewrite H. }
  assert (P : forall x, (0 < x)%Q -> f x = (1 + inject_Z (Qceiling (100 * x)) / 10)%Q).
  { intros x H. unfold f. apply qle_false_iff in H. now rewrite H. }
  assert (CN : forall x, (x <= 0)%Q -> (0 <= inject_Z (Qceiling (-4 * x)))%Q).
  { intros x H. change 0%Q with (inject_Z 0). rewrite <- Zle_Qle. rewrite <- (Qceiling_Z 0). apply Qceiling_resp_le.
    change (inject_Z 0) with 0%Q. lra. }
  assert (CP : forall x, (0 < x)%Q -> (0 <= inject_Z (Qceiling (100 * x)) / 10)%Q).
  { intros x H. apply Qle_shift_div_l; [reflexivity|]. eapply Qle_trans; [|apply Qle_ceiling]. lra. }
  assert (I : forall x, (x <= 0)%Q -> (0 < 4 / (4 + inject_Z (Qceiling (-4 * x))) /\ 4 / (4 + inject_Z (Qceiling (-4 * x))) <= 1)%Q).
  { intros x H. specialize (CN x H). split.
    - apply Qlt_shift_div_l; lra.
    - apply Qle_shift_div_r; lra. }
  split; [reflexivity|]. split.
  - intros x. destruct (Qlt_le_dec 0 x) as [H|H]; [rewrite P by auto; specialize (CP x H); lra|rewrite N by auto; apply I; auto].
  - intros x y H. destruct (Qlt_le_dec 0 x) as [X|X]; destruct (Qlt_le_dec 0 y) as [Y|Y].
    + rewrite !P by auto. assert (Z : (Qceiling (100 * x) <= Qceiling (100 * y))%Z) by (apply Qceiling_resp_le; lra).
      rewrite Zle_Qle in Z. unfold Qdiv.
      assert ((inject_Z (Qceiling (100 * x)) * / 10 <= inject_Z (Qceiling (100 * y)) * / 10)%Q) by (apply Qmult_le_compat_r; [exact Z|discriminate]).
      lra.
    + lra.
    + rewrite N, P by auto. destruct (I x X). specialize (CP y Y). lra.
    + rewrite !N by auto. pose proof (CN x X) as CX. pose proof (CN y Y) as CY.
      assert (Z : (Qceiling (-4 * y) <= Qceiling (-4 * x))%Z) by (apply Qceiling_resp_le; lra).
      rewrite Zle_Qle in Z.
      set (u := inject_Z (Qceiling (-4 * x))) in *. set (v := inject_Z (Qceiling (-4 * y))) in *. clearbody u v.
      apply Qle_shift_div_l; [lra|].
      assert (E : (4 / (4 + u) * (4 + v) == 4 * (4 + v) / (4 + u))%Q) by (field; lra).
      rewrite E. apply Qle_shift_div_r; lra.
Qed.

(** C22: within a run the streams differ. *)
Theorem c22_streams_partial : forall seed i j, i <> j -> streamKey seed i <> streamKey seed j.
Proof. unfold streamKey. intros. lia. Qed.
Print Assumptions c22_streams_partial.
(** Different requests give the same stream, and simulation i+1 under one seed repeats simulation i under
    the next seed. *)
Theorem c22_requests_refuted : exists seed stream seed' stream', (seed, stream) <> (seed', stream') /\
  streamKey seed stream = streamKey seed' stream'.
Proof. exists 1%Z, 2%Z, 2%Z, 1%Z. split; [congruence|reflexivity]. Qed.
Print Assumptions c22_requests_refuted.
Theorem c22_next_seed_refuted : forall (G NG : Type) (w : world G NG) fuel n seed i (st : gstate G NG) tr s,
  let start k := {| g_prng := w_key w k; g_np := g_np st; g_clock := g_clock st; g_rmw := g_rmw st |} in
  generateTracks w fuel n (i + 1) noInits (start (streamKey seed (i + 1))) = GOk (tr, s) ->
  exists tr', generateTracks w fuel n i noInits (start (streamKey (seed + 1) i)) = GOk (tr', s) /\ map snd tr' = map snd tr.
Proof.
  intros G NG w fuel n seed i st tr s start H. exists (map (retag i) tr).
  replace (streamKey (seed + 1) i) with (streamKey seed (i + 1)) by (unfold streamKey; lia).
  rewrite (generate_sim w fuel n (i + 1) i), H. split; [reflexivity|]. now rewrite map_map.
Qed.
Print Assumptions c22_next_seed_refuted.
Example c22_met : exists tr s, generateTracks w0 5 1 (0 + 1) noInits
  {| g_prng := streamKey 7 (0 + 1); g_np := 0%Z; g_clock := 0%Q; g_rmw := 0%Q |} = GOk (tr, s) /\ length tr = 1.
Proof. vm_compute. do 2 eexists. split; reflexivity. Qed.

(** C23: the tracks of a simulation are determined by the two generators, and the first simulation of a
    process does not depend on how many processes there are. *)
Theorem c23_state_partial : forall (G NG : Type) (w : world G NG) fuel n sim s s' r st1,
  g_prng s = g_prng s' -> g_np s = g_np s' -> generateTracks w fuel n sim noInits s = GOk (r, st1) ->
  exists st2, generateTracks w fuel n sim noInits s' = GOk (r, st2).
Proof. intros G NG. exact c23_state_l. Qed.
Print Assumptions c23_state_partial.
Theorem c23_first_partial : forall (G NG : Type) (w : world G NG) fuel ss ts mean n size size' rank st0 st0' r r' m,
  (ss <> 0)%Z -> (ts <> 0)%Z -> nth_error (fst (w_poisson w mean n (w_npseed w ss))) rank = Some m ->
  run w fuel ss ts mean n size rank st0 = GOk r -> run w fuel ss ts mean n size' rank st0' = GOk r' ->
  exists tr, nth_error r 0 = Some (rank, tr) /\ nth_error r' 0 = Some (rank, tr).
Proof. intros G NG. exact c23_first2_l. Qed.
Print Assumptions c23_first_partial.
(** Later simulations do: the size variates come from numpy's generator, which is seeded once per process. *)
Theorem c23_processes_refuted : exists a p q b p' q' r r',
  run w0 9 3 5 1 2 1 0 st0 = GOk [a; (1, [((0, 1%Z), p :: q)])] /\
  run w0 9 3 5 1 2 2 1 st0 = GOk [(1, [((0, 1%Z), p' :: q')])] /\
  run w0 9 3 5 1 2 2 0 st0 = GOk [b] /\
  p_rmax p = Some r /\ p_rmax p' = Some r' /\ ~ (r == r')%Q.
Proof. vm_compute. do 8 eexists. repeat split; try reflexivity. discriminate. Qed.
Print Assumptions c23_processes_refuted.

(** C24 *)
Theorem c24_tracks : forall (G NG : Type) (w : world G NG) fuel n sim a st r st',
  generateTracks w fuel n sim a st = GOk (r, st') ->
  map fst r = map (fun k => (k, sim)) (seq 0 n) /\
  forall id t, In (id, t) r -> t <> [] /\ length t <= w_maxSteps w /\ physical w t /\
    (forall d, in_domain (w_limit w) (p_lon (nth 0 t d)) (p_lat (nth 0 t d)) /\ p_age (nth 0 t d) = 0%Q) /\
    (forall i d, S i < length t -> follows w (nth i t d) (nth (S i) t d)).
Proof. intros G NG. exact c24_l. Qed.
Print Assumptions c24_tracks.
Example c24_met : exists r s, generateTracks w0 5 2 7 noInits st0 = GOk (r, s) /\
  map (fun t => length (snd t)) r = [4; 4].
Proof. vm_compute. do 2 eexists. split; reflexivity. Qed.
(** A track that dies before 12 hours is not stored: with two steps of 6 hours nothing is accepted. *)
Example c24_short : generateTracks (tw half sea 0 false 2) 30 1 7 noInits st0 = GFuel.
Proof. vm_compute. reflexivity. Qed.

(** C25 *)
Theorem c25_track : forall (G NG : Type) (w : world G NG) lon lat speed bear pres env rmax date jday rmwEps clock g t cl g',
  singleTrack w lon lat speed bear pres env rmax date jday rmwEps clock g = GOk (t, cl, g') ->
  1 <= length t <= w_maxSteps w /\ (forall d, firstPoint lon lat speed bear pres rmax date (nth 0 t d)) /\
  (forall i d, i < length t -> (p_age (nth i t d) == qn i * w_dt w /\ p_date (nth i t d) == date + qn i * w_dt w / 24)%Q) /\
  (forall i d, S i < length t -> follows w (nth i t d) (nth (S i) t d)).
Proof. intros G NG. exact c25_track_l. Qed.
Print Assumptions c25_track.
Theorem c25_stop : forall (G NG : Type) (w : world G NG) lon lat speed bear pres env rmax date jday rmwEps clock g t cl g' d,
  singleTrack w lon lat speed bear pres env rmax date jday rmwEps clock g = GOk (t, cl, g') -> length t < w_maxSteps w ->
  let p := nth (length t - 1) t d in
  let nx := w_bear2 w (p_bear p) (w_dt w * p_speed p)%Q (p_lon p) (p_lat p) in
  ~ in_domain (w_limit w) (fst nx) (snd nx) \/
  exists eps lf a b, stepped w eps lf rmwEps (length t) a b false /\ s_pt a = p /\
    (p_poci (s_pt b) = None \/ exists c e, p_pres (s_pt b) = Some c /\ p_poci (s_pt b) = Some e /\
       ((12 < p_age (s_pt b) /\ e - c < 5)%Q \/ (p_age (s_pt b) <= 12 /\ e - c < 2)%Q)).
Proof. intros G NG. exact c25_stop_l. Qed.
Print Assumptions c25_stop.
Theorem c25_limit_cuts : forall (G NG : Type) (w : world G NG) lon lat speed bear pres env rmax date jday rm clock g n m t c g',
  1 <= n -> n <= m ->
  singleTrack (setSteps w m) lon lat speed bear pres env rmax date jday rm clock g = GOk (t, c, g') ->
  exists c1 g1, singleTrack (setSteps w n) lon lat speed bear pres env rmax date jday rm clock g = GOk (firstn n t, c1, g1).
Proof. intros G NG. exact c25_prefix_l. Qed.
Print Assumptions c25_limit_cuts.
Theorem c25_runs : forall (G NG : Type) (w : world G NG) lon lat speed bear pres env rmax date jday rmwEps clock g,
  w_sizeFile w = false -> 1 <= w_maxSteps w ->
  (forall x y, in_domain (w_limit w) x y -> w_mask w x y <> None) ->
  exists r, singleTrack w lon lat speed bear pres env rmax date jday rmwEps clock g = GOk r.
Proof. intros G NG. exact c25_runs_l. Qed.
Print Assumptions c25_runs.
Example c25_leaves : exists t c g, singleTrack (tw half sea 0 false 9) 109 (-12 # 1) 20 90 985 1010 30 40 40 0 0 0%Z = GOk (t, c, g) /\
  length t = 2.
Proof. vm_compute. do 3 eexists. split; reflexivity. Qed.

(** C26: a prescribed environmental pressure is used by every track. *)
Theorem c26_prescribed_partial : forall (G NG : Type) (w : world G NG) fuel n sim a st r st' e,
  i_env a = Some e -> ~ (e == 0)%Q -> generateTracks w fuel n sim a st = GOk (r, st') ->
  forall id t, In (id, t) r -> usesEnv w e t.
Proof. intros G NG. exact c26_given_l. Qed.
Print Assumptions c26_prescribed_partial.
(** Otherwise the pressure sampled for the first attempt is used by all tracks of the simulation. *)
Theorem c26_leak_refuted : forall (G NG : Type) (w : world G NG) fuel n sim a st r st',
  generateTracks w fuel n sim a st = GOk (r, st') -> r <> [] -> (forall d la lo, ~ (w_mslp w d la lo == 0)%Q) ->
  exists e, forall id t, In (id, t) r -> usesEnv w e t.
Proof. intros G NG. exact c26_leak_l. Qed.
Print Assumptions c26_leak_refuted.
(** The second storm starts at (106,-17), where the pressure is 1015, but gets the value of (101,-12). *)
Definition w26 := tw (fun g => if (g <? 8)%Z then (1 # 10)%Q else (9 # 10)%Q) sea 0 false 4.
Theorem c26_witness_refuted : exists p1 q1 p2 q2 s,
  generateTracks w26 9 2 5 noInits st0 = GOk ([((0, 5%Z), p1 :: q1); ((1, 5%Z), p2 :: q2)], s) /\
  p_lon p2 = 106%Q /\ p_lat p2 = (-17 # 1)%Q /\ p_pres p2 = Some 990%Q /\
  p_poci p2 = getPoci w26 1010 (Some 990%Q) (-17 # 1) 40 0 /\
  w_mslp w26 40 (-17 # 1) 106 = (1015 # 1)%Q /\
  p_poci p2 <> getPoci w26 1015 (Some 990%Q) (-17 # 1) 40 0.
Proof. vm_compute. do 5 eexists. do 6 (split; [reflexivity|]). discriminate. Qed.
Print Assumptions c26_witness_refuted.

(** C27 *)
Theorem c27_clock : forall (G NG : Type) (w : world G NG) pre s land c0,
  (forall q, In q (pre ++ s :: land) -> w_mask w (fst q) (snd q) <> None) ->
  isLand w s = false -> (forall q, In q land -> isLand w q = true) ->
  exists c, clockAfter w (pre ++ s :: land) c0 = Some c /\ (c == w_dt w * qn (length land))%Q.
Proof. intros G NG. exact c27_clock_l. Qed.
Print Assumptions c27_clock.
Theorem c27_pchange : forall (G NG : Type) (w : world G NG) pc pe tol tol' eps, explike (w_exp w) -> (pc <= pe)%Q ->
  (0 <= (8 # 1000) + (8 # 10000) * (pe - pc) + eps)%Q -> (0 <= tol)%Q -> (tol <= tol')%Q ->
  (pc <= pChange w pc pe tol eps)%Q /\ (pChange w pc pe tol eps <= pe)%Q /\
  (pChange w pc pe tol eps <= pChange w pc pe tol' eps)%Q.
Proof. intros G NG. exact c27_pchange_l. Qed.
Print Assumptions c27_pchange.
(** Inside a track the decay uses the total time over land. *)
Theorem c27_total_time_partial : forall (G NG : Type) (w : world G NG) eps lf rm i s l sf, path w eps lf rm i s l sf ->
  (s_tol sf == s_tol s + w_dt w * qn (length (filter (landRow w) l)))%Q.
Proof. intros G NG. exact path_tol. Qed.
Print Assumptions c27_total_time_partial.
Theorem c27_land_bounds_partial : forall (G NG : Type) (w : world G NG) eps lf rm i a b d q,
  stepped w eps lf rm i a b true -> explike (w_exp w) -> isLand w (p_lon (s_pt b), p_lat (s_pt b)) = true ->
  osub (s_offPoci a) (s_offP a) = Some d -> p_poci (s_pt a) = Some q -> (0 <= d)%Q -> (0 <= s_tol b)%Q ->
  (0 <= (3515 # 100000) + (435 # 1000000) * d + (2865 # 1000000) * s_lfSpeed a + lf)%Q ->
  exists p, p_pres (s_pt b) = Some p /\ (q - d <= p)%Q /\ (p <= q)%Q.
Proof. intros G NG. exact land_bounds. Qed.
Print Assumptions c27_land_bounds_partial.
(** Land, sea, land: the decay at the second landfall continues from the first. *)
Definition islands : Q -> Q -> option Q :=
  fun lo _ => if Qeq_bool lo (203 # 2) || Qeq_bool lo (205 # 2) then Some 1%Q else Some 0%Q.
Definition w27 := tw half islands 0 false 4.
Definition decayed (poci pres speed lf tol : Q) : Q :=
  (poci - (poci - pres) * f (- ((3515 # 100000) + (435 # 1000000) * (poci - pres) + (2865 # 1000000) * speed + lf) * tol))%Q.
Theorem c27_second_landfall_refuted : exists p0 p1 p2 p3 c g pres poci v,
  singleTrack w27 101 (-12 # 1) 20 90 985 1010 30 40 40 0 0 0%Z = GOk ([p0; p1; p2; p3], c, g) /\
  map (landRow w27) [p1; p2; p3] = [true; false; true] /\
  p_pres p2 = Some pres /\ p_poci p2 = Some poci /\ p_pres p3 = Some v /\
  (v == decayed poci pres (p_speed p2) 0 12)%Q /\ ~ (v == decayed poci pres (p_speed p2) 0 6)%Q.
Proof.
  do 9 eexists. do 6 (split; [vm_compute; reflexivity|]). vm_compute. discriminate.
Qed.
Print Assumptions c27_second_landfall_refuted.
(** With a low variate (the lognormal variate is above -0.06146) a storm deepens over land. *)
Theorem c27_deepens_refuted : exists p0 q c g v,
  singleTrack (tw half islands (-6 # 100) false 2) 101 (-12 # 1) 2 90 985 1010 30 40 40 0 0 0%Z = GOk ([p0; q], c, g) /\
  p_pres p0 = Some 985%Q /\ landRow w27 q = true /\ p_pres q = Some v /\ (v < 985)%Q.
Proof. do 5 eexists. do 4 (split; [vm_compute; reflexivity|]). vm_compute. reflexivity. Qed.
Print Assumptions c27_deepens_refuted.
(** The clock kept by the land mask object is not reset between storms. *)
Theorem c27_carry_refuted : forall (G NG : Type) (w : world G NG) land c0, (forall q, In q land -> isLand w q = true) ->
  exists c, clockAfter w land c0 = Some c /\ (c == c0 + w_dt w * qn (length land))%Q.
Proof. intros G NG. exact c27_first_l. Qed.
Print Assumptions c27_carry_refuted.
Example c27_met : explike f /\ isLand w27 (101%Q, 0%Q) = false /\ isLand w27 ((203 # 2)%Q, 0%Q) = true.
Proof. split; [exact f_explike|]. split; reflexivity. Qed.

(** C64 *)
Theorem c64_several_partial : forall (G NG : Type) (w : world G NG) fuel ss ts mean n size rank st0,
  2 <= n -> (size = 1 \/ (ss <> 0 /\ ts <> 0)%Z) ->
  (forall ng, length (fst (w_poisson w mean n ng)) = n) ->
  (forall i m s, i < n -> exists r, generateTracks w fuel m (Z.of_nat i) noInits s = GOk r) ->
  exists r, run w fuel ss ts mean n size rank st0 = GOk r /\ map fst r = balanced size rank (seq 0 n).
Proof. intros G NG. exact c64_l. Qed.
Print Assumptions c64_several_partial.
Theorem c64_one_refuted : forall (G NG : Type) (w : world G NG) fuel ss ts mean st0,
  (forall ng, length (fst (w_poisson w mean 1 ng)) = 1) -> run w fuel ss ts mean 1 1 0 st0 = GErr GZeroDiv.
Proof. intros G NG. exact c64_refuted_l. Qed.
Print Assumptions c64_one_refuted.
Example c64_met : exists r, run w0 9 3 5 1 3 1 0 st0 = GOk r /\ map fst r = [0; 1; 2].
Proof. vm_compute. eexists. split; reflexivity. Qed.

(** C72 *)
Theorem c72_prescribed_partial : forall (G NG : Type) (w : world G NG) fuel n sim a st r st',
  generateTracks w fuel n sim a st = GOk (r, st') -> forall id t d, In (id, t) r ->
    (forall x y, i_lon a = Some x -> i_lat a = Some y -> ~ (x == 0)%Q -> ~ (y == 0)%Q ->
       p_lon (nth 0 t d) = x /\ p_lat (nth 0 t d) = y) /\
    (forall x, i_bearing a = Some x -> ~ (x == 0)%Q -> p_bear (nth 0 t d) = x) /\
    (forall x, i_speed a = Some x -> ~ (x == 0)%Q -> p_speed (nth 0 t d) = x) /\
    (forall x, i_pressure a = Some x -> ~ (x == 0)%Q -> p_pres (nth 0 t d) = Some x) /\
    (forall x, i_rmax a = Some x -> ~ (x == 0)%Q -> p_rmax (nth 0 t d) = Some x).
Proof. intros G NG. exact c72_l. Qed.
Print Assumptions c72_prescribed_partial.
Definition inits0 (lon lat bearing : option Q) : inits :=
  {| i_lon := lon; i_lat := lat; i_speed := Some 30%Q; i_bearing := bearing; i_pressure := Some 980%Q; i_env := None;
     i_rmax := Some 40%Q; i_day := None |}.
(** A prescribed bearing of 0 (north) is replaced by a sampled one. *)
Theorem c72_zero_refuted : exists p q s, generateTracks w0 5 1 7 (inits0 None None (Some 0%Q)) st0 = GOk ([((0, 7%Z), p :: q)], s) /\
  p_bear p = 90%Q /\ p_speed p = 30%Q.
Proof. vm_compute. do 3 eexists. repeat split. Qed.
Print Assumptions c72_zero_refuted.

(** C73: prescribed conditions that leave the domain at the first step make the loop run for ever. *)
Theorem c73_never_ends_refuted : forall (G NG : Type) (w : world G NG) a lon lat bear speed day env pres rmax,
  given (i_lon a) = Some lon -> given (i_lat a) = Some lat -> given (i_bearing a) = Some bear ->
  given (i_speed a) = Some speed -> given (i_day a) = Some day -> given (i_env a) = Some env ->
  given (i_pressure a) = Some pres -> given (i_rmax a) = Some rmax ->
  in_domain (w_limit w) lon lat -> (1 <= trunc day <= 366)%Z ->
  (let nx := w_bear2 w bear (w_dt w * speed)%Q lon lat in
   ~ (inject_Z (xMin (w_limit w)) <= fst nx /\ fst nx <= inject_Z (xMax (w_limit w)) /\
      inject_Z (yMin (w_limit w)) <= snd nx /\ snd nx <= inject_Z (yMax (w_limit w)))%Q) ->
  forall fuel n sim st, 1 <= n -> generateTracks w fuel n sim a st = GFuel.
Proof. intros G NG. exact c73_l. Qed.
Print Assumptions c73_never_ends_refuted.
Example c73_met : let a := {| i_lon := Some (1099 # 10)%Q; i_lat := Some (-12 # 1)%Q; i_speed := Some 30%Q; i_bearing := Some 90%Q;
     i_pressure := Some 980%Q; i_env := Some 1010%Q; i_rmax := Some 40%Q; i_day := Some 40%Q |} in
  given (i_lon a) = Some (1099 # 10)%Q /\ in_domain (w_limit w0) (1099 # 10) (-12 # 1) /\
  w_bear2 w0 90 (6 * 30) (1099 # 10) (-12 # 1) = ((2208 # 20)%Q, (-12 # 1)%Q) /\ generateTracks w0 50 1 7 a st0 = GFuel.
Proof. vm_compute. repeat split; discriminate. Qed.

(** C74: when the file of radius distributions exists, generation always raises. *)
Theorem c74_size_file_refuted : forall (G NG : Type) (w : world G NG) fuel n sim st, w_sizeFile w = true -> 1 <= n ->
  forall r, generateTracks w fuel n sim noInits st <> GOk r.
Proof. intros G NG. exact c74_l. Qed.
Print Assumptions c74_size_file_refuted.
Example c74_met : generateTracks (tw half sea 0 true 4) 9 1 7 noInits st0 = GErr GValue.
Proof. vm_compute. reflexivity. Qed.
