(** C183: the steps of a generated cyclone follow the autoregression of the cell it moves into. *)
From Coq Require Import QArith Qabs Qround Lqa Lia List.
From Verif Require Import Base SplitModel CellModel CellProofs SampModel GenModel GenProofs GenProps.
Import ListNotations.
Close Scope Q_scope. Open Scope list_scope. Open Scope nat_scope.

(** The statistics of one quantity in one cell, of the open sea or of land *)
Definition alpha (k : coeffs) (land : bool) (c : Z) : Q := if land then c_lalpha k c else c_alpha k c.
Definition phi (k : coeffs) (land : bool) (c : Z) : Q := if land then c_lphi k c else c_phi k c.
Definition mean (k : coeffs) (land : bool) (c : Z) : Q := if land then c_lmu k c else c_mu k c.
Definition dev (k : coeffs) (land : bool) (c : Z) : Q := if land then c_lsig k c else c_sig k c.

Section P.
Context {G NG : Type} (w : world G NG).

(** One pass: the cyclone moves with its last speed and bearing; in the cell it reaches three random numbers, for pressure,
    bearing and speed in this order, advance the three anomalies; from the second pass on rate of pressure change, bearing
    and speed are the mean of the cell plus the anomaly times its deviation. *)
Theorem c183_step : forall eps lfeps rmwEps i s s' v, step w eps lfeps rmwEps i s = Next v s' ->
  exists c m l1 l2 l3 g1 g2,
    w_bear2 w (p_bear (s_pt s)) (s_dist s) (p_lon (s_pt s)) (p_lat (s_pt s)) = (p_lon (s_pt s'), p_lat (s_pt s')) /\
    getCellNum (p_lon (s_pt s')) (p_lat (s_pt s')) (w_limit w) (w_space w) = Some c /\
    w_mask w (p_lon (s_pt s')) (p_lat (s_pt s')) = Some m /\
    let land := qlt 0 m in
    w_logistic w (s_g s) = (l1, g1) /\ w_logistic w g1 = (l2, g2) /\ w_logistic w g2 = (l3, s_g s') /\
    s_dpChi s' = (alpha (w_dpStats w) land c * s_dpChi s + phi (w_dpStats w) land c * l1)%Q /\
    s_bChi s' = (alpha (w_bStats w) land c * s_bChi s + phi (w_bStats w) land c * l2)%Q /\
    s_vChi s' = (alpha (w_vStats w) land c * s_vChi s + phi (w_vStats w) land c * l3)%Q /\
    s_dist s' = (w_dt w * p_speed (s_pt s'))%Q /\
    (i <> 1 -> s_dp s' = (mean (w_dpStats w) land c + dev (w_dpStats w) land c * s_dpChi s')%Q /\
      p_bear (s_pt s') = qmod (w_deg w (mean (w_bStats w) land c + dev (w_bStats w) land c * s_bChi s')) 360 /\
      (p_speed (s_pt s') == Qabs (mean (w_vStats w) land c + dev (w_vStats w) land c * s_vChi s'))%Q) /\
    (i = 1 -> s_dp s' = (s_dp s + dev (w_dpStats w) land c * s_dpChi s')%Q /\
      p_bear (s_pt s') = qmod (s_theta s + w_deg w (dev (w_bStats w) land c * s_bChi s')) 360 /\
      p_speed (s_pt s') = Qabs (s_v s + Qabs (dev (w_vStats w) land c * s_vChi s'))%Q) /\
    (land = false -> p_pres (s_pt s') = match p_pres (s_pt s) with
       | None => None
       | Some q => Some (if qlt (q + s_dp s' * w_dt w) (c_min (w_pStats w) c - 4 * c_sig (w_pStats w) c)
                         then q + Qabs (s_dp s') * w_dt w else q + s_dp s' * w_dt w)%Q
       end).
Proof.
  intros eps lfeps rmwEps i s s' v H. unfold step in H.
  destruct (w_bear2 w _ _ _ _) as [lon lat] eqn:B.
  destruct (outside w lon lat) eqn:O; [discriminate|].
  destruct (getCellNum lon lat (w_limit w) (w_space w)) as [c|] eqn:C; [|discriminate].
  unfold onLand in H. destruct (w_mask w lon lat) as [m|] eqn:M; [|discriminate].
  unfold stepPressureChange, stepBearing, stepSpeed, ar, mu_, sig_ in H.
  exists c, m. destruct (w_logistic w (s_g s)) as [l1 g1] eqn:G1. destruct (w_logistic w g1) as [l2 g2] eqn:G2. destruct (w_logistic w g2) as [l3 g3] eqn:G3.
  exists l1, l2, l3, g1, g2. unfold alpha, phi, mean, dev.
  destruct (qlt 0 m) eqn:L; (destruct (w_sizeFile w); [rewrite ?G1, ?G2, ?G3 in H; discriminate|]); rewrite ?G1, ?G2, ?G3 in H;
    inversion H; subst v s'; clear H; cbn [s_pt s_dpChi s_bChi s_vChi s_dist s_dp s_g p_lon p_lat p_bear p_speed p_pres]; cbv zeta;
    (do 10 (split; [first [reflexivity|assumption]|]));
    (split; [|split; [|intros X; try discriminate X]]);
    try (intros N; destruct (Nat.eqb_spec i 1) as [E|E]; try contradiction;
         (split; [reflexivity|split; [reflexivity|]]); try reflexivity; apply Qabs_pos, Qabs_nonneg).
  destruct (p_pres (s_pt s)) as [q|]; [|reflexivity]. match goal with |- context [qlt ?a ?b] => destruct (qlt a b) eqn:W end; reflexivity.
Qed.

(** A pass over the open sea never takes the central pressure below the lower of its old value and the floor of the cell. *)
Theorem c183_floor : forall eps lfeps rmwEps i s s' v q, (0 <= w_dt w)%Q -> step w eps lfeps rmwEps i s = Next v s' ->
  w_mask w (p_lon (s_pt s')) (p_lat (s_pt s')) = Some 0%Q -> p_pres (s_pt s) = Some q ->
  exists c q', getCellNum (p_lon (s_pt s')) (p_lat (s_pt s')) (w_limit w) (w_space w) = Some c /\ p_pres (s_pt s') = Some q' /\
    (q <= q' \/ c_min (w_pStats w) c - 4 * c_sig (w_pStats w) c <= q')%Q.
Proof.
  intros eps lfeps rmwEps i s s' v q D H M P.
  destruct (c183_step _ _ _ _ _ _ _ H) as (c & m & l1 & l2 & l3 & g1 & g2 & _ & C & M' & K). cbv zeta in K. destruct K as (_ & _ & _ & _ & _ & _ & _ & _ & _ & K).
  rewrite M in M'. injection M' as <-. specialize (K eq_refl). rewrite P in K. exists c.
  destruct (qlt _ _) eqn:W in K; eexists; (split; [exact C|]); (split; [exact K|]).
  - left. pose proof (Qmult_le_0_compat _ _ (Qabs_nonneg (s_dp s')) D). lra.
  - right. now apply qlt_false_iff in W.
Qed.

(** Several passes in one cell and over one kind of surface: the anomalies in closed form. *)
Fixpoint pw (a : Q) (n : nat) : Q := match n with O => 1 | S m => a * pw a m end.
Fixpoint total (n : nat) (h : nat -> Q) : Q := match n with O => 0 | S m => h O + total m (fun k => h (S k)) end.
Fixpoint draws (n : nat) (g : G) : list Q * G :=
  match n with O => ([], g) | S m => let '(l, g') := w_logistic w g in let '(r, h) := draws m g' in (l :: r, h) end.
Definition memory (a f chi : Q) (n : nat) (l : nat -> Q) : Q := (pw a n * chi + f * total n (fun k => pw a (n - 1 - k) * l k))%Q.

Lemma total_ext (n : nat) : forall h h', (forall k, k < n -> (h k == h' k)%Q) -> (total n h == total n h')%Q.
Proof.
  induction n as [|n IH]; intros h h' E; cbn [total]; [reflexivity|]. rewrite (E 0) by lia. now rewrite (IH _ (fun k => h' (S k))) by (intros; apply E; lia).
Qed.
Lemma memory_S a f chi x n l : (x == a * chi + f * l O)%Q -> (memory a f x n (fun k => l (S k)) == memory a f chi (S n) l)%Q.
Proof.
  intros E. unfold memory. rewrite E. cbn [pw total]. replace (S n - 1 - 0) with n by lia.
  rewrite (total_ext n (fun k => pw a (S n - 1 - S k) * l (S k))%Q (fun k => pw a (n - 1 - k) * l (S k))%Q).
  - ring.
  - intros k L. now replace (S n - 1 - S k) with (n - 1 - k) by lia.
Qed.
Lemma draws_3 n g l1 l2 l3 g1 g2 g3 : w_logistic w g = (l1, g1) -> w_logistic w g1 = (l2, g2) -> w_logistic w g2 = (l3, g3) ->
  draws (3 * S n) g = (l1 :: l2 :: l3 :: fst (draws (3 * n) g3), snd (draws (3 * n) g3)).
Proof.
  intros A B C. replace (3 * S n) with (S (S (S (3 * n)))) by lia. cbn [draws]. rewrite A, B, C. now destruct (draws (3 * n) g3).
Qed.

Theorem c183_memory : forall eps lfeps rmwEps i s l sf c land, path w eps lfeps rmwEps i s l sf ->
  (forall p, In p l -> getCellNum (p_lon p) (p_lat p) (w_limit w) (w_space w) = Some c /\
     exists m, w_mask w (p_lon p) (p_lat p) = Some m /\ qlt 0 m = land) ->
  let n := length l in let r := fst (draws (3 * n) (s_g s)) in
  s_g sf = snd (draws (3 * n) (s_g s)) /\
  (s_dpChi sf == memory (alpha (w_dpStats w) land c) (phi (w_dpStats w) land c) (s_dpChi s) n (fun k => nth (3 * k)%nat r 0%Q))%Q /\
  (s_bChi sf == memory (alpha (w_bStats w) land c) (phi (w_bStats w) land c) (s_bChi s) n (fun k => nth (3 * k + 1)%nat r 0%Q))%Q /\
  (s_vChi sf == memory (alpha (w_vStats w) land c) (phi (w_vStats w) land c) (s_vChi s) n (fun k => nth (3 * k + 2)%nat r 0%Q))%Q.
Proof.
  intros eps lfeps rmwEps i s l sf c land P. induction P as [i s|i s s' l sf H P IH]; intros A; cbv zeta.
  - cbn [length draws fst snd]. split; [reflexivity|]. unfold memory. cbn [pw total]. repeat split; ring.
  - destruct (A (s_pt s') (or_introl eq_refl)) as (C & m & M & L).
    destruct (IH (fun p I => A p (or_intror I))) as (IG & I1 & I2 & I3). clear IH A.
    destruct (c183_step _ _ _ _ _ _ _ H) as (c' & m' & l1 & l2 & l3 & g1 & g2 & _ & C' & M' & K). cbv zeta in K.
    rewrite C in C'. injection C' as <-. rewrite M in M'. injection M' as <-. rewrite L in K.
    destruct K as (G1 & G2 & G3 & K1 & K2 & K3 & _). cbn [length]. rewrite (draws_3 (length l) _ _ _ _ _ _ _ G1 G2 G3). cbn [fst snd].
    split; [exact IG|]. set (r := fst (draws (3 * length l) (s_g s'))) in *.
    split; [|split].
    + rewrite I1. rewrite <- (memory_S _ _ _ (s_dpChi s')) by (rewrite K1; reflexivity).
      unfold memory. apply Qplus_comp; [reflexivity|]. apply Qmult_comp; [reflexivity|]. apply total_ext. intros k _.
      now replace (3 * S k) with (S (S (S (3 * k)))) by lia.
    + rewrite I2. rewrite <- (memory_S _ _ _ (s_bChi s')) by (rewrite K2; reflexivity).
      unfold memory. apply Qplus_comp; [reflexivity|]. apply Qmult_comp; [reflexivity|]. apply total_ext. intros k _.
      now replace (3 * S k + 1) with (S (S (S (3 * k + 1)))) by lia.
    + rewrite I3. rewrite <- (memory_S _ _ _ (s_vChi s')) by (rewrite K3; reflexivity).
      unfold memory. apply Qplus_comp; [reflexivity|]. apply Qmult_comp; [reflexivity|]. apply total_ext. intros k _.
      now replace (3 * S k + 2) with (S (S (S (3 * k + 2)))) by lia.
Qed.

(** With a coefficient below one the memory fades: bounded draws give bounded anomalies however long the cyclone lives. *)
Theorem c183_fades : forall a f chi n l b, (0 <= a)%Q -> (a < 1)%Q -> (forall k, k < n -> (Qabs (l k) <= b)%Q) ->
  (Qabs (memory a f chi n l) * (1 - a) <= pw a n * Qabs chi * (1 - a) + Qabs f * b * (1 - pw a n))%Q.
Proof.
  intros a f chi n l b A0 A1 B.
  assert (PW : forall n, (0 <= pw a n)%Q) by (induction n0 as [|n0 IHn0]; cbn [pw]; [lra|now apply Qmult_le_0_compat]).
  assert (T : (Qabs (total n (fun k => pw a (n - 1 - k) * l k)) * (1 - a) <= b * (1 - pw a n))%Q).
  { revert l B. induction n as [|n IH]; intros l B; cbn [total].
    - cbn [pw]. change (Qabs 0) with 0%Q. lra.
    - specialize (IH (fun k => l (S k)) (fun k H => B (S k) ltac:(lia))). pose proof (B 0 ltac:(lia)) as B0.
      replace (S n - 1 - 0) with n by lia.
      rewrite (total_ext n (fun k => pw a (S n - 1 - S k) * l (S k))%Q (fun k => pw a (n - 1 - k) * l (S k))%Q)
        by (intros k L; now replace (S n - 1 - S k)%nat with (n - 1 - k)%nat by lia).
      set (t := total n (fun k => (pw a (n - 1 - k) * l (S k))%Q)) in *.
      pose proof (Qabs_triangle (pw a n * l O) t) as TR. rewrite Qabs_Qmult, (Qabs_pos (pw a n)) in TR by apply PW.
      assert (X : (pw a n * Qabs (l O) <= pw a n * b)%Q) by (rewrite !(Qmult_comm (pw a n)); now apply Qmult_le_compat_r).
      assert (Y : (Qabs (pw a n * l O + t) * (1 - a) <= (pw a n * b + Qabs t) * (1 - a))%Q) by (apply Qmult_le_compat_r; lra).
      cbn [pw]. lra. }
  unfold memory. set (t := total n _) in *. pose proof (Qabs_triangle (pw a n * chi) (f * t)) as TR.
  rewrite !Qabs_Qmult, (Qabs_pos (pw a n)) in TR by apply PW.
  assert (Y : (Qabs (pw a n * chi + f * t) * (1 - a) <= (pw a n * Qabs chi + Qabs f * Qabs t) * (1 - a))%Q) by (apply Qmult_le_compat_r; lra).
  assert (Z : (Qabs f * (Qabs t * (1 - a)) <= Qabs f * (b * (1 - pw a n)))%Q) by (rewrite !(Qmult_comm (Qabs f)); apply Qmult_le_compat_r; [exact T|apply Qabs_nonneg]).
  lra.
Qed.

Lemma path_prefix eps lfeps rmwEps i s l sf : path w eps lfeps rmwEps i s l sf -> forall k d, 2 <= k <= length l ->
  exists sb sk, path w eps lfeps rmwEps i s (firstn k l) sk /\ step w eps lfeps rmwEps (i + k - 1) sb = Next true sk /\ s_pt sk = nth (k - 1) l d.
Proof.
  assert (W : path w eps lfeps rmwEps i s l sf -> forall k d, 1 <= k <= length l ->
    exists sb sk, path w eps lfeps rmwEps i s (firstn k l) sk /\ step w eps lfeps rmwEps (i + k - 1) sb = Next true sk /\ s_pt sk = nth (k - 1) l d).
  { intros P. induction P as [i s|i s s' l sf H P IH]; intros k d K; [cbn in K; lia|]. cbn [length] in K.
    destruct k as [|[|k]]; [lia| |].
    - exists s, s'. cbn [firstn]. split; [econstructor; [exact H|constructor]|]. split; [now replace (i + 1 - 1) with i by lia|reflexivity].
    - destruct (IH (S k) d ltac:(lia)) as (sb & sk & P' & H' & E). exists sb, sk. split; [cbn [firstn]; econstructor; eauto|].
      split; [now replace (i + S (S k) - 1) with (S i + S k - 1) by lia|]. rewrite E. replace (S (S k) - 1) with (S (S k - 1)) by lia. reflexivity. }
  intros P k d K. apply W; [exact P|lia].
Qed.
Lemma qmod_wd x y : (x == y)%Q -> (qmod x 360 == qmod y 360)%Q.
Proof.
  intros E. unfold qmod. assert (F : Qfloor (x / 360) = Qfloor (y / 360)) by (now rewrite E). rewrite F, E. reflexivity.
Qed.

(** Speed and bearing along a whole track, from the third point on, while it stays in one cell and over one kind of surface *)
Theorem c183_track : forall lon lat speed bear pres env rmax date jday rmwEps clock g t cl g' n c land d,
  (forall x y, x == y -> w_deg w x == w_deg w y)%Q ->
  singleTrack w lon lat speed bear pres env rmax date jday rmwEps clock g = GOk (t, cl, g') -> 2 <= n < length t ->
  (forall j, 1 <= j <= n -> getCellNum (p_lon (nth j t d)) (p_lat (nth j t d)) (w_limit w) (w_space w) = Some c /\
     exists m, w_mask w (p_lon (nth j t d)) (p_lat (nth j t d)) = Some m /\ qlt 0 m = land) ->
  let g0 := snd (w_lognorm w (69527 # 100000) (- 6146 # 100000) (471 # 10000) (snd (w_normal w 0 (25717 # 10000) g))) in
  let r := fst (draws (3 * n) g0) in
  (p_speed (nth n t d) == Qabs (mean (w_vStats w) land c + dev (w_vStats w) land c *
     memory (alpha (w_vStats w) land c) (phi (w_vStats w) land c) 0 n (fun k => nth (3 * k + 2)%nat r 0%Q)))%Q /\
  (p_bear (nth n t d) == qmod (w_deg w (mean (w_bStats w) land c + dev (w_bStats w) land c *
     memory (alpha (w_bStats w) land c) (phi (w_bStats w) land c) 0 n (fun k => nth (3 * k + 1)%nat r 0%Q))) 360)%Q.
Proof.
  intros lon lat speed bear pres env rmax date jday rmwEps clock g t cl g' n c land d DG H N A g0 r. subst g0 r.
  unfold singleTrack in H. destruct (w_maxSteps w) as [|k]; [discriminate|].
  destruct (w_normal w _ _ g) as [eps g1]. cbn [snd]. destruct (w_lognorm w _ _ _ g1) as [lf g2]. cbn [snd].
  match type of H with context [walk w _ _ _ _ _ ?x] => set (s := x) in H end.
  destruct (walk w eps lf rmwEps k 1 s) as [[[l c1] g3]|e|] eqn:W; cbn [gbind fst snd] in H; try discriminate.
  assert (SG : s_g s = g2) by reflexivity. assert (SV : s_vChi s = 0%Q) by reflexivity. assert (SB : s_bChi s = 0%Q) by reflexivity.
  match type of H with GOk (?x :: _, _, _) = _ => set (p0 := x) in H; clearbody p0 end. clearbody s.
  assert (T : t = p0 :: l) by congruence. clear H. subst t. apply walk_path in W as (sf & P & _ & _). cbn [length] in N.
  destruct (path_prefix _ _ _ _ _ _ _ P n d ltac:(lia)) as (sb & sk & P' & ST & E).
  assert (A' : forall p, In p (firstn n l) -> getCellNum (p_lon p) (p_lat p) (w_limit w) (w_space w) = Some c /\
     exists m, w_mask w (p_lon p) (p_lat p) = Some m /\ qlt 0 m = land).
  { intros p I. destruct (In_nth _ _ d I) as (j & J & <-). rewrite firstn_length in J.
    assert (X : nth j (firstn n l) d = nth j l d). { rewrite <- (firstn_skipn n l) at 2. rewrite app_nth1; [reflexivity|rewrite firstn_length; lia]. }
    rewrite X. exact (A (S j) ltac:(lia)). }
  destruct (c183_memory _ _ _ _ _ _ _ c land P' A') as (_ & _ & MB & MV). rewrite firstn_length, Nat.min_l in MB, MV by lia.
  rewrite SG, SV in MV. rewrite SG, SB in MB.
  destruct (c183_step _ _ _ _ _ _ _ ST) as (c' & m' & l1 & l2 & l3 & h1 & h2 & _ & C' & M' & K). cbv zeta in K.
  destruct K as (_ & _ & _ & _ & _ & _ & _ & K & _). destruct (K ltac:(lia)) as (_ & KB & KV). clear K.
  destruct (A n ltac:(lia)) as (C & m & M & L). assert (X : nth n (p0 :: l) d = s_pt sk) by (rewrite E; destruct n as [|n']; [lia|cbn [nth]; f_equal; lia]).
  rewrite X in C, M |- *. rewrite C in C'. injection C' as <-. rewrite M in M'. injection M' as <-. rewrite L in KB, KV. split.
  - rewrite KV. apply Qabs_wd. now rewrite MV.
  - rewrite KB. apply qmod_wd, DG. now rewrite MB.
Qed.
End P.

(** A cyclone of four points over the sea, all in one cell; every third random number is for the speed. *)
Definition half_memory : coeffs := {| c_alpha := fun _ => (1 # 2)%Q; c_phi := fun _ => (1 # 2)%Q; c_mu := fun _ => 0%Q; c_sig := fun _ => (1 # 10)%Q;
  c_min := fun _ => 0%Q; c_lalpha := fun _ => 0%Q; c_lphi := fun _ => 0%Q; c_lmu := fun _ => 0%Q; c_lsig := fun _ => 0%Q |}.
Definition w1 : world Z Z :=
  {| w_uniform := fun a b g => (a, (g + 1)%Z);
     w_logistic := fun g => (inject_Z g, (g + 1)%Z); w_normal := fun _ _ g => (0%Q, g); w_lognorm := fun _ _ _ g => (0%Q, g);
     w_npnormal := fun n => (0%Q, n); w_key := fun k => k; w_npseed := fun s => s;
     w_poisson := fun _ n ng => (repeat 1 n, ng);
     w_bear2 := fun _ _ lo la => ((lo + (1 # 2))%Q, la);
     w_mslp := fun _ _ lo => (909 + lo)%Q; w_cos := fun _ => 0%Q; w_exp := f; w_deg := fun x => x; w_mask := sea;
     w_origin := ([101; 106]%Q, [-12 # 1; -17 # 1]%Q, [[1; 1]; [1; 1]]%Q);
     w_vStats := half_memory; w_pStats := zero; w_bStats := half_memory; w_dpStats := zero;
     w_cdfBearing := []; w_cdfSpeed := []; w_cdfDay := [];
     w_cdfPressure := []; w_sizeFile := false;
     w_limit := {| xMin := 100; xMax := 110; yMin := -20; yMax := -10 |}; w_space := {| gx := 5; gy := 5 |};
     w_inner := None; w_dt := 6; w_maxSteps := 4 |}.
Example c183_met : (forall x y, x == y -> w_deg w1 x == w_deg w1 y)%Q /\ (0 <= w_dt w1)%Q /\
  match singleTrack w1 101 (-12) 20 90 985 1010 20 40 40 0 0 0%Z with
  | GOk (t, _, _) => length t = 4 /\
      forallb (fun p => match getCellNum (p_lon p) (p_lat p) (w_limit w1) (w_space w1), w_mask w1 (p_lon p) (p_lat p) with
                        | Some c, Some m => (c =? 0)%Z && negb (qlt 0 m) | _, _ => false end) t = true /\
      (map (fun p => Qred (p_speed p)) t = [20; 201 # 10; 3 # 10; 11 # 20])%Q
  | _ => False end.
Proof. split; [intros x y E; exact E|]. split; [discriminate|]. vm_compute. repeat split. Qed.
Print Assumptions c183_step.
Print Assumptions c183_floor.
Print Assumptions c183_memory.
Print Assumptions c183_fades.
Print Assumptions c183_track.
