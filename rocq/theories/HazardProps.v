(** C01, C02: hazard tiles and their parallel computation. *)
From Verif Require Import Base MWModel MWProofs TileModel TileSpec TileProofs MWSyncModel MWSyncProofs.
Open Scope Z_scope.

(** C02: for every domain window and step the tiles handed out partition the domain. *)
Theorem c02_tiles_partition : forall g : tgrid,
  imin g <= imax g -> jmin g <= jmax g -> 0 < xstep g -> 0 < ystep g ->
  tiling (imin g) (imax g) (jmin g) (jmax g) (xstep g) (ystep g) (get_tiles g).
Proof. exact tiling_ok. Qed.
Print Assumptions c02_tiles_partition.

Example c02_hypotheses_met :
  get_tiles {| imin := 3; imax := 13; jmin := 2; jmax := 5; xstep := 5; ystep := 3 |}
  = [(3, 8, 2, 5); (3, 8, 5, 6); (8, 13, 2, 5); (8, 13, 5, 6); (13, 14, 2, 5); (13, 14, 5, 6)].
Proof. reflexivity. Qed.

(** C02: with increasing coordinates the window consists of exactly the grid points whose
    coordinate lies within the configured limits. *)
Theorem c02_window_is_region : forall lon lat xMin xMax yMin yMax xs ys g,
  (forall m n x y, (m < n)%nat -> nth_error lon m = Some x -> nth_error lon n = Some y -> x <= y) ->
  (forall m n x y, (m < n)%nat -> nth_error lat m = Some x -> nth_error lat n = Some y -> x <= y) ->
  mk_tgrid lon lat xMin xMax yMin yMax xs ys = Some g ->
  (imin g <= imax g /\ jmin g <= jmax g) /\
  (forall m x, nth_error lon m = Some x -> (imin g <= Z.of_nat m <= imax g <-> xMin <= x <= xMax)) /\
  (forall m y, nth_error lat m = Some y -> (jmin g <= Z.of_nat m <= jmax g <-> yMin <= y <= yMax)).
Proof. exact mk_tgrid_window. Qed.
Print Assumptions c02_window_is_region.

Example c02_window_example :
  mk_tgrid [0; 10; 20; 30; 40; 50] [-5; 0; 5] 10 42 (-5) 4 100 100
  = Some {| imin := 1; imax := 4; jmin := 0; jmax := 1; xstep := 100; ystep := 100 |}.
Proof. reflexivity. Qed.

(** C01: for every tile grid, every per-tile computation [f] that does not raise and every
    number [nw >= 1] of worker ranks, every execution ends, and ends with all ranks returned,
    every tile computed exactly once, no message left, and the output array equal to the one
    of the single-process run. *)
Theorem c01_parallel_equals_serial :
  forall (V : Type) (g : tgrid) (f : Z * Z * Z * Z -> option (Z -> Z -> V)) (a0 : Z -> Z -> V) (nw : nat),
  imin g <= imax g -> jmin g <= jmax g -> 0 < xstep g -> 0 < ystep g ->
  (forall t, In t (get_tiles g) -> f t <> None) -> (1 <= nw)%nat ->
  exists a, serial (calc_tile f) (store_tile g) a0 (get_tiles g) = Some a /\
  always_ends_in (init nw a0) (step (calc_tile f) (store_tile g) (get_tiles g) nw) (fun s =>
    finished nw s /\
    Permutation (comp s) (get_tiles g) /\
    (forall y x, out s y x = a y x) /\
    (forall i, (1 <= i <= nw)%nat -> down s i = [] /\ up s i = [])).
Proof. exact @c01_all. Qed.
Print Assumptions c01_parallel_equals_serial.

(** C01: the single-process result holds at each grid point the value computed for it by the
    tile containing it. *)
Theorem c01_serial_value :
  forall (V : Type) (g : tgrid) (f : Z * Z * Z * Z -> option (Z -> Z -> V)) (a0 a : Z -> Z -> V),
  imin g <= imax g -> jmin g <= jmax g -> 0 < xstep g -> 0 < ystep g ->
  (forall t, In t (get_tiles g) -> f t <> None) ->
  serial (calc_tile f) (store_tile g) a0 (get_tiles g) = Some a ->
  forall y x, 0 <= y <= jmax g - jmin g -> 0 <= x <= imax g - imin g ->
  exists x1 x2 y1 y2 b, In (x1, x2, y1, y2) (get_tiles g) /\
    in_rect (x1, x2, y1, y2) (x + imin g) (y + jmin g) /\ f (x1, x2, y1, y2) = Some b /\
    a y x = b (y + jmin g - y1) (x + imin g - x1).
Proof. exact @c01_value. Qed.
Print Assumptions c01_serial_value.

Example c01_hypotheses_met :
  let g := {| imin := 3; imax := 13; jmin := 2; jmax := 5; xstep := 5; ystep := 3 |} in
  let f := fun t : Z * Z * Z * Z => let '(x1, x2, y1, y2) := t in
           Some (fun y x => 100 * (y + y1) + (x + x1)) in
  option_map (fun a => (a 0 0, a 3 10, a 1 5))
    (serial (calc_tile f) (store_tile g) (fun _ _ => 0) (get_tiles g)) = Some (203, 513, 308).
Proof. vm_compute. reflexivity. Qed.

(** C01: the same when any send may block until its message is taken, as the MPI library
    chooses message by message: no deadlock, and at the end no rank waits in a send. *)
Theorem c01_any_buffering :
  forall (V : Type) (g : tgrid) (f : Z * Z * Z * Z -> option (Z -> Z -> V)) (a0 : Z -> Z -> V) (nw : nat),
  imin g <= imax g -> jmin g <= jmax g -> 0 < xstep g -> 0 < ystep g ->
  (forall t, In t (get_tiles g) -> f t <> None) -> (1 <= nw)%nat ->
  exists a, serial (calc_tile f) (store_tile g) a0 (get_tiles g) = Some a /\
  always_ends_in (binit nw a0) (bstep (calc_tile f) (store_tile g) (get_tiles g) nw) (fun b =>
    finished nw (base b) /\
    Permutation (comp (base b)) (get_tiles g) /\
    (forall y x, out (base b) y x = a y x) /\
    (forall i, (1 <= i <= nw)%nat -> down (base b) i = [] /\ up (base b) i = []) /\
    mblk b = None /\ (forall i, wblk b i = false)).
Proof.
  intros V g f a0 nw H1 H2 H3 H4 H5 H6. destruct (c01_all V g f a0 nw H1 H2 H3 H4 H5 H6) as (a & Ha & E).
  exists a. split; [exact Ha|]. apply blocking_ends in E. destruct E as [E1 E2]. split; [exact E1|].
  intros b Hb Stuck. destruct (E2 b Hb Stuck) as (F & P & O & C). repeat split; auto; try apply F; try (now apply C).
  - destruct (b_reach _ _ _ _ _ _ Hb) as (_ & M & _). destruct (mblk b) as [d|]; auto.
    destruct (M d eq_refl) as (M1 & M2). destruct (C d M1). congruence.
  - intros i. destruct (b_reach _ _ _ _ _ _ Hb) as (_ & _ & W). destruct (wblk b i) eqn:X; auto.
    destruct (W i X) as (W1 & W2). destruct (C i W1). congruence.
Qed.
Print Assumptions c01_any_buffering.
(** Sends do block: rank 0 may have to wait for rank 1 before it can serve rank 2. *)
Example c01_blocks : exists b : @bst Z Z Z, star (bstep Some Z.add [7; 8; 9] 2) (binit 2 0) b /\ mblk b = Some 1%nat /\
  pc (base b) = MSend 2 /\ forall b', bstep Some Z.add [7; 8; 9] 2 b b' -> pc (base b') = MSend 2.
Proof.
  eexists. split; [|split; [|split]].
  - eapply star_step; [apply star_refl|].
    eapply (b_msend _ _ _ _ (binit 2 0) _ 1%nat (Some 1%nat)); [reflexivity|reflexivity| | |now right].
    + eapply step_send_work; [reflexivity|cbn; lia|reflexivity].
    + cbn. discriminate.
  - reflexivity.
  - reflexivity.
  - intros b' H. inversion H; subst; clear H; cbn [mblk base pc] in *; try discriminate; assumption.
Qed.

(** C61 (failure): if the computation of one tile raises on a worker, the master never
    returns, in any execution; every execution ends with the master waiting for a message. *)
Theorem c61_failure_hangs_refuted :
  forall (T R S : Type) (calc : T -> option R) (store : S -> R -> S) (tiles : list T) nw (s0 : S) t,
  In t tiles -> calc t = None -> (1 <= nw)%nat ->
  always_ends_in (init nw s0) (step calc store tiles nw) (fun s =>
    pc s = MLoop /\ (term s < pn s)%nat /\
    (forall i, (1 <= i <= nw)%nat -> up s i = []) /\
    exists i t, (1 <= i <= nw)%nat /\ wk s i = WFail t /\ calc t = None).
Proof. exact @failure_hangs. Qed.
Print Assumptions c61_failure_hangs_refuted.

(** The same when sends may block. *)
Theorem c61_failure_hangs_any_buffering_refuted :
  forall (T R S : Type) (calc : T -> option R) (store : S -> R -> S) (tiles : list T) nw (s0 : S) t,
  In t tiles -> calc t = None -> (1 <= nw)%nat ->
  always_ends_in (binit nw s0) (bstep calc store tiles nw) (fun b =>
    pc (base b) = MLoop /\ (term (base b) < pn (base b))%nat /\
    (forall i, (1 <= i <= nw)%nat -> up (base b) i = []) /\
    exists i t, (1 <= i <= nw)%nat /\ wk (base b) i = WFail t /\ calc t = None).
Proof.
  intros T R S calc store tiles nw s0 t H1 H2 H3.
  exact (blocking_ends calc store tiles nw s0 _ (failure_hangs T R S calc store tiles nw s0 t H1 H2 H3)).
Qed.
Print Assumptions c61_failure_hangs_any_buffering_refuted.

Example c61_example : exists t, In t [1; 2; 3] /\ (fun t => if t =? 2 then None else Some t) t = None.
Proof. exists 2. cbn. auto. Qed.
