(** C07, C08, C58: regional swath of one track, combination of tracks, index windows. *)
From Verif Require Import Base TileModel ExtremesModel ExtremesSpec ExtremesProofs.
From Coq Require Import QArith.
Open Scope Z_scope.

(** C07, domain 'bounded': whenever the computation succeeds, every grid point holds the
    summary of exactly the local values of the time steps in the region that reach it. *)
Theorem c07_swath_bounded : forall xMin xMax yMin yMax margin res env track a,
  0 <= qint (100 * margin) -> 0 < qint (100 * res) ->
  regionalExtremes Bounded xMin xMax yMin yMax margin res env track = inl a ->
  forall j i, exists vals,
    values_at xMin xMax yMin yMax (qint (100 * margin)) (qint (100 * res))
      (qint (100 * yMin) - qint (100 * margin) + j * qint (100 * res))
      (qint (100 * xMin) - qint (100 * margin) + i * qint (100 * res)) track vals /\
    swath_of env vals (a j i).
Proof. exact c07_bounded_l. Qed.
Print Assumptions c07_swath_bounded.

(** C07, domain 'full'. *)
Theorem c07_swath_full : forall xMin xMax yMin yMax margin res env track a,
  0 < qint (100 * res) -> qint (100 * res) <= 2 * qint (100 * margin) ->
  (xMin <= xMax)%Q -> (yMin <= yMax)%Q ->
  regionalExtremes Full xMin xMax yMin yMax margin res env track = inl a ->
  forall j i,
    0 <= j -> qint (100 * yMin) - qint (100 * margin) + j * qint (100 * res) <= qint (100 * yMax) + qint (100 * margin) ->
    0 <= i -> qint (100 * xMin) - qint (100 * margin) + i * qint (100 * res) <= qint (100 * xMax) + qint (100 * margin) ->
    exists vals, values_full xMin xMax yMin yMax j i track vals /\ swath_of env vals (a j i).
Proof. exact c07_full_l. Qed.
Print Assumptions c07_swath_full.

(** C07: if every local gust is the magnitude of its components, so is every swath value. *)
Theorem c07_components_consistent : forall env vals r,
  (forall c, In c vals -> (g c * g c == u c * u c + v c * v c)%Q) ->
  swath_of env vals r -> (g r * g r == u r * u r + v r * v r)%Q.
Proof. exact c07_components_l. Qed.
Print Assumptions c07_components_consistent.

Definition ex_field (k : Z) (j i : Z) : cell :=
  {| g := inject_Z (5 * k + j); b := inject_Z k; u := inject_Z j; v := inject_Z i; p := inject_Z (1000 - k) |}.
(** Two time steps, both windows cover row 5; the later one is stronger there. *)
Example c07_example :
  match regionalExtremes Bounded 110 112 (-20) (-18) (1 # 10) (1 # 20) 1010
          [((111, -19)%Q, ex_field 3); ((111, -20)%Q, ex_field 4); ((100, -19)%Q, ex_field 9)] with
  | inl a => (g (a 24 24), b (a 24 24), p (a 24 24), g (a 2 22), g (a 40 0)) = (19 # 1, 3 # 1, 997 # 1, 22 # 1, 0)%Q
  | inr _ => False
  end.
Proof. vm_compute. reflexivity. Qed.

(** C58, domain 'bounded': margin [m]/100 and resolution [s]/100 degrees with [s] dividing
    [2 m]. The window of every position in the region lies in the grid and has the local shape;
    the computation never fails. *)
Theorem c58_window_fits_partial : forall lo hi margin res m s x,
  (margin == inject_Z m / 100)%Q -> (res == inject_Z s / 100)%Q -> 0 <= m -> 0 < s -> (2 * m) mod s = 0 ->
  (lo <= x <= hi)%Q ->
  let '(a, z) := axis_win Bounded (mk_axis lo hi margin res) (qint (100 * x)) in
  0 <= a /\ z <= axis_len (mk_axis lo hi margin res) /\ z - a = makeGrid_len x margin res None.
Proof. exact axis_fit. Qed.
Print Assumptions c58_window_fits_partial.

Theorem c58_bounded_never_fails_partial : forall xMin xMax yMin yMax margin res env track m s,
  (margin == inject_Z m / 100)%Q -> (res == inject_Z s / 100)%Q -> 0 <= m -> 0 < s -> (2 * m) mod s = 0 ->
  exists a, regionalExtremes Bounded xMin xMax yMin yMax margin res env track = inl a.
Proof. exact c58_no_error_l. Qed.
Print Assumptions c58_bounded_never_fails_partial.

Theorem c58_full_never_fails_partial : forall xMin xMax yMin yMax margin res env track m s X1 X2 Y1 Y2,
  (margin == inject_Z m / 100)%Q -> (res == inject_Z s / 100)%Q ->
  (xMin == inject_Z X1 / 100)%Q -> (xMax == inject_Z X2 / 100)%Q ->
  (yMin == inject_Z Y1 / 100)%Q -> (yMax == inject_Z Y2 / 100)%Q ->
  0 <= m -> 0 < s -> X1 <= X2 -> Y1 <= Y2 ->
  X1 <> 0 -> X2 <> 0 -> Y1 <> 0 -> Y2 <> 0 ->
  (X2 - X1 + 2 * m) mod s = 0 -> (Y2 - Y1 + 2 * m) mod s = 0 ->
  exists a, regionalExtremes Full xMin xMax yMin yMax margin res env track = inl a.
Proof. exact c58_full_no_error_l. Qed.
Print Assumptions c58_full_never_fails_partial.

Example c58_default_settings : (2 * 200) mod 5 = 0 /\ (2 == inject_Z 200 / 100)%Q /\ ((1 # 20) == inject_Z 5 / 100)%Q.
Proof. vm_compute. auto. Qed.
Example c58_full_settings : (15500 - 11000 + 2 * 200) mod 5 = 0 /\ (-500 - -2500 + 2 * 200) mod 5 = 0.
Proof. vm_compute. auto. Qed.

(** C58 refuted: whenever [s] does not divide [2 m], every region at least [s] wide contains a
    position whose window is one longer than the local grid. *)
Theorem c58_every_other_step_refuted : forall m s lo w,
  0 <= m -> 0 < s -> (2 * m) mod s <> 0 -> s <= w ->
  exists c, lo <= c <= lo + w /\
   let x := (inject_Z c / 100)%Q in
   let ax := mk_axis (inject_Z lo / 100) (inject_Z (lo + w) / 100) (inject_Z m / 100) (inject_Z s / 100) in
   let '(a, z) := axis_win Bounded ax (qint (100 * x)) in
   z - a = makeGrid_len x (inject_Z m / 100) (inject_Z s / 100) None + 1.
Proof. exact c58_mismatch_l. Qed.
Print Assumptions c58_every_other_step_refuted.

(** C58 refuted: margin 2, resolution 0.03: failure at one position; resolution 0.025;
    resolution 0.005; domain 'full' with a limit equal to zero. *)
Theorem c58_refuted :
  (exists track, regionalExtremes Bounded 110 120 (-20) (-10) 2 (3 # 100) 1010 track = inr BadShape) /\
  (exists track, regionalExtremes Bounded 110 120 (-20) (-10) 2 (25 # 1000) 1010 track = inr BadShape) /\
  (forall track, regionalExtremes Bounded 110 120 (-20) (-10) 2 (5 # 1000) 1010 track = inr ZeroStep) /\
  (exists track, regionalExtremes Full 110 120 (-20) 0 2 (1 # 20) 1010 track = inr BadShape).
Proof.
  split; [|split; [|split]].
  - exists [((11502 # 100, -15)%Q, ex_field 1)]. vm_compute. reflexivity.
  - exists [((115, -15)%Q, ex_field 1)]. vm_compute. reflexivity.
  - reflexivity.
  - exists [((115, -15)%Q, ex_field 1)]. vm_compute. reflexivity.
Qed.
Print Assumptions c58_refuted.

(** C08: the gust is the maximum and the pressure the minimum over the tracks. *)
Theorem c08_gust_and_pressure_partial : forall l r, combine_tracks l = Some r -> strongest_gust l r.
Proof. exact c08_gust_l. Qed.
Print Assumptions c08_gust_and_pressure_partial.

(** C08 refuted in general: components and bearing are always those of the first track. *)
Theorem c08_components_of_first_track_refuted : forall c l r,
  combine_tracks (c :: l) = Some r -> u r = u c /\ v r = v c /\ b r = b c.
Proof. exact c08_first_l. Qed.
Print Assumptions c08_components_of_first_track_refuted.

Theorem c08_refuted : exists l r, combine_tracks l = Some r /\ ~ components_match l r.
Proof.
  exists [{| g := 3; b := 0; u := 3; v := 0; p := 990 |}; {| g := 5; b := 1; u := 0; v := 5; p := 980 |}]%Q.
  eexists. split; [reflexivity|].
  intros (m & Hm & Hg & Hu & _). cbn in Hm.
  destruct Hm as [<-|[<-|[]]]; discriminate.
Qed.
Print Assumptions c08_refuted.

Example c08_example : combine_tracks [zero_cell 3; zero_cell 2] = Some (zero_cell 2).
Proof. reflexivity. Qed.
