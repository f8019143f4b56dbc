(** C45, C47, C48, C49, C88: grid indices, unit and humidity conversions, L-moments. *)
From Coq Require Import List Arith ZArith Lia Bool QArith Qabs Lqa String.
From Verif Require Import CellModel NumModel NumProofs LmomModel LmomProofs LmomProofs2.
Import ListNotations.
Open Scope Q_scope.

(** * C45 *)
Theorem c45_inside : forall a v, (exists x, In x a /\ x <= v) -> (exists x, In x a /\ v <= x) ->
  exists i, findIndex a v = Some i /\
    (i < List.length a)%nat /\
    (forall j, (j < List.length a)%nat -> Qabs (nth i a 0 - v) <= Qabs (nth j a 0 - v)) /\
    (forall j, (j < i)%nat -> Qabs (nth i a 0 - v) < Qabs (nth j a 0 - v)).
Proof. exact find_inside. Qed.
Print Assumptions c45_inside.
(** Missing: values outside a grid that is not in increasing order, see [c45_descending_refuted]. *)
Theorem c45_increasing_partial : forall a v, a <> [] ->
  (forall i j, (i < j < List.length a)%nat -> nth i a 0 < nth j a 0) ->
  exists i, findIndex a v = Some i /\
    (i < List.length a)%nat /\
    (forall j, (j < List.length a)%nat -> Qabs (nth i a 0 - v) <= Qabs (nth j a 0 - v)) /\
    (forall j, (j < i)%nat -> Qabs (nth i a 0 - v) < Qabs (nth j a 0 - v)).
Proof. exact find_increasing. Qed.
Print Assumptions c45_increasing_partial.
(** A value above all values of a decreasing grid (latitudes from north to south) is given the
    last, farthest index. *)
Theorem c45_descending_refuted :
  (forall a v, a <> [] -> (forall x, In x a -> x < v) -> findIndex a v = Some (List.length a - 1)%nat) /\
  findNearest [30; 20; 10] 31 = Some 10 /\ Qabs (30 - 31) < Qabs (10 - 31).
Proof. split; [exact find_out_of_range|]. split; reflexivity. Qed.
Print Assumptions c45_descending_refuted.
Example c45_example : findIndex [30; 20; 10] 15 = Some 1%nat /\ findIndex [10; 20; 30] 31 = Some 2%nat
  /\ findNearest [10; 20; 30] 5 = Some 10 /\ findIndex [] 1 = None.
Proof. repeat split. Qed.

(** * C47 *)
(** Missing: the round trip is exact only up to one part in a thousand (0.003 kelvin and the like
    for temperatures), because the tabulated factors are rounded. *)
Theorem c47_round_trip_partial : forall pi u w a b v, ~ pi == 0 ->
  lookup2 (tables pi) u w = Some a -> lookup2 (tables pi) w u = Some b ->
  Qabs (convert pi (convert pi v u w) w u - v) <=
    (if temperature u then (Qabs v + 32) * (1 # 10000) else Qabs v * (1 # 1000)).
Proof.
  intros pi u w a b v Hp H1 H2. destruct (temperature u) eqn:T.
  - eapply round_trip_temperature; eauto.
  - eapply round_trip_linear; eauto.
Qed.
Print Assumptions c47_round_trip_partial.
Theorem c47_exact_refuted : exists v u w a b, lookup2 (tables 3.14159) u w = Some a /\
  lookup2 (tables 3.14159) w u = Some b /\ ~ convert 3.14159 (convert 3.14159 v u w) w u == v.
Proof.
  exists 100, "F"%string, "C"%string, 0.5556, 1.8. split; [reflexivity|]. split; [reflexivity|].
  vm_compute. discriminate.
Qed.
Print Assumptions c47_exact_refuted.
(** Nothing is reported for an unknown conversion: the number comes back unchanged.  Fahrenheit to
    kelvin, and a spelling accepted for input units but not for output units, are among them. *)
Theorem c47_unsupported_refuted :
  (forall pi v u w, lookup2 (tables pi) (alias u) w = None -> convert pi v u w = v) /\
  (forall pi v, convert pi v "F" "K" = v /\ convert pi v "kts" "m/s" = v /\ convert pi v "m/s" "hPa" = v).
Proof. split; [exact unsupported_silent|]. intros pi v. repeat split. Qed.
Print Assumptions c47_unsupported_refuted.
Example c47_example : convert 3.14159 100 "C" "F" == 212 /\ convert 3.14159 1000 "hPa" "Pa" == 100000
  /\ convert 3.14159 10 "m/s" "kph" == 36.
Proof. repeat split. Qed.

(** * C48 *)
Theorem c48_rh_range : forall vp sat, 0 <= vapPrToRH vp sat <= 100 /\
  (0 < sat -> 0 <= vp <= sat -> vapPrToRH vp sat == 100 * vp / sat).
Proof. intros. split; [apply rh_range|apply rh_value]. Qed.
Print Assumptions c48_rh_range.
Theorem c48_inverse : forall pi es prs rat, 0 <= es -> es < prs -> 0 <= rat ->
  mixRatToVapPr (vapPrToMixRat es prs) prs == es /\
  vapPrToMixRat (mixRatToVapPr rat prs) prs == rat /\
  spHumToMixRat pi (vapPrToSpHum es prs) "kgkg" == vapPrToMixRat es prs /\
  spHumToMixRat pi (vapPrToSpHum es prs * 1000) "gkg" == vapPrToMixRat es prs.
Proof.
  intros pi es prs rat H1 H2 H3.
  assert (A1 : ~ prs == es) by lra. assert (A2 : ~ prs == 0) by lra.
  split; [now apply mix_vap|]. split; [apply vap_mix; auto; unfold gEps; lra|].
  split; [now apply sphum_mix|]. rewrite sphum_units. now apply sphum_mix.
Qed.
Print Assumptions c48_inverse.
Example c48_example : vapPrToRH 2 1 == 100 /\ vapPrToRH 1 4 == 25 /\ vapPrToRH 1 0 == 100 /\ 0 < vapPrToMixRat 20 1000.
Proof. repeat split. Qed.

(** * C49 *)
(** The three values are the mean, half the mean difference of two values, and a third of the mean
    of "largest minus twice the middle plus smallest" of three values divided by the second. *)
Theorem c49_meaning : forall data, (3 <= List.length data)%nat ->
  let n := qn (List.length data) in
  exists a b t, samlmu3 data = LOk (a, b, t) /\
    a == fold_right Qplus 0 data / n /\
    b == pairs (fun i => nth i data 0) (List.length data) / (n * (n - 1)) /\
    match t with
    | None => b == 0
    | Some r => ~ b == 0 /\
        r * b == 2 * triples (fun i => nth i data 0) (List.length data) / (n * (n - 1) * (n - 2))
    end.
Proof. exact meaning. Qed.
Print Assumptions c49_meaning.
Theorem c49_shift : forall data c, (3 <= List.length data)%nat ->
  exists a b t a' b' t', samlmu3 data = LOk (a, b, t) /\ samlmu3 (map (Qplus c) data) = LOk (a', b', t') /\
    a' == a + c /\ b' == b /\ oeq t' t.
Proof. exact shift. Qed.
Print Assumptions c49_shift.
Theorem c49_scale : forall data c, (3 <= List.length data)%nat -> ~ c == 0 ->
  exists a b t a' b' t', samlmu3 data = LOk (a, b, t) /\ samlmu3 (map (Qmult c) data) = LOk (a', b', t') /\
    a' == c * a /\ b' == c * b /\ oeq t' t.
Proof. exact scale. Qed.
Print Assumptions c49_scale.
Theorem c49_sorted : forall data, (3 <= List.length data)%nat ->
  (forall i, (S i < List.length data)%nat -> nth i data 0 <= nth (S i) data 0) ->
  exists a b t, samlmu3 data = LOk (a, b, t) /\ 0 <= b /\
    (b == 0 <-> forall i, (i < List.length data)%nat -> nth i data 0 == nth 0 data 0) /\
    (b == 0 <-> t = None) /\
    (forall r, t = Some r -> -(1) <= r <= 1).
Proof. exact sorted_facts. Qed.
Print Assumptions c49_sorted.
Theorem c49_agree : forall data nmom l, (3 <= List.length data)%nat -> (1 <= nmom)%nat -> samlmu data nmom = LOk l ->
  List.length l = nmom /\
  exists a b t, samlmu3 data = LOk (a, b, t) /\
    (forall k v, (k < 3)%nat -> nth_error l k = Some v -> oeq v (nth k [Some a; Some b; t] None)).
Proof. exact agree. Qed.
Print Assumptions c49_agree.
(** When the general routine does return moments. *)
Theorem c49_returns : forall data nmom, (3 <= List.length data)%nat -> (1 <= nmom <= 100)%nat ->
  ((nmom <= 3)%nat -> exists l, samlmu data nmom = LOk l) /\
  ((4 <= nmom <= List.length data)%nat ->
     (exists a b r, samlmu3 data = LOk (a, b, Some r)) -> exists l, samlmu data nmom = LOk l) /\
  ((4 <= nmom)%nat -> (List.length data < nmom)%nat -> samlmu data nmom = LZeroDiv).
Proof. exact agree_ok. Qed.
Print Assumptions c49_returns.
Definition lsame (r : lres (list (option Q))) (l : list Q) : bool :=
  match r with
  | LOk v => (List.length v =? List.length l)%nat &&
      forallb (fun p => match fst p with Some u => Qeq_bool u (snd p) | None => false end) (combine v l)
  | _ => false
  end.
Example c49_example : lsame (samlmu [1; 2; 4] 3) [7/3; 1; 1/3] = true /\ lsame (samlmu [1; 2; 4; 8] 4) [15/4; 23/12; 9/23; 3/23] = true /\
  samlmu [1; 2] 3 = LFew /\ samlmu [1; 2; 3] 4 = LZeroDiv /\ samlmu [2; 2; 2; 2] 4 = LNone.
Proof. vm_compute. auto 10. Qed.

(** * C88 *)
(** With the specific humidity in grams per kilogram, as the documentation of the parameter says,
    the result is a thousand times too large; it is right for kilograms per kilogram. *)
Theorem c88_units_refuted : forall pi es prs e, 0 < es -> 0 < prs ->
  spHumToRH (convert pi (vapPrToSpHum e prs) "kgkg" "gkg") es prs == 1000 * (100 * e / es) /\
  spHumToRH (vapPrToSpHum e prs) es prs == 100 * e / es.
Proof. intros. split; [now apply sphum_rh_off|now apply sphum_rh_kgkg]. Qed.
Print Assumptions c88_units_refuted.
Example c88_example : spHumToRH (convert 3.14159 (vapPrToSpHum 10 1000) "kgkg" "gkg") 20 1000 == 50000 /\ vapPrToRH 10 20 == 50.
Proof. split; reflexivity. Qed.
