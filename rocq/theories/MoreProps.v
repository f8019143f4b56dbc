(** More theorems about properties stated elsewhere, each added because a wrong version of a definition passed all the
    theorems there were (see seeded/LOG.jsonl). *)
From Coq Require Import Ascii String List Arith ZArith QArith Qround Qabs Bool Lia Lqa.
From Verif Require Import Base NumModel UtilModel TileModel CellModel CellProofs RegModel MapModel ExtremesModel MeshModel MeshProofs TextModel PlaceModel RasterModel.
Import ListNotations.
Close Scope Z_scope.

(** * C90 *)
(** Of the documented profiles exactly two cannot be used, whatever the field. *)
Theorem c90_which_refuted : forall p f, In p documentedProfiles -> In f documentedFields ->
  (localWindField p f <> Computed <-> p = "jelesnianski"%string \/ p = "doubleHolland"%string) /\
  (forall q, In q ["holland"; "powell"; "schloemer"; "willoughby"; "jelesnianski"; "doubleHolland"]%string -> In q documentedProfiles).
Proof.
  intros p f P F. split; [|intros q Q; exact Q]. cbn in P, F.
  destruct F as [<-|[<-|[<-|[]]]];
    destruct P as [<-|[<-|[<-|[<-|[<-|[<-|[]]]]]]]; cbn; intuition congruence.
Qed.
(** A name that is no wind profile is reported as such; the wind profiles without a pressure profile of the same name fail
    differently, and only then is the name of the field looked at. *)
Theorem c90_errors_refuted : forall f,
  (forall p, In p ["jelesnianski"; "rankine"; "doubleholland"; "newholland"]%string -> localWindField p f = UnboundLocalError) /\
  (forall p, In p ["holland"; "powell"; "schloemer"; "willoughby"]%string -> ~ In f ["kepert"; "hubbert"; "mcconochie"]%string -> localWindField p f = KeyError).
Proof.
  intros f. split.
  - intros p P. cbn in P. intuition (subst; reflexivity).
  - intros p P F. assert (H : has fieldKeys f = false).
    { destruct (has fieldKeys f) eqn:E; [|reflexivity]. exfalso. apply F. unfold has in E. apply existsb_exists in E.
      destruct E as (x & I & E). apply String.eqb_eq in E. subst x. cbn in I |- *. tauto. }
    unfold localWindField. rewrite H. cbn in P. intuition (subst; reflexivity).
Qed.

(** * C148 *)
(** The scale bar has the largest of the round lengths that is not longer than asked for. *)
Theorem c148_scale_largest : forall (d : nat) (k : Z) d', (1 <= d <= 10)%nat -> scaleLength d k = Some (d', k) ->
  forall m, In m [1; 2; 5; 10]%nat -> (m <= d)%nat -> (m <= d')%nat.
Proof.
  intros d k d' D H m M L. unfold scaleLength in H. destruct (k <? 0)%Z; [discriminate|].
  do 11 (destruct d as [|d]; [solve [lia | cbn in H; injection H as <-; cbn in M; intuition lia]|]). lia.
Qed.
Example c148_scale_ten : scaleLength 10 3 = Some (10%nat, 3%Z) /\ scaleLength 9 3 = Some (5%nat, 3%Z).
Proof. split; reflexivity. Qed.

(** * C105 *)
(** The points along an axis: evenly spaced from the centre minus the margin, up to the centre plus the margin. *)
Theorem c105_points_partial : forall c margin res k, (0 < qint (res * 1000))%Z -> (0 <= qint (1000 * margin))%Z ->
  (length (makeGridAxis c margin res) = Z.to_nat (2 * qint (1000 * margin) / qint (res * 1000) + 1))%nat /\
  ((k < length (makeGridAxis c margin res))%nat ->
     nth k (makeGridAxis c margin res) 0%Z = (qint (1000 * c) - qint (1000 * margin) + Z.of_nat k * qint (res * 1000))%Z /\
     (nth k (makeGridAxis c margin res) 0 <= qint (1000 * c) + qint (1000 * margin))%Z).
Proof.
  intros c margin res k Hg Hm. unfold makeGridAxis, arangeZ. cbv zeta. rewrite map_length, seq_length.
  set (C := qint (1000 * c)). set (M := qint (1000 * margin)) in *. set (g := qint (res * 1000)) in *.
  assert (L : arange_len (C - M) (C + M + 1) g = (2 * M / g + 1)%Z).
  { unfold arange_len. replace (C + M + 1 - (C - M))%Z with (2 * M + 1)%Z by ring. unfold zceil.
    pose proof (Z.div_mod (2 * M) g ltac:(lia)). pose proof (Z.mod_pos_bound (2 * M) g Hg).
    assert (E : (- (2 * M + 1) / g = - (2 * M / g) - 1)%Z).
    { symmetry. apply Z.div_unique with (r := (g - 1 - (2 * M) mod g)%Z); [lia|]. nia. }
    rewrite E. pose proof (Z.div_pos (2 * M) g ltac:(lia) Hg). lia. }
  split; [now rewrite L|]. intros K. set (f := fun k => (C - M + Z.of_nat k * g)%Z).
  rewrite (nth_indep _ 0%Z (f 0%nat)) by now rewrite map_length, seq_length. rewrite map_nth, seq_nth by exact K.
  cbn [Nat.add]. unfold f. split; [reflexivity|]. rewrite L in K.
  pose proof (Z.div_pos (2 * M) g ltac:(lia) Hg). pose proof (Z.mul_div_le (2 * M) g Hg).
  assert (Z.of_nat k <= 2 * M / g)%Z by lia. nia.
Qed.
Example c105_points_ex : makeGridAxis 10 (1 # 10) (5 # 100) = [9900; 9950; 10000; 10050; 10100]%Z.
Proof. vm_compute. reflexivity. Qed.

(** * C58 *)
(** A limit of exactly zero degrees is taken for no limit. *)
Theorem c58_zero_limit_refuted : forall c margin res hi, makeGrid_len c margin res (Some (0, hi)) = makeGrid_len c margin res (Some (c, hi)) /\
  makeGrid_len c margin res (Some (0, 0)) = makeGrid_len c margin res None.
Proof.
  intros c margin res hi. unfold makeGrid_len. cbv zeta. change (truthy 0) with false. cbv iota. split; [|reflexivity].
  destruct (truthy c) eqn:E; [reflexivity|]. reflexivity.
Qed.

(** * C160 *)
(** Which characters may follow a backslash in a text that is filled in, and what becomes of them. *)
Definition alnum (c : ascii) : Prop := (48 <= nat_of_ascii c <= 57 \/ 65 <= nat_of_ascii c <= 90 \/ 97 <= nat_of_ascii c <= 122)%nat.
Theorem c160_escapes : forall c,
  (escape c = None <-> alnum c /\ ~ In c ["n"; "t"; "r"; "a"; "b"; "f"; "v"]%char) /\
  (~ alnum c -> c <> backslash -> escape c = Some [backslash; c]) /\
  map escape ["a"; "b"; "t"; "n"; "v"; "f"; "r"]%char = map (fun n => Some [ascii_of_nat n]) (seq 7 7) /\
  escape backslash = Some [backslash].
Proof.
  assert (A : forall c, alnum c \/ ~ alnum c) by (intros; unfold alnum; lia).
  intros c. split; [|split; [|split; reflexivity]].
  - split.
    + intros H. split; [unfold alnum|]; destruct c as [[|] [|] [|] [|] [|] [|] [|] [|]]; try discriminate H; try (vm_compute nat_of_ascii; lia);
        intros I; cbn in I; decompose [or] I; (discriminate || assumption).
    + intros [L N]. unfold alnum in L. destruct c as [[|] [|] [|] [|] [|] [|] [|] [|]]; try reflexivity; exfalso;
        try (apply N; cbn; tauto); vm_compute nat_of_ascii in L; lia.
  - intros N B. unfold alnum in N. destruct c as [[|] [|] [|] [|] [|] [|] [|] [|]]; try reflexivity; exfalso;
      try (apply N; vm_compute nat_of_ascii; lia); apply B; reflexivity.
Qed.
(** The keys that cannot be used in a template: numbers, and two numbers (either may be empty) around a comma. *)
Definition isDigit (c : ascii) : Prop := In c ["0"; "1"; "2"; "3"; "4"; "5"; "6"; "7"; "8"; "9"]%char.
Lemma digit_iff : forall c, digit c = true <-> isDigit c.
Proof.
  intros c. unfold isDigit. split.
  - intros H. destruct c as [[|] [|] [|] [|] [|] [|] [|] [|]]; try discriminate H; cbn; tauto.
  - cbn. intros I. decompose [or] I; subst; try reflexivity. contradiction.
Qed.
Lemma digits_iff : forall s, digits s = true <-> Forall isDigit s.
Proof.
  induction s as [|c t IH]; cbn; [split; [constructor|reflexivity]|]. rewrite andb_true_iff, IH, digit_iff. split.
  - intros [? ?]. now constructor.
  - intros H. inversion H. now split.
Qed.
Lemma repetition_iff : forall s, repetition s = true <-> Forall isDigit s \/ exists a b, s = a ++ ","%char :: b /\ Forall isDigit a /\ Forall isDigit b.
Proof.
  induction s as [|c t IH]; cbn [repetition]; [split; [left; constructor|reflexivity]|].
  destruct (digit c) eqn:D.
  - apply digit_iff in D. rewrite IH. split.
    + intros [F|(a & b & -> & A & B)]; [left; now constructor|right]. exists (c :: a), b. repeat split; [now constructor|assumption].
    + intros [F|(a & b & E & A & B)]; [left; now inversion F|]. destruct a as [|c' a]; cbn in E; inversion E; subst.
      * exfalso. unfold isDigit in D. cbn in D. decompose [or] D; discriminate || assumption.
      * right. exists a, b. inversion A. now repeat split.
  - assert (N : ~ isDigit c) by (rewrite <- digit_iff; congruence). destruct (Ascii.eqb c ",") eqn:C.
    + apply Ascii.eqb_eq in C. subst c. rewrite digits_iff. split.
      * intros F. right. exists [], t. repeat split; [constructor|assumption].
      * intros [F|(a & b & E & A & B)]; [inversion F; contradiction|]. destruct a as [|c' a]; cbn in E; inversion E.
        -- now subst.
        -- subst. inversion A. contradiction.
    + split; [discriminate|]. intros [F|(a & b & E & A & B)]; [inversion F; contradiction|].
      destruct a as [|c' a]; cbn in E; inversion E; [subst; discriminate C|]. subst. inversion A. contradiction.
Qed.
Theorem c161_keys_refuted : forall key, key <> [] ->
  (pattern key = None <-> Forall isDigit key \/ exists a b, key = a ++ ","%char :: b /\ Forall isDigit a /\ Forall isDigit b) /\
  (pattern key <> None -> pattern key = Some (opening :: key ++ [closing])).
Proof.
  intros [|c t] N; [contradiction|]. rewrite <- repetition_iff. unfold pattern. destruct (repetition (c :: t)); split;
    try (split; congruence); congruence.
Qed.
Example c161_keys_ex : pattern [","]%char = None /\ pattern ["1"; ","; "2"]%char = None /\ pattern ["1"; ","; "a"]%char <> None /\ pattern [":"]%char <> None.
Proof. repeat split; discriminate. Qed.
(** A file that is not there, or may not be moved, is left where it is; and the answer says so. *)
Theorem c160_unmoved : forall A T allowed f g (d : @fs A T),
  (snd (pMoveFile allowed f g d) = 0%nat <-> d f = None \/ allowed f g = false) /\
  (snd (pMoveFile allowed f g d) = 0%nat -> fst (pMoveFile allowed f g d) = d) /\
  (snd (pMoveFile allowed f g d) <> 0%nat -> snd (pMoveFile allowed f g d) = 1%nat).
Proof.
  intros A T allowed f g d. unfold pMoveFile. destruct (d f) as [v|] eqn:E; [destruct (allowed f g) eqn:L|]; cbn; repeat split; try congruence; try tauto.
  intros [H|H]; discriminate.
Qed.
(** Asking for an archive directory that cannot be made is an error; without a name the present one is reported. *)
Theorem c160_directory : forall d s,
  (snd (pArchiveDir false d s) = None <-> d <> []) /\ (d <> [] -> snd (pArchiveDir true d s) = Some d /\ archdir (fst (pArchiveDir true d s)) = d) /\
  (d = [] -> forall b, pArchiveDir b d s = (s, Some (archdir s))).
Proof.
  intros [|c d] s; cbn; repeat split; try congruence; try tauto.
Qed.

(** * C158 *)
(** The year of a return level as stored: a whole number of years unchanged, otherwise without its fraction. *)
Theorem c158_years : forall x, (forall n : Z, x == inject_Z n -> toInt x = n) /\
  (0 <= x -> inject_Z (toInt x) <= x < inject_Z (toInt x) + 1) /\ (x <= 0 -> x <= inject_Z (toInt x) < x + 1).
Proof.
  intros x. unfold toInt. destruct (Qle_bool 0 x) eqn:E.
  - apply Qle_bool_iff in E. split; [|split].
    + intros n H. rewrite H. apply Qfloor_Z.
    + intros _. split; [apply Qfloor_le|]. pose proof (Qlt_floor x) as L. rewrite inject_Z_plus in L. exact L.
    + intros L. assert (Z0 : x == inject_Z 0) by (change (inject_Z 0) with 0; lra). rewrite (Qfloor_comp _ _ Z0), Qfloor_Z. change (inject_Z 0) with 0 in *. lra.
  - assert (x < 0). { apply Qnot_le_lt. intros L. apply Qle_bool_iff in L. congruence. } split; [|split].
    + intros n H0. rewrite H0. apply Qceiling_Z.
    + intros L. lra.
    + intros _. split; [apply Qle_ceiling|]. pose proof (Qceiling_lt x) as L. unfold Z.sub in L. rewrite inject_Z_plus in L. change (inject_Z (- (1))) with (- (1)) in L. lra.
Qed.
(** What is stored as text is found by the same text, and by nothing else. *)
Theorem c158_text : forall a b, (cell_eqb (Text a) (Text b) = true <-> a = b) /\ cell_eqb (Text a) (Blob b) = false.
Proof. intros. cbn. split; [apply Nat.eqb_eq|reflexivity]. Qed.

(** * C140 *)
(** A cell without data in the terrain multiplier is -9999 in the product. *)
Theorem c140_missing_cell : forall p s, combineCell (-9999) p s == -9999.
Proof. intros. unfold combineCell, mmul, masked. cbn [m_data m_mask]. change (Qeq_bool (-9999) nodata) with true. reflexivity. Qed.
Theorem c140_present_cell : forall t p s, ~ t == -9999 -> ~ p == -9999 -> ~ s == -9999 -> combineCell t p s == t * p * s.
Proof.
  intros t p s T P S. assert (F : forall x, ~ x == -9999 -> Qeq_bool x nodata = false).
  { intros x N. destruct (Qeq_bool x nodata) eqn:E; [|reflexivity]. apply Qeq_bool_iff in E. contradiction. }
  unfold combineCell, mmul, masked. cbn [m_data m_mask]. rewrite (F t T), (F p P), (F s S). reflexivity.
Qed.

(** * C16 *)
(** The numbers of the cells are 0 to the largest; for any other number there is no sample. *)
Theorem c16_cell_numbers : forall c g s, (validCellNum c g s = true <-> (0 <= c <= maxCellNum g s)%Z) /\
  ((c < 0 \/ maxCellNum g s < c)%Z -> forall ix iy data m fuel,
     extractParameter g s ix iy data m fuel c = None /\ forall land, extractParameterLS g s ix iy data m fuel c land = None).
Proof.
  intros c g s. assert (V : validCellNum c g s = true <-> (0 <= c <= maxCellNum g s)%Z).
  { unfold validCellNum, maxCellNum. destruct (Z.ltb_spec c 0), (Z.gtb_spec c (latCells g s * lonCells g s - 1)); split; intros; try discriminate; try reflexivity; lia. }
  split; [exact V|]. intros O ix iy data m fuel. assert (F : validCellNum c g s = false).
  { destruct (validCellNum c g s); [|reflexivity]. pose proof (proj1 V eq_refl). lia. }
  unfold extractParameter, extractParameterLS. rewrite F. split; reflexivity.
Qed.

(** * C47 *)
(** The sizes of the units, in metres per second, pascals and metres (a degree: sixty nautical miles). *)
Definition speeds : list (string * Q) := [("mps", 1); ("kph", 10 # 36); ("kts", 1852 # 3600); ("mph", 44704 # 100000)]%string.
Definition pressures : list (string * Q) :=
  [("kPa", 1000); ("hPa", 100); ("Pa", 1); ("Pascals", 1); ("inHg", 3386389 # 1000); ("mmHg", 1333224 # 10000)]%string.
Definition lengths : list (string * Q) := [("km", 1000); ("m", 1); ("mi", 1609344 # 1000); ("nm", 1852); ("deg", 111120)]%string.
(** The pairs for which there is no factor. *)
Definition without : list (string * string) := [("inHg", "Pascals"); ("mmHg", "Pascals"); ("mi", "nm"); ("nm", "mi")]%string.
Lemma convert_factor : forall pi v u w a, String.eqb u w = false -> alias u = u -> lookup2 preTables u w = None -> lookup2 postTables u w = None ->
  lookup2 (tables pi) u w = Some a -> convert pi v u w = v * a.
Proof. intros pi v u w a E A P Q L. unfold convert. rewrite E, A, P, Q, L. reflexivity. Qed.
Lemma factor_size : forall v a su sw t, 0 <= t -> Qabs (a * sw - su) <= t -> Qabs (v * a * sw - v * su) <= Qabs v * t.
Proof.
  intros v a su sw t T H. setoid_replace (v * a * sw - v * su) with (v * (a * sw - su)) by ring. rewrite Qabs_Qmult.
  apply Qmult_le_l_nonneg || (rewrite !(Qmult_comm (Qabs v)); apply Qmult_le_compat_r; [exact H|apply Qabs_nonneg]).
Qed.
(** Every conversion between units of one kind is that of their sizes within one part in a thousand, except for the pairs
    above, which leave the number as it is. *)
Theorem c47_sizes_refuted : forall pi v fam u su w sw, In fam [speeds; pressures; lengths] -> In (u, su) fam -> In (w, sw) fam -> u <> w ->
  (~ In (u, w) without -> Qabs (convert pi v u w * sw - v * su) <= Qabs v * (su * (1 # 1000))) /\
  (In (u, w) without -> convert pi v u w = v).
Proof.
  intros pi v fam u su w sw F U W N. cbn [In] in F. decompose [or] F; try contradiction; subst fam; clear F; cbn [In speeds pressures lengths] in U, W;
    decompose [or] U; try contradiction; clear U; decompose [or] W; try contradiction; clear W;
    repeat match goal with E : _ = (_, _) |- _ => injection E as <- <- end; try (exfalso; apply N; reflexivity);
    (split; [intros O; try (exfalso; apply O; cbn; tauto) | intros O; cbn in O; decompose [or] O; try contradiction; try discriminate; reflexivity]);
    (erewrite convert_factor by reflexivity; apply factor_size; vm_compute; congruence).
Qed.
Theorem c47_speeds : forall u w, In u (map fst speeds) -> In w (map fst speeds) -> ~ In (u, w) without.
Proof. intros u w U W I. cbn in U, W, I. decompose [or] I; try contradiction; injection H as <- <- || injection H0 as <- <-; intuition discriminate. Qed.

(** * C40 *)
(** Without a ledger there is nothing to read or write, and the answer says so; a ledger that is not there yet is remembered. *)
Theorem c40_no_ledger : forall s, (datfile s = None \/ datfile s = Some ""%string) ->
  (forall r, pWrite s r = (s, PRet 0)) /\ pGetFiles s None = (s, PRet 0) /\ pGetFiles s (Some ""%string) = (s, PRet 0).
Proof. intros s [H|H]; unfold pWrite; rewrite H; repeat split. Qed.
Theorem c40_new_ledger : forall s n, n <> ""%string -> disk s n = None ->
  let s' := fst (pGetFiles s (Some n)) in snd (pGetFiles s (Some n)) = PRet 0 /\ datfile s' = Some n /\ pfiles s' = pfiles s /\ disk s' = disk s.
Proof. intros s n N D. unfold pGetFiles. destruct n as [|c n]; [contradiction|]. rewrite D. cbn. repeat split. Qed.

Print Assumptions c90_which_refuted.
Print Assumptions c90_errors_refuted.
Print Assumptions c148_scale_largest.
Print Assumptions c105_points_partial.
Print Assumptions c58_zero_limit_refuted.
Print Assumptions c160_escapes.
Print Assumptions c161_keys_refuted.
Print Assumptions c160_unmoved.
Print Assumptions c160_directory.
Print Assumptions c158_years.
Print Assumptions c158_text.
Print Assumptions c140_missing_cell.
Print Assumptions c140_present_cell.
Print Assumptions c16_cell_numbers.
Print Assumptions c47_sizes_refuted.
Print Assumptions c47_speeds.
Print Assumptions c40_no_ledger.
Print Assumptions c40_new_ledger.
