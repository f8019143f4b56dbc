(** C158, C159: places, return levels and distances in the database. *)
From Coq Require Import List Arith ZArith Bool QArith Qround Qabs Reals Lia Sorted Permutation Psatz Lqa Lra.
From Verif Require Import CellModel CellProofs NumModel NumProofs GenModel GenProofs GridFileProofs CircleModel CircleProofs SphereModel PlaceModel.
Import ListNotations.
Close Scope R_scope.
Local Open Scope Q_scope.

(** * Stations *)
Definition ascending {A} (t : list (place A)) : Prop := StronglySorted (fun a b => (p_id a < p_id b)%nat) t.
Lemma built_nth A (points : list (point A)) : forall s i x d, nth_error points i = Some x ->
  nth i (map (fun ip => {| p_id := S (fst ip); p_lon := qmod (x_lon (snd ip)) 360; p_lat := x_lat (snd ip); p_info := x_rec (snd ip) |})
     (combine (seq s (length points)) points)) d
  = {| p_id := S (s + i); p_lon := qmod (x_lon x) 360; p_lat := x_lat x; p_info := x_rec x |}.
Proof.
  induction points as [|p points IH]; intros s i x d H; [destruct i; discriminate|]. destruct i; cbn in *.
  - injection H as ->. now rewrite Nat.add_0_r.
  - rewrite (IH (S s) i x d H). now rewrite Nat.add_succ_r.
Qed.
Lemma built_asc A (points : list (point A)) : forall s, ascending
  (map (fun ip => {| p_id := S (fst ip); p_lon := qmod (x_lon (snd ip)) 360; p_lat := x_lat (snd ip); p_info := x_rec (snd ip) |})
     (combine (seq s (length points)) points)).
Proof.
  induction points as [|p points IH]; intros s; cbn; [constructor|]. constructor; [apply IH|].
  apply Forall_forall. intros y H. apply in_map_iff in H. destruct H as ([i q] & <- & H). apply in_combine_l, in_seq in H. cbn. lia.
Qed.
Lemma geographic_spec A (p : point A) : geographic A p = true <-> -721 <= x_lon p <= 721 /\ -91 <= x_lat p <= 91.
Proof. unfold geographic. rewrite !andb_true_iff, !Qle_bool_iff. tauto. Qed.
(** C158: every point of a geographic file becomes one place with its record, its latitude and its longitude
    between 0 and 360; files in map coordinates are refused. *)
Theorem c158_build : forall A (points : list (point A)),
  (forall table, buildLocations A points = Some table ->
     length table = length points /\ ascending table /\
     forall i x d, nth_error points i = Some x ->
       let p := nth i table d in
       p_id p = S i /\ p_info p = x_rec x /\ p_lat p = x_lat x /\ 0 <= p_lon p < 360 /\
       exists k, p_lon p == x_lon x - 360 * inject_Z k) /\
  (buildLocations A points = None <-> points = [] \/ exists x, In x points /\ ~ (-721 <= x_lon x <= 721 /\ -91 <= x_lat x <= 91)).
Proof.
  intros A points. unfold buildLocations. split.
  - intros table H. destruct points as [|x0 points]; [discriminate|]. destruct (forallb _ _); [|discriminate].
    apply (f_equal (fun o => match o with Some t => t | None => [] end)) in H. rewrite <- H. clear H table.
    set (l := x0 :: points). split; [|split].
    + rewrite map_length, combine_length, seq_length. lia.
    + apply built_asc.
    + intros i x d H. rewrite (built_nth A l 0 i x d H). cbn. pose proof (qmod_range (x_lon x) 360 ltac:(reflexivity)) as R.
      repeat split; try apply R. exists (Qfloor (x_lon x / 360)). unfold qmod. reflexivity.
  - destruct points as [|x0 points]; [split; auto|]. set (l := x0 :: points). destruct (forallb (geographic A) l) eqn:F.
    + split; [discriminate|]. intros [H|(x & I & N)]; [discriminate|]. rewrite forallb_forall in F. apply F, geographic_spec in I. contradiction.
    + split; [|reflexivity]. intros _. right.
      assert (E : existsb (fun x => negb (geographic A x)) l = true).
      { clear -F. induction l as [|y l IH]; [discriminate|]. cbn in *. destruct (geographic A y); cbn in *; [now apply IH | reflexivity]. }
      apply existsb_exists in E. destruct E as (x & I & N). exists x. split; [exact I|]. rewrite <- geographic_spec.
      destruct (geographic A x); [discriminate | discriminate].
Qed.
Print Assumptions c158_build.

Lemma put_spec A (r : place A) t : ascending t ->
  ascending (put A r t) /\ forall x, In x (put A r t) <-> x = r \/ (In x t /\ p_id x <> p_id r).
Proof.
  induction t as [|y t IH]; intros S; cbn [put In].
  - split; [repeat constructor|]. intros x. split; [intros [->|[]]; now left | intros [->|[[] _]]; now left].
  - inversion S as [|? ? S' F]; subst. rewrite Forall_forall in F. destruct (p_id r <? p_id y)%nat eqn:L.
    + apply Nat.ltb_lt in L. split.
      * constructor; [exact S|]. constructor; [exact L|]. apply Forall_forall. intros z H. specialize (F z H). lia.
      * intros x. split; [intros [->|H]; [now left|]; right; split; [exact H|] | intros [->|[H _]]; [now left | now right]].
        destruct H as [<-|H]; [lia|]. specialize (F x H). lia.
    + apply Nat.ltb_ge in L. destruct (p_id r =? p_id y)%nat eqn:E.
      * apply Nat.eqb_eq in E. split.
        -- constructor; [exact S'|]. apply Forall_forall. intros z H. rewrite E. now apply F.
        -- intros x. split.
           ++ intros [->|H]; [now left|]. right. split; [now right|]. specialize (F x H). lia.
           ++ intros [->|[[<-|H] N]]; [now left | lia | now right].
      * apply Nat.eqb_neq in E. destruct (IH S') as [S2 I]. split.
        -- constructor; [exact S2|]. apply Forall_forall. intros z H. apply I in H. destruct H as [->|[H _]]; [lia | now apply F].
        -- intros x. split.
           ++ intros [<-|H]; [right; split; [now left | lia]|]. apply I in H. destruct H as [->|[H N]]; [now left | right; split; [now right | exact N]].
           ++ intros [->|[[<-|H] N]]; [right; apply I; now left | now left | right; apply I; right; split; assumption].
Qed.
Lemma set_fold A (sel : list (place A)) : ascending sel -> forall t, ascending t ->
  let u := fold_left (fun t r => put A r t) sel t in
  ascending u /\ forall x, In x u <-> In x sel \/ (In x t /\ forall r, In r sel -> p_id x <> p_id r).
Proof.
  induction sel as [|r sel IH]; intros S t T; cbn.
  - split; [exact T|]. intros x. split; [intros H; right; split; [exact H | intros ? []] | intros [[]|[H _]]; exact H].
  - inversion S as [|? ? S' F]; subst. rewrite Forall_forall in F.
    destruct (put_spec A r t T) as [P1 P2]. destruct (IH S' (put A r t) P1) as [U1 U2]. split; [exact U1|]. intros x. rewrite U2, P2. split.
    + intros [H|[[->|[H N]] K]]; [left; now right | left; now left |]. right. split; [exact H|]. intros z [<-|Z]; [exact N | now apply K].
    + intros [[<-|H]|[H K]].
      * right. split; [now left|]. intros z Z. specialize (F z Z). lia.
      * now left.
      * right. split; [right; split; [exact H | apply K; now left]|]. intros z Z. apply K. now right.
Qed.
Lemma filter_asc A f (t : list (place A)) : ascending t -> ascending (filter f t).
Proof.
  induction t as [|x t IH]; intros S; cbn; [constructor|]. inversion S as [|? ? S' F]; subst.
  destruct (f x); [|now apply IH]. constructor; [now apply IH|]. rewrite Forall_forall in *. intros z H. apply filter_In in H. now apply F.
Qed.
Lemma inDomain_spec A d (p : place A) : inDomain A d p = true <-> (xMin d <= p_lon p <= xMax d) /\ (yMin d <= p_lat p <= yMax d).
Proof. unfold inDomain. rewrite !andb_true_iff, !Qle_bool_iff. tauto. Qed.
(** The places of a run are those in its domain and, for a data base that was there before, the earlier ones that
    have not been replaced; each identifier occurs once. *)
Theorem c158_places : forall A d (locdb table : list (place A)), ascending locdb -> ascending table ->
  ascending (setLocations A d locdb table) /\
  forall x, In x (setLocations A d locdb table) <->
    (In x locdb /\ (xMin d <= p_lon x <= xMax d) /\ (yMin d <= p_lat x <= yMax d)) \/
    (In x table /\ forall r, In r locdb -> (xMin d <= p_lon r <= xMax d) -> (yMin d <= p_lat r <= yMax d) -> p_id x <> p_id r).
Proof.
  intros A d locdb table L T. destruct (set_fold A (filter (inDomain A d) locdb) (filter_asc A _ _ L) table T) as [S I].
  split; [exact S|]. intros x. unfold setLocations. rewrite I, filter_In, inDomain_spec. split.
  - intros [H|[H K]]; [left; tauto|]. right. split; [exact H|]. intros r R X Y. apply K. apply filter_In. split; [exact R|]. apply inDomain_spec. tauto.
  - intros [H|[H K]]; [left; tauto|]. right. split; [exact H|]. intros r R. apply filter_In in R. destruct R as [R D]. apply inDomain_spec in D. apply K; tauto.
Qed.
Print Assumptions c158_places.
(** With longitudes of the domain in [0, 360) a station is used exactly when it lies in the domain, whatever way its
    longitude is written. *)
Theorem c158_domain : forall A d (points : list (point A)) table, 0 <= xMin d -> xMax d < 360 ->
  buildLocations A points = Some table ->
  forall i x, nth_error points i = Some x ->
    ((exists p, In p (setLocations A d table []) /\ p_id p = S i) <->
     (exists k, xMin d <= x_lon x - 360 * inject_Z k <= xMax d) /\ yMin d <= x_lat x <= yMax d).
Proof.
  intros A d points table X0 X1 B i x H.
  destruct (c158_build A points) as [Bu _]. destruct (Bu table B) as (L & As & N). 
  assert (Li : (i < length table)%nat) by (rewrite L; apply nth_error_Some; now rewrite H).
  set (dflt := {| p_id := 0; p_lon := 0; p_lat := 0; p_info := x_rec x |}). destruct (N i x dflt H) as (I1 & I2 & I3 & I4 & (k & I5)).
  destruct (c158_places A d table [] As (SSorted_nil _)) as [_ P].
  assert (U : forall p, In p table -> p_id p = S i -> p = nth i table dflt).
  { intros p Hp E. destruct (In_nth table p dflt Hp) as (j & J & <-).
    assert (Hj : exists y, nth_error points j = Some y).
    { destruct (nth_error points j) eqn:Q; [eexists; reflexivity|]. apply nth_error_None in Q. lia. }
    destruct Hj as [y Hy]. destruct (N j y dflt Hy) as (E2 & _). rewrite E in E2. injection E2 as ->. reflexivity. }
  split.
  - intros (p & Hp & E). apply P in Hp. destruct Hp as [(Hp & D1 & D2)|[[] _]]. rewrite (U p Hp E) in *. rewrite I3 in D2.
    split; [|exact D2]. exists k. rewrite <- I5. exact D1.
  - intros [(k' & D1) D2]. exists (nth i table dflt). split; [|exact I1]. apply P. left. split; [now apply nth_In|]. rewrite I3. split; [|exact D2].
    assert (EK : k = k').
    { assert (A1 : 360 * inject_Z k' < 360 * inject_Z (k + 1)) by (rewrite inject_Z_plus; change (inject_Z 1) with 1; Lqa.lra).
      assert (A2 : 360 * inject_Z k < 360 * inject_Z (k' + 1)) by (rewrite inject_Z_plus; change (inject_Z 1) with 1; Lqa.lra).
      assert (A3 : inject_Z k' < inject_Z (k + 1)) by Lqa.lra. assert (A4 : inject_Z k < inject_Z (k' + 1)) by Lqa.lra.
      rewrite <- Zlt_Qlt in A3, A4. lia. }
    subst k'. rewrite I5. exact D1.
Qed.
Print Assumptions c158_domain.
Example c158_domain_example : exists table, buildLocations nat [{| x_lon := -75; x_lat := 20; x_rec := 7%nat |}; {| x_lon := 150; x_lat := -20; x_rec := 8%nat |}] = Some table /\
  map p_id (setLocations nat {| xMin := 270; xMax := 300; yMin := 0; yMax := 40 |} table []) = [1%nat].
Proof. eexists. split; reflexivity. Qed.

(** * Return levels *)
Section Join.
  Context {A B : Type}.
  Variable key : B -> nat.
  Lemma join_none (places : list (place A)) (rows : list B) loc : (forall p, In p places -> p_id p <> loc) ->
    filter (fun ph => (p_id (fst ph) =? key (snd ph))%nat && (p_id (fst ph) =? loc)%nat) (list_prod places rows) = [].
  Proof.
    induction places as [|x places IH]; intros H; cbn [list_prod]; [reflexivity|]. rewrite filter_app, IH by (intros; apply H; now right).
    rewrite app_nil_r. specialize (H x (or_introl eq_refl)). apply Nat.eqb_neq in H. clear IH. induction rows as [|r rows IHr]; cbn; [reflexivity|].
    rewrite H, andb_false_r. exact IHr.
  Qed.
  Lemma join_rows (places : list (place A)) (rows : list B) p : ascending places -> In p places ->
    filter (fun ph => (p_id (fst ph) =? key (snd ph))%nat && (p_id (fst ph) =? p_id p)%nat) (list_prod places rows)
    = map (pair p) (filter (fun r => (p_id p =? key r)%nat) rows).
  Proof.
    induction places as [|x places IH]; intros S I; [contradiction|]. inversion S as [|? ? S' F]; subst. rewrite Forall_forall in F.
    cbn [list_prod]. rewrite filter_app. destruct I as [->|I].
    - rewrite join_none by (intros q Hq; specialize (F q Hq); lia). rewrite app_nil_r.
      clear. induction rows as [|r rows IHr]; cbn; [reflexivity|]. rewrite Nat.eqb_refl, andb_true_r. destruct (_ =? _)%nat; cbn; now rewrite IHr.
    - rewrite IH by assumption. specialize (F p I). assert (N : (p_id x =? p_id p)%nat = false) by (apply Nat.eqb_neq; lia).
      assert (E : filter (fun ph => (p_id (fst ph) =? key (snd ph))%nat && (p_id (fst ph) =? p_id p)%nat) (map (fun y => (x, y)) rows) = []).
      { clear -N. induction rows as [|r rows IHr]; cbn; [reflexivity|]. rewrite N, andb_false_r. exact IHr. }
      now rewrite E.
  Qed.
End Join.
Section Sorting.
  Context {B : Type}.
  Variable le : B -> B -> bool.
  Lemma orderBy_sorted (l : list B) : StronglySorted (fun a b => le a b = true) l -> orderBy le l = l.
  Proof.
    induction l as [|x l IH]; intros S; [reflexivity|]. inversion S as [|? ? S' F]; subst. change (orderBy le (x :: l)) with (insert le x (orderBy le l)). rewrite (IH S').
    destruct l as [|y l]; [reflexivity|]. inversion F as [|? ? F1 _]; subst. cbn. now rewrite F1.
  Qed.
  Lemma insert_perm x (l : list B) : Permutation (insert le x l) (x :: l).
  Proof. induction l as [|y l IH]; cbn; [reflexivity|]. destruct (le x y); [reflexivity|]. rewrite IH. apply perm_swap. Qed.
  Lemma orderBy_perm (l : list B) : Permutation (orderBy le l) l.
  Proof. induction l as [|x l IH]; [constructor|]. change (orderBy le (x :: l)) with (insert le x (orderBy le l)). rewrite insert_perm. now constructor. Qed.
  Hypothesis total : forall a b, le a b = false -> le b a = true.
  Hypothesis trans : forall a b c, le a b = true -> le b c = true -> le a c = true.
  Lemma insert_sorted x (l : list B) : StronglySorted (fun a b => le a b = true) l -> StronglySorted (fun a b => le a b = true) (insert le x l).
  Proof.
    induction l as [|y l IH]; intros S; cbn; [repeat constructor|]. inversion S as [|? ? S' F]; subst. destruct (le x y) eqn:E.
    - constructor; [exact S|]. constructor; [exact E|]. rewrite Forall_forall in *. intros z Z. apply (trans x y z E). now apply F.
    - constructor; [now apply IH|]. apply Forall_forall. intros z Z. apply (Permutation_in _ (insert_perm x l)) in Z. destruct Z as [<-|Z]; [now apply total|].
      rewrite Forall_forall in F. now apply F.
  Qed.
  Lemma orderBy_asc (l : list B) : StronglySorted (fun a b => le a b = true) (orderBy le l).
  Proof. induction l as [|x l IH]; cbn; [constructor|]. now apply insert_sorted. Qed.
End Sorting.
Lemma allSome_map {C} (l : list C) : allSome (map Some l) = Some l.
Proof. induction l as [|x l IH]; cbn; [reflexivity|]. now rewrite IH. Qed.
(** The return levels listed for a place are, year by year, those of the grid cell whose longitude and latitude are
    nearest to it. *)
Theorem c158_levels : forall A (h : hazard) (places : list (place A)),
  z_lon h <> [] -> increasing (z_lon h) -> z_lat h <> [] -> increasing (z_lat h) ->
  StronglySorted Z.le (map toInt (z_years h)) -> ascending places ->
  exists rows, processHazard A h places [] = Some rows /\
    length rows = (length (z_years h) * length places)%nat /\
    forall p, In p places -> exists i j, firstNearest (z_lon h) (p_lon p) i /\ firstNearest (z_lat h) (p_lat p) j /\
      allReturnLevels A places rows (p_id p)
      = map (fun k => (p_info p, toInt (nth k (z_years h) 0), z_wspd h k j i, z_lower h k j i, z_upper h k j i)) (seq 0 (length (z_years h))).
Proof.
  intros A h places X1 X2 Y1 Y2 Ys As.
  set (g := fun (ky : nat * Q) p => match levelOf A h (fst ky) (snd ky) p with Some r => r | None => {| h_loc := 0; h_years := 0; h_wspd := 0; h_upper := 0; h_lower := 0; h_location := 0; h_scale := 0; h_shape := 0 |} end).
  assert (G : forall p, exists i j, firstNearest (z_lon h) (p_lon p) i /\ firstNearest (z_lat h) (p_lat p) j /\
      forall k y, levelOf A h k y p = Some {| h_loc := p_id p; h_years := toInt y; h_wspd := z_wspd h k j i; h_upper := z_upper h k j i;
                h_lower := z_lower h k j i; h_location := z_loc h j i; h_scale := z_scale h j i; h_shape := z_shape h j i |}).
  { intros p. destruct (find_increasing (z_lon h) (p_lon p) X1 X2) as (i & I1 & I2). destruct (find_increasing (z_lat h) (p_lat p) Y1 Y2) as (j & J1 & J2).
    exists i, j. split; [exact I2|]. split; [exact J2|]. intros k y. unfold levelOf. now rewrite I1, J1. }
  set (kys := combine (seq 0 (length (z_years h))) (z_years h)).
  set (rows := flat_map (fun ky => map (g ky) places) kys). exists rows. split; [|split].
  - unfold processHazard. fold kys.
    assert (E : flat_map (fun ky => map (levelOf A h (fst ky) (snd ky)) places) kys = map Some rows).
    { unfold rows. clear Ys As. generalize kys. intros l. induction l as [|ky l IH]; cbn; [reflexivity|]. rewrite map_app, IH, map_map. f_equal.
      apply map_ext. intros p. destruct (G p) as (i & j & _ & _ & E). unfold g. now rewrite E. }
    rewrite E, allSome_map. reflexivity.
  - unfold rows. assert (Lk : length kys = length (z_years h)) by (unfold kys; rewrite combine_length, seq_length; lia).
    rewrite <- Lk. clear. induction kys as [|k l IH]; cbn; [reflexivity|]. rewrite app_length, map_length, IH. reflexivity.
  - intros p I. destruct (G p) as (i & j & Hi & Hj & E). exists i, j. split; [exact Hi|]. split; [exact Hj|].
    assert (R : filter (fun r => (p_id p =? h_loc r)%nat) rows = map (fun ky => g ky p) kys).
    { unfold rows. generalize kys. intros l. induction l as [|ky l IH]; cbn; [reflexivity|]. rewrite filter_app, IH.
      enough (E2 : filter (fun r => (p_id p =? h_loc r)%nat) (map (g ky) places) = [g ky p]) by now rewrite E2.
      assert (K : forall q, h_loc (g ky q) = p_id q) by (intros q; destruct (G q) as (i' & j' & _ & _ & E'); unfold g; now rewrite E').
      clear -As I K. induction places as [|q t IH]; [contradiction|]. inversion As as [|? ? S' F]; subst. rewrite Forall_forall in F. cbn. rewrite K. destruct I as [->|I].
      - rewrite Nat.eqb_refl. f_equal. assert (N : forall x, In x t -> (p_id p =? p_id x)%nat = false) by (intros x Hx; specialize (F x Hx); apply Nat.eqb_neq; lia).
        clear -N K. induction t as [|x t IH]; cbn; [reflexivity|]. rewrite K, (N x (or_introl eq_refl)). apply IH. intros; apply N; now right.
      - specialize (F p I). assert (N : (p_id p =? p_id q)%nat = false) by (apply Nat.eqb_neq; lia). rewrite N. now apply IH. }
    assert (Gk : forall ky, g ky p = {| h_loc := p_id p; h_years := toInt (snd ky); h_wspd := z_wspd h (fst ky) j i; h_upper := z_upper h (fst ky) j i;
                h_lower := z_lower h (fst ky) j i; h_location := z_loc h j i; h_scale := z_scale h j i; h_shape := z_shape h j i |})
      by (intros ky; unfold g; now rewrite E).
    unfold allReturnLevels. rewrite (join_rows h_loc places rows p As I), R, map_map.
    assert (Sy : map (fun ky : nat * Q => toInt (snd ky)) kys = map toInt (z_years h)).
    { unfold kys. generalize 0%nat. generalize (z_years h). intros l. induction l as [|y l IHl]; intros s; cbn; [reflexivity|]. now rewrite IHl. }
    rewrite orderBy_sorted.
    + rewrite map_map. unfold kys.
      assert (C : forall (ys : list Q) s d, map (fun x : nat * Q => (p_info p, h_years (g x p), h_wspd (g x p), h_lower (g x p), h_upper (g x p))) (combine (seq s (length ys)) ys)
        = map (fun k => (p_info p, toInt (nth (k - s) ys d), z_wspd h k j i, z_lower h k j i, z_upper h k j i)) (seq s (length ys))).
      { induction ys as [|y ys IHy]; intros s d; cbn [length seq combine map]; [reflexivity|]. rewrite Nat.sub_diag, Gk. cbn [fst snd h_years h_wspd h_lower h_upper nth]. f_equal.
        rewrite (IHy (S s) d). apply map_ext_in. intros k Hk. apply in_seq in Hk. replace (k - s)%nat with (S (k - S s)) by lia. reflexivity. }
      cbn [fst snd]. rewrite (C _ 0%nat 0). apply map_ext. intros k. now rewrite Nat.sub_0_r.
    + rewrite <- Sy in Ys. clear -Ys Gk. induction kys as [|ky l IH]; cbn in *; [constructor|]. inversion Ys as [|? ? S' F]; subst. constructor; [now apply IH|].
      rewrite Forall_forall in *. intros z Hz. apply in_map_iff in Hz. destruct Hz as (ky' & <- & Hk). cbn. rewrite !Gk. cbn. apply Z.leb_le. apply F. apply in_map_iff. now exists ky'.
Qed.
Print Assumptions c158_levels.
(** The records of a place: all of its rows, weakest first. *)
Theorem c158_records : forall A (places : list (place A)) winds p, ascending places -> In p places ->
  let r := locationRecords A places winds (p_id p) in
  Permutation r (map (fun w => (snd (fst w), snd w)) (filter (fun w => (p_id p =? fst (fst w))%nat) winds)) /\
  StronglySorted (fun a b => snd a <= snd b) r.
Proof.
  intros A places winds p S I r. unfold r, locationRecords. rewrite (join_rows (fun w : nat * nat * Q => fst (fst w)) places winds p S I). split.
  - rewrite (Permutation_map _ (orderBy_perm _ _)). rewrite map_map. reflexivity.
  - set (l := map (pair p) _).
    assert (T : StronglySorted (fun a b : place A * (nat * nat * Q) => Qle_bool (snd (snd a)) (snd (snd b)) = true) (orderBy (fun a b => Qle_bool (snd (snd a)) (snd (snd b))) l)).
    { apply orderBy_asc.
      - intros a b H. apply qle_false_iff in H. apply Qle_bool_iff. Lqa.lra.
      - intros a b c. rewrite !Qle_bool_iff. intros; Lqa.lra. }
    induction T as [|x t T IH F]; cbn; constructor; [exact IH|]. rewrite Forall_forall in *. intros z Hz. apply in_map_iff in Hz. destruct Hz as (y & <- & Hy).
    cbn. apply Qle_bool_iff. now apply F.
Qed.
Print Assumptions c158_records.
Example c158_levels_example : let h := {| z_lon := [148; 149; 150]; z_lat := [-20; -19]; z_years := [2; 5]; z_wspd := fun k j i => inject_Z (Z.of_nat (100 * k + 10 * j + i));
    z_upper := fun _ _ _ => 0; z_lower := fun _ _ _ => 0; z_loc := fun _ _ => 0; z_scale := fun _ _ => 0; z_shape := fun _ _ => 0 |} in
  let places := [{| p_id := 1; p_lon := 1492 # 10; p_lat := -201 # 10; p_info := 7%nat |}] in
  option_map (fun rows => map (fun r => snd (fst (fst r))) (allReturnLevels nat places rows 1)) (processHazard nat h places []) = Some [1; 101].
Proof. reflexivity. Qed.

(** * Distances *)
Local Open Scope R_scope.
Lemma pdist_sq a b : 0 <= (fst a - fst b) ^ 2 + (snd a - snd b) ^ 2.
Proof. pose proof (pow2_ge_0 (fst a - fst b)). pose proof (pow2_ge_0 (snd a - snd b)). Lra.lra. Qed.
Lemma foot_range a b q : 0 <= foot a b q <= 1.
Proof.
  unfold foot. destruct (Req_EM_T _ _); [Lra.lra|]. split; [apply Rmax_l|]. apply Rmax_lub; [Lra.lra|]. apply Rmin_l.
Qed.
Lemma foot_best a b q t : 0 <= t <= 1 -> pdist q (along a b (foot a b q)) <= pdist q (along a b t).
Proof.
  intros T. unfold pdist. apply sqrt_le_1_alt. unfold along. cbn [fst snd].
  set (dx := fst b - fst a). set (dy := snd b - snd a). set (u := fst q - fst a). set (v := snd q - snd a).
  replace (fst q - (fst a + foot a b q * dx)) with (u - foot a b q * dx) by (unfold u; ring).
  replace (snd q - (snd a + foot a b q * dy)) with (v - foot a b q * dy) by (unfold v; ring).
  replace (fst q - (fst a + t * dx)) with (u - t * dx) by (unfold u; ring).
  replace (snd q - (snd a + t * dy)) with (v - t * dy) by (unfold v; ring).
  unfold foot. fold dx dy u v. destruct (Req_EM_T _ 0) as [Z|N].
  - assert (Zx : dx = 0) by Lra.nra. assert (Zy : dy = 0) by Lra.nra. rewrite Zx, Zy. Lra.lra.
  - set (d2 := dx ^ 2 + dy ^ 2) in *. assert (P : 0 < d2) by (assert (0 <= d2) by (unfold d2; Lra.nra); Lra.lra).
    set (w := u * dx + v * dy). set (f := Rmax 0 (Rmin 1 (w / d2))).
    enough (0 <= (t - f) * ((t + f) * d2 - 2 * w)) by (unfold d2, w in *; Lra.nra).
    assert (Ew : w = w / d2 * d2) by (field; Lra.lra). set (c := w / d2) in *. rewrite Ew.
    replace ((t - f) * ((t + f) * d2 - 2 * (c * d2))) with (d2 * ((t - f) * (t + f - 2 * c))) by ring.
    apply Rmult_le_pos; [Lra.lra|]. 
    destruct (Rle_lt_dec 1 c) as [C|C].
    + unfold f. rewrite Rmin_left, Rmax_right by Lra.lra. replace ((t - 1) * (t + 1 - 2 * c)) with ((1 - t) * (2 * c - t - 1)) by ring. apply Rmult_le_pos; Lra.lra.
    + unfold f. rewrite Rmin_right by Lra.lra. destruct (Rle_lt_dec 0 c) as [C0|C0].
      * rewrite Rmax_right by Lra.lra. replace ((t - c) * (t + c - 2 * c)) with ((t - c) ^ 2) by ring. apply pow2_ge_0.
      * rewrite Rmax_left by Lra.lra. apply Rmult_le_pos; Lra.lra.
Qed.
(** the points of the line through the positions of a track *)
Definition on_line (a : pt) (l : list pt) (p : pt) : Prop :=
  match l with
  | [] => p = a
  | _ => exists k t, (k < length l)%nat /\ 0 <= t <= 1 /\ p = along (nth k (a :: l) (0, 0)) (nth k l (0, 0)) t
  end.
Lemma line_best l : forall a q, (forall p, on_line a l p -> lineDist a l q <= pdist q p) /\ (exists p, on_line a l p /\ lineDist a l q = pdist q p).
Proof.
  induction l as [|b l IH]; intros a q.
  - cbn. assert (E : pdist a q = pdist q a) by (unfold pdist; f_equal; ring). split; [intros p ->; Lra.lra | exists a; split; [reflexivity | exact E]].
  - assert (Seg : forall t, 0 <= t <= 1 -> segDist a b q <= pdist q (along a b t)) by (intros t T; now apply foot_best).
    destruct l as [|c l].
    + cbn [lineDist]. split.
      * intros p (k & t & K & T & ->). destruct k; [|cbn in K; lia]. now apply Seg.
      * exists (along a b (foot a b q)). split; [|reflexivity]. exists 0%nat, (foot a b q). split; [cbn; lia|]. split; [apply foot_range | reflexivity].
    + destruct (IH b q) as [I1 (p0 & P1 & P2)]. change (lineDist a (b :: c :: l) q) with (Rmin (segDist a b q) (lineDist b (c :: l) q)). split.
      * intros p (k & t & K & T & ->). destruct k as [|k].
        -- eapply Rle_trans; [apply Rmin_l|]. now apply Seg.
        -- eapply Rle_trans; [apply Rmin_r|]. apply I1. exists k, t. split; [cbn in *; lia|]. split; [exact T | reflexivity].
      * destruct (Rle_dec (segDist a b q) (lineDist b (c :: l) q)) as [L|L].
        -- exists (along a b (foot a b q)). split; [|now rewrite Rmin_left]. exists 0%nat, (foot a b q). split; [cbn; lia|]. split; [apply foot_range | reflexivity].
        -- exists p0. split; [|rewrite Rmin_right by Lra.lra; exact P2]. destruct P1 as (k & t & K & T & ->). exists (S k), t. split; [cbn in *; lia|]. split; [exact T | reflexivity].
Qed.
(** The distance reported between a track and a place is, at 111.1251 km to the degree, that to the nearest point of
    the line joining the positions of the track. *)
Theorem c158_distance : forall a l q, exists D, minimumDistance (a :: l) q = Some D /\ 0 <= D /\
  (forall p, on_line a l p -> D <= pdist q p * (1111251 / 10000)) /\
  (exists p, on_line a l p /\ D = pdist q p * (1111251 / 10000)).
Proof.
  intros a l q. destruct (line_best l a q) as [B (p & P1 & P2)]. eexists. split; [reflexivity|]. split; [|split].
  - rewrite P2. apply Rmult_le_pos; [apply sqrt_pos | Lra.lra].
  - intros p' H. apply Rmult_le_compat_r; [Lra.lra | now apply B].
  - exists p. split; [exact P1 | now rewrite P2].
Qed.
Print Assumptions c158_distance.
(** It is zero exactly for places on the line. *)
Theorem c158_on_track : forall a l q, minimumDistance (a :: l) q = Some 0 <-> on_line a l q.
Proof.
  intros a l q. destruct (c158_distance a l q) as (D & E & P & B & (p & O & V)). rewrite E.
  assert (Z : forall x y, pdist x y = 0 -> x = y).
  { intros x y H. apply sqrt_eq_0 in H; [|apply pdist_sq]. destruct x, y; cbn in *. pose proof (pow2_ge_0 (r - r1)) as Q1. pose proof (pow2_ge_0 (r0 - r2)) as Q2. cbn in Q1, Q2.
    assert (r - r1 = 0) by (apply Rsqr_0_uniq; unfold Rsqr; Lra.lra). assert (r0 - r2 = 0) by (apply Rsqr_0_uniq; unfold Rsqr; Lra.lra). f_equal; Lra.lra. }
  split.
  - intros H. injection H as H. rewrite V in H. assert (W : pdist q p = 0) by Lra.lra. apply Z in W. now rewrite W.
  - intros H. f_equal. specialize (B q H). assert (W : pdist q q = 0) by (unfold pdist; replace ((fst q - fst q) ^ 2 + (snd q - snd q) ^ 2) with 0 by ring; apply sqrt_0). rewrite W in B. Lra.lra.
Qed.
Print Assumptions c158_on_track.
Lemma acos_cos_abs x : Rabs x <= PI -> acos (cos x) = Rabs x.
Proof.
  intros H. unfold Rabs in *. destruct (Rcase_abs x).
  - rewrite <- cos_neg. apply acos_cos. Lra.lra.
  - apply acos_cos. Lra.lra.
Qed.
(** Along a meridian it agrees with the distances used elsewhere, up to the length given to a degree. *)
Theorem c158_meridian : forall lon lat lat', -90 <= lat <= 90 -> -90 <= lat' <= 90 ->
  exists D, minimumDistance [(lon, lat)] (lon, lat') = Some D /\
    D * (earth * PI / 180) = distGC lat lat' lon lon * (1111251 / 10000).
Proof.
  intros lon lat lat' L1 L2. eexists. split; [reflexivity|]. cbn [lineDist]. unfold pdist. cbn [fst snd].
  replace ((lon - lon) ^ 2 + (lat - lat') ^ 2) with (Rsqr (lat - lat')) by (unfold Rsqr; ring). rewrite sqrt_Rsqr_abs.
  unfold distGC. rewrite (Rminus_diag_eq (radians lon) (radians lon)) by reflexivity. rewrite cos_0.
  replace (sin (radians lat) * sin (radians lat') + cos (radians lat) * cos (radians lat') * 1) with (cos (radians lat - radians lat')) by (rewrite cos_minus; ring).
  pose proof PI_RGT_0 as P. assert (E : radians lat - radians lat' = (lat - lat') * (PI / 180)) by (unfold radians; field). rewrite E.
  assert (Ab : Rabs ((lat - lat') * (PI / 180)) = Rabs (lat - lat') * (PI / 180)) by (rewrite Rabs_mult, (Rabs_pos_eq (PI / 180)) by Lra.lra; reflexivity).
  rewrite acos_cos_abs; rewrite Ab.
  - field.
  - assert (Rabs (lat - lat') <= 180) by (apply Rabs_le; Lra.lra). apply (Rmult_le_compat_r (PI / 180)) in H; [|Lra.lra]. Lra.lra.
Qed.
Print Assumptions c158_meridian.

(** * C159: refutations *)
Local Open Scope Q_scope.
(** A domain given with longitudes west of Greenwich contains no station, although the station lies in it. *)
Theorem c159_western_domain_refuted : exists (points : list (point nat)) table d,
  buildLocations nat points = Some table /\
  (forall x, In x points -> xMin d <= x_lon x <= xMax d /\ yMin d <= x_lat x <= yMax d) /\ points <> [] /\
  setLocations nat d table [] = [].
Proof.
  exists [{| x_lon := -75; x_lat := 20; x_rec := 7%nat |}]. eexists. exists {| xMin := -90; xMax := -60; yMin := 0; yMax := 40 |}.
  split; [reflexivity|]. split; [|split; [discriminate | reflexivity]]. intros x [<-|[]]. cbn. split; split; discriminate.
Qed.
Print Assumptions c159_western_domain_refuted.
(** Every domain wholly west of Greenwich is without stations. *)
Theorem c159_west_refuted : forall A d (points : list (point A)) table, xMax d < 0 -> buildLocations A points = Some table -> setLocations A d table [] = [].
Proof.
  intros A d points table X B. destruct (c158_build A points) as [S _]. destruct (S table B) as (L & As & N).
  destruct (setLocations A d table []) as [|y t] eqn:E; [reflexivity|]. exfalso.
  destruct (c158_places A d table [] As (SSorted_nil _)) as [_ P]. assert (I : In y (setLocations A d table [])) by (rewrite E; now left).
  apply P in I. destruct I as [(I & D & _)|[[] _]]. destruct (In_nth table y y I) as (j & J & Ej).
  destruct (nth_error points j) as [x|] eqn:Q; [|apply nth_error_None in Q; lia]. destruct (N j x y Q) as (_ & _ & _ & R & _). rewrite Ej in R. Lqa.lra.
Qed.
Print Assumptions c159_west_refuted.
(** The places of an earlier, larger domain stay in the data base. *)
Theorem c159_smaller_domain_refuted : exists (locdb : list (place nat)) d1 d2,
  (xMin d1 <= xMin d2 /\ xMax d2 <= xMax d1 /\ yMin d1 <= yMin d2 /\ yMax d2 <= yMax d1) /\
  exists p, In p (setLocations nat d2 locdb (setLocations nat d1 locdb [])) /\ ~ (xMin d2 <= p_lon p <= xMax d2).
Proof.
  exists [{| p_id := 1; p_lon := 150; p_lat := -20; p_info := 0%nat |}], {| xMin := 140; xMax := 160; yMin := -30; yMax := -10 |}, {| xMin := 140; xMax := 145; yMin := -30; yMax := -10 |}.
  split; [cbn; repeat split; discriminate|]. eexists. split; [now left|]. cbn. intros [_ H]. now apply H.
Qed.
Print Assumptions c159_smaller_domain_refuted.
(** Once a data base of stations exists, the file given by the user is not looked at. *)
Theorem c159_location_file_refuted : exists (db : list (place nat)) points1 points2, points1 <> points2 /\
  locationDatabase nat (Some db) points1 = locationDatabase nat (Some db) points2 /\
  (forall db', buildLocations nat points2 = Some db' -> locationDatabase nat (Some db) points2 <> Some db') /\ buildLocations nat points2 <> None.
Proof.
  exists [], [], [{| x_lon := 150; x_lat := -20; x_rec := 1%nat |}]. split; [discriminate|]. split; [reflexivity|]. split; [|discriminate].
  intros db' H E. cbn in E. injection E as <-. discriminate H.
Qed.
Print Assumptions c159_location_file_refuted.
(** Updating the data base of a finished run lists every return level once more. *)
Theorem c159_twice_refuted : exists (h : hazard) (places : list (place nat)) once twice,
  processHazard nat h places [] = Some once /\ processHazard nat h places once = Some twice /\
  length (allReturnLevels nat places once 1) = 1%nat /\ length (allReturnLevels nat places twice 1) = 2%nat.
Proof.
  exists {| z_lon := [150]; z_lat := [-20]; z_years := [100]; z_wspd := fun _ _ _ => 50; z_upper := fun _ _ _ => 60; z_lower := fun _ _ _ => 40;
            z_loc := fun _ _ => 0; z_scale := fun _ _ => 0; z_shape := fun _ _ => 0 |}, [{| p_id := 1; p_lon := 150; p_lat := -20; p_info := 0%nat |}].
  eexists. eexists. split; [reflexivity|]. split; [reflexivity|]. split; reflexivity.
Qed.
Print Assumptions c159_twice_refuted.
(** No name, written as text, finds the events by their track file. *)
Theorem c159_track_file_refuted : forall stored asked, cell_eqb (trackFileCell stored) (Text asked) = false.
Proof. reflexivity. Qed.
Print Assumptions c159_track_file_refuted.
Local Open Scope R_scope.
(** Away from the equator the reported distance along a parallel is far too large, *)
Theorem c159_high_latitude_refuted : exists D, minimumDistance [(0, 60)] (180, 60) = Some D /\ 2 * distGC 60 60 0 180 < D.
Proof.
  eexists. split; [reflexivity|]. cbn [lineDist]. unfold pdist. cbn [fst snd].
  replace ((0 - 180) ^ 2 + (60 - 60) ^ 2) with (Rsqr 180) by (unfold Rsqr; ring). rewrite sqrt_Rsqr by Lra.lra.
  unfold distGC, earth.
  assert (E60 : radians 60 = PI / 3) by (unfold radians; field). assert (E180 : radians 0 - radians 180 = - PI) by (unfold radians; field).
  rewrite E60, E180, cos_neg, cos_PI.
  replace (sin (PI / 3) * sin (PI / 3) + cos (PI / 3) * cos (PI / 3) * -1) with (- cos (2 * (PI / 3))) by (rewrite cos_2a; ring).
  replace (- cos (2 * (PI / 3))) with (cos (PI / 3)).
  2:{ replace (2 * (PI / 3)) with (- (PI / 3) + PI) by field. rewrite neg_cos, cos_neg. ring. }
  pose proof PI_RGT_0. pose proof PI_4. rewrite acos_cos by Lra.lra. Lra.lra.
Qed.
Print Assumptions c159_high_latitude_refuted.
(** and places on the other side of the meridian of Greenwich are as far away as can be. *)
Theorem c159_seam_refuted : exists D, minimumDistance [(359, 0)] (1, 0) = Some D /\ 100 * distGC 0 0 359 1 < D.
Proof.
  eexists. split; [reflexivity|]. cbn [lineDist]. unfold pdist. cbn [fst snd].
  replace ((359 - 1) ^ 2 + (0 - 0) ^ 2) with (Rsqr 358) by (unfold Rsqr; ring). rewrite sqrt_Rsqr by Lra.lra.
  unfold distGC, earth. assert (E0 : radians 0 = 0) by (unfold radians; field). rewrite E0, sin_0, cos_0.
  assert (E : radians 359 - radians 1 = - (2 * PI / 180) + 2 * INR 1 * PI) by (unfold radians; cbn; field).
  rewrite E, cos_period, cos_neg. replace (0 * 0 + 1 * 1 * cos (2 * PI / 180)) with (cos (2 * PI / 180)) by ring.
  pose proof PI_RGT_0. pose proof PI_4. rewrite acos_cos by Lra.lra. Lra.lra.
Qed.
Print Assumptions c159_seam_refuted.
