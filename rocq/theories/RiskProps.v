(** What is proved about the way from wind fields to return levels (C166, C167). *)
From Coq Require Import List ZArith Bool String Permutation Sorting.Sorted Lia.
From Verif Require Import MWModel TileModel TileSpec TileProofs HazardProps RiskModel.
Import ListNotations.
Open Scope Z_scope.

(** * Lists *)
Lemma mapO_spec : forall A B (f : A -> option B) l s, mapO f l = Some s <-> map f l = map Some s.
Proof.
  intros A B f. induction l as [| a l IH]; intros s; cbn [mapO map].
  - split; [intros [= <-]; reflexivity | destruct s; [reflexivity | discriminate]].
  - destruct (f a) as [b |].
    + destruct (mapO f l) as [r |].
      * split.
        -- intros [= <-]. cbn [map]. f_equal. apply IH. reflexivity.
        -- destruct s as [| c s]; [discriminate |]. cbn [map]. intros H. injection H as -> H. apply IH in H. congruence.
      * split; [discriminate |]. destruct s as [| c s]; [discriminate |]. cbn [map]. intros H. injection H as -> H.
        apply IH in H. discriminate.
    + split; [discriminate |]. destruct s; discriminate.
Qed.
Lemma mapO_none : forall A B (f : A -> option B) l, mapO f l = None <-> exists a, In a l /\ f a = None.
Proof.
  intros A B f. induction l as [| a l IH]; cbn [mapO].
  - split; [discriminate | intros [a [[] _]]].
  - destruct (f a) as [b |] eqn:E.
    + destruct (mapO f l) as [r |].
      * split; [discriminate |]. intros [x [[<- | Hx] N]]; [congruence |].
        assert (Q : Some r = None) by (apply IH; eauto). discriminate.
      * split; auto. intros _. destruct (proj1 IH eq_refl) as [x [Hx N]]. exists x. split; [right |]; auto.
    + split; auto. intros _. exists a. split; [left |]; auto.
Qed.
Lemma mapO_some : forall A B (f : A -> option B) l, (forall a, In a l -> f a <> None) -> mapO f l <> None.
Proof. intros A B f l H E. apply mapO_none in E. destruct E as [a [Ha N]]. apply (H a Ha N). Qed.

Lemma insertz_swap : forall a b l, insertz a (insertz b l) = insertz b (insertz a l).
Proof.
  intros a b. induction l as [| c l IH]; cbn [insertz].
  - destruct (Z.leb_spec a b), (Z.leb_spec b a); auto; [| lia]. assert (a = b) by lia. subst. reflexivity.
  - destruct (Z.leb_spec b c), (Z.leb_spec a c); cbn [insertz];
      destruct (Z.leb_spec a b), (Z.leb_spec b a), (Z.leb_spec a c), (Z.leb_spec b c); try lia; auto;
      try (assert (a = b) by lia; subst; auto); try (rewrite IH; auto).
Qed.
Lemma sortz_perm : forall l l', Permutation l l' -> sortz l = sortz l'.
Proof.
  induction 1 as [| x l l' _ IH | x y l | l l' l'' _ IH1 _ IH2]; cbn [sortz fold_right]; auto.
  - fold (sortz l) (sortz l'). rewrite IH. reflexivity.
  - apply insertz_swap.
  - congruence.
Qed.
Lemma existsb_perm : forall A (f : A -> bool) l l', Permutation l l' -> existsb f l = existsb f l'.
Proof.
  intros A f l l' P. induction P as [| x l l' _ IH | x y l | l l' l'' _ IH1 _ IH2]; cbn [existsb]; auto.
  - rewrite IH. reflexivity.
  - destruct (f x), (f y); reflexivity.
  - congruence.
Qed.
Lemma cell_perm : forall V (zero : V) fit d l l', Permutation l l' -> cell zero fit d l = cell zero fit d l'.
Proof.
  intros V zero fit d l l' P. unfold cell.
  destruct l as [| a l]; [apply Permutation_nil in P; subst; reflexivity |].
  destruct l' as [| b l']; [apply Permutation_sym, Permutation_nil in P; discriminate |].
  rewrite (existsb_perm _ _ _ _ P), (sortz_perm _ _ P). reflexivity.
Qed.

(** * What the record at one grid point is *)
(** The greatest wind of a year at grid point (Y, X), 0 without cyclones. *)
Definition yearWind (dir : list entry) (Y X : Z) (year : nat) : Z :=
  match map (fun w => w_val w Y X) (ofYear year dir) with [] => 0 | v :: r => fold_left Z.max r v end.
Definition gusts (dir : list entry) : list field :=
  flat_map (fun e => match e with Gust w => [w] | Foreign => [] end) dir.
Definition column (d : evd) (numsim : nat) (dir : list entry) (Y X : Z) : list Z :=
  match d with
  | GEV => map (yearWind dir Y X) (seq 0 numsim)
  | _ => map (fun w => w_val w Y X) (gusts dir)
  end.

(** The greatest value: attained and not exceeded. *)
Lemma fold_max_spec : forall l a, (In (fold_left Z.max l a) (a :: l)) /\ (forall v, In v (a :: l) -> v <= fold_left Z.max l a).
Proof.
  induction l as [| b l IH]; intros a; cbn [fold_left].
  - split; [left; auto |]. intros v [<- | []]. lia.
  - destruct (IH (Z.max a b)) as [I U]. split.
    + destruct I as [I | I]; [| right; right; auto].
      rewrite <- I. destruct (Z.max_spec a b) as [[_ ->] | [_ ->]]; [right; left | left]; auto.
    + intros v [<- | [<- | H]].
      * transitivity (Z.max a b); [lia | apply U; left; auto].
      * transitivity (Z.max a b); [lia | apply U; left; auto].
      * apply U. right. auto.
Qed.
Lemma in_year : forall year dir w, In w (ofYear year dir) <-> In (Gust w) dir /\ w_sim w = year.
Proof.
  intros year dir w. unfold ofYear. rewrite in_flat_map. split.
  - intros [[u |] [H I]]; [| destruct I]. destruct (Nat.eqb_spec (w_sim u) year); [| destruct I].
    destruct I as [<- | []]. auto.
  - intros [H E]. exists (Gust w). split; auto. rewrite E, Nat.eqb_refl. left. auto.
Qed.
Theorem c166_year : forall dir Y X year,
  ((forall w, In (Gust w) dir -> w_sim w <> year) -> yearWind dir Y X year = 0) /\
  (forall w, In (Gust w) dir -> w_sim w = year -> w_val w Y X <= yearWind dir Y X year) /\
  ((exists w, In (Gust w) dir /\ w_sim w = year) ->
   exists w, In (Gust w) dir /\ w_sim w = year /\ w_val w Y X = yearWind dir Y X year).
Proof.
  intros dir Y X year. unfold yearWind.
  assert (S : forall v, In v (map (fun w => w_val w Y X) (ofYear year dir)) <->
     exists w, In (Gust w) dir /\ w_sim w = year /\ w_val w Y X = v).
  { intros v. rewrite in_map_iff. split.
    - intros [w [E H]]. apply in_year in H. exists w. tauto.
    - intros [w [H [E F]]]. exists w. rewrite in_year. tauto. }
  destruct (map _ (ofYear year dir)) as [| v r] eqn:M.
  - split; [auto |]. split.
    + intros w H E. destruct (proj2 (S (w_val w Y X))). eauto.
    + intros [w [H E]]. destruct (proj2 (S (w_val w Y X))). eauto.
  - destruct (fold_max_spec r v) as [I U]. split; [| split].
    + intros N. destruct (proj1 (S v) (or_introl eq_refl)) as [w [H [E _]]]. destruct (N w H E).
    + intros w H E. apply U, S. eauto.
    + intros _. apply S in I. exact I.
Qed.
Print Assumptions c166_year.

(** * Loading *)
Definition fits (Y X : Z) (w : field) : Prop := Y <= zlen (w_lat w) /\ X <= zlen (w_lon w).
Lemma loadFile_some : forall x1 x2 y1 y2 w b, loadFile (x1, x2, y1, y2) w = Some b ->
  fits y2 x2 w /\ forall y x, b y x = w_val w (y + y1) (x + x1).
Proof.
  intros x1 x2 y1 y2 w b H. unfold loadFile in H. destruct (_ && _) eqn:E; [| discriminate].
  injection H as <-. apply andb_true_iff in E. unfold fits. split; [lia | reflexivity].
Qed.
Lemma loadFile_iff : forall x1 x2 y1 y2 w, loadFile (x1, x2, y1, y2) w <> None <-> fits y2 x2 w.
Proof.
  intros. unfold loadFile, fits. destruct (_ && _) eqn:E.
  - apply andb_true_iff in E. split; [lia | discriminate].
  - apply andb_false_iff in E. split; [congruence | lia].
Qed.
Lemma load_list : forall x1 x2 y1 y2 l bs, mapO (loadFile (x1, x2, y1, y2)) l = Some bs ->
  forall y x, map (fun b => b y x) bs = map (fun w => w_val w (y + y1) (x + x1)) l.
Proof.
  intros x1 x2 y1 y2. induction l as [| w l IH]; intros bs H y x; cbn [mapO] in H.
  - injection H as <-. reflexivity.
  - destruct (loadFile _ w) as [b |] eqn:E; [| discriminate]. destruct (mapO _ l) as [s |]; [| discriminate].
    injection H as <-. cbn [map]. rewrite (IH s eq_refl). f_equal. apply (loadFile_some _ _ _ _ _ _ E).
Qed.
(** The files a calculation reads. *)
Definition used (d : evd) (numsim : nat) (dir : list entry) (w : field) : Prop :=
  In (Gust w) dir /\ (d = GEV -> (w_sim w < numsim)%nat).
Definition readable (d : evd) (dir : list entry) : Prop := d = GEV \/ ~ In Foreign dir.

Lemma path_column : forall dir x1 x2 y1 y2 vr,
  loadFilesFromPath dir (x1, x2, y1, y2) = Some vr ->
  forall y x, map (fun b => b y x) vr = map (fun w => w_val w (y + y1) (x + x1)) (gusts dir).
Proof.
  intros dir x1 x2 y1 y2. unfold loadFilesFromPath. induction dir as [| e dir IH]; intros vr H y x; cbn [mapO] in H.
  - injection H as <-. reflexivity.
  - destruct e as [w |]; cbn [loadEntry] in H; [| discriminate].
    destruct (loadFile _ w) as [b |] eqn:E; [| discriminate]. destruct (mapO _ dir) as [s |]; [| discriminate].
    injection H as <-. cbn [gusts flat_map app map]. fold (gusts dir). rewrite (IH s eq_refl). f_equal.
    apply (loadFile_some _ _ _ _ _ _ E).
Qed.
Lemma year_column : forall dir x1 x2 y1 y2 k b, yearMax (x1, x2, y1, y2) dir k = Some b ->
  forall y x, b y x = yearWind dir (y + y1) (x + x1) k.
Proof.
  intros dir x1 x2 y1 y2 k b H y x. unfold yearMax in H. unfold yearWind.
  destruct (ofYear k dir) as [| w r]; [injection H as <-; reflexivity |].
  destruct (loadFile _ w) as [c |] eqn:E; [| discriminate]. destruct (mapO _ r) as [bs |] eqn:F; [| discriminate].
  injection H as <-. cbn [map]. rewrite (load_list _ _ _ _ _ _ F). f_equal. apply (loadFile_some _ _ _ _ _ _ E).
Qed.
Lemma records_column : forall d numsim dir x1 x2 y1 y2 vr,
  records d numsim dir (x1, x2, y1, y2) = Some vr ->
  forall y x, map (fun b => b y x) vr = column d numsim dir (y + y1) (x + x1).
Proof.
  intros d numsim dir x1 x2 y1 y2 vr H y x.
  destruct d; cbn [records column] in *; try (apply (path_column _ _ _ _ _ _ H)).
  unfold aggregateWindFields in H. revert vr H. induction (seq 0 numsim) as [| k l IH]; intros vr H; cbn [mapO] in H.
  - injection H as <-. reflexivity.
  - destruct (yearMax _ dir k) as [b |] eqn:E; [| discriminate]. destruct (mapO _ l) as [s |]; [| discriminate].
    injection H as <-. cbn [map]. rewrite (IH s eq_refl). f_equal. apply (year_column _ _ _ _ _ _ _ E).
Qed.
Lemma yearMax_iff : forall dir x1 x2 y1 y2 k, yearMax (x1, x2, y1, y2) dir k <> None <->
  forall w, In w (ofYear k dir) -> fits y2 x2 w.
Proof.
  intros dir x1 x2 y1 y2 k. unfold yearMax. destruct (ofYear k dir) as [| w r].
  - split; [intros _ w [] | discriminate].
  - split.
    + intros H u Hu. apply (loadFile_iff x1 x2 y1 y2).
      destruct (loadFile _ w) as [c |] eqn:E; [| congruence]. destruct (mapO _ r) as [bs |] eqn:F; [| congruence].
      destruct Hu as [<- | Hu]; [congruence |]. intros N.
      assert (Q : mapO (loadFile (x1, x2, y1, y2)) r = None) by (apply mapO_none; eauto). congruence.
    + intros H. destruct (loadFile _ w) as [c |] eqn:E.
      * destruct (mapO _ r) as [bs |] eqn:F; [discriminate |]. exfalso. apply mapO_none in F. destruct F as [u [Hu N]].
        apply (proj2 (loadFile_iff x1 x2 y1 y2 u)); auto. apply H. right. auto.
      * exfalso. apply (proj2 (loadFile_iff x1 x2 y1 y2 w)); auto. apply H. left. auto.
Qed.
Lemma records_iff : forall d numsim dir x1 x2 y1 y2,
  records d numsim dir (x1, x2, y1, y2) <> None <->
  readable d dir /\ forall w, used d numsim dir w -> fits y2 x2 w.
Proof.
  intros d numsim dir x1 x2 y1 y2.
  assert (A : d <> GEV -> (loadFilesFromPath dir (x1, x2, y1, y2) <> None <->
    readable d dir /\ forall w, used d numsim dir w -> fits y2 x2 w)).
  { intros ND. unfold loadFilesFromPath. split.
    - intros H. split.
      + right. intros F. apply H, mapO_none. exists Foreign. auto.
      + intros w [Hw _]. apply (loadFile_iff x1 x2 y1 y2). intros N. apply H, mapO_none. exists (Gust w). auto.
    - intros [[E | R] F]; [congruence |]. apply mapO_some. intros [w |] He; [| congruence].
      cbn [loadEntry]. apply loadFile_iff, F. split; auto. congruence. }
  destruct d; cbn [records]; try (apply A; discriminate). clear A.
  unfold aggregateWindFields. split.
  - intros H. split; [left; auto |]. intros w [Hw Hs]. specialize (Hs eq_refl).
    assert (Y : yearMax (x1, x2, y1, y2) dir (w_sim w) <> None).
    { intros N. apply H, mapO_none. exists (w_sim w). split; auto. apply in_seq. lia. }
    rewrite yearMax_iff in Y. apply Y, in_year. auto.
  - intros [_ F]. apply mapO_some. intros k Hk. apply in_seq in Hk. apply yearMax_iff. intros w Hw.
    apply in_year in Hw. apply F. split; [tauto |]. intros _. lia.
Qed.

(** * Tiles *)
Lemma in_zrange : forall n k, In k (zrange n) <-> 0 <= k < n.
Proof.
  intros n k. unfold zrange. rewrite in_map_iff. split.
  - intros [m [<- H]]. apply in_seq in H. lia.
  - intros H. exists (Z.to_nat k). rewrite in_seq. lia.
Qed.

Lemma insertz_in : forall a l, Permutation (a :: l) (insertz a l) /\ (Sorted Z.le l -> Sorted Z.le (insertz a l)).
Proof.
  intros a l. induction l as [| b l [P IH]]; cbn [insertz].
  - split; [auto | repeat constructor].
  - destruct (Z.leb_spec a b) as [L | L].
    + split; [auto | intros S; constructor; auto].
    + split; [etransitivity; [apply perm_swap | constructor; exact P] |].
      intros S. inversion S as [| ? ? S' H']; subst. constructor; auto.
      destruct l as [| c l]; cbn [insertz]; [constructor; lia |].
      inversion H'; subst. destruct (a <=? c); constructor; lia.
Qed.

Section Risk.
  Context {V : Type}.
  Variable zero : V.
  Variable fit : evd -> list Z -> option V.
  Notation cell := (cell zero fit).
  Notation calcTile := (calcTile zero fit).

  Lemma calcTile_some : forall d numsim dir x1 x2 y1 y2 b, calcTile d numsim dir (x1, x2, y1, y2) = Some b ->
    forall y x, 0 <= y < y2 - y1 -> 0 <= x < x2 - x1 ->
    Some (b y x) = cell d (column d numsim dir (y + y1) (x + x1)).
  Proof.
    intros d numsim dir x1 x2 y1 y2 b H y x Hy Hx. unfold RiskModel.calcTile in H.
    destruct (records d numsim dir _) as [vr |] eqn:R; [| discriminate].
    destruct (forallb _ _) eqn:F; [| discriminate].
    pose proof (f_equal (fun o => match o with Some c => Some (c y x) | None => None end) H) as E. cbn in E. clear H.
    rewrite <- E. rewrite forallb_forall in F. specialize (F y (proj2 (in_zrange _ _) Hy)).
    rewrite forallb_forall in F. specialize (F x (proj2 (in_zrange _ _) Hx)).
    rewrite (records_column _ _ _ _ _ _ _ _ R) in *. destruct (cell d _); [reflexivity | discriminate].
  Qed.
  Lemma calcTile_iff : forall d numsim dir x1 x2 y1 y2,
    calcTile d numsim dir (x1, x2, y1, y2) <> None <->
    readable d dir /\ (forall w, used d numsim dir w -> fits y2 x2 w) /\
    (forall y x, y1 <= y < y2 -> x1 <= x < x2 -> cell d (column d numsim dir y x) <> None).
  Proof.
    intros d numsim dir x1 x2 y1 y2. unfold RiskModel.calcTile.
    destruct (records d numsim dir _) as [vr |] eqn:R.
    - assert (R' : records d numsim dir (x1, x2, y1, y2) <> None) by congruence. apply records_iff in R'.
      split.
      + intros H. split; [tauto |]. split; [tauto |]. intros y x Hy Hx.
        destruct (forallb _ _) eqn:F; [| congruence].
        rewrite forallb_forall in F. specialize (F (y - y1)). rewrite forallb_forall in F by (apply in_zrange; lia).
        specialize (F ltac:(apply in_zrange; lia) (x - x1) ltac:(apply in_zrange; lia)).
        rewrite (records_column _ _ _ _ _ _ _ _ R) in F. replace (y - y1 + y1) with y in F by lia.
        replace (x - x1 + x1) with x in F by lia. intros N. rewrite N in F. discriminate.
      + intros [_ [_ C]]. destruct (forallb _ _) eqn:F; [discriminate |]. exfalso.
        assert (T : forallb (fun y => forallb (fun x => match cell d (map (fun b => b y x) vr) with
            Some _ => true | None => false end) (zrange (x2 - x1))) (zrange (y2 - y1)) = true).
        { apply forallb_forall. intros y Hy. apply forallb_forall. intros x Hx. apply in_zrange in Hy, Hx.
          rewrite (records_column _ _ _ _ _ _ _ _ R).
          specialize (C (y + y1) (x + x1) ltac:(lia) ltac:(lia)). destruct (cell d _); congruence. }
        congruence.
    - split; [congruence |]. intros [A [B _]]. exfalso.
      apply (proj2 (records_iff d numsim dir x1 x2 y1 y2)); auto.
  Qed.

  Lemma serial_some : forall g f (a0 : Z -> Z -> V) ts, serial (calc_tile f) (store_tile g) a0 ts <> None <-> (forall t, In t ts -> f t <> None).
  Proof.
    intros g f a0 ts. revert a0. induction ts as [| t ts IH]; intros a0; cbn [serial].
    - split; [intros _ t [] | discriminate].
    - unfold calc_tile at 1. destruct (f t) as [b |] eqn:E.
      + rewrite IH. split; [intros H u [<- | Hu]; auto; congruence | intros H u Hu; apply H; right; auto].
      + split; [congruence |]. intros H. exfalso. apply (H t); auto. left. auto.
  Qed.

  (** The whole window of the domain. *)
  Definition sound (g : tgrid) : Prop := imin g <= imax g /\ jmin g <= jmax g /\ 0 < xstep g /\ 0 < ystep g.
  Lemma hazardOn_iff : forall d numsim dir g, sound g ->
    (hazardOn zero fit d numsim dir g <> None <->
     readable d dir /\ (forall w, used d numsim dir w -> fits (jmax g + 1) (imax g + 1) w) /\
     (forall y x, jmin g <= y <= jmax g -> imin g <= x <= imax g -> cell d (column d numsim dir y x) <> None)).
  Proof.
    intros d numsim dir g [Hx [Hy [Sx Sy]]]. unfold hazardOn. rewrite serial_some.
    pose proof (tiling_ok g Hx Hy Sx Sy) as [HC HI HS].
    split.
    - intros H. split; [| split].
      + destruct (HC (imin g) (jmin g)) as [k [t [Hk [_ _]]]]; [lia | lia |].
        apply nth_error_In in Hk. specialize (H t Hk). destruct t as [[[x1 x2] y1] y2]. apply calcTile_iff in H. tauto.
      + intros w Hw. destruct (HC (imax g) (jmax g)) as [k [t [Hk [Hr _]]]]; [lia | lia |].
        apply nth_error_In in Hk. pose proof (H t Hk) as Q. destruct t as [[[x1 x2] y1] y2]. apply calcTile_iff in Q.
        destruct Q as [_ [Q _]]. specialize (Q w Hw). unfold fits in *. cbn in Hr. lia.
      + intros y x Yy Xx. destruct (HC x y) as [k [t [Hk [Hr _]]]]; [lia | lia |].
        apply nth_error_In in Hk. pose proof (H t Hk) as Q. destruct t as [[[x1 x2] y1] y2]. apply calcTile_iff in Q.
        destruct Q as [_ [_ Q]]. cbn in Hr. apply Q; lia.
    - intros [R [F C]] t Ht. destruct t as [[[x1 x2] y1] y2].
      destruct (HS _ _ _ _ Ht) as [S1 S2].
      apply calcTile_iff. split; auto.
      assert (I : forall y x, y1 <= y < y2 -> x1 <= x < x2 -> jmin g <= y <= jmax g /\ imin g <= x <= imax g).
      { intros y x Yy Xx. destruct (HI _ x y Ht); [cbn; lia | lia]. }
      split.
      + intros w Hw. specialize (F w Hw). destruct (I (y2 - 1) (x2 - 1)); [lia | lia |]. unfold fits in *. lia.
      + intros y x Yy Xx. apply C; apply (I y x); lia.
  Qed.
  Lemma hazardOn_value : forall d numsim dir g a, sound g -> hazardOn zero fit d numsim dir g = Some a ->
    forall y x, 0 <= y <= jmax g - jmin g -> 0 <= x <= imax g - imin g ->
    Some (a y x) = cell d (column d numsim dir (y + jmin g) (x + imin g)).
  Proof.
    intros d numsim dir g a [Hx [Hy [Sx Sy]]] H y x Yy Xx. unfold hazardOn in H.
    assert (N : forall t, In t (get_tiles g) -> calcTile d numsim dir t <> None) by (apply (serial_some g _ (fun _ _ => zero)); congruence).
    destruct (c01_serial_value V g _ _ a Hx Hy Sx Sy N H y x Yy Xx) as [x1 [x2 [y1 [y2 [b [Ht [Hr [Hb ->]]]]]]]].
    cbn in Hr. rewrite (calcTile_some _ _ _ _ _ _ _ _ Hb) by lia. f_equal. f_equal; lia.
  Qed.

  Lemma tilegrid_sound : forall dir l xs ys g, 0 < xs -> 0 < ys -> tilegrid dir l xs ys = Some g -> 
    sound g /\ 0 <= imin g /\ 0 <= jmin g.
  Proof using.
    clear. intros dir l xs ys g Hxs Hys H. unfold tilegrid in H. destruct (setDomain dir) as [[lon lat] |]; [| discriminate].
    unfold mk_tgrid in H.
    assert (A : forall c k lo hi i r, sel_indices k c lo hi = i :: r -> k <= i <= last (i :: r) 0).
    { induction c as [| v c IH]; intros k lo hi i r E; cbn [sel_indices] in E; [discriminate |].
      destruct (_ && _).
      - injection E as <- <-. split; [lia |].
        destruct (sel_indices (k + 1) c lo hi) as [| j s] eqn:F; [cbn; lia |].
        specialize (IH _ _ _ _ _ F). change (last (k :: j :: s) 0) with (last (j :: s) 0). lia.
      - specialize (IH _ _ _ _ _ E). lia. }
    destruct (sel_indices 0 lon _ _) as [| i ii] eqn:E1; [discriminate |].
    destruct (sel_indices 0 lat _ _) as [| j jj] eqn:E2; [discriminate |].
    injection H as <-. apply A in E1, E2. unfold sound. cbn -[last]. split; [| tauto].
    repeat split; try tauto; cbn [last] in *; destruct ii, jj; lia.
  Qed.

  (** At every grid point of the domain the result is the fit of the winds at that point: annual maxima for GEV, all
      wind fields otherwise; zero where there is never any wind. *)
  Theorem c166_point : forall name numsim dir l xs ys a g, 0 < xs -> 0 < ys ->
    run zero fit name numsim dir l xs ys = Some a -> tilegrid dir l xs ys = Some g ->
    exists d, evdOf name = Some d /\
    forall y x, 0 <= y <= jmax g - jmin g -> 0 <= x <= imax g - imin g ->
    Some (a y x) = cell d (column d numsim dir (y + jmin g) (x + imin g)).
  Proof.
    intros name numsim dir l xs ys a g Hxs Hys H G. unfold run in H. rewrite G in H.
    destruct (evdOf name) as [d |]; [| discriminate]. exists d. split; auto.
    apply hazardOn_value; auto. apply (tilegrid_sound dir l xs ys g); auto.
  Qed.

  (** When the calculation succeeds. *)
  Theorem c166_succeeds : forall name numsim dir l xs ys, 0 < xs -> 0 < ys ->
    (run zero fit name numsim dir l xs ys <> None <->
     exists d g, evdOf name = Some d /\ tilegrid dir l xs ys = Some g /\
       (d = GEV \/ ~ In Foreign dir) /\
       (forall w, In (Gust w) dir -> (d = GEV -> (w_sim w < numsim)%nat) ->
          jmax g < zlen (w_lat w) /\ imax g < zlen (w_lon w)) /\
       (forall y x, jmin g <= y <= jmax g -> imin g <= x <= imax g -> cell d (column d numsim dir y x) <> None)).
  Proof.
    intros name numsim dir l xs ys Hxs Hys. unfold run. destruct (tilegrid dir l xs ys) as [g |] eqn:G.
    - destruct (evdOf name) as [d |].
      + destruct (tilegrid_sound dir l xs ys g Hxs Hys G) as [S _]. rewrite (hazardOn_iff d numsim dir g S). split.
        * intros [R [F C]]. exists d, g. split; [auto | split; [auto | split; [exact R | split; [| exact C]]]].
          intros w Hw Hs. specialize (F w (conj Hw Hs)). unfold fits in F. lia.
        * intros [d' [g' [[= <-] [[= <-] [R [F C]]]]]]. split; [auto | split; auto].
          intros w [Hw Hs]. specialize (F w Hw Hs). unfold fits. lia.
      + split; [congruence |]. intros [d' [g' [E _]]]. discriminate.
    - split; [congruence |]. intros [d' [g' [_ [E _]]]]. discriminate.
  Qed.

  (** The size of the tiles makes no difference. *)
  Theorem c166_tiles : forall name numsim dir l xs ys xs' ys', 0 < xs -> 0 < ys -> 0 < xs' -> 0 < ys' ->
    (run zero fit name numsim dir l xs ys <> None <-> run zero fit name numsim dir l xs' ys' <> None) /\
    forall a a' g, run zero fit name numsim dir l xs ys = Some a -> run zero fit name numsim dir l xs' ys' = Some a' ->
    tilegrid dir l xs ys = Some g ->
    forall y x, 0 <= y <= jmax g - jmin g -> 0 <= x <= imax g - imin g -> a y x = a' y x.
  Proof.
    intros name numsim dir l xs ys xs' ys' H1 H2 H3 H4.
    assert (T : forall xs ys xs' ys' g, tilegrid dir l xs ys = Some g -> exists g', tilegrid dir l xs' ys' = Some g' /\
       imin g' = imin g /\ imax g' = imax g /\ jmin g' = jmin g /\ jmax g' = jmax g).
    { clear. intros xs ys xs' ys' g H. unfold tilegrid, mk_tgrid in *. destruct (setDomain dir) as [[lon lat] |]; [| discriminate].
      destruct (sel_indices 0 lon _ _); [discriminate |]. destruct (sel_indices 0 lat _ _); [discriminate |].
      injection H as <-. eexists. split; [reflexivity |]. auto. }
    split.
    - assert (W : forall xs ys xs' ys', 0 < xs -> 0 < ys -> 0 < xs' -> 0 < ys' ->
        run zero fit name numsim dir l xs ys <> None -> run zero fit name numsim dir l xs' ys' <> None).
      { clear - T. intros xs ys xs' ys' H1 H2 H3 H4 H. apply c166_succeeds in H; auto. apply c166_succeeds; auto.
        destruct H as [d [g [E [G [R [F C]]]]]]. destruct (T xs ys xs' ys' g G) as [g' [G' [A1 [A2 [A3 A4]]]]].
        exists d, g'. split; [auto | split; [auto | split; [auto | split]]].
        { intros w. rewrite A2, A4. apply F. }
        intros y x. rewrite A1, A2, A3, A4. apply C. }
      split; apply W; auto.
    - intros a a' g R R' G y x Yy Xx. destruct (T xs ys xs' ys' g G) as [g' [G' [A1 [A2 [A3 A4]]]]].
      destruct (c166_point name numsim dir l xs ys a g H1 H2 R G) as [d [E P]].
      destruct (c166_point name numsim dir l xs' ys' a' g' H3 H4 R' G') as [d' [E' P']].
      assert (d' = d) by congruence. subst d'.
      specialize (P y x Yy Xx). specialize (P' y x). rewrite A1, A2, A3, A4 in P'. specialize (P' Yy Xx). congruence.
  Qed.

  (** Nor the order of the files, apart from the first. *)
  Lemma flat_map_perm : forall A B (f : A -> list B) l l', Permutation l l' -> Permutation (flat_map f l) (flat_map f l').
  Proof.
    intros A B f l l' P. induction P as [| x l l' _ IH | x y l | l l' l'' _ IH1 _ IH2]; cbn [flat_map]; auto.
    - apply Permutation_app_head, IH.
    - rewrite !app_assoc. apply Permutation_app_tail, Permutation_app_comm.
    - etransitivity; eauto.
  Qed.
  Lemma yearWind_perm : forall dir dir' Y X k, Permutation dir dir' -> yearWind dir Y X k = yearWind dir' Y X k.
  Proof.
    intros dir dir' Y X k P.
    destruct (c166_year dir Y X k) as [A1 [A2 A3]]. destruct (c166_year dir' Y X k) as [B1 [B2 B3]].
    assert (I : forall w, In (Gust w) dir <-> In (Gust w) dir').
    { intros w. split; apply Permutation_in; [exact P | apply Permutation_sym, P]. }
    destruct (ofYear k dir) as [| w r] eqn:E.
    - assert (N : forall w, In (Gust w) dir -> w_sim w <> k).
      { intros w Hw S. assert (Q : In w (ofYear k dir)) by (apply in_year; auto). rewrite E in Q. destruct Q. }
      rewrite (A1 N), B1; auto. intros w Hw. apply N, I, Hw.
    - assert (Q : In w (ofYear k dir)) by (rewrite E; left; auto). apply in_year in Q.
      destruct (A3 (ex_intro _ w Q)) as [u [U1 [U2 U3]]].
      destruct B3 as [v [V1 [V2 V3]]]; [exists w; rewrite <- I; tauto |].
      apply I in V1. apply I in U1.
      pose proof (B2 u U1 U2). pose proof (A2 v V1 V2). lia.
  Qed.
  Theorem c166_order : forall name numsim e dir dir' l xs ys g, 0 < xs -> 0 < ys -> Permutation dir dir' ->
    (run zero fit name numsim (e :: dir) l xs ys <> None <-> run zero fit name numsim (e :: dir') l xs ys <> None) /\
    forall a a', run zero fit name numsim (e :: dir) l xs ys = Some a -> run zero fit name numsim (e :: dir') l xs ys = Some a' ->
    tilegrid (e :: dir) l xs ys = Some g ->
    forall y x, 0 <= y <= jmax g - jmin g -> 0 <= x <= imax g - imin g -> a y x = a' y x.
  Proof.
    intros name numsim e dir dir' l xs ys g H1 H2 P.
    assert (PP : Permutation (e :: dir) (e :: dir')) by (constructor; auto).
    assert (I : forall w, In w (e :: dir) <-> In w (e :: dir')).
    { intros w. split; apply Permutation_in; [exact PP | apply Permutation_sym, PP]. }
    assert (G : tilegrid (e :: dir) l xs ys = tilegrid (e :: dir') l xs ys) by reflexivity.
    assert (C : forall d y x, cell d (column d numsim (e :: dir) y x) = cell d (column d numsim (e :: dir') y x)).
    { intros d y x. apply cell_perm. destruct d; cbn [column];
        try (apply Permutation_map, flat_map_perm, PP).
      erewrite map_ext; [apply Permutation_refl |]. intros k. apply yearWind_perm, PP. }
    split.
    - rewrite !c166_succeeds by auto. split.
      + intros [d [h [E [T [R [F K]]]]]]. exists d, h. rewrite <- G. split; [auto | split; [auto | split; [| split]]].
        * destruct R as [R | R]; [auto | right; rewrite <- I; auto].
        * intros w Hw. apply F, I, Hw.
        * intros y x. rewrite <- C. apply K.
      + intros [d [h [E [T [R [F K]]]]]]. exists d, h. rewrite G. split; [auto | split; [auto | split; [| split]]].
        * destruct R as [R | R]; [auto | right; rewrite I; auto].
        * intros w Hw. apply F, I, Hw.
        * intros y x. rewrite C. apply K.
    - intros a a' R R' T y x Yy Xx.
      destruct (c166_point name numsim _ l xs ys a g H1 H2 R T) as [d [E Q]].
      destruct (c166_point name numsim _ l xs ys a' g H1 H2 R' (eq_trans (eq_sym G) T)) as [d' [E' Q']].
      assert (d' = d) by congruence. subst d'.
      specialize (Q y x Yy Xx). specialize (Q' y x Yy Xx). rewrite C in Q. congruence.
  Qed.

  (** A cyclone without wind at a point makes no difference there for GEV if the other winds are not negative. *)
  Theorem c166_calm : forall numsim dir w Y X, w_val w Y X = 0 ->
    (forall u, In (Gust u) dir -> 0 <= w_val u Y X) ->
    column GEV numsim (dir ++ [Gust w]) Y X = column GEV numsim dir Y X.
  Proof.
    intros numsim dir w Y X Z0 P. cbn [column]. apply map_ext. intros k.
    destruct (c166_year (dir ++ [Gust w]) Y X k) as [A1 [A2 A3]]. destruct (c166_year dir Y X k) as [B1 [B2 B3]].
    assert (I : forall u, In (Gust u) (dir ++ [Gust w]) <-> In (Gust u) dir \/ u = w).
    { intros u. rewrite in_app_iff. cbn [In]. split; intros [H | H]; auto.
      - destruct H as [[= ->] | []]; auto.
      - subst. auto. }
    destruct (ofYear k dir) as [| v r] eqn:E.
    - assert (N : forall u, In (Gust u) dir -> w_sim u <> k).
      { intros u Hu S. assert (Q : In u (ofYear k dir)) by (apply in_year; auto). rewrite E in Q. destruct Q. }
      rewrite (B1 N). destruct (Nat.eq_dec (w_sim w) k) as [Ek | Ek].
      + destruct A3 as [u [U1 [U2 <-]]]; [exists w; rewrite I; auto |].
        apply I in U1. destruct U1 as [U1 | ->]; [destruct (N u U1 U2) | exact Z0].
      + apply A1. intros u Hu. apply I in Hu. destruct Hu as [Hu | ->]; auto.
    - assert (Q : In v (ofYear k dir)) by (rewrite E; left; auto). apply in_year in Q.
      destruct B3 as [u [U1 [U2 U3]]]; [eauto |].
      destruct A3 as [u' [V1 [V2 V3]]]; [exists v; rewrite I; tauto |].
      apply I in V1.
      assert (L1 : yearWind dir Y X k <= yearWind (dir ++ [Gust w]) Y X k) by (rewrite <- U3; apply A2; [apply I |]; auto).
      assert (L2 : yearWind (dir ++ [Gust w]) Y X k <= yearWind dir Y X k).
      { rewrite <- V3. destruct V1 as [V1 | ->]; [apply B2; auto |]. rewrite Z0, <- U3. apply P, U1. }
      lia.
  Qed.

  (** What is calculated from the winds at a point: nothing (an error) without any wind field, zeros if there is never
      any wind, and otherwise the fit of the winds in ascending order. *)
  Theorem c166_level : forall d,
    cell d [] = None /\
    (forall c, c <> [] -> (forall v, In v c -> v <= 0) -> cell d c = Some zero) /\
    (forall c v, In v c -> 0 < v -> exists s, Permutation c s /\ Sorted Z.le s /\ cell d c = fit d s).
  Proof.
    intros d. split; [reflexivity |]. split.
    - intros c N A. unfold RiskModel.cell. destruct c as [| a c]; [congruence |].
      destruct (existsb _ _) eqn:E; [| reflexivity]. apply existsb_exists in E. destruct E as [v [I L]].
      specialize (A v I). lia.
    - intros c v I L. exists (sortz c). split; [| split].
      + clear. induction c as [| a c IH]; [constructor |].
        etransitivity; [constructor; exact IH |]. apply insertz_in.
      + clear. induction c as [| a c IH]; [constructor |]. apply insertz_in, IH.
      + unfold RiskModel.cell. destruct c as [| a c]; [destruct I |].
        destruct (existsb _ _) eqn:E; [reflexivity |]. exfalso.
        assert (Q : existsb (fun v => 0 <? v) (a :: c) = true) by (apply existsb_exists; exists v; split; [auto | lia]).
        congruence.
  Qed.
End Risk.
Print Assumptions c166_level.
Print Assumptions c166_point.
Print Assumptions c166_succeeds.
Print Assumptions c166_tiles.
Print Assumptions c166_order.
Print Assumptions c166_calm.

(** The axes written with the result: position [x] of the array is position [x + imin] of the first wind field, and
    there are as many as the array has columns. *)
Lemma slice_nth : forall (l : list Z) a b k, 0 <= a -> 0 <= k -> a + k < b ->
  nth (Z.to_nat k) (slice a b l) 0 = nth (Z.to_nat (k + a)) l 0.
Proof.
  intros l a b k Ha Hk Hl. unfold slice.
  replace (Z.to_nat (k + a)) with (Z.to_nat a + Z.to_nat k)%nat by lia.
  assert (H : (Z.to_nat k < Z.to_nat (b - a))%nat) by lia.
  revert H. generalize (Z.to_nat (b - a)) (Z.to_nat k) (Z.to_nat a). clear. intros m k n H.
  transitivity (nth k (skipn n l) 0).
  - revert m H. generalize (skipn n l). clear. intros l. revert k. induction l as [| x l IH]; intros k m H.
    + rewrite firstn_nil. reflexivity.
    + destruct m as [| m]; [lia |]. destruct k as [| k]; cbn; auto. apply IH. lia.
  - clear H. revert l. induction n as [| n IH]; intros l; [reflexivity |].
    destruct l as [| x l]; [destruct k; reflexivity |]. cbn. apply IH.
Qed.
Theorem c166_axes : forall w dir l xs ys g lon lat, 0 < xs -> 0 < ys ->
  tilegrid (Gust w :: dir) l xs ys = Some g -> domainExtent (Gust w :: dir) g = Some (lon, lat) ->
  zlen lon = imax g - imin g + 1 /\ zlen lat = jmax g - jmin g + 1 /\
  (forall x, 0 <= x <= imax g - imin g -> nth (Z.to_nat x) lon 0 = nth (Z.to_nat (x + imin g)) (w_lon w) 0) /\
  (forall y, 0 <= y <= jmax g - jmin g -> nth (Z.to_nat y) lat 0 = nth (Z.to_nat (y + jmin g)) (w_lat w) 0).
Proof.
  intros w dir l xs ys g lon lat Hxs Hys G D.
  destruct (tilegrid_sound (Gust w :: dir) l xs ys g Hxs Hys G) as [[S1 [S2 _]] [P1 P2]].
  unfold domainExtent in D. cbn [setDomain] in D. injection D as <- <-.
  unfold tilegrid in G. cbn [setDomain] in G. unfold mk_tgrid in G.
  assert (A : forall c lo hi i r, sel_indices 0 c lo hi = i :: r -> last (i :: r) 0 < zlen c).
  { intros c lo hi i r E.
    assert (Q : In (last (i :: r) 0) (sel_indices 0 c lo hi)).
    { rewrite E. clear. revert i. induction r as [| j r IH]; intros i; [left; reflexivity |].
      right. apply IH. }
    apply sel_indices_spec in Q. destruct Q as [m [v [N [E' _]]]].
    assert (m < List.length c)%nat by (apply nth_error_Some; congruence). unfold zlen. lia. }
  destruct (sel_indices 0 (w_lon w) _ _) as [| i ii] eqn:E1; [discriminate |].
  destruct (sel_indices 0 (w_lat w) _ _) as [| j jj] eqn:E2; [discriminate |].
  apply A in E1, E2. injection G as <-.
  cbn [imin imax jmin jmax last] in *. unfold slice at 1 2. unfold zlen in *.
  rewrite !firstn_length, !skipn_length. repeat split; try lia; intros; apply slice_nth; lia.
Qed.
Print Assumptions c166_axes.

(** The four names, as they are written, and no others. *)
Theorem c166_names : forall name, evdOf name <> None <->
  (name = "GPD" \/ name = "GEV" \/ name = "power" \/ name = "emp")%string.
Proof.
  intros name. unfold evdOf.
  destruct (String.eqb_spec name "GPD"); [split; [auto | discriminate] |].
  destruct (String.eqb_spec name "GEV"); [split; [auto | discriminate] |].
  destruct (String.eqb_spec name "power"); [split; [auto | discriminate] |].
  destruct (String.eqb_spec name "emp"); [split; [auto 6 | discriminate] |].
  split; [congruence | tauto].
Qed.
Print Assumptions c166_names.

(** * Examples *)
Definition small (sim : nat) (a b c d : Z) : field :=
  {| w_sim := sim; w_lon := [150000; 151000]; w_lat := [-20000; -19000];
     w_val := fun y x => if y =? 0 then if x =? 0 then a else b else if x =? 0 then c else d |}.
Definition everywhere : limits := {| l_xMin := 150000; l_xMax := 151000; l_yMin := -20000; l_yMax := -19000 |}.
(** a fit that returns the greatest and the least value *)
Definition ends (d : evd) (l : list Z) : option (Z * Z) := Some (last l 0, hd 0 l).
Definition show (o : option (Z -> Z -> Z * Z)) : option (list (Z * Z)) := option_map (fun a => [a 0 0; a 0 1; a 1 0; a 1 1]) o.

Example c166_example :
  let dir := [Gust (small 0 10 0 0 5); Gust (small 0 12 0 3 0); Gust (small 1 7 0 0 0)] in
  show (run (0, 0) ends "GEV" 2 dir everywhere 100 100) = Some [(12, 7); (0, 0); (3, 0); (5, 0)] /\
  show (run (0, 0) ends "GEV" 2 dir everywhere 1 1) = Some [(12, 7); (0, 0); (3, 0); (5, 0)] /\
  show (run (0, 0) ends "emp" 2 dir everywhere 1 2) = Some [(12, 7); (0, 0); (3, 0); (5, 0)].
Proof. vm_compute. repeat split. Qed.

(** * C167 *)
(** A file that is not a wind field: no effect on GEV unless the system lists it first; the others fail. *)
Theorem c167_foreign_refuted :
  let dir := [Gust (small 0 10 0 0 5); Foreign] in
  show (run (0, 0) ends "GEV" 1 dir everywhere 100 100) = Some [(10, 10); (0, 0); (0, 0); (5, 5)] /\
  show (run (0, 0) ends "GEV" 1 (rev dir) everywhere 100 100) = None /\
  show (run (0, 0) ends "emp" 1 dir everywhere 100 100) = None.
Proof. vm_compute. repeat split. Qed.
Print Assumptions c167_foreign_refuted.
Theorem c167_foreign_always_refuted : forall V (zero : V) fit name numsim dir l xs ys,
  run zero fit name numsim (Foreign :: dir) l xs ys = None.
Proof. reflexivity. Qed.
Print Assumptions c167_foreign_always_refuted.

(** Wind fields of simulations beyond the number set: left out by GEV, used by the others. *)
Theorem c167_beyond_refuted :
  let dir := [Gust (small 0 10 0 0 5); Gust (small 7 90 90 90 90)] in
  show (run (0, 0) ends "GEV" 1 dir everywhere 100 100) = Some [(10, 10); (0, 0); (0, 0); (5, 5)] /\
  show (run (0, 0) ends "GPD" 1 dir everywhere 100 100) = Some [(90, 10); (90, 0); (90, 0); (90, 5)].
Proof. vm_compute. repeat split. Qed.
Print Assumptions c167_beyond_refuted.

(** Wind fields on another grid of the same size are taken to be on the grid of the first file. *)
Theorem c167_grid_refuted :
  let other := {| w_sim := 1; w_lon := [100000; 101000]; w_lat := [10000; 11000]; w_val := fun _ _ => 90 |} in
  show (run (0, 0) ends "GEV" 2 [Gust (small 0 10 0 0 5); Gust other] everywhere 100 100)
  = Some [(90, 10); (90, 0); (90, 0); (90, 5)].
Proof. vm_compute. reflexivity. Qed.
Print Assumptions c167_grid_refuted.

(** Names in other spellings are refused. *)
Theorem c167_names_refuted : forall V (zero : V) fit numsim dir l xs ys,
  run zero fit "gev" numsim dir l xs ys = None /\ run zero fit "EMP" numsim dir l xs ys = None.
Proof. intros. unfold run. cbn [evdOf String.eqb]. destruct (tilegrid dir l xs ys); auto. Qed.
Print Assumptions c167_names_refuted.

(** The recorded percentages of the confidence limits are those used only for a range of 90. *)
Theorem c167_percentiles_refuted : forall prange,
  usedPercentiles prange = (2 * fst (recordedPercentiles prange), 2 * snd (recordedPercentiles prange)) <-> prange = 90.
Proof.
  intros prange. unfold usedPercentiles, recordedPercentiles. cbn [fst snd]. split.
  - intros H. apply (f_equal fst) in H. cbn [fst] in H. lia.
  - intros ->. reflexivity.
Qed.
Print Assumptions c167_percentiles_refuted.
