From Verif Require Import Base MWModel MWProofs TileModel TileSpec.
Open Scope Z_scope.
Ltac Zify.zify_post_hook ::= Z.div_mod_to_equations.

(** ** Nested loops as a list *)
Lemma nth_error_grid {A} (f : nat -> nat -> A) m n a k :
  nth_error (flat_map (fun i => map (f i) (seq 0 m)) (seq a n)) k =
  if (k <? n * m)%nat then Some (f (a + k / m)%nat (k mod m)%nat) else None.
Proof.
  revert a k. induction n as [|n IH]; intros a k; cbn [seq flat_map].
  - destruct k; reflexivity.
  - destruct (Nat.eq_dec m 0) as [->|Hm].
    { cbn [seq map app]. rewrite IH. rewrite !Nat.mul_0_r. reflexivity. }
    destruct (Nat.ltb_spec k m).
    + rewrite nth_error_app1 by (rewrite map_length, seq_length; lia).
      rewrite nth_error_map, (nth_error_nth' _ 0%nat) by (rewrite seq_length; lia).
      rewrite seq_nth by lia. cbn [option_map].
      rewrite Nat.div_small, Nat.mod_small by lia. rewrite Nat.add_0_r.
      destruct (Nat.ltb_spec k (S n * m)); [reflexivity|nia].
    + rewrite nth_error_app2 by (rewrite map_length, seq_length; lia).
      rewrite map_length, seq_length, IH.
      remember (k - m)%nat as k' eqn:Ek. assert (k = (k' + 1 * m)%nat) as -> by lia.
      rewrite Nat.div_add, Nat.mod_add by lia.
      destruct (Nat.ltb_spec k' (n * m)), (Nat.ltb_spec (k' + 1 * m) (S n * m)); try nia; auto.
      f_equal. f_equal. lia.
Qed.

Lemma zceil_spec a b : 0 < b -> b * (zceil a b - 1) < a <= b * zceil a b.
Proof. unfold zceil. intros. nia. Qed.
Lemma zceil_pos a b : 0 < a -> 0 < b -> 0 < zceil a b.
Proof. intros. pose proof (zceil_spec a b ltac:(lia)). nia. Qed.

Section G.
  Variable g : tgrid.
  Hypothesis Hx : imin g <= imax g.
  Hypothesis Hy : jmin g <= jmax g.
  Hypothesis Hxs : 0 < xstep g.
  Hypothesis Hys : 0 < ystep g.

  Lemma tiles_nth k : nth_error (get_tiles g) k =
    if (k <? Z.to_nat (maxcols g) * Z.to_nat (maxrows g))%nat
    then Some (grid_limit (tile_at g (Z.of_nat (k / Z.to_nat (maxrows g)))
                                     (Z.of_nat (k mod Z.to_nat (maxrows g)))))
    else None.
  Proof.
    unfold get_tiles. rewrite nth_error_map. unfold tile_arrays.
    rewrite (nth_error_grid (fun i j => tile_at g (Z.of_nat i) (Z.of_nat j))).
    destruct (_ <? _)%nat; reflexivity.
  Qed.

  Lemma cols_pos : 0 < maxcols g.
  Proof. unfold maxcols, xdim. apply zceil_pos; lia. Qed.
  Lemma rows_pos : 0 < maxrows g.
  Proof. unfold maxrows, ydim. apply zceil_pos; lia. Qed.

  Lemma in_tile i j x y : 0 <= i < maxcols g -> 0 <= j < maxrows g ->
    in_rect (grid_limit (tile_at g i j)) x y <->
    (imin g <= x <= imax g /\ jmin g <= y <= jmax g /\
     (x - imin g) / xstep g = i /\ (y - jmin g) / ystep g = j).
  Proof.
    intros Hi Hj. cbn. unfold xdim, ydim.
    split.
    - intros [H1 H2]. repeat split; try nia.
    - intros (H1 & H2 & H3 & H4). split; split; nia.
  Qed.

  Lemma tile_in_list t : In t (get_tiles g) ->
    exists i j, 0 <= i < maxcols g /\ 0 <= j < maxrows g /\ t = grid_limit (tile_at g i j).
  Proof.
    unfold get_tiles. intros H. apply in_map_iff in H as (t' & <- & H).
    unfold tile_arrays in H. apply in_flat_map in H as (i & Hi & H).
    apply in_map_iff in H as (j & <- & Hj). apply in_seq in Hi, Hj.
    exists (Z.of_nat i), (Z.of_nat j). repeat split; lia.
  Qed.

  Lemma tiling_ok : tiling (imin g) (imax g) (jmin g) (jmax g) (xstep g) (ystep g) (get_tiles g).
  Proof.
    pose proof cols_pos as Hc. pose proof rows_pos as Hr.
    pose proof (zceil_spec (xdim g) (xstep g) Hxs) as Hcs. fold (maxcols g) in Hcs.
    pose proof (zceil_spec (ydim g) (ystep g) Hys) as Hrs. fold (maxrows g) in Hrs.
    split.
    - intros x y Hx1 Hy1.
      set (i := (x - imin g) / xstep g). set (j := (y - jmin g) / ystep g).
      assert (Hi : 0 <= i < maxcols g) by (unfold i, xdim in *; nia).
      assert (Hj : 0 <= j < maxrows g) by (unfold j, ydim in *; nia).
      set (k := (Z.to_nat i * Z.to_nat (maxrows g) + Z.to_nat j)%nat).
      assert (Hk : (k < Z.to_nat (maxcols g) * Z.to_nat (maxrows g))%nat) by (unfold k; nia).
      assert (Hkd : (k / Z.to_nat (maxrows g) = Z.to_nat i)%nat).
      { unfold k. rewrite Nat.div_add_l by lia. rewrite Nat.div_small by lia. lia. }
      assert (Hkm : (k mod Z.to_nat (maxrows g) = Z.to_nat j)%nat).
      { unfold k. rewrite Nat.add_comm, Nat.mod_add by lia. apply Nat.mod_small; lia. }
      exists k, (grid_limit (tile_at g i j)). split; [|split].
      + rewrite tiles_nth. destruct (Nat.ltb_spec k (Z.to_nat (maxcols g) * Z.to_nat (maxrows g))); [|lia].
        rewrite Hkd, Hkm, !Z2Nat.id by lia. reflexivity.
      + apply in_tile; auto.
      + intros k' t' Hk' Hin. rewrite tiles_nth in Hk'.
        destruct (Nat.ltb_spec k' (Z.to_nat (maxcols g) * Z.to_nat (maxrows g))) as [Hlt|]; [|discriminate].
        injection Hk' as <-.
        assert (B1 : (k' / Z.to_nat (maxrows g) < Z.to_nat (maxcols g))%nat) by (apply Nat.div_lt_upper_bound; lia).
        assert (B2 : (k' mod Z.to_nat (maxrows g) < Z.to_nat (maxrows g))%nat) by (apply Nat.mod_upper_bound; lia).
        pose proof (Nat.div_mod k' (Z.to_nat (maxrows g)) ltac:(lia)) as Ekk.
        revert Hin B1 B2 Ekk. generalize (k' / Z.to_nat (maxrows g))%nat (k' mod Z.to_nat (maxrows g))%nat.
        intros q m Hin B1 B2 Ekk.
        apply in_tile in Hin; [|lia|lia].
        destruct Hin as (_ & _ & E1 & E2). fold i in E1. fold j in E2.
        rewrite Ekk. unfold k. rewrite E1, E2, !Nat2Z.id. lia.
    - intros t x y Ht Hin. apply tile_in_list in Ht as (i & j & Hi & Hj & ->).
      apply in_tile in Hin; tauto.
    - intros a b c d Ht. apply tile_in_list in Ht as (i & j & Hi & Hj & E).
      injection E as -> -> -> ->. unfold xdim, ydim in *. nia.
  Qed.
End G.

(** ** Index selection *)
Lemma sel_indices_spec c : forall k lo hi n,
  In n (sel_indices k c lo hi) <->
  exists m x, nth_error c m = Some x /\ n = k + Z.of_nat m /\ lo <= x <= hi.
Proof.
  induction c as [|y c IH]; intros k lo hi n; cbn [sel_indices].
  - split; [intros []|]. intros (m & x & H & _). destruct m; discriminate.
  - assert (IH' : In n (sel_indices (k+1) c lo hi) <->
      exists m x, nth_error (y :: c) (S m) = Some x /\ n = k + Z.of_nat (S m) /\ lo <= x <= hi).
    { rewrite IH. split; intros (m & x & H1 & H2 & H3); exists m, x; repeat split; auto; lia. }
    destruct (Z.leb_spec lo y), (Z.leb_spec y hi); cbn [andb In];
      rewrite IH'; split.
    + intros [<-|(m & x & H1)]; [exists 0%nat, y; cbn; repeat split; auto; lia|eauto].
    + intros (m & x & H1 & H2 & H3). destruct m; [left; cbn in *; lia|right; eauto].
    + intros (m & x & H1); eauto.
    + intros (m & x & H1 & H2 & H3). destruct m; [cbn in H1; injection H1 as ->; lia|eauto].
    + intros (m & x & H1); eauto.
    + intros (m & x & H1 & H2 & H3). destruct m; [cbn in H1; injection H1 as ->; lia|eauto].
    + intros (m & x & H1); eauto.
    + intros (m & x & H1 & H2 & H3). destruct m; [cbn in H1; injection H1 as ->; lia|eauto].
Qed.

Lemma sel_indices_head c : forall k lo hi i0 ii, sel_indices k c lo hi = i0 :: ii ->
  forall n, In n (i0 :: ii) -> i0 <= n <= last (i0 :: ii) 0.
Proof.
  assert (Hlow : forall c k lo hi n, In n (sel_indices k c lo hi) -> k <= n).
  { intros c' k lo hi n H. apply sel_indices_spec in H as (m & x & _ & -> & _). lia. }
  assert (Hlast : forall c k lo hi n, In n (sel_indices k c lo hi) -> n <= last (sel_indices k c lo hi) 0).
  { induction c0 as [|y c' IH]; intros k lo hi n; cbn [sel_indices]; [intros []|].
    destruct ((lo <=? y) && (y <=? hi)); auto.
    intros [<-|H].
    - destruct (sel_indices (k+1) c' lo hi) as [|z l] eqn:E; [cbn; lia|].
      change (last (k :: z :: l) 0) with (last (z :: l) 0).
      specialize (IH (k+1) lo hi z). rewrite E in IH. specialize (IH (or_introl eq_refl)).
      specialize (Hlow c' (k+1) lo hi z). rewrite E in Hlow. specialize (Hlow (or_introl eq_refl)). lia.
    - destruct (sel_indices (k+1) c' lo hi) as [|z l] eqn:E; [destruct H|].
      change (last (k :: z :: l) 0) with (last (z :: l) 0). rewrite <- E. apply IH. now rewrite E. }
  induction c as [|y c IH]; intros k lo hi i0 ii H n Hn; cbn [sel_indices] in H; [discriminate|].
  destruct ((lo <=? y) && (y <=? hi)) eqn:Eb.
  - injection H as <- <-. split.
    + destruct Hn as [<-|Hn]; [lia|]. apply Hlow in Hn. lia.
    + specialize (Hlast (y :: c) k lo hi n). cbn [sel_indices] in Hlast. rewrite Eb in Hlast. auto.
  - eapply IH; eauto.
Qed.

Lemma last_In {A} (l : list A) d : l <> [] -> In (last l d) l.
Proof.
  induction l as [|x l IH]; [congruence|]. intros _. destruct l as [|y l]; [now left|].
  right. change (last (x :: y :: l) d) with (last (y :: l) d). apply IH. congruence.
Qed.

(** Coordinates increasing: the selected window is exactly the region. *)
Lemma sel_window c lo hi i0 ii :
  (forall m n x y, (m < n)%nat -> nth_error c m = Some x -> nth_error c n = Some y -> x <= y) ->
  sel_indices 0 c lo hi = i0 :: ii ->
  forall m x, nth_error c m = Some x ->
    (i0 <= Z.of_nat m <= last (i0 :: ii) 0 <-> lo <= x <= hi).
Proof.
  intros Hmono Hsel m x Hm. split.
  - intros [Ha Hb].
    assert (H0 : In i0 (sel_indices 0 c lo hi)) by (rewrite Hsel; now left).
    assert (H1 : In (last (i0 :: ii) 0) (sel_indices 0 c lo hi)).
    { rewrite Hsel. apply last_In. congruence. }
    apply sel_indices_spec in H0 as (m0 & x0 & E0 & -> & B0).
    apply sel_indices_spec in H1 as (m1 & x1 & E1 & E1' & B1).
    rewrite E1' in Hb.
    assert (x0 <= x).
    { destruct (Nat.eq_dec m0 m) as [->|]; [assert (x0 = x) by congruence; lia|].
      eapply Hmono; [|exact E0|exact Hm]. lia. }
    assert (x <= x1).
    { destruct (Nat.eq_dec m1 m) as [->|]; [assert (x1 = x) by congruence; lia|].
      eapply Hmono; [|exact Hm|exact E1]. lia. }
    lia.
  - intros Hb. eapply sel_indices_head; [exact Hsel|]. rewrite <- Hsel.
    apply sel_indices_spec. exists m, x. auto.
Qed.

(** ** Array stores *)
Section A.
  Context {V : Type}.
  Variable g : tgrid.
  Notation hres := (@hres V).
  Definition hit (y x : Z) (r : hres) : bool :=
    let '((x1, x2, y1, y2), _) := r in
    (y1 - jmin g <=? y) && (y <? y2 - jmin g) && (x1 - imin g <=? x) && (x <? x2 - imin g).
  Definition val (y x : Z) (r : hres) : V :=
    let '((x1, x2, y1, y2), b) := r in b (y - (y1 - jmin g)) (x - (x1 - imin g)).

  Lemma fold_store l : forall (a : @arr V) y x, 
    fold_left (store_tile g) l a y x =
    match rev (filter (hit y x) l) with r :: _ => val y x r | [] => a y x end.
  Proof.
    induction l as [|r l IH] using rev_ind; intros a y x; [reflexivity|].
    rewrite fold_left_app, filter_app, rev_app_distr. cbn [fold_left filter].
    destruct r as [[[[x1 x2] y1] y2] b]. cbn [store_tile hit].
    destruct (_ && _ && _ && _); cbn [rev app]; [reflexivity|]. apply IH.
  Qed.

  Lemma filter_perm {A} (p : A -> bool) l l' : Permutation l l' -> Permutation (filter p l) (filter p l').
  Proof.
    induction 1 as [|x l l' _ IH|x y l|l l' l'' _ IH1 _ IH2]; cbn.
    - constructor.
    - destruct (p x); auto.
    - destruct (p x), (p y); auto. constructor.
    - etransitivity; eauto.
  Qed.

  Lemma fold_store_perm l l' a y x : Permutation l l' -> (length (filter (hit y x) l) <= 1)%nat ->
    fold_left (store_tile g) l a y x = fold_left (store_tile g) l' a y x.
  Proof.
    intros Hp Hlen. rewrite !fold_store. apply (filter_perm (hit y x)) in Hp.
    destruct (filter (hit y x) l) as [|r [|r2 rest]]; cbn in Hlen; try lia.
    - apply Permutation_nil in Hp. now rewrite Hp.
    - apply Permutation_length_1_inv in Hp. now rewrite Hp.
  Qed.
End A.

Lemma Permutation_map_Some {A} (l l' : list A) : Permutation (map Some l) (map Some l') -> Permutation l l'.
Proof.
  intros H. assert (E : forall m : list A, flat_map opt_list (map Some m) = m).
  { induction m as [|x m IH]; cbn; f_equal; auto. }
  rewrite <- (E l), <- (E l'). now apply Permutation_flat_map.
Qed.

Lemma filter_len_le1 {A} (p : A -> bool) l :
  (forall k k' a a', nth_error l k = Some a -> nth_error l k' = Some a' -> p a = true -> p a' = true -> k = k') ->
  (length (filter p l) <= 1)%nat.
Proof.
  induction l as [|x l IH]; intros H; cbn; [lia|].
  assert (IH' : (length (filter p l) <= 1)%nat).
  { apply IH. intros k k' a a' H1 H2 H3 H4.
    assert (S k = S k') by (eapply H; cbn; eauto). lia. }
  destruct (p x) eqn:E; cbn; [|auto].
  destruct (filter p l) as [|y l'] eqn:F; [cbn; lia|].
  exfalso. assert (Hin : In y (filter p l)) by (rewrite F; now left).
  apply filter_In in Hin as [Hin Hy]. apply In_nth_error in Hin as [n Hn].
  specialize (H 0%nat (S n) x y eq_refl Hn E Hy). lia.
Qed.

Section C01.
  Context {V : Type}.
  Variable g : tgrid.
  Hypothesis Hx : imin g <= imax g.
  Hypothesis Hy : jmin g <= jmax g.
  Hypothesis Hxs : 0 < xstep g.
  Hypothesis Hys : 0 < ystep g.
  Variable f : Z * Z * Z * Z -> option (@arr V).
  Hypothesis Hok : forall t, In t (get_tiles g) -> f t <> None.
  Variable a0 : @arr V.
  Variable nw : nat.

  Notation calc := (calc_tile f).
  Lemma calc_ok : forall t, In t (get_tiles g) -> exists r, calc t = Some r.
  Proof.
    intros t Ht. unfold calc_tile. specialize (Hok t Ht). destruct (f t) as [b|]; [eauto|congruence].
  Qed.

  Lemma hits_le1 rs y x : map calc (get_tiles g) = map Some rs ->
    (length (filter (hit g y x) rs) <= 1)%nat.
  Proof.
    intros E. apply filter_len_le1. intros k k' r r' Hk Hk' Hh Hh'.
    assert (HH : forall k r, nth_error rs k = Some r -> hit g y x r = true ->
       exists t, nth_error (get_tiles g) k = Some t /\ in_rect t (x + imin g) (y + jmin g)).
    { clear k k' r r' Hk Hk' Hh Hh'. intros k r Hk Hh.
      assert (En : nth_error (map Some rs) k = Some (Some r)) by (rewrite nth_error_map, Hk; auto).
      rewrite <- E, nth_error_map in En. destruct (nth_error (get_tiles g) k) as [t|]; [|discriminate].
      cbn in En. injection En as En. unfold calc_tile in En. destruct (f t) as [b|]; [|discriminate].
      injection En as <-. exists t. split; auto.
      destruct t as [[[x1 x2] y1] y2]. cbn in Hh |- *. lia. }
    destruct (HH k r Hk Hh) as (t & T1 & T2). destruct (HH k' r' Hk' Hh') as (t' & T1' & T2').
    pose proof (tiling_ok g Hx Hy Hxs Hys) as [HC HI _].
    destruct (HI t _ _ (nth_error_In _ _ T1) T2) as [B1 B2].
    destruct (HC _ _ B1 B2) as (k0 & t0 & _ & _ & U).
    rewrite (U k t), (U k' t'); auto.
  Qed.

  (** The value a user expects at output row y, column x. *)
  Lemma serial_value a : serial calc (store_tile g) a0 (get_tiles g) = Some a ->
    forall y x, 0 <= y < ydim g -> 0 <= x < xdim g ->
    exists x1 x2 y1 y2 b, In (x1, x2, y1, y2) (get_tiles g) /\
      in_rect (x1, x2, y1, y2) (x + imin g) (y + jmin g) /\ f (x1, x2, y1, y2) = Some b /\
      a y x = b (y + jmin g - y1) (x + imin g - x1).
  Proof.
    intros Hs y x Hyr Hxr.
    destruct (results_of calc (get_tiles g) calc_ok) as (rs & Ers & F2).
    rewrite (serial_fold calc (store_tile g) _ a0 rs F2) in Hs. injection Hs as <-.
    pose proof (tiling_ok g Hx Hy Hxs Hys) as [HC HI _].
    destruct (HC (x + imin g) (y + jmin g)) as (k & t & Hk & Hin & _);
      [unfold xdim in *; lia|unfold ydim in *; lia|].
    assert (Hr : nth_error (map calc (get_tiles g)) k = Some (calc t)) by (rewrite nth_error_map, Hk; auto).
    rewrite Ers, nth_error_map in Hr. destruct (nth_error rs k) as [r|] eqn:Er; [|discriminate].
    cbn in Hr. unfold calc_tile in Hr. destruct (f t) as [b|] eqn:Ef; [|discriminate].
    injection Hr as ->.
    destruct t as [[[x1 x2] y1] y2].
    exists x1, x2, y1, y2, b. split; [|split; [|split]]; auto.
    - eapply nth_error_In; eauto.
    - rewrite fold_store.
      assert (Hlen := hits_le1 rs y x Ers).
      assert (Hmem : In ((x1, x2, y1, y2), b) (filter (hit g y x) rs)).
      { apply filter_In. split; [eapply nth_error_In; eauto|]. cbn in *. lia. }
      destruct (filter (hit g y x) rs) as [|r0 [|r1 rest]]; cbn in Hlen; try lia; [destruct Hmem|destruct Hmem as [->|[]]].
      cbn. f_equal; lia.
  Qed.

  Notation step := (MWModel.step calc (store_tile g) (get_tiles g) nw).
  Notation init := (MWModel.init nw a0).

  Lemma c01_main : (1 <= nw)%nat ->
    exists a, serial calc (store_tile g) a0 (get_tiles g) = Some a /\
    always_ends_in init step (fun s =>
      finished nw s /\
      Permutation (comp s) (get_tiles g) /\
      (forall y x, out s y x = a y x) /\
      (forall i, (1 <= i <= nw)%nat -> down s i = [] /\ up s i = [])).
  Proof.
    intros Hnw.
    destruct (results_of calc (get_tiles g) calc_ok) as (rs & Ers & F2).
    exists (fold_left (store_tile g) rs a0). split; [now apply serial_fold|].
    split; [apply no_infinite_run|].
    intros s Hst Hstuck.
    pose proof (inv_reach calc (store_tile g) (get_tiles g) nw a0 s Hst) as HI.
    destruct (progress calc (store_tile g) (get_tiles g) nw a0 s HI)
      as [Hf|[(_ & _ & _ & i & t & _ & _ & Hn & Hin)|[s' Hs']]];
      [|exfalso; destruct (calc_ok t Hin); congruence|exfalso; eapply Hstuck; eauto].
    destruct (final_facts calc (store_tile g) (get_tiles g) nw a0 s Hnw HI Hf) as (F1 & F3 & F4 & F5).
    repeat split; try apply Hf; auto.
    - intros y x. rewrite F4. symmetry. apply fold_store_perm; [|now apply hits_le1].
      apply Permutation_map_Some. now rewrite F3, Ers.
    - now apply F5.
    - now apply F5.
  Qed.
End C01.

Lemma mk_tgrid_window : forall lon lat xMin xMax yMin yMax xs ys g,
  (forall m n x y, (m < n)%nat -> nth_error lon m = Some x -> nth_error lon n = Some y -> x <= y) ->
  (forall m n x y, (m < n)%nat -> nth_error lat m = Some x -> nth_error lat n = Some y -> x <= y) ->
  mk_tgrid lon lat xMin xMax yMin yMax xs ys = Some g ->
  (imin g <= imax g /\ jmin g <= jmax g) /\
  (forall m x, nth_error lon m = Some x -> (imin g <= Z.of_nat m <= imax g <-> xMin <= x <= xMax)) /\
  (forall m y, nth_error lat m = Some y -> (jmin g <= Z.of_nat m <= jmax g <-> yMin <= y <= yMax)).
Proof.
  intros lon lat xMin xMax yMin yMax xs ys g H1 H2 H. unfold mk_tgrid in H.
  destruct (sel_indices 0 lon xMin xMax) as [|i0 ii] eqn:E1; [discriminate|].
  destruct (sel_indices 0 lat yMin yMax) as [|j0 jj] eqn:E2; [discriminate|].
  injection H as <-. cbn [imin imax jmin jmax]. split; [split|split].
  - exact (proj2 (sel_indices_head _ _ _ _ _ _ E1 i0 (or_introl eq_refl))).
  - exact (proj2 (sel_indices_head _ _ _ _ _ _ E2 j0 (or_introl eq_refl))).
  - intros m x Hm. refine (sel_window _ _ _ _ _ H1 E1 m x Hm).
  - intros m y Hm. refine (sel_window _ _ _ _ _ H2 E2 m y Hm).
Qed.

Lemma c01_all :
  forall (V : Type) (g : tgrid) (f : Z * Z * Z * Z -> option (Z -> Z -> V)) (a0 : Z -> Z -> V) (nw : nat),
  imin g <= imax g -> jmin g <= jmax g -> 0 < xstep g -> 0 < ystep g ->
  (forall t, In t (get_tiles g) -> f t <> None) -> (1 <= nw)%nat ->
  exists a, serial (calc_tile f) (store_tile g) a0 (get_tiles g) = Some a /\
  always_ends_in (init nw a0) (step (calc_tile f) (store_tile g) (get_tiles g) nw) (fun s =>
    finished nw s /\
    Permutation (comp s) (get_tiles g) /\
    (forall y x, out s y x = a y x) /\
    (forall i, (1 <= i <= nw)%nat -> down s i = [] /\ up s i = [])).
Proof. intros. now apply c01_main. Qed.

Lemma c01_value :
  forall (V : Type) (g : tgrid) (f : Z * Z * Z * Z -> option (Z -> Z -> V)) (a0 a : Z -> Z -> V),
  imin g <= imax g -> jmin g <= jmax g -> 0 < xstep g -> 0 < ystep g ->
  (forall t, In t (get_tiles g) -> f t <> None) ->
  serial (calc_tile f) (store_tile g) a0 (get_tiles g) = Some a ->
  forall y x, 0 <= y <= jmax g - jmin g -> 0 <= x <= imax g - imin g ->
  exists x1 x2 y1 y2 b, In (x1, x2, y1, y2) (get_tiles g) /\
    in_rect (x1, x2, y1, y2) (x + imin g) (y + jmin g) /\ f (x1, x2, y1, y2) = Some b /\
    a y x = b (y + jmin g - y1) (x + imin g - x1).
Proof.
  intros V g f a0 a Hx Hy Hxs Hys Hok Hs y x H1 H2.
  eapply serial_value; eauto; unfold ydim, xdim; lia.
Qed.

Lemma failure_hangs :
  forall (T R S : Type) (calc : T -> option R) (store : S -> R -> S) (tiles : list T) nw (s0 : S) t,
  In t tiles -> calc t = None -> (1 <= nw)%nat ->
  always_ends_in (init nw s0) (step calc store tiles nw) (fun s =>
    pc s = MLoop /\ (term s < pn s)%nat /\
    (forall i, (1 <= i <= nw)%nat -> up s i = []) /\
    exists i t, (1 <= i <= nw)%nat /\ wk s i = WFail t /\ calc t = None).
Proof.
  intros T R S calc store tiles nw s0 t Hin Hc Hnw. split; [apply no_infinite_run|].
  intros s Hst Hstuck.
  pose proof (inv_reach calc store tiles nw s0 s Hst) as HI.
  destruct (progress calc store tiles nw s0 s HI)
    as [[Hf _]|[(B1 & B2 & B3 & i & t' & B4 & B5 & B6 & _)|[s' Hs']]].
  - exfalso. eapply fail_never_done; eauto.
  - repeat split; auto. exists i, t'. auto.
  - exfalso. eapply Hstuck; eauto.
Qed.
