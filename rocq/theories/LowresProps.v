From Coq Require Import List Arith Bool Ascii String QArith Lia Lqa Qminmax Qabs.
From Verif Require Import Base NamesModel TextModel TextProps S3Model MultModel MultProofs LowresModel.
Import ListNotations.
Close Scope Q_scope. Close Scope string_scope. Open Scope nat_scope. Local Open Scope list_scope.

(** * What the second half of the program does (C206) *)
(** The bands of the multiplier file are in this order *)
Definition bandOf (d : string) (k : nat) : Prop :=
  nth_error ["e"; "n"; "ne"; "nw"; "s"; "se"; "sw"; "w"]%string k = Some d.

Lemma existsb_none {A} (f : A -> bool) l : (forall x, In x l -> f x = false) -> existsb f l = false.
Proof. induction l as [|a l IH]; cbn; intros H; [reflexivity|]. rewrite (H a) by now left. apply IH. intros; apply H; now right. Qed.

(** One cell of the loop over the sectors *)
Lemma apply_skip ss : forall high wide bands g local out y x, applySectors ss high wide bands g local = Some out ->
  (forall s n, In (s, n) ss -> masked (g_bear g y x) s = false) -> out y x = local y x.
Proof.
  induction ss as [|[s n] ss IH]; intros high wide bands g local out y x E H; cbn in E.
  - now injection E as <-.
  - destruct (nth_error bands (n - 1)) as [m4|]; [|discriminate].
    destruct (existsb _ _); [discriminate|]. apply IH with (y := y) (x := x) in E.
    + rewrite E. rewrite (H s n) by now left. reflexivity.
    + intros t k Ht. apply (H t k). now right.
Qed.
Lemma apply_one ss : forall high wide bands g local out y x i s n, applySectors ss high wide bands g local = Some out ->
  nth_error ss i = Some (s, n) -> masked (g_bear g y x) s = true ->
  (forall j t k, nth_error ss j = Some (t, k) -> j <> i -> masked (g_bear g y x) t = false) ->
  exists m4, nth_error bands (n - 1) = Some m4 /\ out y x = (g_wind g y x * m4 y x)%Q.
Proof.
  induction ss as [|[u m] ss IH]; intros high wide bands g local out y x i s n E Hi Hs Hu; [destruct i; discriminate|].
  cbn in E. destruct (nth_error bands (m - 1)) as [m4|] eqn:B; [|discriminate].
  destruct (existsb _ _); [discriminate|]. destruct i as [|i]; cbn in Hi.
  - injection Hi as -> ->. exists m4. split; [exact B|].
    apply apply_skip with (y := y) (x := x) in E; [rewrite E, Hs; reflexivity|].
    intros t k Ht. apply In_nth_error in Ht as (j & Hj). apply (Hu (S j) t k); [exact Hj|lia].
  - apply (IH _ _ _ _ _ _ y x i s n E Hi Hs). intros j t k Hj Hn. apply (Hu (S j) t k); [exact Hj|lia].
Qed.
Lemma apply_some ss : forall high wide bands g local,
  (forall s n, In (s, n) ss -> n - 1 < List.length bands) ->
  List.length (g_lat g) <= high -> List.length (g_lon g) <= wide ->
  exists out, applySectors ss high wide bands g local = Some out.
Proof.
  induction ss as [|[s n] ss IH]; intros high wide bands g local H Hh Hw; cbn [applySectors]; [now eexists|].
  destruct (nth_error bands (n - 1)) as [m4|] eqn:B.
  - rewrite existsb_none.
    + apply IH; auto. intros t k Ht. apply (H t k). now right.
    + intros [y x] Hc. apply in_prod_iff in Hc as [H1 H2]. rewrite in_seq in H1. rewrite in_seq in H2. cbn [fst snd].
      rewrite (proj2 (Nat.ltb_lt y high)), (proj2 (Nat.ltb_lt x wide)) by lia. apply andb_false_r.
  - apply nth_error_None in B. specialize (H s n (or_introl eq_refl)). lia.
Qed.

Lemma sector_band i s : nth_error indices i = Some s ->
  exists n, nth_error (combine indices band_numbers) i = Some (s, n) /\ bandOf (s_dir s) (n - 1).
Proof.
  intros H. destruct i as [|[|[|[|[|[|[|[|[|i]]]]]]]]]; cbn in H; [..|now destruct i]; injection H as <-;
    (eexists; split; [reflexivity|reflexivity]).
Qed.
Lemma combine_sector i t k : nth_error (combine indices band_numbers) i = Some (t, k) -> nth_error indices i = Some t.
Proof.
  destruct i as [|[|[|[|[|[|[|[|[|i]]]]]]]]]; cbn; intros H; [..|now destruct i]; now injection H as <- _.
Qed.

(** Gusts on the grid of the multipliers, or part of it, are never refused *)
Theorem c206_accepted_partial : forall r g, List.length (r_band r) = 8 ->
  List.length (g_lat g) <= r_high r -> List.length (g_lon g) <= r_wide r -> exists l, localWind r g = Some l.
Proof.
  intros r g H8 Hh Hw. apply apply_some; auto. intros s n H. unfold loadBands. rewrite map_length, H8.
  cbn in H. repeat destruct H as [H|H]; try (injection H as _ <-; lia); contradiction.
Qed.
(** and others only where a cell with a bearing is outside *)
Theorem c206_refused_partial : forall r g, List.length (r_band r) = 8 -> (localWind r g = None <->
  exists y x b, y < List.length (g_lat g) /\ x < List.length (g_lon g) /\ g_bear g y x = Some b /\ (0 <= b)%Q /\ (b < 360)%Q /\
    (r_high r <= y \/ r_wide r <= x)).
Proof.
  intros r g H8. unfold localWind.
  assert (G : forall ss local, (forall s n, In (s, n) ss -> n - 1 < List.length (loadBands r)) ->
    (applySectors ss (r_high r) (r_wide r) (loadBands r) g local = None <->
     exists y x s n, In (s, n) ss /\ y < List.length (g_lat g) /\ x < List.length (g_lon g) /\ masked (g_bear g y x) s = true /\
       (r_high r <= y \/ r_wide r <= x))).
  { induction ss as [|[s n] ss IH]; intros local H; cbn [applySectors].
    - split; [discriminate|]. intros (y & x & s & n & [] & _).
    - destruct (nth_error (loadBands r) (n - 1)) as [m4|] eqn:B; [|apply nth_error_None in B; specialize (H s n (or_introl eq_refl)); lia].
      destruct (existsb _ (cells g)) eqn:X.
      + split; [intros _|reflexivity]. apply existsb_exists in X as ((y, x) & C & M). unfold cells in C. apply in_prod_iff in C as [C1 C2].
        rewrite in_seq in C1. rewrite in_seq in C2. cbn [fst snd] in M. apply andb_true_iff in M as [M1 M2].
        exists y, x, s, n. split; [now left|]. repeat split; lia.
      + rewrite IH by (intros t k Ht; apply (H t k); now right). split.
        * intros (y & x & t & k & I & R). exists y, x, t, k. split; [now right|exact R].
        * intros (y & x & t & k & [I|I] & Hy & Hx & M & O); [|exists y, x, t, k; auto].
          injection I as -> ->. exfalso. apply not_true_iff_false in X. apply X. apply existsb_exists. exists (y, x). split.
          { apply in_prod_iff. rewrite !in_seq. lia. }
          cbn [fst snd]. rewrite M. cbn [andb]. apply negb_true_iff, andb_false_iff.
          destruct O as [O|O]; [left|right]; now apply Nat.ltb_ge. }
  rewrite G.
  - split.
    + intros (y & x & s & n & I & Hy & Hx & M & O). unfold masked in M. destruct (g_bear g y x) as [b|] eqn:B; [|discriminate].
      exists y, x, b. repeat split; auto; apply in_sector_iff in M as [M1 M2]; cbn in I;
        repeat destruct I as [I|I]; try contradiction; injection I as <- <-; cbn in M1, M2; lra.
    + intros (y & x & b & Hy & Hx & B & B0 & B1 & O). destruct (sector_cases b B0 B1) as (i & s & Hi & Hs & _).
      destruct (sector_band i s Hi) as (n & Hn & _). exists y, x, s, n. rewrite B. repeat split; auto. eapply nth_error_In, Hn.
  - intros s n H. unfold loadBands. rewrite map_length, H8.
    cbn in H. repeat destruct H as [H|H]; try (injection H as _ <-; lia); contradiction.
Qed.
(** Every cell: the wind times the multiplier of the compass direction nearest to the bearing, or the wind itself where
    that multiplier is negative *)
Theorem c206_cell_partial : forall r g l y x b, localWind r g = Some l -> g_bear g y x = Some b -> (0 <= b)%Q -> (b < 360)%Q ->
  exists k d n band, nth_error ["n"; "ne"; "e"; "se"; "s"; "sw"; "w"; "nw"]%string k = Some d /\
    (forall j, (j < 8)%nat -> (circ_dist b (centre k) <= circ_dist b (centre j))%Q) /\
    bandOf d n /\ nth_error (r_band r) n = Some band /\
    ((0 <= band y x)%Q -> (l y x == g_wind g y x * band y x)%Q) /\
    ((band y x < 0)%Q -> (l y x == g_wind g y x)%Q).
Proof.
  intros r g l y x b E Hb H0 H1. destruct (sector_cases b H0 H1) as (i & s & Hi & Hs & Hu).
  destruct (octant_near b i s Hi Hs) as (k & Hk & Hd & Ho).
  destruct (sector_band i s Hi) as (n & Hn & Hband).
  destruct (apply_one _ _ _ _ _ _ _ y x i s n E Hn) as (m4 & Hm & Hv).
  { now rewrite Hb. }
  { intros j t k' Hj Hne. rewrite Hb. cbn. apply (Hu j t); [now apply combine_sector in Hj|exact Hne]. }
  unfold loadBands in Hm. rewrite nth_error_map in Hm.
  destruct (nth_error (r_band r) (n - 1)) as [band|] eqn:B; [|discriminate]. injection Hm as <-.
  exists k, (s_dir s), (n - 1)%nat, band. split; [exact Hk|]. split.
  { intros j Hj. destruct (Nat.eq_dec j k) as [->|Hj']; [apply Qle_refl|]. eapply Qle_trans; [exact Hd|auto]. }
  split; [exact Hband|]. split; [exact B|].
  rewrite Hv. unfold cleaned, q_ltb. destruct (Qle_bool 0 (band y x)) eqn:C; cbn.
  - apply Qle_bool_iff in C. split; intros; [reflexivity|exfalso; lra].
  - assert (~ (0 <= band y x)%Q) by (rewrite <- Qle_bool_iff, C; discriminate).
    split; intros; [contradiction|ring].
Qed.
(** A cell without bearing keeps its wind *)
Theorem c206_nan_partial : forall r g l y x, localWind r g = Some l -> g_bear g y x = None -> l y x = g_wind g y x.
Proof. intros r g l y x E H. apply apply_skip with (y := y) (x := x) in E; [exact E|]. intros. now rewrite H. Qed.

(** One file for every gust file, in turn *)
Theorem c206_files_partial : forall load writable r fs out, applyAll load writable r fs = (out, None) ->
  Forall2 (fun f o => fst o = outName f /\ exists g, load f = Some g /\ localWind r g = Some (snd o)) fs out.
Proof.
  intros load writable r fs. induction fs as [|f fs IH]; intros out E; cbn [applyAll] in E.
  - injection E as <-. constructor.
  - destruct (load f) as [g|] eqn:L; [|discriminate]. destruct (localWind r g) as [l|] eqn:W; [|discriminate].
    destruct (writable (outName f)); [|discriminate]. destruct (applyAll load writable r fs) as [o e].
    injection E as <- ->. constructor; [cbn; eauto|]. now apply IH.
Qed.
(** Whatever ends the loop, the files before it have been written *)
Theorem c206_before_partial : forall load writable r fs out e, applyAll load writable r fs = (out, e) ->
  exists done rest, fs = done ++ rest /\ applyAll load writable r done = (out, None) /\ (e = None -> rest = []).
Proof.
  intros load writable r fs. induction fs as [|f fs IH]; intros out e E; cbn [applyAll] in E.
  - injection E as <- <-. exists [], []. auto.
  - destruct (load f) as [g|] eqn:L; [destruct (localWind r g) as [l|] eqn:W; [destruct (writable (outName f)) eqn:V|]|].
    2-4: injection E as <- <-; exists [], (f :: fs); split; [reflexivity|]; split; [reflexivity|intros; discriminate].
    destruct (applyAll load writable r fs) as [o e'] eqn:A. injection E as <- <-.
    destruct (IH _ _ eq_refl) as (d & rest & -> & D & N). exists (f :: d), rest. split; [reflexivity|].
    split; [|exact N]. cbn [applyAll]. now rewrite L, W, V, D.
Qed.

(** The name of an output *)
Definition occurs (p s : str) : Prop := exists u v, s = u ++ p ++ v.
Lemma after_some p : forall s r, after p s = Some r -> s = p ++ r.
Proof.
  induction p as [|c p IH]; intros s r H; cbn in H; [now injection H as ->|].
  destruct s as [|a s]; [discriminate|]. destruct (Ascii.eqb_spec c a) as [->|]; [|discriminate].
  cbn. f_equal. now apply IH.
Qed.
Lemma sub_none p v s : p <> [] -> ~ occurs p s -> sub p v 0 s = s.
Proof.
  intros Hp. induction s as [|c s IH]; intros H; cbn; [reflexivity|].
  destruct (after p (c :: s)) as [r|] eqn:A.
  - apply after_some in A. exfalso. apply H. exists [], r. now rewrite A.
  - f_equal. apply IH. intros (u & w & ->). apply H. now exists (c :: u), w.
Qed.
Lemma after_cut p c : ~ In c p -> forall a b r, after p (a ++ c :: b) = Some r -> exists r', after p a = Some r'.
Proof.
  intros H. induction p as [|x p IH]; intros a b r A; [now exists a|].
  destruct a as [|y a]; cbn in A |- *.
  - destruct (Ascii.eqb_spec x c) as [->|]; [|discriminate]. exfalso. apply H. now left.
  - destruct (Ascii.eqb_spec x y); [|discriminate]. apply IH in A; [exact A|]. intros Hc. apply H. now right.
Qed.
Lemma sub_cut p v c a b : p <> [] -> ~ In c p -> ~ occurs p a -> sub p v 0 (a ++ c :: b) = a ++ c :: sub p v 0 b.
Proof.
  intros Hp Hc. induction a as [|y a IH]; intros H.
  - cbn [app]. cbn [sub]. destruct (after p (c :: b)) as [r|] eqn:A; [|reflexivity].
    apply after_some in A. destruct p as [|x p]; [contradiction|]. injection A as <- _. exfalso. apply Hc. now left.
  - cbn [app sub]. change (y :: a ++ c :: b) with ((y :: a) ++ c :: b).
    destruct (after p ((y :: a) ++ c :: b)) as [r|] eqn:A.
    + apply after_cut in A; [|exact Hc]. destruct A as [r' A]. apply after_some in A. exfalso. apply H.
      exists [], r'. now rewrite A.
    + f_equal. apply IH. intros (u & w & ->). apply H. now exists (y :: u), w.
Qed.
(** Beside the gust file, under the name of the gust file with wm_ before it, where "gust" occurs nowhere else *)
Theorem c206_name_partial : forall dir rest, ~ occurs (lit "gust") dir -> ~ occurs (lit "gust") rest ->
  outName (dir ++ slash :: lit "gust" ++ rest) = dir ++ slash :: lit "wm_gust" ++ rest.
Proof.
  intros dir rest H1 H2. unfold outName. rewrite sub_cut; [|discriminate| |exact H1].
  2: { cbn. intros H. repeat destruct H as [H|H]; try discriminate H; exact H. }
  do 2 f_equal. change (sub (lit "gust") (lit "wm_gust") 0 (lit "gust" ++ rest))
    with (lit "wm_gust" ++ sub (lit "gust") (lit "wm_gust") 0 rest). now rewrite sub_none.
Qed.
Lemma starts_app p : forall s, starts_with p s = true -> exists r, s = p ++ r.
Proof.
  induction p as [|c p IH]; intros s H; [now exists s|]. destruct s as [|a s]; [discriminate|]. cbn [starts_with] in H.
  apply andb_true_iff in H as [H1 H2]. apply Ascii.eqb_eq in H1 as <-. destruct (IH s H2) as (r & ->). now exists r.
Qed.
(** The files taken are the entries that begin with gust; the outputs in the same directory are not taken by another run *)
Theorem c206_taken_partial : forall dir listing f, In f (gustFiles dir listing) <->
  exists fn, In fn listing /\ (exists rest, fn = lit "gust" ++ rest) /\ f = pjoin dir fn.
Proof.
  intros dir listing f. unfold gustFiles. rewrite in_map_iff. split.
  - intros (fn & <- & H). apply filter_In in H as [H1 H2]. exists fn. repeat split; auto.
    now apply starts_app.
  - intros (fn & H & (rest & ->) & ->). exists (lit "gust" ++ rest). split; [reflexivity|]. apply filter_In. split; [exact H|reflexivity].
Qed.
Theorem c206_again_partial : forall dir listing rest, ~ In (lit "wm_gust" ++ rest) (filter (starts_with (lit "gust")) listing) /\
  forall dir', gustFiles dir (listing ++ [lit "wm_gust" ++ dir']) = gustFiles dir listing.
Proof.
  intros dir listing rest. split.
  - intros H. apply filter_In in H as [_ H]. discriminate H.
  - intros d'. unfold gustFiles. rewrite filter_app. cbn. now rewrite app_nil_r.
Qed.

(** * False: that the program does this *)
(** No file is ever written, whatever the files are and whatever they hold: there is always an exception, and where both
    the multipliers and gusts are there it is the AttributeError *)
Theorem c206_never_refuted : forall isfile load writable working dir mult listing,
  (exists e, main isfile load writable working dir mult listing = ([], Some e)) /\
  (forall fn, In fn listing -> starts_with (lit "gust") fn = true -> (forall f, isfile f = true) ->
   main isfile load writable working dir mult listing = ([], Some EAttribute)).
Proof.
  intros isfile load writable working dir mult listing. unfold main. split.
  - destruct (gustFiles dir listing) as [|f fs]; [eauto|]. unfold downscale.
    destruct (isfile mult), (isfile f); cbn; eauto.
  - intros fn H S F. destruct (gustFiles dir listing) as [|f fs] eqn:G.
    + assert (In (pjoin dir fn) (gustFiles dir listing)) as C by (apply in_map, filter_In; auto). rewrite G in C. destruct C.
    + unfold downscale. now rewrite !F.
Qed.
(** No gusts: an IndexError rather than nothing to do *)
Theorem c206_empty_refuted : forall isfile load writable working dir mult,
  main isfile load writable working dir mult [] = ([], Some EIndex).
Proof. reflexivity. Qed.
(** A directory with "gust" in its name is changed too *)
Theorem c206_dir_refuted : exists f, gustFiles (lit "/data/gusts") [lit "gust.001-00001.nc"] = [f] /\
  outName f = lit "/data/wm_gusts/wm_gust.001-00001.nc".
Proof. eexists. split; reflexivity. Qed.

(** "These points (along with other nodata points) are set to 1": a cell mixed of a good multiplier and the value -9999
    is positive, so used, where the weight of the latter is small *)
Definition mix (w m : Q) : Q := ((1 - w) * m + w * -9999)%Q.
Definition one_cell (wind bear m : Q) : option (nat -> nat -> Q) :=
  localWind {| r_high := 1; r_wide := 1; r_band := repeat (fun _ _ => m) 8 |}
    {| g_lat := [0%Q]; g_lon := [0%Q]; g_wind := fun _ _ => wind; g_bear := fun _ _ => Some bear |}.
Theorem c206_mixed_refuted : exists w, (0 < w)%Q /\ (w < 1)%Q /\ exists l, one_cell 40 90 (mix w 1) = Some l /\
  (l 0%nat 0%nat == 20)%Q.
Proof. exists (1 # 20000)%Q. split; [reflexivity|]. split; [reflexivity|]. eexists. split; reflexivity. Qed.
(** Multipliers are those of the grid of the first gust file: where another file lies is not looked at *)
Theorem c206_where_refuted :
  (forall r g lat lon, List.length lat = List.length (g_lat g) -> List.length lon = List.length (g_lon g) ->
   localWind r {| g_lat := lat; g_lon := lon; g_wind := g_wind g; g_bear := g_bear g |} = localWind r g) /\
  exists (m : Q -> Q) (lon1 lon2 : Q) l, lon1 <> lon2 /\
    localWind {| r_high := 1; r_wide := 1; r_band := repeat (fun _ _ => m lon1) 8 |}
      {| g_lat := [0%Q]; g_lon := [lon2]; g_wind := fun _ _ => 40%Q; g_bear := fun _ _ => Some 90%Q |} = Some l /\
    ~ (l 0%nat 0%nat == 40 * m lon2)%Q.
Proof.
  split.
  - intros r g lat lon H1 H2. unfold localWind. generalize (g_wind g) at 2 3. generalize (combine indices band_numbers).
    intros ss. induction ss as [|[s n] ss IH]; intros local; [reflexivity|]. cbn [applySectors].
    destruct (nth_error (loadBands r) (n - 1)); [|reflexivity].
    unfold cells. cbn [g_lat g_lon g_bear g_wind]. rewrite H1, H2. destruct (existsb _ _); [reflexivity|]. apply IH.
  - exists (fun q => q), 1%Q, 2%Q. eexists. split; [discriminate|]. split; [reflexivity|]. vm_compute. discriminate.
Qed.
(** and a larger grid is an IndexError in the middle of the run *)
Theorem c206_larger_refuted : exists g1 g2 r, List.length (r_band r) = 8%nat /\
  (r_high r, r_wide r) = (List.length (g_lat g1), List.length (g_lon g1)) /\
  (exists l, applyAll (fun f => if str_eqb f (lit "gust.1") then Some g1 else Some g2) (fun _ => true) r [lit "gust.1"; lit "gust.2"]
     = ([(lit "wm_gust.1", l)], Some EIndex)).
Proof.
  exists {| g_lat := [0%Q]; g_lon := [0%Q]; g_wind := fun _ _ => 40%Q; g_bear := fun _ _ => Some 90%Q |},
    {| g_lat := [0%Q]; g_lon := [0%Q; 1%Q]; g_wind := fun _ _ => 40%Q; g_bear := fun _ _ => Some 90%Q |},
    {| r_high := 1; r_wide := 1; r_band := repeat (fun _ _ => 1%Q) 8 |}.
  split; [reflexivity|]. split; [reflexivity|]. eexists. reflexivity.
Qed.

Example c206_example : exists l, one_cell 40 350 (3 # 4) = Some l /\ (l 0%nat 0%nat == 30)%Q.
Proof. eexists. split; reflexivity. Qed.
Example c206_example_negative : exists l, one_cell 40 350 (-5) = Some l /\ (l 0%nat 0%nat == 40)%Q.
Proof. eexists. split; reflexivity. Qed.
Example c206_example_name : outName (lit "/data/gust.001-00001.nc") = lit "/data/wm_gust.001-00001.nc".
Proof. reflexivity. Qed.
Print Assumptions c206_accepted_partial.
Print Assumptions c206_cell_partial.
Print Assumptions c206_nan_partial.
Print Assumptions c206_files_partial.
Print Assumptions c206_before_partial.
Print Assumptions c206_name_partial.
Print Assumptions c206_taken_partial.
Print Assumptions c206_again_partial.
Print Assumptions c206_never_refuted.
Print Assumptions c206_empty_refuted.
Print Assumptions c206_dir_refuted.
Print Assumptions c206_mixed_refuted.
Print Assumptions c206_where_refuted.
Print Assumptions c206_larger_refuted.
Print Assumptions c206_refused_partial.
