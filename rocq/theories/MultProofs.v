From Coq Require Import String QArith Qabs Qminmax Lqa.
From Verif Require Import Base MWModel MWProofs TileModel TileSpec TileProofs MultModel.
Close Scope Q_scope. Close Scope string_scope. Open Scope list_scope. Open Scope Z_scope.

(** ** Sectors *)
Lemma q_ltb_iff a b : q_ltb a b = true <-> (a < b)%Q.
Proof.
  unfold q_ltb. destruct (Qle_bool b a) eqn:E; cbn.
  - apply Qle_bool_iff in E. split; [discriminate|]. intros H. exfalso. eapply Qlt_not_le; eauto.
  - split; [|reflexivity]. intros _. apply Qnot_le_lt. intros C. apply Qle_bool_iff in C. congruence.
Qed.
Lemma in_sector_iff b s : in_sector b s = true <-> (s_min s <= b /\ b < s_max s)%Q.
Proof. unfold in_sector. now rewrite andb_true_iff, Qle_bool_iff, q_ltb_iff. Qed.
Lemma in_sector_not b s : (b < s_min s \/ s_max s <= b)%Q -> in_sector b s = false.
Proof.
  intros H. destruct (in_sector b s) eqn:E; [|reflexivity]. apply in_sector_iff in E. exfalso. lra.
Qed.
Lemma in_sector_yes b s : (s_min s <= b /\ b < s_max s)%Q -> in_sector b s = true.
Proof. apply in_sector_iff. Qed.

Definition circ_dist (b c : Q) : Q := Qmin (Qabs (b - c)) (360 - Qabs (b - c)).
Definition octants : list string := ["n"; "ne"; "e"; "se"; "s"; "sw"; "w"; "nw"]%string.
Definition centre (k : nat) : Q := (45 * inject_Z (Z.of_nat k))%Q.

Lemma circ_le b c d : (-d <= b - c /\ b - c <= d \/ 360 - d <= b - c \/ b - c <= d - 360)%Q -> (circ_dist b c <= d)%Q.
Proof.
  unfold circ_dist. intros H. apply (Qabs_case (b - c)); intros Hs;
  match goal with |- (Qmin ?x ?y <= _)%Q => destruct (Q.min_spec x y) as [[? ->]|[? ->]]; lra end.
Qed.
Lemma circ_ge b c d : (d <= b - c \/ b - c <= -d)%Q -> (d - 360 <= b - c)%Q -> (b - c <= 360 - d)%Q ->
  (d <= circ_dist b c)%Q.
Proof.
  unfold circ_dist. intros H1 H2 H3. apply Q.min_glb; apply (Qabs_case (b - c)); intros Hs; lra.
Qed.

Ltac no_sector := rewrite in_sector_not by (cbn; first [left; lra|right; lra]).
Ltac yes_sector := rewrite in_sector_yes by (cbn; split; lra).

(** For each sector: membership in all nine. *)
Lemma sector_cases b : (0 <= b)%Q -> (b < 360)%Q ->
  exists i s, nth_error indices i = Some s /\ in_sector b s = true /\
    forall j t, nth_error indices j = Some t -> j <> i -> in_sector b t = false.
Proof.
  intros H0 H1.
  assert (C : (b < 225#10 \/ 225#10 <= b < 675#10 \/ 675#10 <= b < 1125#10 \/ 1125#10 <= b < 1575#10 \/
     1575#10 <= b < 2025#10 \/ 2025#10 <= b < 2475#10 \/ 2475#10 <= b < 2925#10 \/ 2925#10 <= b < 3375#10
     \/ 3375#10 <= b)%Q).
  { destruct (Qlt_le_dec b (225#10)); [auto|]. destruct (Qlt_le_dec b (675#10)); [auto|].
    destruct (Qlt_le_dec b (1125#10)); [auto|]. destruct (Qlt_le_dec b (1575#10)); [auto 8|].
    destruct (Qlt_le_dec b (2025#10)); [auto 8|]. destruct (Qlt_le_dec b (2475#10)); [auto 10|].
    destruct (Qlt_le_dec b (2925#10)); [auto 12|]. destruct (Qlt_le_dec b (3375#10)); [auto 14|auto 14]. }
  Ltac one_sector i := exists i; eexists; split; [reflexivity|]; split;
    [apply in_sector_yes; cbn; lra|];
    intros j t Hj Hn; destruct j as [|[|[|[|[|[|[|[|[|j]]]]]]]]]; cbn in Hj;
      try (now destruct j); try congruence; injection Hj as <-; apply in_sector_not; cbn; lra.
  destruct C as [C|[C|[C|[C|[C|[C|[C|[C|C]]]]]]]].
  - one_sector 0%nat.
  - one_sector 1%nat.
  - one_sector 2%nat.
  - one_sector 3%nat.
  - one_sector 4%nat.
  - one_sector 5%nat.
  - one_sector 6%nat.
  - one_sector 7%nat.
  - one_sector 8%nat.
Qed.

(** The value when exactly one sector holds. *)
Lemma mult_loop_skip ss wind b file acc : (forall s, In s ss -> in_sector b s = false) ->
  mult_loop ss wind b file acc = acc.
Proof.
  revert acc. induction ss as [|s ss IH]; intros acc H; cbn; [reflexivity|].
  rewrite (H s) by now left. apply IH. intros; apply H; now right.
Qed.
Lemma mult_loop_one ss wind b file : forall acc i s, nth_error ss i = Some s -> in_sector b s = true ->
  (forall j t, nth_error ss j = Some t -> j <> i -> in_sector b t = false) ->
  mult_loop ss wind b file acc = (wind * fill1 (file (s_dir s)))%Q.
Proof.
  induction ss as [|t ss IH]; intros acc i s Hi Hs H; [destruct i; discriminate|].
  destruct i as [|i]; cbn in Hi.
  - injection Hi as ->. cbn. rewrite Hs. apply mult_loop_skip. intros u Hu.
    apply In_nth_error in Hu as (j & Hj). apply (H (S j)); [exact Hj|lia].
  - cbn. rewrite (H 0%nat t) by (reflexivity || lia).
    apply IH with (i := i); auto. intros j u Hj Hn. apply (H (S j)); [exact Hj|lia].
Qed.
Lemma mult_one wind b file i s : nth_error indices i = Some s -> in_sector b s = true ->
  (forall j t, nth_error indices j = Some t -> j <> i -> in_sector b t = false) ->
  mult_cell_separate wind b file = (wind * fill1 (file (s_dir s)))%Q.
Proof. apply mult_loop_one. Qed.

(** The four ways of computing a cell agree. *)
Lemma seg_separate wind b file : seg_cell wind b (source_separate file dirns) = Some (mult_cell_separate wind b file).
Proof. reflexivity. Qed.
Definition alphabetical (file : string -> option Q) (band : nat -> option Q) : Prop :=
  forall j d, nth_error ["e"; "n"; "ne"; "nw"; "s"; "se"; "sw"; "w"]%string j = Some d -> band (S j) = file d.
Lemma seg_combined wind b file band : alphabetical file band ->
  seg_cell wind b (source_combined band dirns) = Some (mult_cell_separate wind b file).
Proof.
  intros A. unfold source_combined. cbn [length seq map dirns].
  rewrite (A 0%nat _ eq_refl), (A 1%nat _ eq_refl), (A 2%nat _ eq_refl), (A 3%nat _ eq_refl), (A 4%nat _ eq_refl),
    (A 5%nat _ eq_refl), (A 6%nat _ eq_refl), (A 7%nat _ eq_refl). reflexivity.
Qed.
Lemma mult_combined wind b file band : alphabetical file band ->
  mult_cell_combined wind b band = mult_cell_separate wind b file.
Proof.
  intros A. unfold mult_cell_combined, mult_cell_separate. cbn [combine indices band_numbers mult_loop_c mult_loop s_dir].
  rewrite (A 0%nat _ eq_refl), (A 1%nat _ eq_refl), (A 2%nat _ eq_refl), (A 3%nat _ eq_refl), (A 4%nat _ eq_refl),
    (A 5%nat _ eq_refl), (A 6%nat _ eq_refl), (A 7%nat _ eq_refl). reflexivity.
Qed.

Ltac centre_val := match goal with |- context [centre ?k] =>
  let c := eval vm_compute in (centre k) in change (centre k) with c end.
Lemma octant_near b i s : nth_error indices i = Some s -> in_sector b s = true ->
  exists k, nth_error octants k = Some (s_dir s) /\ (circ_dist b (centre k) <= 225#10)%Q /\
    forall j, (j < 8)%nat -> j <> k -> (225#10 <= circ_dist b (centre j))%Q.
Proof.
  intros Hi Hs. apply in_sector_iff in Hs as [H0 H1].
  Ltac near k := exists k; split; [reflexivity|]; split;
    [centre_val; apply circ_le; lra|
     intros j Hj Hn; assert (C : (j = 0 \/ j = 1 \/ j = 2 \/ j = 3 \/ j = 4 \/ j = 5 \/ j = 6 \/ j = 7)%nat) by lia;
     repeat destruct C as [C|C]; subst j; try congruence; centre_val; apply circ_ge; lra].
  destruct i as [|[|[|[|[|[|[|[|[|i]]]]]]]]]; cbn in Hi; [..|now destruct i];
    injection Hi as <-; cbn in H0, H1.
  - near 0%nat.
  - near 1%nat.
  - near 2%nat.
  - near 3%nat.
  - near 4%nat.
  - near 5%nat.
  - near 6%nat.
  - near 7%nat.
  - near 0%nat.
Qed.

Lemma c14_l wind b file : (0 <= b)%Q -> (b < 360)%Q ->
  exists k d, nth_error octants k = Some d /\
  (forall j, (j < 8)%nat -> (circ_dist b (centre k) <= circ_dist b (centre j))%Q) /\
  mult_cell_separate wind b file = (wind * fill1 (file d))%Q /\
  seg_cell wind b (source_separate file dirns) = Some (wind * fill1 (file d))%Q /\
  forall band, alphabetical file band ->
    mult_cell_combined wind b band = (wind * fill1 (file d))%Q /\
    seg_cell wind b (source_combined band dirns) = Some (wind * fill1 (file d))%Q.
Proof.
  intros H0 H1. destruct (sector_cases b H0 H1) as (i & s & Hi & Hs & Hu).
  destruct (octant_near b i s Hi Hs) as (k & Hk & Hd & Ho).
  exists k, (s_dir s). split; [exact Hk|]. split.
  { intros j Hj. destruct (Nat.eq_dec j k) as [->|Hn]; [apply Qle_refl|].
    eapply Qle_trans; [exact Hd|auto]. }
  pose proof (mult_one wind b file i s Hi Hs Hu) as E. split; [exact E|].
  rewrite seg_separate, E. split; [reflexivity|]. intros band A.
  rewrite (mult_combined _ _ _ _ A), (seg_combined _ _ _ _ A), E. auto.
Qed.
Lemma c14_unique_l b : (0 <= b)%Q -> (b < 360)%Q -> exists s, filter (in_sector b) indices = [s].
Proof.
  intros H0 H1. destruct (sector_cases b H0 H1) as (i & s & Hi & Hs & Hu).
  exists s. revert i Hi Hu. generalize indices. intros l. induction l as [|t l IH]; intros i Hi Hu; [destruct i; discriminate|].
  destruct i as [|i]; cbn in Hi.
  - injection Hi as ->. cbn. rewrite Hs. f_equal.
    assert (H : forall u, In u l -> in_sector b u = false).
    { intros u Hu'. apply In_nth_error in Hu' as (j & Hj). apply (Hu (S j)); [exact Hj|lia]. }
    clear -H. induction l as [|u l IH]; cbn; [reflexivity|]. rewrite (H u) by now left. apply IH. intros; apply H; now right.
  - cbn. rewrite (Hu 0%nat t) by (reflexivity || lia). apply (IH i Hi). intros j u Hj Hn. apply (Hu (S j)); [exact Hj|lia].
Qed.
Lemma c14_outside_l wind b file : (b < 0 \/ 360 <= b)%Q -> mult_cell_separate wind b file = 0%Q.
Proof.
  intros H. apply mult_loop_skip. intros s Hs. apply in_sector_not.
  repeat destruct Hs as [<-|Hs]; cbn; lra || destruct Hs.
Qed.
