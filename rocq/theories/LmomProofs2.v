From Coq Require Import List Arith ZArith Lia Bool QArith Qabs Lqa Qfield.
From Verif Require Import LmomModel LmomProofs.
Import ListNotations.
Open Scope Q_scope.

Definition oeq (a b : option Q) : Prop :=
  match a, b with Some u, Some v => u == v | None, None => True | _, _ => False end.

Lemma nth_map_ok (f : Q -> Q) l i : (i < length l)%nat -> nth i (map f l) 0 = f (nth i l 0).
Proof. intros H. rewrite (nth_indep _ 0 (f 0)) by now rewrite map_length. apply map_nth. Qed.

Lemma sum_list data : sumn (x data) (n data) == fold_right Qplus 0 data.
Proof.
  unfold n, x. induction data as [|a l IH]; [reflexivity|]. cbn [length fold_right].
  rewrite sumn_shift. cbn [nth]. now rewrite IH.
Qed.

Section A.
  Variable data : list Q.
  Hypothesis Hn : (3 <= length data)%nat.
  Let N : 3 <= qn (n data) := n3 data Hn.

  Variable c : Q.
  Let d1 := map (Qplus c) data.
  Let d2 := map (Qmult c) data.
  Lemma n1 : n d1 = n data. Proof. unfold n, d1. apply map_length. Qed.
  Lemma n2 : n d2 = n data. Proof. unfold n, d2. apply map_length. Qed.

  Lemma lin w : sumn (fun i => w i * x d1 i) (n data) ==
    sumn (fun i => w i * x data i) (n data) + c * sumn w (n data).
  Proof.
    rewrite <- sumn_scale, <- sumn_add. apply sumn_ext. intros i Hi.
    unfold x, d1. rewrite nth_map_ok by exact Hi. ring.
  Qed.
  Lemma lin2 w : sumn (fun i => w i * x d2 i) (n data) == c * sumn (fun i => w i * x data i) (n data).
  Proof.
    rewrite <- sumn_scale. apply sumn_ext. intros i Hi.
    unfold x, d2. rewrite nth_map_ok by exact Hi. ring.
  Qed.
  Lemma w2_n a b : n a = n b -> forall i, w2 a i = w2 b i.
  Proof. intros H i. unfold w2. now rewrite H. Qed.
  Lemma w3_n a b : n a = n b -> forall i, w3 a i = w3 b i.
  Proof. intros H i. unfold w3. now rewrite (w2_n _ _ H), H. Qed.

  Lemma M0_w d : M0 d == sumn (fun i => 1 * x d i) (n d).
  Proof. unfold M0. apply sumn_ext. intros. ring. Qed.

  Lemma M_shift : M0 d1 == M0 data + qn (n data) * c /\ M1 d1 == M1 data /\ M2 d1 == M2 data.
  Proof.
    split; [|split].
    - rewrite !M0_w, n1, lin, sumn_const. ring.
    - unfold M1. rewrite n1.
      rewrite (sumn_ext _ (fun i => w2 data i * x d1 i)) by (intros; rewrite (w2_n _ _ n1); reflexivity).
      rewrite lin, P2. field. clear - N. lra.
    - unfold M2. rewrite n1.
      rewrite (sumn_ext _ (fun i => w3 data i * x d1 i)) by (intros; rewrite (w3_n _ _ n1); reflexivity).
      rewrite lin, P3 by exact Hn. field. clear - N. split; lra.
  Qed.
  Lemma M_scale : M0 d2 == c * M0 data /\ M1 d2 == c * M1 data /\ M2 d2 == c * M2 data.
  Proof.
    split; [|split].
    - rewrite !M0_w, n2. apply lin2.
    - unfold M1. rewrite n2.
      rewrite (sumn_ext _ (fun i => w2 data i * x d2 i)) by (intros; rewrite (w2_n _ _ n2); reflexivity).
      rewrite lin2. field. clear - N. lra.
    - unfold M2. rewrite n2.
      rewrite (sumn_ext _ (fun i => w3 data i * x d2 i)) by (intros; rewrite (w3_n _ _ n2); reflexivity).
      apply lin2.
  Qed.
End A.

Lemma ratio_eq m1 m2 k1 k2 c : ~ c == 0 -> k1 == c * m1 -> k2 == c * m2 ->
  oeq (if Qeq_bool k1 0 then None else Some (k2 / k1)) (if Qeq_bool m1 0 then None else Some (m2 / m1)).
Proof.
  intros Hc E1 E2. destruct (Qeq_bool m1 0) eqn:B1.
  - apply Qeq_bool_eq in B1. rewrite (proj2 (Qeq_bool_iff k1 0)); [exact I|]. rewrite E1, B1. ring.
  - apply Qeq_bool_neq in B1. destruct (Qeq_bool k1 0) eqn:B2.
    + apply Qeq_bool_eq in B2. exfalso. rewrite B2 in E1. symmetry in E1. apply Qmult_integral in E1. tauto.
    + cbn. rewrite E1, E2. field. tauto.
Qed.

Lemma shift data c : (3 <= length data)%nat ->
  exists a b t a' b' t', samlmu3 data = LOk (a, b, t) /\ samlmu3 (map (Qplus c) data) = LOk (a', b', t') /\
    a' == a + c /\ b' == b /\ oeq t' t.
Proof.
  intros Hn. destruct (samlmu3_eq data Hn) as (m0 & m1 & m2 & E & E0 & E1 & E2).
  assert (Hn' : (3 <= length (map (Qplus c) data))%nat) by now rewrite map_length.
  destruct (samlmu3_eq _ Hn') as (k0 & k1 & k2 & F & F0 & F1 & F2).
  destruct (M_shift data Hn c) as (G0 & G1 & G2). pose proof (n3 _ Hn) as H3.
  do 6 eexists. split; [exact E|]. split; [exact F|]. rewrite (n1 data c).
  split; [|split].
  - rewrite F0, G0, E0. field. lra.
  - now rewrite F1, G1, E1.
  - apply (ratio_eq _ _ _ _ 1); [discriminate| |].
    + rewrite F1, G1, E1. ring.
    + rewrite F2, G2, E2. ring.
Qed.

Lemma scale data c : (3 <= length data)%nat -> ~ c == 0 ->
  exists a b t a' b' t', samlmu3 data = LOk (a, b, t) /\ samlmu3 (map (Qmult c) data) = LOk (a', b', t') /\
    a' == c * a /\ b' == c * b /\ oeq t' t.
Proof.
  intros Hn Hc. destruct (samlmu3_eq data Hn) as (m0 & m1 & m2 & E & E0 & E1 & E2).
  assert (Hn' : (3 <= length (map (Qmult c) data))%nat) by now rewrite map_length.
  destruct (samlmu3_eq _ Hn') as (k0 & k1 & k2 & F & F0 & F1 & F2).
  destruct (M_scale data Hn c) as (G0 & G1 & G2). pose proof (n3 _ Hn) as H3.
  do 6 eexists. split; [exact E|]. split; [exact F|]. rewrite (n2 data c).
  split; [|split].
  - rewrite F0, G0, E0. field. lra.
  - rewrite F1, G1, E1. field. lra.
  - apply (ratio_eq _ _ _ _ c); [exact Hc| |].
    + now rewrite F1, G1, E1.
    + now rewrite F2, G2, E2.
Qed.

Lemma div_zero a b : 0 < b -> a / b == 0 -> a == 0.
Proof. intros Hb H. assert (E : a == a / b * b) by (field; lra). rewrite H in E. lra. Qed.

Lemma meaning data : (3 <= length data)%nat ->
  exists a b t, samlmu3 data = LOk (a, b, t) /\
    a == fold_right Qplus 0 data / qn (length data) /\
    b == pairs (x data) (length data) / (qn (length data) * (qn (length data) - 1)) /\
    match t with
    | None => b == 0
    | Some r => ~ b == 0 /\
        r * b == 2 * triples (x data) (length data) /
                   (qn (length data) * (qn (length data) - 1) * (qn (length data) - 2))
    end.
Proof.
  intros Hn. destruct (samlmu3_eq data Hn) as (m0 & m1 & m2 & E & E0 & E1 & E2).
  pose proof (n3 _ Hn) as H3. do 3 eexists. split; [exact E|]. fold (n data).
  split; [rewrite E0; unfold M0; now rewrite sum_list|].
  split; [rewrite E1, (M1_pairs data); field; split; lra|].
  destruct (Qeq_bool m1 0) eqn:B.
  - apply Qeq_bool_eq in B. rewrite B. field. lra.
  - apply Qeq_bool_neq in B. split; [intros Z; apply B; apply (div_zero _ (qn (n data))); [lra|exact Z]|].
    assert (X : m2 / m1 * (m1 / qn (n data)) == m2 / qn (n data)) by (field; split; [lra|exact B]).
    rewrite X, E2, (M2_triples data Hn). field. repeat split; lra.
Qed.

Lemma sorted_facts data : (3 <= length data)%nat ->
  (forall i, (S i < length data)%nat -> nth i data 0 <= nth (S i) data 0) ->
  exists a b t, samlmu3 data = LOk (a, b, t) /\ 0 <= b /\
    (b == 0 <-> forall i, (i < length data)%nat -> nth i data 0 == nth 0 data 0) /\
    (b == 0 <-> t = None) /\
    (forall r, t = Some r -> -(1) <= r <= 1).
Proof.
  intros Hn Hs0.
  assert (Hs : sorted data) by (intros i Hi; apply Hs0; unfold n in Hi; lia).
  destruct (samlmu3_eq data Hn) as (m0 & m1 & m2 & E & E0 & E1 & E2).
  pose proof (n3 _ Hn) as H3. pose proof (M1_nonneg data Hn Hs) as Hp. pose proof (M2_bound data Hn Hs) as Hb.
  rewrite <- E1 in Hp, Hb. rewrite <- E2 in Hb.
  assert (Z : m1 / qn (n data) == 0 <-> m1 == 0).
  { split; intros Z; [apply (div_zero _ (qn (n data))); [lra|exact Z]|rewrite Z; field; lra]. }
  do 3 eexists. split; [exact E|].
  split; [apply Qle_shift_div_l; lra|].
  split; [|split].
  - rewrite Z. split.
    + intros H. apply (M1_zero data Hn Hs). now rewrite <- E1.
    + intros H. rewrite E1, M1_gaps by exact Hn.
      assert (G : sumn (fun g => gw data g * gap data g) (n data - 1) == sumn (fun _ => 0) (n data - 1)).
      { apply sumn_ext. intros g Hg. unfold gap. unfold n in Hg.
        assert (A1 : x data (S g) == x data 0) by (apply H; lia).
        assert (A2 : x data g == x data 0) by (apply H; lia). rewrite A1, A2. ring. }
      rewrite G, sumn_const. field. lra.
  - rewrite Z. destruct (Qeq_bool m1 0) eqn:B; [apply Qeq_bool_eq in B|apply Qeq_bool_neq in B]; split; intros; auto; [tauto|discriminate].
  - intros r. destruct (Qeq_bool m1 0) eqn:B; [discriminate|]. apply Qeq_bool_neq in B. intros [= <-].
    apply Qabs_Qle_condition in Hb. destruct Hb as [B1 B2].
    assert (0 < m1).
    { destruct (Qlt_le_dec 0 m1); auto. exfalso. apply B. lra. }
    split; [apply Qle_shift_div_l|apply Qle_shift_div_r]; lra.
Qed.

Lemma agree data nmom l : (3 <= length data)%nat -> (1 <= nmom)%nat -> samlmu data nmom = LOk l ->
  length l = nmom /\
  exists a b t, samlmu3 data = LOk (a, b, t) /\
    (forall k v, (k < 3)%nat -> nth_error l k = Some v -> oeq v (nth k [Some a; Some b; t] None)).
Proof.
  intros Hn Hm H. destruct (samlmu3_eq data Hn) as (m0 & m1 & m2 & E & E0 & E1 & E2).
  pose proof (n3 _ Hn) as H3. revert H. unfold samlmu.
  destruct (Nat.leb_spec (n data) 2) as [|_]; [unfold n in *; lia|]. rewrite E.
  destruct (Nat.eqb_spec nmom 3) as [->|N3].
  { intros [= <-]. split; [reflexivity|]. do 3 eexists. split; [reflexivity|].
    intros k v Hk Hv. destruct k as [|[|[|]]]; [..|lia]; cbn in *; injection Hv as <-; cbn; try reflexivity.
    destruct (Qeq_bool m1 0); cbn; auto. reflexivity. }
  destruct (Nat.ltb_spec 100 nmom) as [|]; [discriminate|].
  assert (S2 : sumn (fun i => x data i * (- qn (n data) + 1 + 2 * qn i)) (n data) == M1 data * (qn (n data) - 1)).
  { unfold M1. rewrite (sumn_ext _ (fun i => w2 data i * x data i)) by (intros; unfold w2; ring). field. lra. }
  destruct (Nat.leb_spec nmom 2).
  { destruct (Nat.eqb_spec nmom 1) as [->|]; intros [= <-].
    - split; [reflexivity|]. do 3 eexists. split; [reflexivity|].
      intros k v Hk Hv. destruct k as [|k]; [|destruct k; discriminate]. cbn in *. injection Hv as <-. cbn.
      now rewrite E0.
    - split; [cbn; lia|]. do 3 eexists. split; [reflexivity|].
      intros k v Hk Hv. destruct k as [|[|k]]; [..|destruct k; discriminate]; cbn [nth_error] in Hv; injection Hv as <-; cbn [nth oeq].
      + now rewrite E0.
      + rewrite S2, E1. field. split; lra. }
  destruct (Nat.ltb_spec (n data) nmom); [discriminate|].
  destruct (Qeq_bool (accum data 2) 0) eqn:B; [discriminate|]. intros [= <-].
  split; [cbn [length]; rewrite map_length, seq_length; lia|].
  do 3 eexists. split; [reflexivity|].
  apply Qeq_bool_neq in B. rewrite accum2 in B by exact Hn.
  assert (B' : Qeq_bool m1 0 = false).
  { destruct (Qeq_bool m1 0) eqn:Q; auto. apply Qeq_bool_eq in Q. exfalso. apply B. now rewrite <- E1. }
  intros k v Hk Hv. destruct k as [|[|[|]]]; [..|lia].
  - cbn [nth_error] in Hv. injection Hv as <-. cbn [nth oeq]. now rewrite accum1, E0.
  - cbn [nth_error] in Hv. injection Hv as <-. cbn [nth oeq]. now rewrite accum2, E1.
  - destruct (nmom - 2)%nat as [|q] eqn:Q; [lia|]. cbn [nth_error seq map] in Hv. injection Hv as <-. cbn [nth].
    rewrite B'. cbn [oeq]. rewrite accum3, accum2, E2, E1 by exact Hn. reflexivity.
Qed.

Lemma agree_ok data nmom : (3 <= length data)%nat -> (1 <= nmom <= 100)%nat ->
  ((nmom <= 3)%nat -> exists l, samlmu data nmom = LOk l) /\
  ((4 <= nmom <= length data)%nat ->
     (exists a b r, samlmu3 data = LOk (a, b, Some r)) -> exists l, samlmu data nmom = LOk l) /\
  ((4 <= nmom)%nat -> (length data < nmom)%nat -> samlmu data nmom = LZeroDiv).
Proof.
  intros Hn Hm. destruct (samlmu3_eq data Hn) as (m0 & m1 & m2 & E & E0 & E1 & E2).
  unfold samlmu. destruct (Nat.leb_spec (n data) 2) as [|_]; [unfold n in *; lia|].
  rewrite E. destruct (Nat.ltb_spec 100 nmom) as [|]; [lia|]. split; [|split].
  - intros H3. destruct (Nat.eqb_spec nmom 3) as [|N3]; [eauto|]. destruct (Nat.leb_spec nmom 2); [|lia].
    destruct (nmom =? 1)%nat; eauto.
  - intros H4 (a & b & r & F). destruct (Nat.eqb_spec nmom 3) as [|N3]; [lia|]. destruct (Nat.leb_spec nmom 2); [lia|].
    destruct (Nat.ltb_spec (n data) nmom); [unfold n in *; lia|].
    destruct (Qeq_bool (accum data 2) 0) eqn:B; [|eauto]. exfalso.
    apply Qeq_bool_eq in B. rewrite accum2 in B by exact Hn.
    rewrite (proj2 (Qeq_bool_iff m1 0)) in F; [discriminate|]. now rewrite E1.
  - intros H4 H5. destruct (Nat.eqb_spec nmom 3) as [|N3]; [lia|]. destruct (Nat.leb_spec nmom 2); [lia|].
    destruct (Nat.ltb_spec (n data) nmom); [reflexivity|unfold n in *; lia].
Qed.
