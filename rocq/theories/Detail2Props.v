(** Further details of the station series, the track files and the fit of exceedances. *)
From Coq Require Import List Arith ZArith Bool QArith Qround String Lia Lqa.
From Verif Require Import Base TileModel CellModel CellProofs StationModel StoreModel StoreProps FitModel.
Import ListNotations.
Close Scope Q_scope. Open Scope Z_scope.

(** * C107 *)
(** The adjusted bearing is that of the wind, except in calm records, where it is zero. *)
Theorem c107_bearing : forall brg2 m rs out mx mn, tsmultiply brg2 m rs = Some (out, mx, mn) ->
  Forall2 (fun r o => rid o = rid r /\ rlon o = rlon r /\ rlat o = rlat r /\
    ((rspd o == 0)%Q -> rbrg o = 0%Q) /\ (~ (rspd o == 0)%Q -> rbrg o = brg2 (ruu r) (rvv r))) rs out.
Proof.
  intros brg2 m rs out mx mn H. unfold tsmultiply in H.
  destruct (nth_error _ _) as [a|] in H; [|discriminate]. destruct (nth_error _ _) as [b|] in H; [|discriminate].
  injection H as <- _ _. induction rs as [|r rs IH]; cbn [map]; constructor; [|exact IH].
  unfold tsmult1. cbn [rid rlon rlat rspd rbrg]. repeat split; intros E.
  - apply Qeq_bool_iff in E. now rewrite E.
  - destruct (Qeq_bool _ 0) eqn:B; [apply Qeq_bool_iff in B; contradiction|reflexivity].
Qed.

(** * C121 *)
(** Track files hold times as hours since 1900. *)
Theorem c121_hours : forall file ts gs ts' ok g q vs, saveTracks file ts hours1900 = (Some gs, ts', ok) -> ts <> [] ->
  In g gs -> In (q, vs) (g_rows g) -> perUnit (g_units g) = 3600 /\ refDate (g_units g) = 0 /\
  exists t d, In t ts /\ In (Date d, vs) (rows t) /\ tid t = g_tid g /\ (q * 3600 == inject_Z d)%Q.
Proof.
  intros file ts gs ts' ok g q vs H N. destruct ts as [|t0 ts]; [congruence|]. unfold saveTracks in H. clear N.
  destruct (saveLoop (names t0) hours1900 0 (t0 :: ts)) as [[gs0 ts0] ok0] eqn:E. injection H as <- <- <-.
  revert E. generalize (names t0) as cols, 0%nat as n, (t0 :: ts) as l. intros cols n l. revert n gs0 ts0 ok0.
  induction l as [|t l IH]; intros n gs0 ts0 ok0 E G Hq; cbn [saveLoop] in E.
  - injection E as <- _ _. destruct G.
  - assert (Rec : forall n gs ts' ok, saveLoop cols hours1900 n l = (gs, ts', ok) -> In g gs ->
       perUnit (g_units g) = 3600 /\ refDate (g_units g) = 0 /\
       exists t' d, In t' (t :: l) /\ In (Date d, vs) (rows t') /\ tid t' = g_tid g /\ (q * 3600 == inject_Z d)%Q).
    { intros n' gs' ts'' ok' S I. destruct (IH n' gs' ts'' ok' S I Hq) as (A & B & t' & d & T & X). split; [exact A|]. split; [exact B|].
      exists t', d. split; [now right|exact X]. }
    destruct (rows t) as [|r rs] eqn:R.
    + destruct (saveLoop cols hours1900 (S n) l) as [[a b] c] eqn:S. injection E as <- _ _. exact (Rec _ _ _ _ S G).
    + destruct (allSomeQ _) as [nums|] eqn:A; [|injection E as <- _ _; destruct G].
      destruct (negb _); [injection E as <- _ _; destruct G|].
      destruct (saveLoop cols hours1900 (S n) l) as [[a b] c] eqn:S. injection E as <- _ _.
      destruct G as [<-|G]; [|exact (Rec _ _ _ _ S G)]. cbn [g_rows g_units g_tid] in *. split; [reflexivity|]. split; [reflexivity|].
      clear Rec S IH. rewrite <- R in *.
      assert (X : exists d, In (Date d, vs) (rows t) /\ (q * 3600 == inject_Z d)%Q).
      { clear R. revert nums A Hq. generalize (rows t) as xs. induction xs as [|[s ys] xs IHx]; intros nums A Hq; cbn [map allSomeQ] in A.
        - injection A as <-. destruct Hq.
        - destruct (date2num hours1900 (fst (s, ys))) as [q0|] eqn:D; [|discriminate].
          destruct (allSomeQ (map _ xs)) as [l'|] eqn:L; [|discriminate]. injection A as <-. cbn [combine map snd] in Hq.
          destruct Hq as [Hq|Hq].
          + injection Hq as <- <-. cbn [fst] in D. destruct s as [d|]; [|discriminate]. cbn in D. injection D as <-.
            exists d. split; [now left|]. rewrite Z.sub_0_r. unfold inject_Z. field.
          + destruct (IHx l' eq_refl Hq) as (d & I & Q1). exists d. split; [now right|exact Q1]. }
      destruct X as (d & I & Q1). exists t, d. split; [now left|]. auto.
Qed.
Example c121_hours_example : exists gs ts', saveTracks None [sampleTrack] hours1900 = (Some gs, ts', true) /\
  exists g q vs, In g gs /\ In (q, vs) (g_rows g).
Proof. eexists _, _. split; [reflexivity|]. eexists _, _, _. split; [left; reflexivity|]. left. reflexivity. Qed.

(** * C122 *)
(** Exactly which tracks the interpolation of tracks can read: those of one record, those without a valid central
    pressure, and those with wind speeds. *)
Theorem c122_which : forall t, canInterpolate t = true <->
  (List.length (rows t) = 1%nat \/
   (forall r v, In r (rows t) -> field "CentralPressure" (names t) (snd r) = Some v -> (9223372036854775807 <= v)%Q) \/
   In "WindSpeed"%string (names t)).
Proof.
  intros t. unfold canInterpolate. rewrite !orb_true_iff, Nat.eqb_eq, negb_true_iff.
  assert (A : hasField "WindSpeed" t = true <-> In "WindSpeed"%string (names t)).
  { unfold hasField. rewrite existsb_exists. split.
    - intros (n & I & E). apply String.eqb_eq in E. now subst n.
    - intros I. exists "WindSpeed"%string. auto. }
  rewrite A.
  assert (B : validPressure t = false <->
    (forall r v, In r (rows t) -> field "CentralPressure" (names t) (snd r) = Some v -> (9223372036854775807 <= v)%Q)).
  { unfold validPressure. split.
    - intros E r v I F. apply Qnot_lt_le. intros C. apply not_true_iff_false in E. apply E. apply existsb_exists. exists r.
      split; [exact I|]. rewrite F. now apply qlt_iff.
    - intros H. apply not_true_iff_false. intros E. apply existsb_exists in E. destruct E as (r & I & E).
      destruct (field _ _ _) as [v|] eqn:F; [|discriminate]. apply qlt_iff in E. specialize (H r v I F). unfold maxsizeQ in E.
      apply (Qlt_irrefl v). eapply Qlt_le_trans; [exact E|exact H]. }
  rewrite B. tauto.
Qed.


(** * C51 *)
(** The fit of exceedances always returns: false, it raises exactly when enough records for the configured minimum
    are none at all or more than the days simulated. *)
Theorem c51_gpd_raises_refuted : forall percentile genpareto level data intervals numsim nodata minrecords,
  gpdfit percentile genpareto level data intervals numsim nodata minrecords = FErr <->
  minrecords <= Z.of_nat (List.length data) /\
  (data = [] \/ Qfloor (inject_Z numsim * 365.25)%Q < Z.of_nat (List.length data)).
Proof.
  intros percentile genpareto level data intervals numsim nodata minrecords. unfold gpdfit.
  destruct (Z.ltb_spec (Z.of_nat (List.length data)) minrecords) as [A|A].
  { split; [discriminate|lia]. }
  set (days := Qfloor _). destruct ((Z.to_nat days <? List.length data)%nat || (List.length data =? 0)%nat) eqn:E.
  - split; [intros _|reflexivity]. split; [exact A|]. apply orb_true_iff in E. destruct E as [E|E].
    + right. apply Nat.ltb_lt in E. lia.
    + left. apply Nat.eqb_eq in E. now destruct data.
  - apply orb_false_iff in E. destruct E as [E1 E2]. apply Nat.ltb_ge in E1. apply Nat.eqb_neq in E2. split.
    + destruct (genpareto _ _) as [[[a b] c]|]; [|discriminate]. destruct (qlt 0 a); discriminate.
    + intros [_ [->|C]]; [now destruct E2|lia].
Qed.
Print Assumptions c107_bearing.
Print Assumptions c121_hours.
Print Assumptions c122_which.
Print Assumptions c51_gpd_raises_refuted.
