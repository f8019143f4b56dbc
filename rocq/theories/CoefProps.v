(** Properties of the variables with the statistics of the cells. *)
From Coq Require Import Reals List String Lra.
From Verif Require Import CircleModel CircleProofs WindModel SeriesModel SeriesProofs SeriesProps KdeProps CoefModel.
Import ListNotations.
Open Scope R_scope.

Lemma minR_spec l : l <> [] -> In (minR l) l /\ forall a, In a l -> minR l <= a.
Proof.
  destruct l as [|b l]; [congruence|]. intros _. cbn [minR]. induction l as [|a l [I H]]; cbn [fold_right].
  - split; [now left|]. intros a [->|[]]. lra.
  - split.
    + set (m := fold_right Rmin b l) in *. unfold Rmin. destruct (Rle_dec a m); [right; now left|]. destruct I as [I|I]; [left; exact I|right; right; exact I].
    + intros x [->|[->|X]]; [eapply Rle_trans; [apply Rmin_r|apply H; now left]|apply Rmin_l|eapply Rle_trans; [apply Rmin_r|apply H; now right]].
Qed.
Lemma sumR_ge l c : (forall a, In a l -> c <= a) -> INR (List.length l) * c <= sumR l.
Proof.
  induction l as [|a l IH]; intros H; [cbn; lra|]. cbn [List.length]. rewrite S_INR. cbn [sumR fold_right]. fold (sumR l).
  pose proof (H a (or_introl eq_refl)). pose proof (IH (fun x X => H x (or_intror X))). lra.
Qed.
Lemma len_pos {A} (l : list A) : l <> [] -> 0 < INR (List.length l).
Proof. destruct l; [congruence|]. intros _. cbn [List.length]. rewrite S_INR. pose proof (pos_INR (List.length l)). lra. Qed.
Lemma mean_sum l : l <> [] -> mean l * INR (List.length l) = sumR l.
Proof. intros N. unfold mean. pose proof (len_pos l N). field. lra. Qed.
Lemma minR_mean l : l <> [] -> minR l <= mean l.
Proof.
  intros N. destruct (minR_spec l N) as [_ H]. pose proof (sumR_ge l _ H). pose proof (len_pos l N). pose proof (mean_sum l N).
  apply Rmult_le_reg_r with (INR (List.length l)); [assumption|]. lra.
Qed.
Lemma std_sum l : l <> [] -> 0 <= std l /\ std l ^ 2 * INR (List.length l) = sumR (map (fun x => (x - mean l) ^ 2) l).
Proof.
  intros N. split; [apply sqrt_pos|]. unfold std. set (d := map _ l).
  assert (D : d <> []) by (unfold d; destruct l; [congruence|discriminate]).
  assert (P : 0 <= mean d). { apply Rle_trans with (minR d); [|apply minR_mean, D]. destruct (minR_spec d D) as [I _].
    apply in_map_iff in I as [x [<- _]]. apply pow2_ge_0. }
  replace (sqrt (mean d) ^ 2) with (mean d) by (rewrite <- Rsqr_pow2, Rsqr_sqrt by exact P; reflexivity).
  rewrite <- (mean_sum d D). replace (List.length d) with (List.length l) by (symmetry; apply map_length). reflexivity.
Qed.

(** ** C184 What the variables of speed, pressure and pressure change mean *)
Definition describes (p : list R) (mu sig mn : R) : Prop :=
  mu * INR (List.length p) = sumR p /\ 0 <= sig /\ sig ^ 2 * INR (List.length p) = sumR (map (fun x => (x - mu) ^ 2) p) /\
  In mn p /\ (forall x, In x p -> mn <= x) /\ mn <= mu.
Lemma calculate_describes p : p <> [] -> let c := calculate false p in describes p (c_mu c) (c_sig c) (c_min c).
Proof.
  intros N. cbn. unfold describes. destruct (std_sum p N), (minR_spec p N).
  repeat (split; [first [assumption|now apply mean_sum]|]). now apply minR_mean.
Qed.
Open Scope string_scope.
Theorem c184_describes : forall o l pre f, In (pre, f) [("v", s_speed); ("p", s_pressure); ("dp", s_rate)] ->
  f o <> [] -> f l <> [] ->
  exists mu sig mn lmu lsig lmn u,
    look (pre ++ "mu") (dumped o l) = Some (mu, u) /\ look (pre ++ "sig") (dumped o l) = Some (sig, u) /\
    look (pre ++ "min") (dumped o l) = Some (mn, u) /\ describes (f o) mu sig mn /\
    look (pre ++ "lmu") (dumped o l) = Some (lmu, u) /\ look (pre ++ "lsig") (dumped o l) = Some (lsig, u) /\
    look (pre ++ "lmin") (dumped o l) = Some (lmn, u) /\ describes (f l) lmu lsig lmn.
Proof.
  intros o l pre f I No Nl. set (a := calculate false (f o)). set (b := calculate false (f l)).
  exists (c_mu a), (c_sig a), (c_min a), (c_mu b), (c_sig b), (c_min b).
  pose proof (calculate_describes (f o) No) as Da. pose proof (calculate_describes (f l) Nl) as Db. cbv zeta in Da, Db. fold a in Da. fold b in Db.
  cbn [In] in I. destruct I as [I|[I|[I|[]]]]; apply pair_equal_spec in I as [<- <-]; eexists;
    do 3 (split; [reflexivity|]); (split; [exact Da|]); do 3 (split; [reflexivity|]); exact Db.
Qed.
(** The autocorrelation is the same number as in the file of the statistics, without units, and is the lag one
    coefficient of the sample *)
Theorem c184_autocorrelation : forall o l pre f, In (pre, f) [("v", s_speed); ("b", s_bearing); ("p", s_pressure); ("dp", s_rate)] ->
  (2 <= List.length (f o))%nat ->
  look (pre ++ "alpha") (dumped o l) = Some (corr (f o) 1 / corr (f o) 0, "").
Proof.
  intros o l pre f I N. rewrite <- (alpha_lag1 (f o) N).
  cbn [In] in I. destruct I as [I|[I|[I|[I|[]]]]]; apply pair_equal_spec in I as [<- <-]; reflexivity.
Qed.
(** What was computed is in the file of the parameter *)
Theorem c184_saved : forall o l n x u, In (n, x) [("mu", c_mu o); ("sig", c_sig o); ("alpha", c_alpha o); ("phi", c_phi o); ("min", c_min o);
  ("lmu", c_mu l); ("lsig", c_sig l); ("lalpha", c_alpha l); ("lphi", c_phi l); ("lmin", c_min l)] ->
  look n (saved o l) = Some u -> fst u = x.
Proof.
  intros o l n x u I H. cbn [In] in I. repeat (destruct I as [I|I]; [apply pair_equal_spec in I as [<- <-]; cbn in H; injection H as <-; reflexivity|]). destruct I.
Qed.
Example c184_met : let s := {| s_speed := [10; 20]; s_bearing := [200; 210]; s_pressure := [980; 990]; s_rate := [-1; 1] |} in
  exists x, look "vmu" (dumped s s) = Some (x, "km/h") /\ x = 15.
Proof. cbv zeta. eexists. split; [reflexivity|]. cbn. unfold mean. cbn. lra. Qed.

(** ** C185 The units of the bearing *)
(** The mean and the minimum of the bearing are both said to be in degrees, but the mean is in radians: whenever
    all bearings of a cell are beyond 2 pi, the mean lies below the minimum *)
Theorem c185_bearing_refuted : forall o l, s_bearing o <> [] -> (forall b, In b (s_bearing o) -> 2 * PI <= b < 360) ->
  exists mu mn u, look "bmu" (dumped o l) = Some (mu, u) /\ look "bmin" (dumped o l) = Some (mn, u) /\ u = "degrees" /\ mu < mn.
Proof.
  intros o l N H. eexists _, _, _. do 3 (split; [reflexivity|]). cbn [calculate c_mu c_min].
  destruct (minR_spec _ N) as [I _]. specialize (H _ I).
  destruct (c120_mean (map (fun x => x * (PI / 180)) (s_bearing o))) as [B _]; [destruct (s_bearing o); [congruence|discriminate]|]. lra.
Qed.
Example c185_bearing_met : exists o : samples, s_bearing o <> [] /\ forall b, In b (s_bearing o) -> 2 * PI <= b < 360.
Proof.
  exists {| s_speed := []; s_bearing := [200; 210]; s_pressure := []; s_rate := [] |}. split; [discriminate|]. pose proof PI_4. cbn.
  intros b [<-|[<-|[]]]; lra.
Qed.
(** The same pressure is in hPa in one file and in m/s in the other *)
Theorem c185_pressure_refuted : forall o l, exists x,
  look "pmu" (dumped o l) = Some (x, "hPa") /\ look "mu" (saved (calculate false (s_pressure o)) (calculate false (s_pressure l))) = Some (x, "m/s").
Proof. intros. eexists. split; reflexivity. Qed.

Print Assumptions c184_describes.
Print Assumptions c184_autocorrelation.
Print Assumptions c184_saved.
Print Assumptions c185_bearing_refuted.
Print Assumptions c185_pressure_refuted.
