(** Details of the statistics of cells, the size distribution and grids in UTM coordinates. *)
From Coq Require Import Reals List Arith Bool QArith String Lia.
From Verif Require Import CircleModel SeriesModel SeriesProofs SeriesProps GridFileModel UtmModel StatxModel StatxProps CoefModel CoefProps.
Import ListNotations.

(** Over land too the autocorrelation in the dump is the lag one coefficient of the sample *)
Theorem c184_autocorrelation_land : forall o l pre f,
  In (pre, f) [("v", s_speed); ("b", s_bearing); ("p", s_pressure); ("dp", s_rate)]%string ->
  (2 <= List.length (f l))%nat ->
  look (pre ++ "lalpha")%string (dumped o l) = Some ((corr (f l) 1 / corr (f l) 0)%R, ""%string).
Proof.
  intros o l pre f I N. rewrite <- (alpha_lag1 (f l) N).
  cbn [In] in I. destruct I as [I|[I|[I|[I|[]]]]]; apply pair_equal_spec in I as [<- <-]; reflexivity.
Qed.
(** Every statistic is in the file of the parameter under its name *)
Theorem c184_saved_all : forall o l n x,
  In (n, x) [("mu", c_mu o); ("sig", c_sig o); ("alpha", c_alpha o); ("phi", c_phi o); ("min", c_min o);
    ("lmu", c_mu l); ("lsig", c_sig l); ("lalpha", c_alpha l); ("lphi", c_phi l); ("lmin", c_min l)]%string ->
  exists u, look n (saved o l) = Some (x, u).
Proof.
  intros o l n x I. cbn [In] in I.
  repeat (destruct I as [I|I]; [apply pair_equal_spec in I as [<- <-]; eexists; reflexivity|]). destruct I.
Qed.
Example c184_land_met : (2 <= List.length (s_speed {| s_speed := [1%R; 2%R]; s_bearing := []; s_pressure := []; s_rate := [] |}))%nat.
Proof. cbn. lia. Qed.

(** A file that is there already: a compressed one is spoilt, any other refused *)
Theorem c187_existing_refuted : forall rest metres fmt data lon lat delta nodata,
  grdSaveUTM rest metres fmt true true data lon lat delta nodata = SaveBroken /\
  grdSaveUTM rest metres fmt true false data lon lat delta nodata = SaveRefused.
Proof. split; reflexivity. Qed.

Local Open Scope R_scope.
(** The densities of the size distribution are those of the log-normal distribution whose mean is the mean given *)
Theorem c190_density : forall mean sig maxrad x pdf cy i, 0 < mean -> 0 < sig ->
  rMaxDist mean sig maxrad = Some (x, pdf, cy) -> (i < List.length x)%nat ->
  let r := INR i + 1 in
  nth i pdf 0 = exp (- (ln (r / mean) + sig ^ 2 / 2) ^ 2 / (2 * sig ^ 2)) / (r * sig * sqrt (2 * PI)).
Proof.
  intros mean sig maxrad x pdf cy i M Sg. unfold rMaxDist. destruct (cdfR _ _); [|discriminate].
  intros E L. injection E as <- <- _. cbv zeta. pose proof (pos_INR i) as P.
  rewrite (nth_indep _ 0 (logPdf (ln mean - 1 / 2 * sig ^ 2) sig 0)) by (rewrite map_length; exact L).
  rewrite (map_nth (logPdf (ln mean - 1 / 2 * sig ^ 2) sig)).
  assert (Nx : nth i (radii maxrad) 0 = INR i + 1).
  { unfold radii in *. rewrite map_length, seq_length in L. rewrite (nth_indep _ 0 (INR (S 0))) by (rewrite map_length, seq_length; exact L).
    rewrite (map_nth (fun i => INR (S i))), seq_nth by exact L. cbn [Nat.add]. apply S_INR. }
  rewrite Nx. unfold logPdf. assert (Ld : ln ((INR i + 1) / mean) = ln (INR i + 1) - ln mean).
  { unfold Rdiv. rewrite ln_mult, ln_Rinv by (first [Lra.lra | apply Rinv_0_lt_compat; Lra.lra]). ring. }
  rewrite Ld.
  replace (ln (INR i + 1) - (ln mean - 1 / 2 * sig ^ 2)) with (ln (INR i + 1) - ln mean + sig ^ 2 / 2) by (field; Lra.lra).
  reflexivity.
Qed.
Example c190_density_met : exists x pdf cy, rMaxDist 30 1 100 = Some (x, pdf, cy) /\ (3 < List.length x)%nat.
Proof.
  destruct (c190_size 30 1 100) as (x & pdf & cy & E & _ & _ & B & _); [Lra.lra|Lra.lra|reflexivity|].
  exists x, pdf, cy. split; [exact E|]. apply B. reflexivity.
Qed.
Print Assumptions c184_autocorrelation_land.
Print Assumptions c184_saved_all.
Print Assumptions c187_existing_refuted.
Print Assumptions c190_density.
