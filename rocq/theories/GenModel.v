(** Synthetic track generation: TrackGenerator/TrackGenerator.py:440-721 (generateTracks), 851-1067
    (_singleTrack), 1069-1183 (_stepPressureChange, _stepBearing, _stepSpeed), 1239-1256
    (_notValidTrackStep), 1644-1676 (global generator), 1735-1896 (run); Utilities/loadData.py:666-723
    (getPoci, scalar arguments); TrackGenerator/trackLandfall.py:73-92 (onLand);
    Utilities/tcrandom.py:32-40 (Random).
    Simplifications: numbers are rationals (no rounding to single precision); [None] stands for NaN;
    trigonometry, exp, the MSLP interpolation, the land mask and the random generators are parameters
    (record [world]); cell coefficients are functions of the cell number; logging is dropped. *)
From Coq Require Import QArith Qabs Qround.
From Verif Require Import Base SplitModel CellModel SampModel.
Close Scope Q_scope. Open Scope list_scope. Open Scope nat_scope.

(** Arithmetic with NaN. Comparisons with NaN are false. *)
Definition onum := option Q.
Definition osub (a b : onum) : onum :=
  match a, b with Some x, Some y => Some (x - y)%Q | _, _ => None end.
Definition oltq (a : onum) (q : Q) : bool := match a with Some x => qlt x q | None => false end.
Definition oqlt (q : Q) (a : onum) : bool := match a with Some x => qlt q x | None => false end.
(** numpy.mod with a positive modulus. *)
Definition qmod (x m : Q) : Q := (x - m * inject_Z (Qfloor (x / m)))%Q.

(** generateStats.py coefficient arrays of one quantity, sea and land ([l...]) versions. *)
Record coeffs := { c_alpha : Z -> Q; c_phi : Z -> Q; c_mu : Z -> Q; c_sig : Z -> Q; c_min : Z -> Q;
                   c_lalpha : Z -> Q; c_lphi : Z -> Q; c_lmu : Z -> Q; c_lsig : Z -> Q }.
(** One row of the arrays of _singleTrack (TCRM_COLS), without the index. Dates are in days. *)
Record point := { p_date : Q; p_age : Q; p_lon : Q; p_lat : Q; p_speed : Q; p_bear : Q;
                  p_pres : onum; p_poci : onum; p_rmax : onum }.

Section Gen.
(** [G]: state of the generator [PRNG]; [NG]: state of numpy's global generator. *)
Context {G NG : Type}.
Record world := {
  w_uniform : Q -> Q -> G -> Q * G;            (* PRNG.uniform *)
  w_logistic : G -> Q * G;                     (* PRNG.logisticvariate(0, 1) *)
  w_normal : Q -> Q -> G -> Q * G;             (* PRNG.normalvariate *)
  w_lognorm : Q -> Q -> Q -> G -> Q * G;       (* PRNG.lognormvariate *)
  w_npnormal : NG -> Q * NG;                   (* np.random.normal(0, scale=0.335) *)
  w_key : Z -> G;                              (* Generator(Philox(key=k)) *)
  w_npseed : Z -> NG;                          (* np.random.seed *)
  w_poisson : Q -> nat -> NG -> list nat * NG; (* np.random.poisson(mean, n) *)
  w_bear2 : Q -> Q -> Q -> Q -> Q * Q;         (* maputils.bear2LatLon *)
  w_mslp : Q -> Q -> Q -> Q;                   (* mslp.get_pressure at (day, lat, lon) *)
  w_cos : Q -> Q;                              (* cos(2 pi jday / 365) *)
  w_exp : Q -> Q;                              (* exp *)
  w_deg : Q -> Q;                              (* math.degrees *)
  w_mask : Q -> Q -> option Q;                 (* landMask.sampleGrid, None: IndexError *)
  w_origin : list Q * list Q * list (list Q);  (* originPDF.nc: x, y, density *)
  w_vStats : coeffs; w_pStats : coeffs; w_bStats : coeffs; w_dpStats : coeffs;
  w_cdfBearing : list (nat * Q * Q); w_cdfSpeed : list (nat * Q * Q);
  w_cdfDay : list (nat * Q * Q); w_cdfPressure : list (nat * Q * Q);
  w_sizeFile : bool;                           (* all_cell_cdf_init_rmax was loaded *)
  w_limit : glimit; w_space : gspace; w_inner : option glimit;
  w_dt : Q; w_maxSteps : nat
}.
Variable w : world.

(** tcrandom.py:40: the stream is identified by its Philox key. *)
Definition streamKey (seed stream : Z) : Z := (seed + stream)%Z.

(** loadData.py:666-723 with scalar arguments and default coefficients; [missing] is sys.maxsize.
    [lowest] does not change the value; it keeps the examples small. *)
Definition missing : Q := 9223372036854775807 # 1.
Definition lowest (q : Q) : Q := Qred q.
Arguments lowest : simpl never.
Definition getPoci (penv : Q) (pc : onum) (lat jday eps : Q) : onum :=
  match pc with
  | None => None
  | Some p =>
      if qlt penv p then None else if Qeq_bool p missing then None
      else Some (lowest ((23241564738613392 # 10000000000000) + (- 6539853183796136 # 10000000000000000) * penv
                 + (- 13984456535888878 # 10000000000000000) * p + (74072928008818927 # 100000000000000000000) * p * p
                 + (44469231429346088 # 10000000000000000000) * lat * lat
                 + (- 14337623534206905 # 10000000000000000) * w_cos w jday + eps)%Q)
  end.
Arguments getPoci : simpl never.
(** trackSize.py:22-53 rmax with the default coefficients. *)
Definition trackRmax (dp : onum) (lat eps : Q) : onum :=
  match dp with
  | None => None
  | Some d => Some (w_exp w ((422 # 100) + (- 198 # 10000) * d + (23 # 10000) * Qabs lat + eps)%Q)
  end.

(** Attributes of the generator object and local variables carried from step to step. *)
Record sstate := { s_pt : point; s_jday : Q; s_dist : Q; s_theta : Q; s_v : Q; s_vChi : Q; s_bChi : Q;
                   s_dpChi : Q; s_dp : Q; s_offP : onum; s_offPoci : onum; s_lfSpeed : Q; s_tol : Q;
                   s_clock : Q; s_g : G }.

(** 1069-1105, 1107-1146, 1148-1187: (chi, value, generator). *)
Definition ar (c : coeffs) (cell : Z) (onLand : bool) (chi : Q) (g : G) : Q * G :=
  let '(l, g) := w_logistic w g in
  (((if onLand then c_lalpha c else c_alpha c) cell * chi + (if onLand then c_lphi c else c_phi c) cell * l)%Q, g).
Definition mu_ (c : coeffs) (cell : Z) (onLand : bool) : Q := (if onLand then c_lmu c else c_mu c) cell.
Definition sig_ (c : coeffs) (cell : Z) (onLand : bool) : Q := (if onLand then c_lsig c else c_sig c) cell.
Definition stepPressureChange (cell : Z) (i : nat) (onLand : bool) (dpChi dp : Q) (g : G) : Q * Q * G :=
  let '(chi, g) := ar (w_dpStats w) cell onLand dpChi g in
  let s := sig_ (w_dpStats w) cell onLand in
  (chi, (if i =? 1 then dp + s * chi else mu_ (w_dpStats w) cell onLand + s * chi)%Q, g).
Definition stepBearing (cell : Z) (i : nat) (onLand : bool) (bChi theta : Q) (g : G) : Q * Q * G :=
  let '(chi, g) := ar (w_bStats w) cell onLand bChi g in
  let s := sig_ (w_bStats w) cell onLand in
  let t := (if i =? 1 then theta + w_deg w (s * chi) else w_deg w (mu_ (w_bStats w) cell onLand + s * chi))%Q in
  (chi, qmod t 360, g).
Definition stepSpeed (cell : Z) (i : nat) (onLand : bool) (vChi v : Q) (g : G) : Q * Q * G :=
  let '(chi, g) := ar (w_vStats w) cell onLand vChi g in
  let s := sig_ (w_vStats w) cell onLand in
  (chi, (if i =? 1 then v + Qabs (s * chi) else Qabs (mu_ (w_vStats w) cell onLand + s * chi))%Q, g).

(** 1239-1256 *)
Definition notValidTrackStep (pressure poci : onum) (age : Q) : bool :=
  match poci with
  | None => true
  | _ => if qlt 12 age && oltq (osub poci pressure) 5 then true
         else if Qle_bool age 12 && oltq (osub poci pressure) 2 then true else false
  end.
(** 967-970 *)
Definition outside (lon lat : Q) : bool :=
  let g := w_limit w in
  qlt lon (inject_Z (xMin g)) || Qle_bool (inject_Z (xMax g)) lon ||
  Qle_bool lat (inject_Z (yMin g)) || qlt (inject_Z (yMax g)) lat.
(** trackLandfall.py:73-92: (over land, clock). *)
Definition onLand (lon lat clock : Q) : option (bool * Q) :=
  match w_mask w lon lat with
  | None => None
  | Some m => if qlt 0 m then Some (true, (clock + w_dt w)%Q) else Some (false, 0%Q)
  end.

(** The clock after onLand has been called for each position in turn. *)
Fixpoint clockAfter (pts : list (Q * Q)) (clock : Q) : option Q :=
  match pts with
  | [] => Some clock
  | (x, y) :: r => match onLand x y clock with None => None | Some (_, c) => clockAfter r c end
  end.
(** trackLandfall.py:94-119 pChange; [eps] is the normal variate. *)
Definition pChange (pCentre pEnv tol eps : Q) : Q :=
  let deltaP := (pEnv - pCentre)%Q in
  let alpha := ((8 # 1000) + (8 # 10000) * deltaP + eps)%Q in
  (pEnv - deltaP * w_exp w (- alpha * tol))%Q.

Inductive gerr := GValue | GIndex | GZeroDiv | GExit | GType.
Inductive stepres := Leave (clock : Q) (g : G) | Next (valid : bool) (s : sstate) | Fail (e : gerr).
(** 945-1063: one pass of the loop. [eps] is poci_eps, [rmwEps] the size variate. [Next false] is the
    step at which the track ends (its values are not part of the returned arrays). *)
Definition step (eps lfeps rmwEps : Q) (i : nat) (s : sstate) : stepres :=
  let p := s_pt s in
  let dt := w_dt w in
  let '(lon, lat) := w_bear2 w (p_bear p) (s_dist s) (p_lon p) (p_lat p) in
  let age := (p_age p + dt)%Q in
  let date := (p_date p + dt / 24)%Q in
  let jday := qmod (s_jday s + dt / 24)%Q 365 in
  let penv := w_mslp w jday lat lon in
  if outside lon lat then Leave (s_clock s) (s_g s)
  else match getCellNum lon lat (w_limit w) (w_space w) with
  | None => Fail GValue
  | Some c =>
    match onLand lon lat (s_clock s) with
    | None => Fail GIndex
    | Some (land, clock) =>
      let '(dpChi, dp, g) := stepPressureChange c i land (s_dpChi s) (s_dp s) (s_g s) in
      let '(bChi, theta, g) := stepBearing c i land (s_bChi s) (s_theta s) g in
      let '(vChi, v, g) := stepSpeed c i land (s_vChi s) (s_v s) g in
      let speed := Qabs v in
      let '(tol, pres, poci, offP, offPoci, lfSpeed) :=
        if land then
          let tol := (s_tol s + dt)%Q in
          let pres :=
            match osub (s_offPoci s) (s_offP s), p_poci p with
            | Some deltaP, Some q =>
                let alpha := ((3515 # 100000) + (435 # 1000000) * deltaP + (2865 # 1000000) * s_lfSpeed s + lfeps)%Q in
                Some (q - deltaP * w_exp w (- alpha * tol))%Q
            | _, _ => None
            end in
          (tol, pres, getPoci penv pres lat jday eps, s_offP s, s_offPoci s, s_lfSpeed s)
        else
          let pres :=
            match p_pres p with
            | None => None
            | Some q =>
                let a := (q + dp * dt)%Q in
                if qlt a (c_min (w_pStats w) c - 4 * c_sig (w_pStats w) c)%Q then Some (q + Qabs dp * dt)%Q else Some a
            end in
          let poci := getPoci penv pres lat jday eps in
          (s_tol s, pres, poci, pres, poci, speed) in
      if w_sizeFile w then Fail GValue
      else
        let rmax := trackRmax (osub poci pres) lat rmwEps in
        let q := {| p_date := date; p_age := age; p_lon := lon; p_lat := lat; p_speed := speed; p_bear := theta;
                    p_pres := pres; p_poci := poci; p_rmax := rmax |} in
        Next (negb (notValidTrackStep pres poci age))
          {| s_pt := q; s_jday := jday; s_dist := (dt * speed)%Q; s_theta := theta; s_v := v; s_vChi := vChi;
             s_bChi := bChi; s_dpChi := dpChi; s_dp := dp; s_offP := offP; s_offPoci := offPoci;
             s_lfSpeed := lfSpeed; s_tol := tol; s_clock := clock; s_g := g |}
    end
  end.

Inductive gres (A : Type) := GOk (a : A) | GErr (e : gerr) | GFuel.
Arguments GOk {A}. Arguments GErr {A}. Arguments GFuel {A}.
Definition gbind {A B} (r : gres A) (f : A -> gres B) : gres B :=
  match r with GOk a => f a | GErr e => GErr e | GFuel => GFuel end.
Definition lift {A} (r : sres A) : gres A :=
  match r with SOk a => GOk a | SErr EIndex => GErr GIndex | SErr EType => GErr GType | SErr EValue => GErr GValue end.

(** 943-1067: the loop from step [i], [k] passes left. Result: rows recorded, clock, generator. *)
Fixpoint walk (eps lfeps rmwEps : Q) (k i : nat) (s : sstate) : gres (list point * Q * G) :=
  match k with
  | O => GOk ([], s_clock s, s_g s)
  | S k' =>
    match step eps lfeps rmwEps i s with
    | Fail e => GErr e
    | Leave clock g => GOk ([], clock, g)
    | Next false s' => GOk ([], s_clock s', s_g s')
    | Next true s' =>
        gbind (walk eps lfeps rmwEps k' (S i) s') (fun r => GOk (s_pt s' :: fst (fst r), snd (fst r), snd r))
    end
  end.
(** 851-1067 *)
Definition singleTrack (lon lat speed bear pres env rmax date jday rmwEps clock : Q) (g : G)
  : gres (list point * Q * G) :=
  match w_maxSteps w with
  | O => GErr GIndex
  | S k =>
    let '(eps, g) := w_normal w 0 (25717 # 10000) g in
    let '(lfeps, g) := w_lognorm w (69527 # 100000) (- 6146 # 100000) (471 # 10000) g in
    let poci := getPoci env (Some pres) lat jday eps in
    let p := {| p_date := date; p_age := 0; p_lon := lon; p_lat := lat; p_speed := speed; p_bear := bear;
                p_pres := Some pres; p_poci := poci; p_rmax := Some rmax |} in
    let s := {| s_pt := p; s_jday := jday; s_dist := (w_dt w * speed)%Q; s_theta := bear; s_v := speed; s_vChi := 0;
                s_bChi := 0; s_dpChi := 0; s_dp := 0; s_offP := Some pres; s_offPoci := poci; s_lfSpeed := speed;
                s_tol := 0; s_clock := clock; s_g := g |} in
    gbind (walk eps lfeps rmwEps k 1 s) (fun r => GOk (p :: fst (fst r), snd (fst r), snd r))
  end.

(** 492-552: the filters. [round2] is np.round(x, 2): half to even. *)
Definition rint (x : Q) : Z :=
  let f := Qfloor x in
  let d := (x - inject_Z f)%Q in
  if qlt d (1 # 2) then f else if qlt (1 # 2) d then (f + 1)%Z else if Z.even f then f else (f + 1)%Z.
Definition round2 (x : Q) : Q := (inject_Z (rint (x * 100)) / 100)%Q.
Definition diedEarly (t : list point) : bool :=
  match rev t with [] => false | p :: _ => qlt (p_age p) 12 end.
Definition insideDomain (g : glimit) (t : list point) : bool :=
  forallb (fun p => qlt (inject_Z (xMin g)) (p_lon p) && qlt (p_lon p) (inject_Z (xMax g)) &&
                    qlt (inject_Z (yMin g)) (p_lat p) && qlt (p_lat p) (inject_Z (yMax g))) t.
Definition validPressures (t : list point) : bool :=
  forallb (fun p => match p_pres p, p_poci p with Some a, Some b => qlt (round2 a) (round2 b) | _, _ => false end) t.
Definition validSize (t : list point) : bool :=
  forallb (fun p => oqlt 5 (p_rmax p)) t && forallb (fun p => oltq (p_rmax p) 500) t.
Definition validInitSize (t : list point) : bool :=
  match t with [] => false | p :: _ => oltq (p_rmax p) 100 end.
Definition validInitPressure (t : list point) : bool :=
  match t with [] => false | p :: _ => oqlt 1 (osub (p_poci p) (p_pres p)) end.
(** 706-711 *)
Definition accepted (t : list point) : bool :=
  match t with
  | [] => false
  | _ => negb (diedEarly t) && validInitPressure t && validPressures t && validSize t && validInitSize t &&
         match w_inner w with None => true | Some g => insideDomain g t end
  end.

(** Prescribed initial conditions (arguments of generateTracks). [given] is Python's truth value. *)
Record inits := { i_lon : option Q; i_lat : option Q; i_speed : option Q; i_bearing : option Q;
                  i_pressure : option Q; i_env : option Q; i_rmax : option Q; i_day : option Q }.
Definition noInits : inits := {| i_lon := None; i_lat := None; i_speed := None; i_bearing := None;
                                 i_pressure := None; i_env := None; i_rmax := None; i_day := None |}.
Definition given (a : option Q) : option Q :=
  match a with Some x => if Qeq_bool x 0 then None else Some x | None => None end.

(** State kept between attempts: [PRNG], numpy's generator, LandfallDecay.tol, self.rmwEps. *)
Record gstate := { g_prng : G; g_np : NG; g_clock : Q; g_rmw : Q }.

(** Day of the year of the genesis date (614-610, 918): %03d drops the fraction, %j takes 1..366. *)
Definition leap (y : Z) : bool := (((y mod 4 =? 0) && negb (y mod 100 =? 0)) || (y mod 400 =? 0))%Z.
Definition trunc (x : Q) : Z := if Qle_bool 0 x then Qfloor x else Qceiling x.
Definition genesisTime (year hour : Z) (day : Q) : gres (Q * Q) :=
  let d := trunc day in
  if ((1 <=? d) && (d <=? 366))%Z
  then let h := (inject_Z hour / 24)%Q in
       GOk ((inject_Z d + h)%Q, (inject_Z (if (d =? 366)%Z && negb (leap year) then 1 else d) + h)%Q)
  else GErr GValue.

(** 653-659: draw the size variate again while the radius exceeds 100. *)
Fixpoint redraw (fuel : nat) (dp : onum) (lat eps : Q) (ng : NG) : gres (Q * Q * NG) :=
  match trackRmax dp lat eps with
  | None => GErr GValue
  | Some r =>
      if qlt 100 r then
        match fuel with
        | O => GFuel
        | S f => let '(e, ng) := w_npnormal w ng in redraw f dp lat e ng
        end
      else GOk (r, eps, ng)
  end.

(** 558-720: one pass of the while loop. Result: environmental pressure kept in [initEnvPressure], the
    track if accepted, the state. *)
Definition attempt (fuel : nat) (year : Z) (a : inits) (st : gstate)
  : gres (option Q * option (list point) * gstate) :=
  let g := g_prng st in
  let '(x, y, z) := w_origin w in
  gbind (match given (i_lon a), given (i_lat a) with
         | Some lo, Some la => GOk (lo, la, g)
         | _, _ => let '(u1, g) := w_uniform w 0 1 g in let '(u2, g) := w_uniform w 0 1 g in
                   gbind (lift (originPpf x y z u1 u2)) (fun q => GOk (fst q, snd q, g))
         end) (fun r1 =>
  let '(lon, lat, g) := r1 in
  match getCellNum lon lat (w_limit w) (w_space w) with
  | None => GErr GValue
  | Some cell =>
  let c := Z.to_nat cell in
  let sample (o : option Q) (t : list (nat * Q * Q)) (g : G) : gres (Q * G) :=
    match given o with
    | Some v => GOk (v, g)
    | None => let '(u, g) := w_uniform w 0 1 g in gbind (lift (ppf u (cellTable t c))) (fun v => GOk (v, g))
    end in
  gbind (sample (i_bearing a) (w_cdfBearing w) g) (fun r => let '(bear, g) := r in
  gbind (sample (i_speed a) (w_cdfSpeed w) g) (fun r => let '(speed, g) := r in
  gbind (sample (i_day a) (w_cdfDay w) g) (fun r => let '(day, g) := r in
  let '(h, g) := w_uniform w 0 24 g in
  gbind (genesisTime year (trunc h) day) (fun tm =>
  let env := match given (i_env a) with Some e => e | None => w_mslp w day lat lon end in
  gbind (match given (i_pressure a) with
         | Some v => GOk (v, g)
         | None =>
             let tab := cellTable (w_cdfPressure w) c in
             gbind (lift (at_py tab (Z.of_nat (searchsorted (map fst tab) env) - 1))) (fun row =>
             let '(u, g) := w_uniform w 0 (snd row) g in
             gbind (lift (ppf u tab)) (fun v => GOk (v, g)))
         end) (fun r => let '(pres, g) := r in
  gbind (match given (i_rmax a) with
         | Some v => GOk (v, g_rmw st, g_np st)
         | None =>
             if w_sizeFile w then GErr GValue
             else let '(e, ng) := w_npnormal w (g_np st) in redraw fuel (Some (env - pres)%Q) lat e ng
         end) (fun r => let '(rmax, rmwEps, ng) := r in
  let st1 := {| g_prng := g; g_np := ng; g_clock := g_clock st; g_rmw := rmwEps |} in
  let '(nlon, nlat) := w_bear2 w bear (w_dt w * speed)%Q lon lat in
  let lim := w_limit w in
  if negb (Qle_bool (inject_Z (xMin lim)) nlon && Qle_bool nlon (inject_Z (xMax lim)) &&
           Qle_bool (inject_Z (yMin lim)) nlat && Qle_bool nlat (inject_Z (yMax lim)))
  then GOk (Some env, None, st1)
  else if qlt (env - pres)%Q 2 then GOk (Some env, None, st1)
  else
    gbind (singleTrack lon lat speed bear pres env rmax (fst tm) (snd tm) rmwEps (g_clock st) g) (fun r =>
    let '(t, clock, g) := r in
    let st2 := {| g_prng := g; g_np := ng; g_clock := clock; g_rmw := rmwEps |} in
    GOk (Some env, if accepted t then Some t else None, st2)))))))) end).

Definition withEnv (a : inits) (e : option Q) : inits :=
  {| i_lon := i_lon a; i_lat := i_lat a; i_speed := i_speed a; i_bearing := i_bearing a;
     i_pressure := i_pressure a; i_env := e; i_rmax := i_rmax a; i_day := i_day a |}.
(** A track with its identifier (number, simulation). *)
Definition itrack := ((nat * Z) * list point)%type.
(** 557-721 the while loop; [fuel] bounds the passes. *)
Fixpoint attempts (fuel : nat) (year : Z) (nTracks : nat) (simId : Z) (a : inits) (j : nat) (st : gstate)
  : gres (list itrack * gstate) :=
  if nTracks <=? j then GOk ([], st)
  else match fuel with
  | O => GFuel
  | S f =>
      gbind (attempt f year a st) (fun r =>
      let '(e, t, st') := r in
      match t with
      | None => attempts f year nTracks simId (withEnv a e) j st'
      | Some t => gbind (attempts f year nTracks simId (withEnv a e) (S j) st') (fun q =>
                  GOk (((j, simId), t) :: fst q, snd q))
      end)
  end.
(** 553-556 and the loop. *)
Definition generateTracks (fuel : nat) (nTracks : nat) (simId : Z) (a : inits) (st : gstate)
  : gres (list itrack * gstate) :=
  let '(y, g) := w_uniform w 1900 9998 (g_prng st) in
  attempts fuel (trunc y) nTracks simId a 0 {| g_prng := g; g_np := g_np st; g_clock := g_clock st; g_rmw := g_rmw st |}.

(** 1838-1896: the simulations [(index, number of tracks)] done by one process, in order. [N] is the
    last index. *)
Fixpoint simulate (fuel : nat) (seed : Z) (N : nat) (sims : list (nat * nat)) (st : gstate)
  : gres (list (nat * list itrack) * gstate) :=
  match sims with
  | [] => GOk ([], st)
  | (i, n) :: r =>
      if N =? 0 then GErr GZeroDiv
      else
        let st := if (seed =? 0)%Z then st
                  else {| g_prng := w_key w (streamKey seed (Z.of_nat i)); g_np := g_np st;
                          g_clock := g_clock st; g_rmw := g_rmw st |} in
        gbind (generateTracks fuel n (Z.of_nat i) noInits st) (fun q =>
        gbind (simulate fuel seed N r (snd q)) (fun s => GOk ((i, fst q) :: fst s, snd s)))
  end.
(** 1735-1896 on process [rank] of [size]; [st0] is the state before (its generators are those of the
    fresh process), [mean] the mean number of cyclones per simulation. *)
Definition run (fuel : nat) (seasonSeed trackSeed : Z) (mean : Q) (nSims : nat) (size rank : nat) (st0 : gstate)
  : gres (list (nat * list itrack)) :=
  if (1 <? size) && ((seasonSeed =? 0)%Z || (trackSeed =? 0)%Z) then GErr GExit
  else
    let ng := if (seasonSeed =? 0)%Z then g_np st0 else w_npseed w seasonSeed in
    let '(counts, ng) := w_poisson w mean nSims ng in
    let sims := combine (seq 0 (length counts)) counts in
    match rev sims with
    | [] => GErr GIndex
    | (last, _) :: _ =>
        gbind (simulate fuel trackSeed last (balanced size rank sims)
                 {| g_prng := g_prng st0; g_np := ng; g_clock := g_clock st0; g_rmw := g_rmw st0 |})
              (fun r => GOk (fst r))
    end.
End Gen.
Arguments world : clear implicits.
Arguments gstate : clear implicits.
Arguments sstate : clear implicits.
Arguments stepres : clear implicits.
Arguments GOk {A}. Arguments GErr {A}. Arguments GFuel {A}.
