(** emc2/simulator/radar_moments.py.

    NSSL-specific velocities of classes other than cloud liquid are not
    modelled: lines 593-599 leave [calc_kws] unbound, so the column
    calculation of such a class always fails. *)
From Verif Require Import Mom_Base Sched_Model Atm_Model Psd_Model Lidar_Model.
Local Open Scope R_scope.

Definition hyd_ext_name (c : bool) : string := ("hyd_ext_" ++ cs c)%string.

(** [10 ** x], [10 * np.log10(x)], [np.where(np.isinf(x), np.nan, x)],
    [x.where(np.isfinite(x))], [x.fillna(1)]. *)
Definition xp10 (x : xr) : xr := xpow (XF 10) x.
Definition db (x : xr) : xr := xmul (XF 10) (xlog10 x).
Definition inf_nan (x : xr) : xr := if isinf x then XNaN else x.
Definition keep_fin (x : xr) : xr := if isfin x then x else XNaN.

(** *** accumulate_attenuation, radar_moments.py 67-145 *)

(** 127-131: two-way transmittance of an accumulated extinction: dB
    (empirical) or optical depth. *)
Definition trans_db (x : xr) : xr := xp10 (xdiv (xmul (XF (-2)) x) (XF 10)).
Definition trans_od (x : xr) : xr := xexp (xmul (XF (-2)) x).

(** The accumulation (110-125) is that of the lidar optical depth, with
    heights in km. *)
Definition accumulate_attenuation (e : menv) (c : bool) (z : arr2) (hyd : arr3) (atm : arr2)
    (sfc emp : bool) : L unit :=
  let hyd := if emp then hyd else map3 (fun x => xmul x (XF 1000)) hyd in
  let zkm : arr2 := fun t k => xdiv (z t k) (XF 1000) in
  run _ <- rd (fun s => g3 s (qn c "cl"));
  let h := of_prof3 (fun i t => od_profile sfc (prof2 e zkm t) (prof3 e hyd i t)) in
  let a := of_prof2 (fun t => od_profile sfc (prof2 e zkm t) (prof2 e atm t)) in
  run _ <- (if emp then lret tt
            else run _ <- rd (fun s => g3 s (out "Ze" "tot" c)); lret tt);
  run _ <- assign (hyd_ext_name c) (V3 (map3 (if emp then trans_db else trans_od) h));
  run _ <- rd (fun s => g2 s (t_name e));
  assign "atm_ext" (V2 (fun t k => trans_db (a t k))).

(** 193-195, 306-308: the total starts from zero. *)
Definition zero_Ze (c : bool) : L unit :=
  run _ <- rd (fun s => g3 s (qn c "cl"));
  assign (out "Ze" "tot" c) (V3 zeros3).

(** *** Empirical method, radar_moments.py 148-233 *)

(** 200-201: water content in g m-3. *)
Definition wc_g (ins : inst) (q p t : xr) : xr := xmul (wc_cell ins q p t) (XF 1000).
(** 203-225: reflectivity (mm^6 m-3) of one cell from its water content. *)
Definition ze_cl (wc : xr) : xr := xmul (XF (31 / 1000)) (xpow wc (XF (156 / 100))).
Definition ze_pl (wc : xr) : xr := xpow (xdiv (xmul wc (XF 1000)) (XF (34 / 10))) (XF (175 / 100)).
Definition ze_hogan (a b : R) (den wc t : xr) : xr :=
  xp10 (xdiv (xdiv (xadd (xadd (xlog10 wc) (xmul (XF a) t)) (XF b)) den) (XF 10)).
Definition within (lo hi f : R) : bool := xleb (XF lo) (XF f) && xltb (XF f) (XF hi).
Definition ze_ice (f : R) (wc t : xr) : xr :=
  let ka := ze_hogan (186 / 10000) (163 / 100)
              (xadd (xmul (XF (242 / 1000000)) t) (XF (699 / 10000))) wc t in
  if within (2 * 10 ^ 9) (4 * 10 ^ 9) f
  then ze_hogan (197 / 10000) (17 / 10) (XF (60 / 1000)) wc t
  else if within (27 * 10 ^ 9) (40 * 10 ^ 9) f then ka
  else if within (75 * 10 ^ 9) (110 * 10 ^ 9) f
  then ze_hogan (706 / 100000) (992 / 1000)
         (xadd (xmul (XF (580 / 1000000)) t) (XF (923 / 10000))) wc t
  else ka.

Definition is_cl (h : string) : bool := String.eqb (lower h) "cl".
Definition is_pl (h : string) : bool := String.eqb (lower h) "pl".

(** The loop over classes shared by the empirical (197-227) and bulk
    (314-456) methods: a class's linear reflectivity is stored and added to
    the total with missing values as 0.  [optics] gives it, with the Python
    local variables that survive from one iteration to the next. *)
Section Loop.
Context {loc : Type}.
Variable c : bool.
Variable optics : string -> loc -> dset -> res (loc * arr3).
Fixpoint ze_loop (hs : list string) (l : loc) : L loc :=
  match hs with
  | [] => lret l
  | h :: hs' =>
      run r <- rd (optics h l);
      let '(l', ze) := r in
      run _ <- assign (out "Ze" h c) (V3 ze);
      run _ <- add_to (out "Ze" "tot" c) (fill0 ze);
      ze_loop hs' l'
  end.
End Loop.

(** 198-225.  [WC_tot] is reset for every class (199), so the value left
    after the loop is the last class's: its water content when it is cloud
    or rain water, zero otherwise; unbound for an empty list. *)
Definition empirical_class (ins : inst) (c : bool) (p t : arr2) (h : string)
    (wct : option arr3) (s : dset) : res (option arr3 * arr3) :=
  do q <- g3 s (qn c h);
  let wc : arr3 := fun i tt k => wc_g ins (q i tt k) (p tt k) (t tt k) in
  Ok (Some (if is_cl h || is_pl h then lift2 xadd zeros3 wc else zeros3),
      if is_cl h then map3 ze_cl wc
      else if is_pl h then map3 ze_pl wc
      else fun i tt k => ze_ice (freq ins) (wc i tt k) (t tt k)).

(** 228-230: liquid attenuation coefficient, dB m^3 g-1 km-1 (the
    wavelength and the liquid density are assumed not zero). *)
Definition kappa_f (ins : inst) (rho_cl : R) : R :=
  6 * PI / (wavelen ins * rho_cl) * eps_im ins * (434 * 10 ^ 4).

Definition calc_radar_empirical (e : menv) (ins : inst) (c : bool) (p t z : arr2) (atm : arr2)
    (sfc : bool) (hs : list string) : L unit :=
  run _ <- zero_Ze c;
  run wct <- ze_loop c (empirical_class ins c p t) hs None;
  run rh <- rd (fun _ => rho_num e "cl");
  match wct with
  | None => lraise UnboundLocalError
  | Some w => accumulate_attenuation e c z (map3 (fun x => xmul x (XF (kappa_f ins rh))) w) atm sfc true
  end.

(** *** Bulk method (radiation logic), radar_moments.py 236-460 *)

(** 417-418, 438-440, 448-450: backscatter cross-section to reflectivity. *)
Definition ze_scale (ins : inst) (x : xr) : xr :=
  xmul (xdiv (xmul x (XF (wavelen ins ^ 4))) (XF (k_w ins * PI ^ 5))) (XF (/ 10 ^ 6)).

(** 314-456.  The extinction is summed without replacing missing values
    (427, 443, 452).  The liquid classes of the (mu, lambda) families copy
    the dimensions of the cloud-liquid field, the others those of "ci". *)
Definition dims_of (e : menv) (h : string) : string :=
  if memb h ["cl"; "pl"]%string && (String.eqb (rad_family e) "CESM" || String.eqb (rad_family e) "P3")
  then "cl" else "ci".
Definition bulk_class (e : menv) (ins : inst) (c mie : bool) (p z : arr2) (h : string)
    (l : blocals * arr3) (s : dset) : res ((blocals * arr3) * arr3) :=
  do (l1, (ar, re, fl)) <- bulk_area e ins c mie p z h (fst l) s;
  do (l2, (qe, qb)) <- bulk_eff e ins "p3_liq" mie h re fl l1 s;
  do _ <- g3 s (qn c (dims_of e h));
  Ok ((l2, lift2 xadd (snd l) (lift2 xmul qe ar)), lift2 xmul (map3 (ze_scale ins) qb) ar).

Definition calc_radar_bulk (e : menv) (ins : inst) (c : bool) (p z : arr2) (atm : arr2)
    (sfc : bool) (hs : list string) (mie : bool) : L unit :=
  run _ <- rd (fun _ => bulk_luts "p3_liq" (rad_family e));
  run _ <- zero_Ze c;
  run l <- ze_loop c (bulk_class e ins c mie p z) hs (no_locals, zeros3);
  accumulate_attenuation e c z (snd l) atm sfc false.

(** *** Microphysics method, radar_moments.py 463-855 and 1045-1271 *)

(** What one column returns for every (subcolumn, level): velocity
    numerator, moment denominator, extinction, reflectivity, mean velocity,
    spectral width. *)
Record obs := { ob_vn : xr; ob_md : xr; ob_ext : xr; ob_ze : xr; ob_vd : xr; ob_sg : xr }.
Definition obs0 : obs :=
  {| ob_vn := XF 0; ob_md := XF 0; ob_ext := XF 0; ob_ze := XF 0; ob_vd := XF 0; ob_sg := XF 0 |}.

(** 1166-1180 and 1223-1252: the moments of one spectrum; [present] is the
    class's flag (always on for cloud liquid). *)
Definition spectrum (ins : inst) (diam alpha beta v nd : list xr) (present : bool) : obs :=
  let gate x := if present then x else XF 0 in
  let calc := zmul beta nd in
  let od := gate (trapz diam (zmul alpha nd)) in
  let md := gate (trapz diam calc) in
  let vn := gate (trapz diam (zmul v calc)) in
  let vd := xdiv vn md in
  let sn := gate (trapz diam (zmul (map (fun x => xsq (xsub x vd)) v) calc)) in
  {| ob_vn := vn; ob_md := md; ob_ext := od; ob_ze := ze_scale ins md; ob_vd := vd;
     ob_sg := xsqrt (xdiv sn md) |}.

(** 1221, 1114: the exponential distribution used for the classes other
    than cloud liquid and P3 ice. *)
Definition exp_curve (n0 lam : xr) (ds : list xr) : list xr :=
  map (fun d => xmul n0 (xexp (xmul (xopp lam) d))) ds.

(** 625-626, 773-774: the fall velocity of a class over the diameters. *)
Definition power_velocity (e : menv) (h : string) (diam : list xr) : res (list xr) :=
  do a <- dict (vel_a e) h;
  do b <- dict (vel_b e) h;
  Ok (map (fun d => xopp (xmul (XF a) (xpow d (XF b)))) diam).
(** psd.py 42-44. *)
Definition nssl_cl_velocity (diam : list xr) : list xr :=
  map (fun d => xmul (XF (1316 / 10)) (xpow d (XF (824 / 1000)))) diam.

Definition is_nssl (e : menv) : bool := String.eqb (mcphys e) "nssl".

(** 592-626.  [None]: P3 ice, whose velocity comes from its tables. *)
Definition class_velocity (e : menv) (h : string) (diam : list xr) : res (option (list xr)) :=
  if is_nssl e then
    do r <- dict (rho_hyd e) h;
    match r with
    | RConst _ => Ok (Some (nssl_cl_velocity diam))   (* used for "cl" only *)
    | RVar => Raise TypeError                          (* 'variable' * float *)
    end
  else if is_p3ci e h then Ok None
  else do v <- power_velocity e h diam; Ok (Some v).

(** 629-632: air-density correction of the velocity. *)
Definition rhoa_corr (e : menv) (h : string) (ra : arr2) : arr2 :=
  match assoc (vd_ref e) h with
  | Some (Some r) => fun t k => xpow (xdiv (XF r) (ra t k)) (XF (54 / 100))
  | _ => fun _ _ => XF 1
  end.
Definition scale_v (x : xr) (v : list xr) : list xr := map (fun y => xmul y x) v.

(** 1158: every intercept parameter of the level is missing. *)
Definition all_nan_level (e : menv) (n0 : arr3) (tt k : nat) : bool :=
  forallb (fun i => isnan (n0 i tt k)) (seq 0 (nsub e)).

(** 1131-1182: one column of cloud liquid. *)
Definition liquid_column (e : menv) (ins : inst) (ft : fits) (tab : list xr * list xr * list xr)
    (v : list xr) (corr : arr2) (tot : arr3) (tt : nat) : res (nat -> nat -> obs) :=
  let '(diam, beta, alpha) := tab in
  match ft with
  | Fit3 n0 lam mu =>
      Ok (fun i k =>
        if all_zero_level e tot tt k || all_nan_level e n0 tt k then obs0
        else spectrum ins diam alpha beta (scale_v (corr tt k) v)
               (psd_curve (n0 i tt k) (lam i tt k) (mu i tt k) diam) true)
  | Fit2 _ _ _ => Raise IndexError       (* N_0.shape[2] *)
  end.

(** 1257-1271: P3 ice cross-sections and velocity of a level. *)
Definition p3_curve (ins : inst) (w : p3kw) (key : string) (diam : list xr) (tt k : nat) : list xr :=
  map (fun d => p3_single ins key (kw_fr w tt k) (kw_rr w tt k) d) diam.
Definition p3_velocity (ins : inst) (w : p3kw) (diam : list xr) (tt k : nat) : list xr :=
  map xopp (p3_curve ins w "vt" diam tt k).

(** 1185-1254: one column of another class.  Where nothing is present the
    level is skipped before the three-dimensional parameters are read. *)
Definition other_column (e : menv) (ins : inst) (h : string) (mie : bool) (ft : fits)
    (tab : list xr * list xr * list xr) (v : option (list xr)) (corr : arr2) (tot : arr3)
    (fl : nat -> nat -> nat -> bool) (kw : option p3kw) (tt : nat) : res (nat -> nat -> obs) :=
  let '(diam, beta, alpha) := tab in
  if is_nssl e then Raise UnboundLocalError    (* NameError: calc_kws *)
  else if is_p3ci e h then
    match ft, kw with
    | Fit2 n0 lam mu, Some w =>
        Ok (fun i k =>
          if all_zero_level e tot tt k then obs0
          else
            let cs key own := if mie then own else p3_curve ins w key diam tt k in
            spectrum ins diam (cs "alpha_p"%string alpha) (cs "beta_p"%string beta)
              (scale_v (corr tt k) (p3_velocity ins w diam tt k))
              (psd_curve (n0 tt k) (lam tt k) (mu tt k) diam) (fl i tt k))
    | _, _ => Raise TypeError      (* does not arise: P3 ice has Fit2 and its inputs *)
    end
  else
    match ft, v with
    | Fit3 n0 lam _, Some vel =>
        Ok (fun i k =>
          if all_zero_level e tot tt k then obs0
          else spectrum ins diam alpha beta (scale_v (corr tt k) vel)
                 (exp_curve (n0 i tt k) (lam i tt k) diam) (fl i tt k))
    | _, _ =>
        if forallb (all_zero_level e tot tt) (seq 0 (nht e))
        then Ok (fun _ _ => obs0) else Raise IndexError
    end.

(** 548-554: the totals are created only when absent. *)
Definition radar_totals : L unit :=
  run b <- rd (fun s => Ok (has s (out "Ze" "tot" false)));
  if b : bool then lret tt
  else
    run _ <- assign (out "Ze" "tot" false) (V3 zeros3);
    run _ <- assign (out "Vd" "tot" false) (V3 zeros3);
    assign (out "sigma_d" "tot" false) (V3 zeros3).

(** 521-537. *)
Definition radar_lut (mie : bool) (fam : string) : res (string * bool) :=
  if mie then Ok (EmptyString, false) else micro_lut fam.

(** [model.ds.drop_vars(names)]: ValueError when one is missing. *)
Definition drop_vars (names : list string) : L unit :=
  fun s => if forallb (has s) names
           then (Ok tt, mkds (filter (fun p => negb (memb (fst p) names)) (dvars s)) (dseen s))
           else (Raise ValueError, s).

(** The local variables that survive an iteration of 543-729: the two
    numerators, the extinction, the P3 inputs and the density correction. *)
Record rlocals := {
  v_numer : arr3; v_denom : arr3; v_ext : option arr3; v_kw : option p3kw; v_corr : option arr2
}.

Section Micro.
Variable Gam : R -> R.

(** 568 and 778: flag times number concentration. *)
Definition weighted (fl : nat -> nat -> nat -> bool) (n : arr3) : arr3 :=
  fun i t k => if fl i t k then xmul (XF 1) (n i t k) else xmul (XF 0) (n i t k).

(** 543-729: one class.  Cloud liquid replaces the numerators (660-664);
    the other classes add to them; every class replaces the extinction. *)
Definition radar_class (e : menv) (ins : inst) (mie width : bool) (sch : sched) (kw : psd_kw)
    (lut : string * bool) (h : string) (l : rlocals) : L rlocals :=
  run _ <- radar_totals;
  run _ <- assign (out "Ze" h false) (V3 zeros3);
  run _ <- assign (out "Vd" h false) (V3 zeros3);
  run _ <- assign (out "sigma_d" h false) (V3 zeros3);
  run ft <- calc_and_set_psd_params Gam e kw h;
  run fl <- rd (fun s => gb s (fn false h));
  run n <- rd (fun s => g3 s (nn false h));
  let tot := weighted fl n in
  run tab <- rd (fun _ => micro_table ins lut mie h);
  run v <- rd (fun _ => class_velocity e h (fst (fst tab)));
  run w <- (if is_nssl e then lret (v_kw l, None) else micro_kw e ins h (v_kw l));
  run ra <- rd (fun s => g2 s "rho_a");
  let corr := rhoa_corr e h ra in
  run order <- rd (fun _ => tt_order sch (ntm e));
  run cols0 <- rd (fun _ =>
    if String.eqb h "cl"
    then run_cols (liquid_column e ins ft tab (match v with Some x => x | None => [] end) corr tot) order
    else run_cols (other_column e ins h mie ft tab v corr tot fl (snd w)) order);
  run cols <- rd (fun _ => stack_cols e cols0);
  let part f : arr3 := of_cols (fun (o : nat -> nat -> obs) i k => f (o i k)) cols in
  let num f := map3 nan_to_num (part f) in
  let new old f := if String.eqb h "cl" then num f else lift2 xadd old (num f) in
  run _ <- assign (out "Ze" h false) (V3 (part ob_ze));
  run _ <- assign (out "Vd" h false) (V3 (part ob_vd));
  run _ <- (if width then assign (out "sigma_d" h false) (V3 (part ob_sg)) else lret tt);
  run _ <- add_to (out "Ze" "tot" false) (fill0 (part ob_ze));
  lret {| v_numer := new (v_numer l) ob_vn; v_denom := new (v_denom l) ob_md;
          v_ext := Some (num ob_ext); v_kw := fst w; v_corr := Some corr |}.

Fixpoint radar_classes (e : menv) (ins : inst) (mie width : bool) (sch : sched) (kw : psd_kw)
    (lut : string * bool) (hs : list string) (l : rlocals) : L rlocals :=
  match hs with
  | [] => lret l
  | h :: hs' =>
      run l' <- radar_class e ins mie width sch kw lut h l;
      radar_classes e ins mie width sch kw lut hs' l'
  end.

(** 1045-1078: cloud-liquid contribution to the total spectral width. *)
Definition sigma_liquid (e : menv) (ins : inst) (ft : fits) (diam : list xr) (corr : arr2)
    (tot vd : arr3) (tt : nat) : res (nat -> nat -> xr) :=
  do tb <- dict (mie_table ins) "cl";
  do v <- power_velocity e "cl" diam;
  if negb (memb (lower (mcphys e)) ["mg2"; "mg"; "morrison"; "nssl"; "p3"]%string)
     && negb (forallb (all_zero_level e tot tt) (seq 0 (nht e)))
  then Raise UnboundLocalError
  else
    match ft with
    | Fit3 n0 lam mu =>
        Ok (fun i k =>
          if all_zero_level e tot tt k then XF 0
          else trapz diam (zmul (map (fun x => xsq (xsub x (vd i tt k))) (scale_v (corr tt k) v))
                 (zmul (s_beta tb) (psd_curve (n0 i tt k) (lam i tt k) (mu i tt k) diam))))
    | Fit2 _ _ _ => Raise IndexError
    end.

(** 1081-1128: contribution of another class. *)
Definition sigma_other (e : menv) (ins : inst) (h : string) (mie : bool) (ft : fits)
    (tab : list xr * list xr * list xr) (v : option (list xr)) (corr : arr2) (tot vd : arr3)
    (fl : nat -> nat -> nat -> bool) (kw : option p3kw) (tt : nat) : res (nat -> nat -> xr) :=
  let '(diam, beta, alpha) := tab in
  let width b vel nd i k :=
    if fl i tt k
    then trapz diam (zmul (map (fun x => xsq (xsub x (vd i tt k))) (scale_v (corr tt k) vel)) (zmul b nd))
    else XF 0 in
  if is_nssl e then Raise UnboundLocalError
  else if is_p3ci e h then
    match ft, kw with
    | Fit2 n0 lam mu, Some w =>
        Ok (fun i k =>
          if all_zero_level e tot tt k || isnan (n0 tt k) then XF 0
          else width (if mie then beta else p3_curve ins w "beta_p" diam tt k)
                 (p3_velocity ins w diam tt k) (psd_curve (n0 tt k) (lam tt k) (mu tt k) diam) i k)
    | _, _ => Raise TypeError
    end
  else
    match ft, v with
    | Fit3 n0 lam _, Some vel =>
        Ok (fun i k =>
          if all_zero_level e tot tt k || all_nan_level e n0 tt k then XF 0
          else width beta vel (exp_curve (n0 i tt k) (lam i tt k) diam) i k)
    | _, _ =>
        if forallb (all_zero_level e tot tt) (seq 0 (nht e))
        then Ok (fun _ _ => XF 0) else Raise IndexError
    end.

(** 735-833: the second pass over the classes.  The density correction is
    the one left by the last class of the first pass. *)
Fixpoint sigma_loop (e : menv) (ins : inst) (mie : bool) (sch : sched) (kw : psd_kw)
    (lut : string * bool) (p3 : option p3kw) (corr : arr2) (hs : list string) (acc : arr3) : L arr3 :=
  match hs with
  | [] => lret acc
  | h :: hs' =>
      run ft <- calc_and_set_psd_params Gam e kw h;
      run tab <- rd (fun _ => micro_table ins lut mie h);
      run v <- rd (fun _ => class_velocity e h (fst (fst tab)));
      run w <- (if is_nssl e || negb (is_p3ci e h) then lret None
                else match p3 with Some x => lret (Some x) | None => lraise UnboundLocalError end);
      run fl <- rd (fun s => gb s (fn false h));
      run n <- rd (fun s => g3 s (nn false h));
      let tot := weighted fl n in
      run vd <- rd (fun s => g3 s (out "Vd" "tot" false));
      run order <- rd (fun _ => tt_order sch (ntm e));
      run cols0 <- rd (fun _ =>
        if String.eqb h "cl"
        then run_cols (sigma_liquid e ins ft (fst (fst tab)) corr tot vd) order
        else run_cols (sigma_other e ins h mie ft tab v corr tot vd fl w) order);
      run cols <- rd (fun _ => stack_cols e cols0);
      let num := map3 nan_to_num (of_cols (fun (o : nat -> nat -> xr) i k => o i k) cols) in
      sigma_loop e ins mie sch kw lut p3 corr hs'
        (if String.eqb h "cl" then num else lift2 xadd acc num)
  end.

(** 463-855. *)
Definition calc_radar_micro (e : menv) (ins : inst) (z : arr2) (atm : arr2) (sfc : bool)
    (hs : list string) (mie width : bool) (sch : sched) (kw : psd_kw) : L unit :=
  run _ <- rd (fun s => g3 s (qn false "cl"));
  run lut <- rd (fun _ => radar_lut mie (rad_family e));
  run l <- radar_classes e ins mie width sch kw lut hs
             {| v_numer := zeros3; v_denom := zeros3; v_ext := None; v_kw := None; v_corr := None |};
  run _ <- rd (fun s => g3 s (out "Ze" "tot" false));
  run _ <- assign (out "Vd" "tot" false) (V3 (lift2 xdiv (v_numer l) (v_denom l)));
  run sg <- (if width then
               match hs, v_corr l with
               | _ :: _, Some corr => sigma_loop e ins mie sch kw lut (v_kw l) corr hs zeros3
               | _, _ => lret zeros3
               end
             else lret zeros3);
  run _ <- drop_vars ["N_0"; "lambda"; "mu"]%string;
  run _ <- (if width
            then assign (out "sigma_d" "tot" false) (V3 (map3 xsqrt (lift2 xdiv sg (v_denom l))))
            else lret tt);
  match v_ext l with
  | None => lraise UnboundLocalError
  | Some x => accumulate_attenuation e false z x atm sfc false
  end.

(** *** calc_radar_moments, radar_moments.py 858-1042 *)

(** The options of the call. *)
Record ropts := {
  r_sfc : bool;                     (* OD_from_sfc *)
  r_hyds : option (list string);
  r_sched : sched;                  (* parallel, chunk *)
  r_mie : bool;
  r_rad : bool;                     (* use_rad_logic *)
  r_emp : bool;                     (* use_empiric_calc *)
  r_width : bool;                   (* calc_spectral_width *)
  r_kw : psd_kw
}.

(** 998-1005: the reflectivity of each class in dBZ. *)
Fixpoint dbz_loop (c : bool) (hs : list string) : L unit :=
  match hs with
  | [] => lret tt
  | h :: hs' =>
      run a <- rd (fun s => g3 s (out "Ze" h c));
      run _ <- assign (out "Ze" h c) (V3 (map3 (fun x => keep_fin (inf_nan (db x))) a));
      dbz_loop c hs'
  end.

(** 1015-1026: a total in dBZ. *)
Definition total_dbz (x : xr) : xr := inf_nan (db (keep_fin x)).

Definition calc_radar_moments (e : menv) (ins : inst) (o : ropts) (c : bool) : L unit :=
  run hs <- rd (fun _ => set_hyd_types e (r_hyds o));
  if negb (String.eqb (lower (i_class ins)) "radar") then lraise ValueError
  else
    run q <- rd (fun s => Ok (has s (qn c "cl")));
    if negb q then lraise KeyError
    else
      run pr <- rd (fun s => g2 s (p_name e));
      run tr <- rd (fun s => g2 s (t_name e));
      run zr <- rd (fun s => g2 s (z_name e));
      let p : arr2 := fun t k => p_pa e (pr t k) in
      let tc : arr2 := fun t k => t_cel e (tr t k) in
      let z : arr2 := fun t k => z_met e (zr t k) in
      run _ <- calc_radar_atm_attenuation e ins;
      run atm <- rd (fun s => g2 s "kappa_att");
      run _ <- (if r_emp o then calc_radar_empirical e ins c p tc z atm (r_sfc o) hs
                else if r_rad o || c then calc_radar_bulk e ins c p z atm (r_sfc o) hs (r_mie o)
                else calc_radar_micro e ins z atm (r_sfc o) hs (r_mie o) (r_width o)
                       (r_sched o) (r_kw o));
      run _ <- dbz_loop c hs;
      run zt <- rd (fun s => g3 s (out "Ze" "tot" c));
      run he <- rd (fun s => g3 s (hyd_ext_name c));
      run ae <- rd (fun s => g2 s "atm_ext");
      let att : arr3 := fun i t k =>
        xmul (xmul (zt i t k) (fillna 1 (he i t k))) (fillna 1 (ae t k)) in
      run _ <- assign (out "Ze_att" "tot" c) (V3 (map3 total_dbz att));
      assign (out "Ze" "tot" c) (V3 (map3 total_dbz zt)).
End Micro.

(** *** calc_total_reflectivity, radar_moments.py 15-64 *)

(** 31-35: a reflectivity in dBZ back in linear units, 0 when missing. *)
Definition lin (x : xr) : xr := if isfin x then xp10 (xdiv x (XF 10)) else XF 0.
Definition add_lin (z conv : xr) : xr := if isfin conv then xadd z (xp10 (xdiv conv (XF 10))) else z.

(** The flags are stored over (time, height, subcolumn); the index order
    here is (subcolumn, time, height).  The argument [detect_mask] is not
    used. *)
Definition calc_total_reflectivity (e : menv) : L unit :=
  run zs <- rd (fun s => g3 s (out "Ze" "tot" false));
  run zt <- (if p_conv e
             then run zc <- rd (fun s => g3 s (out "Ze" "tot" true));
                  lret (fun i t k => add_lin (lin (zs i t k)) (zc i t k))
             else lret (map3 lin zs));
  let tot := map3 (fun x => keep_fin (inf_nan (db x))) zt in
  run _ <- assign "sub_col_Ze_tot" (V3 (map3 (fun x => inf_nan (db x)) zt));
  run lc <- (if p_conv e
             then run hc <- rd (fun s => g3 s (hyd_ext_name true));
                  lret (fun i t k => xmul (zt i t k) (fillna 1 (hc i t k)))
             else lret zt);
  run hs <- rd (fun s => g3 s (hyd_ext_name false));
  run ae <- rd (fun s => g2 s "atm_ext");
  let att : arr3 := fun i t k => xmul (xmul (lc i t k) (fillna 1 (hs i t k))) (fillna 1 (ae t k)) in
  let attd := map3 (fun x => keep_fin (inf_nan (db x))) att in
  run _ <- assign "sub_col_Ze_att_tot" (V3 attd);
  run _ <- assign "sub_col_Ze_tot" (V3 tot);
  run zm <- rd (fun s => g2 s "Ze_min");
  assign "detect_mask" (VB (fun i t k => xleb (attd i t k) (zm t k))).
