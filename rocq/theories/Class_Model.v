(** emc2/simulator/classification.py.  Masks are stored as numbers; uint8 and
    float masks are not distinguished (class values are below 256). *)
From Verif Require Export Mom_Base.
From Coq Require Import ZArith.
Local Open Scope string_scope.
Local Open Scope list_scope.
Local Open Scope R_scope.

(** One element of [beta_p_phase_thresh]. *)
Record thr := { th_ind : nat; th_ldr : list R; th_beta : list R }.

(** [np.where(mask == 0, nan, mask)] when [convert_zeros_to_nan]. *)
Definition zeros_nan (conv0 : bool) (v : xr) : xr := if conv0 && xeqb v (XF 0) then XNaN else v.

(** classification.py 75-81: one cell; later classes overwrite earlier ones. *)
Definition phase_cell (ths : list thr) (ldr beta : xr) : xr :=
  fold_left (fun m th =>
    if xleb (np_interp ldr (map XF (th_ldr th)) (map (fun b => xlog10 (XF b)) (th_beta th)))
            (if xltb (XF 0) beta then xlog10 beta else XNaN)
    then XF (INR (th_ind th)) else m) ths (XF 0).
(** 82-83: [Class_legend[class_ind - 1]] with a legend of [len(ths)] entries. *)
Definition legend_ok (ths : list thr) : bool := forallb (fun th => (th_ind th <=? length ths)%nat) ths.

(** 68-92: one mask.  [names] = (mask, LDR, OD, beta_p). *)
Definition classify_one (ext : R) (ths : list thr) (conv0 remove : bool)
    (mask ldr od beta : string) : L unit :=
  run _ <- rd (fun s => g3 s "sub_col_LDR_tot");
  run bl <- (match ths with
             | [] => lret (zeros3, zeros3)
             | _ => run b <- rd (fun s => g3 s beta); run l <- rd (fun s => g3 s ldr); lret (b, l)
             end);
  run _ <- (if legend_ok ths then lret tt else lraise IndexError);
  let m1 : arr3 := fun i t k => phase_cell ths (snd bl i t k) (fst bl i t k) in
  run m2 <- (if remove then
               run o <- rd (fun s => g3 s od);
               lret (fun i t k => if xltb (XF ext) (o i t k) then XF 0 else m1 i t k)
             else lret m1);
  run _ <- rd (fun s => g3 s "sub_col_LDR_strat");
  assign mask (V3 (map3 (zeros_nan conv0) m2)).

(** 41-94: [lidar_classify_phase]; [deflt] is the instrument's
    [beta_p_phase_thresh]. *)
Definition lidar_classify_phase (e : menv) (ins : inst) (deflt : list thr) (arg : option (list thr))
    (conv0 remove : bool) : L unit :=
  if negb (String.eqb (lower (i_class ins)) "lidar") then lraise ValueError else
  run ths <- (match arg with
              | Some l => lret l
              | None => match deflt with [] => lraise ValueError | _ => lret deflt end
              end);
  run _ <- (if p_conv e then
      run _ <- classify_one (ext_OD ins) ths conv0 remove ("strat_phase_mask_" ++ i_str ins)%string
                 "sub_col_LDR_strat" "sub_col_OD_tot_strat" "sub_col_beta_p_tot_strat";
      classify_one (ext_OD ins) ths conv0 remove ("conv_phase_mask_" ++ i_str ins)%string
                 "sub_col_LDR_conv" "sub_col_OD_tot_conv" "sub_col_beta_p_tot_conv"
    else lret tt);
  classify_one (ext_OD ins) ths conv0 remove ("phase_mask_" ++ i_str ins ++ "_all_hyd")%string
     "sub_col_LDR_tot" "sub_col_OD_tot" "sub_col_beta_p_tot".

(** *** Radar *)
(** 152-161: one cell. *)
Definition sounding_cell (rng : option (R * R)) (ze zmin z : xr) (cloud : bool) : xr :=
  let m0 := if xleb zmin ze then 3%nat else 0%nat in
  let m1 := if cloud && negb (m0 =? 3)%nat then 1%nat else m0 in
  let m2 := if cloud && (m1 =? 3)%nat then 2%nat else m1 in
  match rng with
  | None => XF (INR m2)
  | Some (lo, hi) => if xltb z (XF lo) || xltb (XF hi) z then XF 0 else XF (INR m2)
  end.
(** 146-168: one mask. *)
Definition sounding_one (e : menv) (rng : option (R * R)) (conv0 : bool) (mask ze : string)
    (cloud : nat -> nat -> nat -> bool) : L unit :=
  run z <- rd (fun s => g3 s ze);
  run zm <- rd (fun s => g2 s "Ze_min");
  run zz <- (match rng with None => lret (fun _ _ => XNaN) | Some _ => rd (fun s => g2 s (z_name e)) end);
  assign mask (V3 (fun i t k => zeros_nan conv0 (sounding_cell rng (z i t k) (zm t k) (zz t k) (cloud i t k)))).

(** 121-170: [radar_classify_phase]. *)
Definition radar_classify_phase (e : menv) (ins : inst) (rng : option (R * R)) (conv0 : bool) : L unit :=
  if negb (String.eqb (lower (i_class ins)) "radar") then lraise ValueError else
  run cl <- rd (fun s => gb s (fn false "cl"));
  if p_conv e then
    run cc <- rd (fun s => gb s (fn true "cl"));
    run _ <- sounding_one e rng conv0 ("strat_phase_mask_" ++ i_str ins ++ "_sounding")%string "sub_col_Ze_att_tot_strat" cl;
    run _ <- sounding_one e rng conv0 ("conv_phase_mask_" ++ i_str ins ++ "_sounding")%string "sub_col_Ze_att_tot_conv" cc;
    sounding_one e rng conv0 ("phase_mask_" ++ i_str ins ++ "_sounding_all_hyd")%string "sub_col_Ze_att_tot"
      (fun i t k => cl i t k || cc i t k)
  else
    sounding_one e rng conv0 ("phase_mask_" ++ i_str ins ++ "_sounding_all_hyd")%string "sub_col_Ze_att_tot" cl.

(** *** COSP emulation *)
(** [np.polyval]. *)
Definition polyval (p : list R) (x : xr) : xr := fold_left (fun y c => xadd (xmul y x) (XF c)) p (XF 0).
(** 232-236 (defaults). *)
Definition disc_curve : list R := [9032; -2136; 173394/1000; -3951/1000; 256/1000; -9478/10000000].
Definition cross_liq : list R := [4099/10000; 9/1000; 0].
Definition cross_ice : list R := [2904/10000; 0].
Record copts := {
  c_eta : R; c_sfc : bool; c_curve : list R; c_liq : list R; c_ice : list R;
  c_cloud : R; c_undef : R; c_precip : bool; c_conv0 : bool; c_atb : bool; c_hyds : option (list string) }.

(** 257-266: backscatter and optical depth of a group of classes. *)
Fixpoint cosp_group (c : bool) (hs group : list string) : L (arr3 * arr3) :=
  match group with
  | [] => lret (zeros3, zeros3)
  | h :: rest =>
      if memb h hs then
        run b <- rd (fun s => g3 s (out "beta_p" h c));
        run o <- rd (fun s => g3 s (out "OD" h c));
        run r <- cosp_group c hs rest;
        lret (lift2 xadd (map3 nan_to_num b) (fst r), lift2 xadd (map3 nan_to_num o) (snd r))
      else cosp_group c hs rest
  end.
(** 267-274: the cross-polarised backscatter of a group, per cell. *)
Definition transm (eta : R) (od : xr) : xr := xexp (xmul (XF (-2 * eta)) od).
Definition cross_cell (eta : R) (coef : list R) (sig tau b od : xr) : xr :=
  let atb_co := xmul (xmul (xadd sig b) tau) (transm eta od) in
  let atb_cross := xdiv (polyval coef (xmul atb_co (XF 1000))) (XF 1000) in
  xsub (xdiv (xdiv atb_cross (transm eta od)) tau) (xmul sig (XF (284/10000 / (1 + 284/10000)))).
(** 278-285, 339-346: total and cross-polarised attenuated backscatter. *)
Definition atb_tot (eta : R) (sig tau b cr od : xr) : xr :=
  xmul (xmul (xadd (xadd b cr) (xmul sig (XF (1 + 284/10000)))) (transm eta od)) tau.
Definition atb_cross (eta : R) (sig tau cr od : xr) : xr :=
  xmul (xmul (xadd cr (xmul sig (XF (284/10000 / (1 + 284/10000))))) (transm eta od)) tau.
(** 243-244, 289, 350: scattering ratio. *)
Definition sr_cell (sig tau tot : xr) : xr := xdiv tot (xmul (xmul sig (XF (1 + 284/10000))) tau).

(** 297-302, 359-364: running count of reflective layers from the instrument,
    with the first one set to 0. *)
Fixpoint count_from (n : nat) (l : list bool) : list nat :=
  match l with
  | [] => []
  | b :: l' => let n' := if b then S n else n in n' :: count_from n' l'
  end.
Definition reflective (sfc : bool) (und : R) (sr : list xr) : list nat :=
  let hi := map (xltb (XF und)) sr in
  let cnt := if sfc then count_from 0 hi else rev (count_from 0 (rev hi)) in
  map (fun p => if (fst p : bool) && (snd p =? 1)%nat then 0%nat else snd p) (combine hi cnt).
(** 294-312, 355-374: the mask of a profile (per level). *)
Definition cosp_cell (o : copts) (sr tot cr temp : xr) (refl : nat) : xr :=
  let m0 := if xltb (XF (c_cloud o)) sr then 1%nat else 0%nat in
  let m1 := if xltb (xdiv (polyval (c_curve o) (xmul tot (XF 1000))) (XF 1000)) cr && (m0 =? 1)%nat then 2%nat else m0 in
  let m2 := if xltb (XF (27315/100)) temp && (0 <? m1)%nat then 1%nat else m1 in
  let m3 := if xltb temp (XF (23315/100)) && (0 <? m2)%nat then 2%nat else m2 in
  let m4 := if (0 <? refl)%nat && (0 <? m3)%nat then 3%nat else m3 in
  zeros_nan (c_conv0 o) (XF (INR m4)).
Definition cosp_mask (e : menv) (o : copts) (sr tot cr : arr3) (temp : arr2) : arr3 :=
  fun i t k => cosp_cell o (sr i t k) (tot i t k) (cr i t k) (temp t k)
                 (nth k (reflective (c_sfc o) (c_undef o) (prof3 e sr i t)) 0%nat).
(** 314-336, 376-396: storing a mask, and the fields when [output_ATB]. *)
Definition cosp_store (e : menv) (o : copts) (mask suffix : string) (sig tau : arr2) (b cr od : arr3) : L unit :=
  let tot : arr3 := fun i t k => atb_tot (c_eta o) (sig t k) (tau t k) (b i t k) (cr i t k) (od i t k) in
  let crs : arr3 := fun i t k => atb_cross (c_eta o) (sig t k) (tau t k) (cr i t k) (od i t k) in
  let sr : arr3 := fun i t k => sr_cell (sig t k) (tau t k) (tot i t k) in
  run _ <- rd (fun s => g3 s "strat_q_subcolumns_cl");
  run temp <- rd (fun s => g2 s (t_name e));
  run _ <- assign mask (V3 (cosp_mask e o sr tot crs temp));
  if c_atb o then
    run _ <- assign ("COSP_ATBtot_" ++ suffix)%string (V3 tot);
    run _ <- assign ("COSP_ATBcross_" ++ suffix)%string (V3 crs);
    assign ("COSP_SR_" ++ suffix)%string (V3 sr)
  else lret tt.
(** 249-336: one cloud type; the sums over all types are carried along. *)
Definition cosp_type (e : menv) (o : copts) (hs : list string) (sig tau : arr2) (c : bool)
    (acc : arr3 * arr3 * arr3) : L (arr3 * arr3 * arr3) :=
  run l <- cosp_group c hs (if c_precip o then ["cl"; "pl"] else ["cl"]);
  run ic <- cosp_group c hs (if c_precip o then ["ci"; "pi"] else ["ci"]);
  let crl : arr3 := fun i t k => cross_cell (c_eta o) (c_liq o) (sig t k) (tau t k) (fst l i t k) (snd l i t k) in
  let cri : arr3 := fun i t k => cross_cell (c_eta o) (c_ice o) (sig t k) (tau t k) (fst ic i t k) (snd ic i t k) in
  let b := lift2 xadd (fst l) (fst ic) in
  let cr := lift2 xadd crl cri in
  let od := lift2 xadd (snd l) (snd ic) in
  run _ <- cosp_store e o (cs c ++ "_COSP_phase_mask")%string (cs c) sig tau b cr od;
  let '(ba, ca, oa) := acc in
  lret (lift2 xadd ba b, lift2 xadd ca cr, lift2 xadd oa od).
(** 222-398: [lidar_emulate_cosp_phase].  The sums are formed in a different
    order (real addition is associative). *)
Definition lidar_emulate_cosp_phase (e : menv) (ins : inst) (o : copts) : L unit :=
  run hs <- rd (fun _ => set_hyd_types e (c_hyds o));
  if negb (String.eqb (i_str ins) "HSRL") then lraise ValueError else
  run sig <- rd (fun s => g2 s "sigma_180_vol");
  run tau <- rd (fun s => g2 s "tau");
  run _ <- rd (fun s => g3 s "sub_col_beta_p_tot_strat");
  run a1 <- (if p_conv e then cosp_type e o hs sig tau true (zeros3, zeros3, zeros3) else lret (zeros3, zeros3, zeros3));
  run a2 <- cosp_type e o hs sig tau false a1;
  let '(b, cr, od) := a2 in
  cosp_store e o "COSP_phase_mask_all_hyd" "all_hyd" sig tau b cr od.

(** *** Phase ratios *)
(** [astype(np.int8)]: truncation (values within -128..127); NaN converts to
    0 on common platforms. *)
Definition int8 (v : xr) : Z :=
  match v with XF r => if Rlt_dec r 0 then (- Int_part (- r))%Z else Int_part r | _ => 0%Z end.
Definition isin (v : xr) (l : list Z) : bool := existsb (Z.eqb (int8 v)) l.
Definition count_in (e : menv) (m : arr3) (l : list Z) (t k : nat) : nat :=
  length (filter (fun i => isin (m i t k) l) (seq 0 (nsub e))).
(** 479-480: [range(1, max + 1)]; ValueError for an empty array. *)
Definition all_cells (e : menv) (m : arr3) : list Z :=
  flat_map (fun i => flat_map (fun t => map (fun k => int8 (m i t k)) (seq 0 (nht e))) (seq 0 (ntm e))) (seq 0 (nsub e)).
Definition upto (z : Z) : list Z := map Z.of_nat (seq 1 (Z.to_nat z)).
Definition default_all (e : menv) (m : arr3) : res (list Z) :=
  match all_cells e m with [] => Raise ValueError | z :: l => Ok (upto (fold_left Z.max l z)) end.
(** 443-454, 466-471: masses of a group of classes where the mask is set. *)
Fixpoint mass_group (m : arr3) (c : bool) (group : list string) (acc : arr3) : L arr3 :=
  match group with
  | [] => lret acc
  | h :: rest =>
      run q <- rd (fun s => g3 s (qn c h));
      mass_group m c rest (fun i t k => xadd (acc i t k) (if xltb (XF 0) (m i t k) then q i t k else XF 0))
  end.
Fixpoint mass_model (qs : list (string * string)) (group : list string) (acc : arr2) : L arr2 :=
  match group with
  | [] => lret acc
  | h :: rest =>
      run n <- rd (fun _ => dict qs h);
      run q <- rd (fun s => g2 s n);
      mass_model qs rest (fun t k => xadd (acc t k) (q t k))
  end.
Definition ratio (a b : xr) : xr := xdiv a (xadd a b).
(** [np.nansum] over subcolumns. *)
Definition nansum (e : menv) (m : arr3) (t k : nat) : xr := xsum (map (fun i => fillna 0 (m i t k)) (seq 0 (nsub e))).
(** 433-492: [calculate_phase_ratio]; [qs] is [model.q_names_stratiform]. *)
Definition calculate_phase_ratio (e : menv) (qs : list (string * string)) (variable : string)
    (mask_class : list Z) (mask_allhyd : option (list Z)) (mass_pr subcolmod : bool)
    (hso : option (list string)) : L unit :=
  run hs <- rd (fun _ => set_hyd_types e hso);
  let group l := filter (fun h => memb h hs) l in
  if mass_pr then
    if subcolmod then
      run _ <- rd (fun s => gb s (fn false "cl"));
      run m <- rd (fun s => g3 s variable);
      run l1 <- (if p_conv e then mass_group m true (group ["cl"; "pl"]) zeros3 else lret zeros3);
      run i1 <- (if p_conv e then mass_group m true (group ["ci"; "pi"]) zeros3 else lret zeros3);
      run l2 <- mass_group m false (group ["cl"; "pl"]) l1;
      run i2 <- mass_group m false (group ["ci"; "pi"]) i1;
      run _ <- rd (fun s => g2 s (t_name e));
      run _ <- assign (variable ++ "_mpr")%string (V3 (lift2 ratio l2 i2));
      assign (variable ++ "_mpr_sum")%string
        (V2 (fun t k => ratio (nansum e l2 t k) (nansum e i2 t k)))
    else
      run n <- rd (fun _ => dict qs "cl");
      run _ <- rd (fun s => g2 s n);
      run l <- mass_model qs (group ["cl"; "pl"]) (fun _ _ => XF 0);
      run ic <- mass_model qs (group ["ci"; "pi"]) (fun _ _ => XF 0);
      run _ <- rd (fun s => g2 s (t_name e));
      assign "mpr_q" (V2 (fun t k => ratio (l t k) (ic t k)))
  else
    run m <- rd (fun s => g3 s variable);
    run al <- (match mask_allhyd with Some l => lret l | None => rd (fun _ => default_all e m) end);
    run _ <- rd (fun s => g2 s (t_name e));
    assign (variable ++ "_fpr")%string
      (V2 (fun t k => let d := count_in e m al t k in
                      xdiv (XF (INR (count_in e m mask_class t k)))
                           (if (d =? 0)%nat then XNaN else XF (INR d)))).
