(** C26-C29, C56: classification masks and phase ratios.  Vocabulary:
    Mom_Spec.v, Lidar_Spec.v, Class_Spec.v. *)
From Verif Require Import Mom_Base Mom_Spec Lidar_Spec Lidar_Witness Class_Model Class_Spec Class_Lidar
  Class_Cosp Class_Ratio Class_Witness Class_Miss.
From Coq Require Import ZArith.
Local Open Scope R_scope.

(** C26: [mask_is] says that each cell holds the value of the last class of
    the list whose threshold is reached, 0 (or NaN on request) when there is
    none or when the optical depth exceeds the extinction limit. *)
Theorem C26_lidar_phase_class : forall e ins deflt arg ths conv0 remove s,
  lower (i_class ins) = "lidar"%string -> ths_of arg deflt ths ->
  Forall thr_ok ths -> Forall (fun th => (th_ind th <= length ths)%nat) ths ->
  (exists a, var3 s "sub_col_LDR_tot" a) -> (exists a, var3 s "sub_col_LDR_strat" a) ->
  (forall p, In p (lidar_masks e (i_str ins)) -> fields_of s remove p) ->
  exists s', lidar_classify_phase e ins deflt arg conv0 remove s = (Ok tt, s') /\
    unchanged_except (map mname (lidar_masks e (i_str ins))) s s' /\
    forall p, In p (lidar_masks e (i_str ins)) -> mask_is e (ext_OD ins) ths conv0 remove s s' p.
Proof. exact lidar_classify_run. Qed.
Print Assumptions C26_lidar_phase_class.
(** Other instruments, and instruments without thresholds, are refused. *)
Theorem C26_not_a_lidar : forall e ins deflt arg conv0 remove s,
  lower (i_class ins) <> "lidar"%string -> lidar_classify_phase e ins deflt arg conv0 remove s = (Raise ValueError, s).
Proof. exact lidar_classify_other. Qed.
Print Assumptions C26_not_a_lidar.
Theorem C26_no_thresholds : forall e ins conv0 remove s,
  lidar_classify_phase e ins [] None conv0 remove s = (Raise ValueError, s).
Proof. exact lidar_classify_no_thresholds. Qed.
Print Assumptions C26_no_thresholds.
(** With the HSRL thresholds: liquid at LDR 0 and backscatter 1e-3, nothing
    where the optical depth is 6, ice at LDR 1/2 and backscatter 4e-4. *)
Example C26_witness : exists s',
  lidar_classify_phase we w_ins hsrl_thr None false true w_cl = (Ok tt, s') /\
  value s' "phase_mask_HSRL_all_hyd" 0 0 0 = XF 1 /\ value s' "phase_mask_HSRL_all_hyd" 0 0 2 = XF 0 /\
  value s' "strat_phase_mask_HSRL" 1 0 1 = XF 2.
Proof. exact w_lidar_class. Qed.

(** C27: [fields_ok] gives the stored fields and, for every cell, the class
    determined by [cosp_class]. *)
Theorem C27_cosp_mask : forall e ins o hs S Ta Te B O s b0,
  i_str ins = "HSRL"%string -> classes_of e (c_hyds o) hs ->
  real2 e s "sigma_180_vol" S -> real2 e s "tau" Ta -> real2 e s (t_name e) Te ->
  (forall t k, point e t k -> 0 < S t k /\ 0 < Ta t k) ->
  var3 s "sub_col_beta_p_tot_strat" b0 -> (exists q0, var3 s "strat_q_subcolumns_cl" q0) ->
  (forall c h, In c (cloud_types e) -> In h (cosp_liq o hs ++ cosp_ice o hs) ->
      numb e s (out "beta_p" h c) (B c h) /\ numb e s (out "OD" h c) (O c h)) ->
  ~ In (t_name e) (flat_map (cosp_names o) (cosp_masks e)) ->
  exists s', lidar_emulate_cosp_phase e ins o s = (Ok tt, s') /\
    unchanged_except (flat_map (cosp_names o) (cosp_masks e)) s s' /\
    forall mask suffix cls, In (mask, suffix, cls) (cosp_masks e) ->
      fields_ok e o mask suffix s'
        (cosp_sr o hs S Ta B O cls) (cosp_tot o hs S Ta B O cls) (cosp_crs o hs S Ta B O cls) Te.
Proof. exact cosp_run. Qed.
Print Assumptions C27_cosp_mask.
Theorem C27_four_values : forall o n SR tot cr T k v, cosp_class o n SR tot cr T k v -> (v <= 3)%nat.
Proof. exact cosp_class_range. Qed.
Print Assumptions C27_four_values.
(** ... with these curves by default: the phase discrimination curve and the
    cross-polarised parts of liquid and ice backscatter, in the attenuated total
    backscatter [x]. *)
Theorem C27_default_curves : forall x,
  poly disc_curve x = 9032 * x ^ 5 - 2136 * x ^ 4 + 173394 / 1000 * x ^ 3 - 3951 / 1000 * x ^ 2 + 256 / 1000 * x - 9478 / 10000000 /\
  poly cross_liq x = 4099 / 10000 * x ^ 2 + 9 / 1000 * x /\ poly cross_ice x = 2904 / 10000 * x.
Proof. exact default_curves. Qed.
Print Assumptions C27_default_curves.
Theorem C27_only_HSRL : forall e ins o hs s, classes_of e (c_hyds o) hs -> i_str ins <> "HSRL"%string ->
  lidar_emulate_cosp_phase e ins o s = (Raise ValueError, s).
Proof. exact cosp_other. Qed.
Print Assumptions C27_only_HSRL.
(** Liquid at the lowest level, undefined above it, no convective cloud. *)
Example C27_witness : exists s', lidar_emulate_cosp_phase we w_ins (w_copts true) w_cl = (Ok tt, s') /\
  value s' "strat_COSP_phase_mask" 0 0 0 = XF 1 /\ value s' "strat_COSP_phase_mask" 0 0 1 = XF 3 /\
  value s' "conv_COSP_phase_mask" 0 0 0 = XF 0.
Proof. exact w_cosp. Qed.

(** C56: the scattering ratio of a cell without particles is not 1. *)
Theorem C56_clear_air_ratio : forall o hs S Ta B O cls i t k,
  c_liq o = cross_liq -> c_ice o = cross_ice -> 0 < S t k -> 0 < Ta t k ->
  (forall c h, In c cls -> In h (cosp_liq o hs ++ cosp_ice o hs) -> B c h i t k = 0 /\ O c h i t k = 0) ->
  cosp_sr o hs S Ta B O cls i t k =
    1 + INR (length cls) * (2994/10000 + 4099/10 * (S t k * Ta t k) - 2 * (mdep / (1 + mdep))) / (1 + mdep).
Proof. exact clear_air. Qed.
Print Assumptions C56_clear_air_ratio.
Theorem C56_clear_air_above_one : forall o hs S Ta B O cls i t k,
  c_liq o = cross_liq -> c_ice o = cross_ice -> 0 < S t k -> 0 < Ta t k ->
  (forall c h, In c cls -> In h (cosp_liq o hs ++ cosp_ice o hs) -> B c h i t k = 0 /\ O c h i t k = 0) ->
  1 + INR (length cls) * (2/10) <= cosp_sr o hs S Ta B O cls i t k.
Proof. exact clear_air_above. Qed.
Print Assumptions C56_clear_air_above_one.
Theorem C56_clear_air_is_one_refuted : exists s' v, lidar_emulate_cosp_phase we w_ins (w_copts true) w_cl = (Ok tt, s') /\
  value s' "COSP_SR_conv" 0 0 0 = XF v /\ 12/10 < v.
Proof. exact w_clear. Qed.
Print Assumptions C56_clear_air_is_one_refuted.
Example C56_witness : value w_cl "sub_col_OD_cl_conv" 0 0 0 = XF 0 /\ value w_cl "sub_col_OD_ci_conv" 0 0 0 = XF 0 /\
  fillna 0 (value w_cl "sub_col_beta_p_cl_conv" 0 0 0) = XF 0 /\ value w_cl "sub_col_beta_p_ci_conv" 0 0 0 = XF 0.
Proof. repeat split. Qed.

(** C28. *)
Theorem C28_radar_phase_class : forall e ins rng conv0 s ze zm Z F,
  lower (i_class ins) = "radar"%string ->
  (forall p, In p (radar_masks e (i_str ins)) -> var3 s (snd (fst p)) (ze (snd (fst p)))) ->
  var2 s "Ze_min" zm -> (rng <> None -> real2 e s (z_name e) Z) ->
  (forall c, In c (cloud_types e) -> varb s (fn c "cl") (F c)) ->
  ~ In (z_name e) (map (fun p => fst (fst p)) (radar_masks e (i_str ins))) ->
  exists s', radar_classify_phase e ins rng conv0 s = (Ok tt, s') /\
    unchanged_except (map (fun p => fst (fst p)) (radar_masks e (i_str ins))) s s' /\
    forall mask zf cls, In (mask, zf, cls) (radar_masks e (i_str ins)) ->
      exists m, var3 s' mask m /\ forall i t k, cell e i t k ->
        exists v, m i t k = shown conv0 v /\ radar_class rng (ze zf i t k) (zm t k) (Z t k) (cloudy cls F i t k) v.
Proof. exact radar_classify_run. Qed.
Print Assumptions C28_radar_phase_class.
Example C28_witness : exists s', radar_classify_phase we w_radar (Some (150, 1000)) false w_cl = (Ok tt, s') /\
  value s' "strat_phase_mask_KAZR_sounding" 0 0 1 = XF 2 /\ value s' "conv_phase_mask_KAZR_sounding" 0 0 1 = XF 1 /\
  value s' "phase_mask_KAZR_sounding_all_hyd" 0 0 0 = XF 0.
Proof. exact w_radar_class. Qed.

(** C29: the frequency phase ratio is the number of subcolumns in the
    numerator classes over the number in the denominator classes (by
    default: with any positive class). *)
Theorem C29_frequency_ratio : forall e qs variable cls al hso hs s m Te,
  classes_of e hso hs -> var3 s variable m -> var2 s (t_name e) Te ->
  (forall i t k, cell e i t k -> mask_cell (m i t k)) ->
  (forall l, al = Some l -> ~ In 0%Z l) -> ~ In 0%Z cls -> (al = None -> cell e 0 0 0) ->
  exists s' r, calculate_phase_ratio e qs variable cls al false false hso s = (Ok tt, s') /\
    unchanged_except [(variable ++ "_fpr")%string] s s' /\ var2 s' (variable ++ "_fpr") r /\
    forall t k, point e t k -> exists a d,
      count (fun i => is_class (m i t k) cls) (nsub e) a /\
      count (fun i => match al with Some l => is_class (m i t k) l | None => exceeds (m i t k) 0 end) (nsub e) d /\
      (d = 0%nat -> r t k = XNaN) /\ (d <> 0%nat -> r t k = XF (INR a / INR d)).
Proof. exact fpr_run. Qed.
Print Assumptions C29_frequency_ratio.
(** ... and then within [0, 1], NaN exactly when the denominator is 0; the
    numerator does not exceed the denominator when its classes are among them. *)
Theorem C29_frequency_bounds : forall (v : xr) a d,
  (a <= d)%nat -> (d = 0%nat -> v = XNaN) -> (d <> 0%nat -> v = XF (INR a / INR d)) ->
  (v = XNaN <-> d = 0%nat) /\ (forall r, v = XF r -> 0 <= r <= 1).
Proof. exact fpr_unit. Qed.
Print Assumptions C29_frequency_bounds.
Theorem C29_numerator_below : forall (P Q : nat -> Prop) m a b,
  (forall i, (i < m)%nat -> P i -> Q i) -> count P m a -> count Q m b -> (a <= b)%nat.
Proof. exact count_le. Qed.
Print Assumptions C29_numerator_below.

(** The mass phase ratios: per subcolumn cell and summed over subcolumns,
    counting the cells whose mask is positive; and from the model fields. *)
Theorem C29_mass_ratio : forall e qs variable cls al hso hs s m Te fl Q,
  classes_of e hso hs -> var3 s variable m -> varb s (fn false "cl") fl -> var2 s (t_name e) Te ->
  (forall c h, In c (cloud_types e) -> In h (liquid_of hs ++ ice_of hs) ->
     real3 e s (qn c h) (Q c h) /\ forall i t k, cell e i t k -> 0 <= Q c h i t k) ->
  exists s' r rs l ic, calculate_phase_ratio e qs variable cls al true true hso s = (Ok tt, s') /\
    unchanged_except [(variable ++ "_mpr")%string; (variable ++ "_mpr_sum")%string] s s' /\
    var3 s' (variable ++ "_mpr") r /\ var2 s' (variable ++ "_mpr_sum") rs /\
    (forall i t k, cell e i t k ->
       set_mass e m Q (liquid_of hs) i t k (l i t k) /\ set_mass e m Q (ice_of hs) i t k (ic i t k) /\
       0 <= l i t k /\ 0 <= ic i t k /\ share (r i t k) (l i t k) (ic i t k)) /\
    (forall t k, point e t k -> share (rs t k) (sumR (fun i => l i t k) (nsub e)) (sumR (fun i => ic i t k) (nsub e))).
Proof. exact mpr_run. Qed.
Print Assumptions C29_mass_ratio.
Theorem C29_model_mass_ratio : forall e qs variable cls al hso hs s Te n0 q0 Q,
  classes_of e hso hs -> var2 s (t_name e) Te -> assoc qs "cl"%string = Some n0 -> var2 s n0 q0 ->
  (forall h, In h (liquid_of hs ++ ice_of hs) -> (exists n, assoc qs h = Some n /\ real2 e s n (Q h)) /\
     forall t k, point e t k -> 0 <= Q h t k) ->
  exists s' r, calculate_phase_ratio e qs variable cls al true false hso s = (Ok tt, s') /\
    unchanged_except ["mpr_q"%string] s s' /\ var2 s' "mpr_q" r /\
    forall t k, point e t k -> share (r t k) (sum_over (liquid_of hs) (fun h => Q h t k)) (sum_over (ice_of hs) (fun h => Q h t k)).
Proof. exact mpr_q_run. Qed.
Print Assumptions C29_model_mass_ratio.
Theorem C29_mass_bounds : forall v a b, 0 <= a -> 0 <= b -> share v a b ->
  v = XNaN \/ exists r, v = XF r /\ 0 <= r <= 1.
Proof. exact share_unit. Qed.
Print Assumptions C29_mass_bounds.
Example C29_witness_frequency : exists s' r,
  calculate_phase_ratio we [] "mask" [1%Z] None false false None w_cl = (Ok tt, s') /\
  var2 s' "mask_fpr" r /\ r 0%nat 0%nat = XF (1/2).
Proof. exact w_fpr. Qed.
Example C29_witness_mass : exists s' r rs,
  calculate_phase_ratio we [] "mask" [1%Z] None true true None w_cl = (Ok tt, s') /\
  var3 s' "mask_mpr" r /\ var2 s' "mask_mpr_sum" rs /\ r 1%nat 0%nat 2%nat = XF (10/11) /\ rs 0%nat 2%nat = XF (10/11).
Proof. exact w_mpr. Qed.

(** C138: mass phase ratios when masses may be missing.  In a subcolumn the
    ratio is missing if any class's mass is; in the column, a phase of a cell
    counts with its mass if no class of that phase is missing there and with
    nothing otherwise.  Missing from C138: a missing mass should not remove the
    other classes of its phase. *)
Theorem C138_missing_masses_partial : forall e qs variable cls al hso hs s m Te fl a,
  classes_of e hso hs -> var3 s variable m -> varb s (fn false "cl") fl -> var2 s (t_name e) Te ->
  (forall c h, In c (cloud_types e) -> In h (liquid_of hs ++ ice_of hs) -> var3 s (qn c h) (a c h) /\
     forall i t k, cell e i t k -> real_or_nan (a c h i t k) /\ 0 <= cell_number (a c h i t k)) ->
  exists s' r rs l ic, calculate_phase_ratio e qs variable cls al true true hso s = (Ok tt, s') /\
    unchanged_except [(variable ++ "_mpr")%string; (variable ++ "_mpr_sum")%string] s s' /\
    var3 s' (variable ++ "_mpr") r /\ var2 s' (variable ++ "_mpr_sum") rs /\
    (forall i t k, cell e i t k -> exceeds (m i t k) 0 ->
       In XNaN (class_masses e a (liquid_of hs ++ ice_of hs) i t k) -> r i t k = XNaN) /\
    (forall i t k, cell e i t k -> counted e m a (liquid_of hs) i t k (l i t k) /\ counted e m a (ice_of hs) i t k (ic i t k)) /\
    (forall t k, point e t k -> share (rs t k) (sumR (fun i => l i t k) (nsub e)) (sumR (fun i => ic i t k) (nsub e))).
Proof. exact missing_masses. Qed.
Print Assumptions C138_missing_masses_partial.
(** Two subcolumns, 10^-4 of cloud water and 10^-5 of ice in either cloud type,
    except that the convective cloud water of the first subcolumn is missing.
    The liquid present is 3*10^-4 and the ice 4*10^-5, a ratio of 15/17; the
    result is 5/6, since the stratiform water of the first subcolumn is lost. *)
Theorem C138_present_masses_refuted :
  (forall c h, In c (cloud_types we) -> In h (liquid_of ["cl"; "ci"]%string ++ ice_of ["cl"; "ci"]%string) ->
     var3 w_miss (qn c h) (w_miss_q c h) /\
     forall i t k, cell we i t k -> real_or_nan (w_miss_q c h i t k) /\ 0 <= cell_number (w_miss_q c h i t k)) /\
  exists s' r rs, calculate_phase_ratio we [] "mask" [1%Z] None true true None w_miss = (Ok tt, s') /\
    var3 s' "mask_mpr" r /\ var2 s' "mask_mpr_sum" rs /\ r 0%nat 0%nat 2%nat = XNaN /\ rs 0%nat 2%nat = XF (5/6).
Proof. exact (conj w_miss_ok w_miss_ratio). Qed.
Print Assumptions C138_present_masses_refuted.
