(** C30-C35, C57-C60: radar moments.  Statements use the vocabulary of
    Mom_Spec.v, Lidar_Spec.v and Radar_Spec.v only. *)
From Verif Require Import Mom_Base Mom_Spec Mom_Facts Sched_Model Atm_Model Lidar_Model Lidar_Spec Lidar_Witness
  Radar_Model Radar_Spec Radar_Total Radar_Att Radar_Api Radar_Corol Radar_Gas Radar_Liq Radar_Nan Radar_Vapour Radar_Min Radar_Witness.
Local Open Scope R_scope.

(** C30: the total is the sum of the linear stratiform and convective
    reflectivities, in dBZ. *)
Theorem C30_total_reflectivity : forall e s M, total_inputs e s M ->
  exists s' b, calc_total_reflectivity e s = (Ok tt, s')
  /\ unchanged_except ["sub_col_Ze_tot"; "sub_col_Ze_att_tot"; "detect_mask"]%string s s'
  /\ (forall i t k, value s' "sub_col_Ze_tot" i t k = dBZ (total_linear e s i t k))
  /\ varb s' "detect_mask" b
  /\ forall i t k, cell e i t k ->
       b i t k = true <-> exists d, value s' "sub_col_Ze_att_tot" i t k = XF d /\ d <= M t k.
Proof. exact total_spec. Qed.
Print Assumptions C30_total_reflectivity.
(** ... NaN exactly where neither part has a reflectivity ([linear] counts a
    missing part as 0 and is positive otherwise). *)
Theorem C30_nothing_is_nan : forall e s i t k,
  dBZ (total_linear e s i t k) = XNaN <->
  isfin (value s "sub_col_Ze_tot_strat" i t k) = false
  /\ (p_conv e = true -> isfin (value s "sub_col_Ze_tot_conv" i t k) = false).
Proof. exact total_nan. Qed.
Print Assumptions C30_nothing_is_nan.
(** ... and attenuation multiplies by the transmittances of both cloud types
    and of the gases, a missing one counting as 1. *)
Theorem C30_attenuated_total : forall e s M s' hs hc ae i t k Ts Tc Ta, total_inputs e s M ->
  calc_total_reflectivity e s = (Ok tt, s') ->
  var3 s "hyd_ext_strat" hs -> (p_conv e = true -> var3 s "hyd_ext_conv" hc) -> var2 s "atm_ext" ae ->
  transmits (hs i t k) Ts -> (if p_conv e then transmits (hc i t k) Tc else Tc = 1) -> transmits (ae t k) Ta ->
  value s' "sub_col_Ze_att_tot" i t k = dBZ (total_linear e s i t k * Tc * Ts * Ta).
Proof. exact total_attenuated. Qed.
Print Assumptions C30_attenuated_total.

(** C31: the mask is True exactly where there is an attenuated reflectivity
    at or below the minimum detectable one.  Missing for the full property:
    cells without a signal. *)
Theorem C31_mask_partial : forall e s M, total_inputs e s M ->
  exists s' b, calc_total_reflectivity e s = (Ok tt, s') /\ varb s' "detect_mask" b
  /\ forall i t k, cell e i t k ->
       b i t k = true <-> exists d, value s' "sub_col_Ze_att_tot" i t k = XF d /\ d <= M t k.
Proof. exact mask_spec. Qed.
Print Assumptions C31_mask_partial.
(** A cell without a signal is never marked. *)
Theorem C31_no_signal_is_unmarked : forall e s M s', total_inputs e s M -> calc_total_reflectivity e s = (Ok tt, s') ->
  forall i t k, total_linear e s i t k = 0 -> value s' "sub_col_Ze_tot" i t k = XNaN /\
    value s' "sub_col_Ze_att_tot" i t k = XNaN /\ exists b, varb s' "detect_mask" b /\ b i t k = false.
Proof. exact no_signal. Qed.
Print Assumptions C31_no_signal_is_unmarked.
Theorem C31_no_signal_refuted : exists e s s' b,
  calc_total_reflectivity e s = (Ok tt, s') /\ varb s' "detect_mask" b /\
  cell e 1 0 0 /\ value s' "sub_col_Ze_tot" 1 0 0 = XNaN /\ value s' "sub_col_Ze_att_tot" 1 0 0 = XNaN /\
  b 1%nat 0%nat 0%nat = false.
Proof. exact no_signal_refuted. Qed.
Print Assumptions C31_no_signal_refuted.
Example C30_C31_witness : total_inputs w_e w_tot_ds (fun _ _ => 8) /\ exists s' b,
  calc_total_reflectivity w_e w_tot_ds = (Ok tt, s') /\ varb s' "detect_mask" b /\
  value s' "sub_col_Ze_tot" 0 0 0 = XF 10 /\
  (exists d, value s' "sub_col_Ze_att_tot" 0 0 0 = XF d /\ d < 8 /\ b 0%nat 0%nat 0%nat = true).
Proof. exact w_total. Qed.

(** C32: the minimum detectable reflectivity. *)
Theorem C32_range_law : forall e ins ref s Z,
  0 < ref -> real2 e s (z_name e) Z -> (forall t k, point e t k -> 0 < Z t k) ->
  exists s', calc_radar_Ze_min e ins (XF ref) s = (Ok tt, s')
    /\ unchanged_except ["Ze_min"]%string s s'
    /\ real2 e s' "Ze_min" (fun t k => min_detectable (z_min_1km ins) ref (Z t k)).
Proof. exact ze_min_run. Qed.
Print Assumptions C32_range_law.
Theorem C32_range_law_shape : forall zmin ref,
  (forall z z', 0 < z -> z < z' -> min_detectable zmin ref z < min_detectable zmin ref z')
  /\ min_detectable zmin ref ref = zmin
  /\ forall z, 0 < z -> min_detectable zmin ref (2 * z) = min_detectable zmin ref z + 20 * (ln 2 / ln 10).
Proof. exact min_detectable_shape. Qed.
Print Assumptions C32_range_law_shape.
Example C32_witness : exists s', calc_radar_Ze_min w_e w_radar (XF 1000) w_ds = (Ok tt, s') /\
  value s' "Ze_min" 0 0 0 = XNaN /\ exists f, real2 w_e s' "Ze_min" f /\ f 0%nat 0%nat = -70.
Proof. exact w_ze_min. Qed.

(** C33: transmittances accumulated from any non-negative extinction. *)
Theorem C33_transmittance : forall e c z hyd atm sfc emp s Z H A q zt tk,
  (forall t k, point e t k -> z t k = XF (Z t k)) ->
  (forall i t k, cell e i t k -> hyd i t k = XF (H i t k)) ->
  (forall t k, point e t k -> atm t k = XF (A t k)) ->
  var3 s (qn c "cl") q -> (emp = false -> var3 s (out "Ze" "tot" c) zt) ->
  var2 s (t_name e) tk -> t_name e <> ("hyd_ext_" ++ cs c)%string ->
  (forall t k, (t < ntm e)%nat -> (S k < nht e)%nat -> Z t k <= Z t (S k)) ->
  (forall i t k, cell e i t k -> 0 <= H i t k) -> (forall t k, point e t k -> 0 <= A t k) ->
  exists s' TH TA, accumulate_attenuation e c z hyd atm sfc emp s = (Ok tt, s')
    /\ real3 e s' ("hyd_ext_" ++ cs c)%string TH /\ real2 e s' "atm_ext" TA
    /\ (forall i t k, cell e i t k -> 0 < TH i t k <= 1 /\ 0 < TA t k <= 1)
    /\ (forall i t k, cell e i t k -> at_instrument sfc (nht e) k -> TH i t k = 1 /\ TA t k = 1)
    /\ (forall i t k k', cell e i t k -> cell e i t k' -> not_nearer sfc k k' ->
          TH i t k' <= TH i t k /\ TA t k' <= TA t k).
Proof. exact transmittance_bounds. Qed.
Print Assumptions C33_transmittance.
(** ... their values. *)
Theorem C33_transmittance_value : forall e c z hyd atm sfc emp s Z H A q zt tk,
  (forall t k, point e t k -> z t k = XF (Z t k)) ->
  (forall i t k, cell e i t k -> hyd i t k = XF (H i t k)) ->
  (forall t k, point e t k -> atm t k = XF (A t k)) ->
  var3 s (qn c "cl") q -> (emp = false -> var3 s (out "Ze" "tot" c) zt) ->
  var2 s (t_name e) tk -> t_name e <> ("hyd_ext_" ++ cs c)%string ->
  exists s', accumulate_attenuation e c z hyd atm sfc emp s = (Ok tt, s')
    /\ unchanged_except [("hyd_ext_" ++ cs c)%string; "atm_ext"%string] s s'
    /\ real3 e s' ("hyd_ext_" ++ cs c)%string (fun i t k =>
         if emp then two_way_dB (path sfc (nht e) (km (Z t)) (H i t) k)
         else two_way (path sfc (nht e) (Z t) (H i t) k))
    /\ real2 e s' "atm_ext" (fun t k => two_way_dB (path sfc (nht e) (km (Z t)) (A t) k)).
Proof. exact accumulate_attenuation_real. Qed.
Print Assumptions C33_transmittance_value.
(** C60: the transmittances of a whole calculation with the empirical method.
    Missing for the full property: the bulk and microphysics methods. *)
Theorem C60_empirical_call_partial : forall Gam e ins o c hs s s1 P T Q Z rh,
  radar_tables_ok e c -> r_emp o = true -> plain hs -> 0 < r_d ins ->
  atmosphere e s P T Q Z ->
  (forall t k, (t < ntm e)%nat -> (S k < nht e)%nat -> Z t k <= Z t (S k)) ->
  (forall h, In h hs -> exists q, real3 e s (qn c h) q /\ forall i t k, cell e i t k -> 0 <= q i t k) ->
  rho_num e "cl" = Ok rh -> 0 < rh -> 0 < wavelen ins -> 0 <= eps_im ins ->
  calc_radar_moments Gam e ins (radar_hyds o hs) c s = (Ok tt, s1) ->
  exists TH TA, real3 e s1 ("hyd_ext_" ++ cs c)%string TH /\ real2 e s1 "atm_ext" TA
    /\ (forall i t k, cell e i t k -> 0 < TH i t k <= 1 /\ 0 < TA t k <= 1)
    /\ (forall i t k, cell e i t k -> at_instrument (r_sfc o) (nht e) k -> TH i t k = 1 /\ TA t k = 1)
    /\ (forall i t k k', cell e i t k -> cell e i t k' -> not_nearer (r_sfc o) k k' ->
          TH i t k' <= TH i t k /\ TA t k' <= TA t k).
Proof. exact empirical_transmittance. Qed.
Print Assumptions C60_empirical_call_partial.
(** The bulk method for an instrument above the model accumulates a negative
    extinction in the top layer: the transmittance exceeds 1. *)
Theorem C60_bulk_from_above_refuted : forall Gam, exists e ins o c s s1 T,
  calc_radar_moments Gam e ins o c s = (Ok tt, s1) /\ cell e 0 0 1 /\
  value s1 ("hyd_ext_" ++ cs c)%string 0 0 1 = XF T /\ 1 < T.
Proof. exact bulk_from_above. Qed.
Print Assumptions C60_bulk_from_above_refuted.
Example C33_witness : atmosphere w_e w_ds (fun _ _ => 900) (fun _ _ => 280) (fun _ _ => 1/1000)
    (fun _ k => 100 * INR (S k))
  /\ (forall c, radar_tables_ok w_e c) /\ forall Gam hs, In hs [["cl"; "ci"]; ["ci"; "cl"]]%string ->
  plain hs /\ (forall h, In h hs -> exists q, real3 w_e w_ds (qn false h) q /\ forall i t k, cell w_e i t k -> 0 <= q i t k) /\
  rho_num w_e "cl" = Ok 1000 /\
  exists s1, calc_radar_moments Gam w_e w_radar (radar_hyds (w_ropts true true []) hs) false w_ds = (Ok tt, s1).
Proof. exact w_C33. Qed.

(** C34 (radar, empirical and bulk methods): each class contributes the same
    whatever the other classes are and their order, and the total is the sum
    of the contributions, a missing one counting as 0. *)
Theorem C34_radar_contributions : forall Gam e ins o c s,
  radar_tables_ok e c -> r_emp o || r_rad o || c = true ->
  exists Z : string -> arr3, forall hs s1,
    plain hs -> (forall h, In h hs -> rfree e o h) ->
    calc_radar_moments Gam e ins (radar_hyds o hs) c s = (Ok tt, s1) ->
    (forall h i t k, In h hs -> value s1 (out "Ze" h c) i t k = to_dBZ (Z h i t k))
    /\ (forall i t k, value s1 (out "Ze" "tot" c) i t k
          = to_dBZ (xsum (map (fun h => fillna 0 (Z h i t k)) hs))).
Proof. exact radar_contributions. Qed.
Print Assumptions C34_radar_contributions.
Theorem C34_radar_empirical_total : forall Gam e ins o c hs s s1 P Tc,
  radar_tables_ok e c -> r_emp o = true -> plain hs -> 0 < r_d ins ->
  (forall t k, point e t k -> exists a, var2 s (p_name e) a /\ p_pa e (a t k) = XF (P t k)) ->
  (forall t k, point e t k -> exists a, var2 s (t_name e) a /\ t_cel e (a t k) = XF (Tc t k)) ->
  (forall t k, point e t k -> -150 < Tc t k) ->
  (forall h, In h hs -> exists Q, real3 e s (qn c h) Q) ->
  calc_radar_moments Gam e ins (radar_hyds o hs) c s = (Ok tt, s1) ->
  forall i t k, cell e i t k ->
    linear (value s1 (out "Ze" "tot" c) i t k) = sum_over hs (fun h => linear (value s1 (out "Ze" h c) i t k))
    /\ value s1 (out "Ze" "tot" c) i t k = dBZ (sum_over hs (fun h => linear (value s1 (out "Ze" h c) i t k))).
Proof. exact empirical_linear_total. Qed.
Print Assumptions C34_radar_empirical_total.
(** The order of the classes: every field of the bulk method, and all but the
    hydrometeor transmittance and the attenuated total of the empirical one.
    Missing for the full property: those two fields. *)
Theorem C34_radar_class_order_partial : forall Gam e ins o c hs1 hs2 s s1,
  radar_tables_ok e c -> r_emp o || r_rad o || c = true -> plain hs1 -> (forall h, In h hs1 -> rfree e o h) ->
  Permutation hs1 hs2 ->
  calc_radar_moments Gam e ins (radar_hyds o hs1) c s = (Ok tt, s1) ->
  exists s2, calc_radar_moments Gam e ins (radar_hyds o hs2) c s = (Ok tt, s2)
    /\ (forall x, x <> ("hyd_ext_" ++ cs c)%string -> x <> out "Ze_att" "tot" c ->
          same_value (assoc (dvars s1) x) (assoc (dvars s2) x))
    /\ (r_emp o = false -> same_data s1 s2).
Proof. exact radar_perm. Qed.
Print Assumptions C34_radar_class_order_partial.
Theorem C34_radar_class_order_refuted : forall Gam, exists e ins o s s1 s2,
  calc_radar_moments Gam e ins (radar_hyds o ["cl"; "ci"]%string) false s = (Ok tt, s1) /\
  calc_radar_moments Gam e ins (radar_hyds o ["ci"; "cl"]%string) false s = (Ok tt, s2) /\
  value s1 "hyd_ext_strat" 0 0 1 = XF 1 /\
  exists T, value s2 "hyd_ext_strat" 0 0 1 = XF T /\ T < 1.
Proof. exact class_order_refuted. Qed.
Print Assumptions C34_radar_class_order_refuted.
Example C34_radar_witness : forall Gam emp, (forall c, radar_tables_ok w_e c) /\ plain ["cl"; "ci"]%string /\
  (forall h, In h ["cl"; "ci"]%string -> rfree w_e (w_ropts emp true []) h) /\
  exists s1, calc_radar_moments Gam w_e w_radar (radar_hyds (w_ropts emp true []) ["cl"; "ci"]%string) false w_ds
    = (Ok tt, s1).
Proof. exact w_C34. Qed.

(** C57: with the empirical method only the last class attenuates, and not at
    all if it is an ice class. *)
Theorem C57_last_class_attenuates : forall Gam e ins o c hs h s s1,
  radar_tables_ok e c -> r_emp o = true -> plain (hs ++ [h]) ->
  calc_radar_moments Gam e ins (radar_hyds o (hs ++ [h])) c s = (Ok tt, s1) ->
  exists s2, calc_radar_moments Gam e ins (radar_hyds o [h]) c s = (Ok tt, s2)
    /\ same_value (assoc (dvars s1) ("hyd_ext_" ++ cs c)%string) (assoc (dvars s2) ("hyd_ext_" ++ cs c)%string).
Proof. exact empirical_last. Qed.
Print Assumptions C57_last_class_attenuates.
Theorem C57_ice_last_no_attenuation : forall Gam e ins o c hs h s s1 Z,
  radar_tables_ok e c -> r_emp o = true -> plain (hs ++ [h]) ->
  lower h <> "cl"%string -> lower h <> "pl"%string -> heights e s Z ->
  calc_radar_moments Gam e ins (radar_hyds o (hs ++ [h])) c s = (Ok tt, s1) ->
  forall i t k, cell e i t k -> value s1 ("hyd_ext_" ++ cs c)%string i t k = XF 1.
Proof. exact empirical_ice_last. Qed.
Print Assumptions C57_ice_last_no_attenuation.
(** If it is a liquid class, its water attenuates along the path. *)
Theorem C57_liquid_last_value : forall Gam e ins o c hs h s s1 P T Q Z W,
  radar_tables_ok e c -> r_emp o = true -> plain (hs ++ [h]) -> 0 < r_d ins ->
  atmosphere e s P T Q Z -> lower h = "cl"%string \/ lower h = "pl"%string -> real3 e s (qn c h) W ->
  calc_radar_moments Gam e ins (radar_hyds o (hs ++ [h])) c s = (Ok tt, s1) ->
  exists rh, assoc (rho_hyd e) "cl" = Some (RConst rh) /\
  forall i t k, cell e i t k ->
    value s1 ("hyd_ext_" ++ cs c)%string i t k
    = XF (two_way_dB (path (r_sfc o) (nht e) (km (Z t)) (fun j =>
        1000 * liquid_content ins (W i t j) (100 * P t j) (T t j) * liquid_attenuation ins rh) k)).
Proof. exact empirical_liquid_last. Qed.
Print Assumptions C57_liquid_last_value.
Example C57_witness : forall Gam, heights w_e w_ds (fun _ k => 100 * INR (S k)) /\ exists s1 s2,
  calc_radar_moments Gam w_e w_radar (radar_hyds (w_ropts true true []) (["cl"%string] ++ ["ci"%string])) false w_ds = (Ok tt, s1) /\
  calc_radar_moments Gam w_e w_radar (radar_hyds (w_ropts true true []) (["ci"%string] ++ ["cl"%string])) false w_ds = (Ok tt, s2) /\
  value s1 "hyd_ext_strat" 0 0 1 = XF 1 /\
  exists T, value s2 "hyd_ext_strat" 0 0 1 = XF T /\ T < 1.
Proof. exact w_C57. Qed.

(** C58: bulk method: beyond a level where such a class is absent the
    hydrometeor transmittance is missing and only the gases attenuate. *)
Theorem C58_gap_hides_attenuation : forall Gam e ins o c hs h s s1 b i t j k,
  radar_tables_ok e c -> r_emp o = false -> r_rad o || c = true -> plain hs ->
  (forall h', In h' hs -> self_contained e h') ->
  In h hs -> size_table e h -> varb s (fn c h) b -> b i t j = false ->
  cell e i t j -> cell e i t k -> nearer (r_sfc o) j k ->
  calc_radar_moments Gam e ins (radar_hyds o hs) c s = (Ok tt, s1) ->
  value s1 ("hyd_ext_" ++ cs c)%string i t k = XNaN /\
  forall d A TA, value s1 (out "Ze" "tot" c) i t k = XF d ->
    var2 s1 "atm_ext" A -> A t k = XF TA -> 0 < TA ->
    value s1 (out "Ze_att" "tot" c) i t k = XF (d + 10 * (ln TA / ln 10)).
Proof. exact bulk_absent_hides. Qed.
Print Assumptions C58_gap_hides_attenuation.
Example C58_witness : forall Gam, plain ["cl"; "ci"]%string /\
  (forall h, In h ["cl"; "ci"]%string -> self_contained w_e h) /\ size_table w_e "cl" /\
  varb w_gap_ds (fn false "cl") w_gap /\ w_gap 0 0 1 = false /\
  exists s1, calc_radar_moments Gam w_e w_radar (radar_hyds (w_ropts false true []) ["cl"; "ci"]%string) false w_gap_ds
    = (Ok tt, s1).
Proof. exact w_bulk_gap. Qed.

(** C59: the stored oxygen attenuation does not depend on the frequency: for
    any radar frequency (Hz) it is the published formula's limit far above
    the oxygen lines. *)
Theorem C59_oxygen_frequency_free : forall ins p praw t,
  10 ^ 9 <= freq ins -> 0 < p <= 2000 -> 0 < praw -> p <= praw \/ p <= 600 -> 100 <= t ->
  exists w, kappa_o2 ins (XF p) (XF praw) (XF t) = XF w /\
  (1 - / 10 ^ 6) * o2_high p praw t <= w <= (1 + / 10 ^ 6) * o2_high p praw t.
Proof. exact o2_frequency_free. Qed.
Print Assumptions C59_oxygen_frequency_free.
(** On the 60 GHz line near the surface the formula gives 60 dB/km, the limit
    0.013 dB/km. *)
Theorem C59_oxygen_line_missed :
  60 <= o2_absorption 60 1013 1013 300 /\ o2_high 1013 1013 300 <= 13 / 1000.
Proof. exact o2_at_60. Qed.
Print Assumptions C59_oxygen_line_missed.
Example C59_witness : 10 ^ 9 <= freq w_radar /\ 0 < 1013 <= 2000 /\ 1013 <= 1013 /\ 100 <= 300.
Proof. exact w_C59. Qed.

(** C136: the fields of gas attenuation, and how little of the water vapour
    they hold. *)
Theorem C136_gas_fields : forall e ins s P T Q Z, 0 < r_d ins -> atmosphere e s P T Q Z ->
  exists s1 st, calc_radar_atm_attenuation e ins s = (Ok tt, s1) /\
    unchanged_except ["kappa_o2"; "kappa_wv"; "kappa_att"]%string s s1 /\ real2 e s (p_name e) st /\
    real2 e s1 "kappa_o2" (fun t k => o2_absorption (freq ins) (P t k) (st t k) (T t k)) /\
    real2 e s1 "kappa_wv" (fun t k => wv_stored (freq ins) (P t k) (T t k) (vapour_content ins (Q t k) (P t k) (T t k))) /\
    real2 e s1 "kappa_att" (fun t k => o2_absorption (freq ins) (P t k) (st t k) (T t k) +
      wv_stored (freq ins) (P t k) (T t k) (vapour_content ins (Q t k) (P t k) (T t k))).
Proof. exact gas_fields. Qed.
Print Assumptions C136_gas_fields.
Theorem C136_humidity_without_effect : forall ins q p t,
  10 ^ 9 <= freq ins -> 200 <= r_d ins -> 0 <= q <= 1 / 10 -> 0 < p <= 2000 -> 100 <= t ->
  exists w, kappa_wv ins (XF q) (XF p) (XF t) = XF w /\ 12 / 10 ^ 7 <= w <= 121 / 10 ^ 8.
Proof. exact vapour_negligible. Qed.
Print Assumptions C136_humidity_without_effect.
(** 10 g m-3 on the 22 GHz line. *)
Theorem C136_vapour_line_missed : 15 / 100 <= wv_absorption (22235 / 1000) 1013 300 10.
Proof. exact wv_at_22. Qed.
Print Assumptions C136_vapour_line_missed.
Example C136_witness : 0 < r_d w_radar /\ 200 <= r_d w_radar /\ 10 ^ 9 <= freq w_radar /\
  atmosphere w_e w_ds (fun _ _ => 900) (fun _ _ => 280) (fun _ _ => 1/1000) (fun _ k => 100 * INR (S k)).
Proof. split; [cbn; lra|]. split; [cbn; lra|]. split; [apply w_C59|]. exact w_atmosphere. Qed.

(** C35 (radar, empirical and bulk methods): repeating the call any number of
    times succeeds and changes nothing.  Missing: the single-particle
    (microphysics) method. *)
Theorem C35_radar_repeat_partial : forall Gam e ins o c hs s s1 n,
  radar_tables_ok e c -> classes_of e (r_hyds o) hs -> r_emp o || r_rad o || c = true ->
  calc_radar_moments Gam e ins o c s = (Ok tt, s1) ->
  let again s := snd (calc_radar_moments Gam e ins o c s) in
  fst (calc_radar_moments Gam e ins o c (Nat.iter n again s1)) = Ok tt /\
  forall x, assoc (dvars (Nat.iter n again s1)) x = assoc (dvars s1) x.
Proof. exact radar_repeat. Qed.
Print Assumptions C35_radar_repeat_partial.
