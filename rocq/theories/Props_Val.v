(** C74-C77: values of the fields of each hydrometeor class.  The formulas
    are those of Val_Spec.v. *)
From Verif Require Import Mom_Base Mom_Spec Sched_Model Psd_Model Lidar_Model Lidar_Spec Lidar_Witness Class_Spec
  Radar_Model Radar_Spec Radar_Witness Val_Spec Val_Lidar Val_Bulk Val_Radar Val_Witness
  Val_Trans Val_Trans_Wit.
Local Open Scope R_scope.

(** C74: empirical lidar method. *)
Theorem C74_empirical_extinction_and_backscatter : forall Gam e ins o c hs s s1 h Q P T,
  tables_ok e c -> classes_of e (o_hyds o) hs -> o_emp o = true -> ~ In "tot"%string hs ->
  calc_lidar_moments Gam e ins o c s = (Ok tt, s1) -> In h hs ->
  0 < r_d ins -> pressures e s P -> temperatures e s T -> real3 e s (qn c h) Q ->
  exists lr, assoc (lidar_ratio e) h = Some lr /\
  forall i t k, cell e i t k ->
    let w := water_content (r_d ins) (Q i t k) (P t k) (T t k) in
    (forall rho rn Re, In h ["cl"; "pl"]%string -> assoc (rho_hyd e) h = Some (RConst rho) ->
       assoc (if c then re_conv e else re_strat e) h = Some rn -> real2 e s rn Re -> 0 < rho -> 0 < Re t k -> -(27315/100) < T t k ->
       value s1 (out "alpha_p" h c) i t k = XF (liquid_extinction rho w (Re t k))) /\
    (~ In h ["cl"; "pl"]%string -> -90 < T t k -> 0 <= w ->
       value s1 (out "alpha_p" h c) i t k = XF (if Rlt_dec 0 w then ice_extinction w (T t k) else 0)) /\
    (forall x, lr <> 0 -> value s1 (out "alpha_p" h c) i t k = XF x ->
       value s1 (out "beta_p" h c) i t k = XF (x / lr)).
Proof. exact empirical_lidar_values. Qed.
Print Assumptions C74_empirical_extinction_and_backscatter.
Example C74_witness : forall Gam, exists s1,
  calc_lidar_moments Gam w_e w_ins (w_opts true) false v_ds = (Ok tt, s1) /\
  value s1 "sub_col_alpha_p_cl_strat" 0 0 1 = XF (3 * (89 / (287 * 280 * 10)) * 50) /\
  value s1 "sub_col_beta_p_cl_strat" 0 0 1 = XF (3 * (89 / (287 * 280 * 10)) * 50 / 18) /\
  value s1 "sub_col_alpha_p_ci_strat" 0 0 1 = XF (ice_extinction (89 / (287 * 280 * 100)) (685/100)).
Proof. exact v_lidar_emp. Qed.

(** C75: empirical radar method. *)
Theorem C75_empirical_reflectivity : forall Gam e ins o c hs s s1 h Q P T,
  radar_tables_ok e c -> r_emp o = true -> plain hs -> classes_of e (r_hyds o) hs ->
  calc_radar_moments Gam e ins o c s = (Ok tt, s1) -> In h hs ->
  0 < r_d ins -> pressures e s P -> temperatures e s T -> real3 e s (qn c h) Q ->
  forall i t k, cell e i t k -> -150 < T t k ->
    let w := 1000 * water_content (r_d ins) (Q i t k) (P t k) (T t k) in
    0 <= w ->
    value s1 (out "Ze" h c) i t k =
      if Rlt_dec 0 w then
        if String.eqb (lower h) "cl" then dBZ (cloud_Z w)
        else if String.eqb (lower h) "pl" then dBZ (rain_Z w)
        else XF (ice_dBZ (freq ins / 10 ^ 9) w (T t k))
      else XNaN.
Proof. exact empirical_radar_values. Qed.
Print Assumptions C75_empirical_reflectivity.
Example C75_witness : forall Gam, exists s1,
  calc_radar_moments Gam w_e w_radar (w_ropts true true ["cl"; "ci"]%string) false v_ds = (Ok tt, s1) /\
  value s1 "sub_col_Ze_cl_strat" 0 0 1 = dBZ (cloud_Z (1000 * (89 / (287 * 280 * 10)))) /\
  value s1 "sub_col_Ze_ci_strat" 0 0 1 = XF (ice_dBZ 35 (1000 * (89 / (287 * 280 * 100))) (685/100)).
Proof. exact v_radar_emp. Qed.

(** C76: bulk lidar method, every level but the uppermost. *)
Theorem C76_bulk_extinction_and_backscatter : forall Gam e ins o c hs s s1 h rho Re Qe Qb Q F P Z,
  tables_ok e c -> classes_of e (o_hyds o) hs -> o_emp o = false -> o_rad o || c = true -> ~ In "tot"%string hs ->
  (forall h, In h hs -> self_contained e h) ->
  calc_lidar_moments Gam e ins o c s = (Ok tt, s1) -> In h hs ->
  0 < grav ins -> 0 < rho_ice ins -> 0 < rho ->
  pressures e s P -> heights e s Z -> real3 e s (qn c h) Q -> varb s (fn c h) F ->
  class_radius e ins c s h rho Re -> class_efficiency e ins "CESM_liq" (o_mie o) s h Re Qe Qb ->
  forall i t k, cell e i t k -> (S k < nht e)%nat -> Z t k < Z t (S k) -> 0 < Re t k ->
    let A := projected_area rho (Re t k) (layer_water (grav ins) (Q i t k) (P t) (Z t) k) in
    value s1 (out "alpha_p" h c) i t k = XF (if F i t k then Qe t k * A else 0) /\
    value s1 (out "beta_p" h c) i t k = XF (if F i t k then Qb t k * A else 0).
Proof. exact bulk_lidar_values. Qed.
Print Assumptions C76_bulk_extinction_and_backscatter.
Example C76_witness : forall Gam, exists s1,
  calc_lidar_moments Gam w_e w_ins (w_opts false) false v_ds = (Ok tt, s1) /\
  value s1 "sub_col_alpha_p_cl_strat" 0 0 1 = XF (2 * (3 * (1/10000 * 1000 / (98/10) / 100) / (4 * 1000 * (10 / 10 ^ 6)))) /\
  value s1 "sub_col_alpha_p_cl_strat" 1 0 1 = XF 0 /\
  value s1 "sub_col_beta_p_ci_strat" 1 0 1 = XF (1/10 * (3 * (1/100000 * 1000 / (98/10) / 100) / (4 * 917 * (40 / 10 ^ 6)))).
Proof. exact v_lidar_bulk. Qed.

(** C77: bulk radar method, every level but the uppermost. *)
Theorem C77_bulk_reflectivity : forall Gam e ins o c hs s s1 h rho Re Qe Qb Q F P Z,
  radar_tables_ok e c -> r_emp o = false -> r_rad o || c = true -> plain hs -> classes_of e (r_hyds o) hs ->
  (forall h, In h hs -> self_contained e h) ->
  calc_radar_moments Gam e ins o c s = (Ok tt, s1) -> In h hs ->
  0 < grav ins -> 0 < rho_ice ins -> 0 < rho -> 0 < k_w ins ->
  pressures e s P -> heights e s Z -> real3 e s (qn c h) Q -> varb s (fn c h) F ->
  class_radius e ins c s h rho Re -> class_efficiency e ins "p3_liq" (r_mie o) s h Re Qe Qb ->
  forall i t k, cell e i t k -> (S k < nht e)%nat -> Z t k < Z t (S k) -> 0 < Re t k ->
    let A := projected_area rho (Re t k) (layer_water (grav ins) (Q i t k) (P t) (Z t) k) in
    value s1 (out "Ze" h c) i t k
    = if F i t k then dBZ (backscatter_Z (wavelen ins) (k_w ins) (Qb t k * A)) else XNaN.
Proof. exact bulk_radar_values. Qed.
Print Assumptions C77_bulk_reflectivity.
Example C77_witness : forall Gam, exists s1,
  calc_radar_moments Gam w_e w_radar (w_ropts false true ["cl"; "ci"]%string) false v_ds = (Ok tt, s1) /\
  value s1 "sub_col_Ze_cl_strat" 0 0 1
  = dBZ (backscatter_Z 8600 (88/100) (1/10 * (3 * (1/10000 * 1000 / (98/10) / 100) / (4 * 1000 * (10 / 10 ^ 6))))) /\
  value s1 "sub_col_Ze_cl_strat" 1 0 1 = XNaN.
Proof. exact v_radar_bulk. Qed.

(** C60 (bulk method, instrument at the surface): the transmittance is that
    of the summed extinctions of the classes below; classes read against
    their size distribution must be present everywhere (C58). *)
Theorem C60_bulk_transmittance_value_partial : forall Gam e ins o c hs s s1 (K : string -> bulk_class_data) P Z,
  radar_tables_ok e c -> r_emp o = false -> r_sfc o = true -> r_rad o || c = true -> plain hs ->
  classes_of e (r_hyds o) hs -> (forall h, In h hs -> self_contained e h) ->
  calc_radar_moments Gam e ins o c s = (Ok tt, s1) ->
  0 < grav ins -> 0 < rho_ice ins -> pressures e s P -> heights e s Z ->
  (forall t k, (t < ntm e)%nat -> (S k < nht e)%nat -> Z t k < Z t (S k)) ->
  (forall h, In h hs -> bulk_data e ins c (r_mie o) s h (K h)) ->
  (forall h i t k, In h hs -> size_table e h -> cell e i t k -> bd_present (K h) i t k = true) ->
  real3 e s1 ("hyd_ext_" ++ cs c)%string (fun i t k =>
    two_way (od_up (Z t) (fun j => total_of (fun h => bulk_extinction (grav ins) (K h) (P t) (Z t) i t j) hs) k)).
Proof. exact bulk_leaves. Qed.
Print Assumptions C60_bulk_transmittance_value_partial.
(** ... and so never amplifies the signal. *)
Theorem C60_bulk_from_surface_partial : forall Gam e ins o c hs s s1 (K : string -> bulk_class_data) P T Q Z,
  radar_tables_ok e c -> r_emp o = false -> r_sfc o = true -> r_rad o || c = true -> plain hs ->
  classes_of e (r_hyds o) hs -> (forall h, In h hs -> self_contained e h) ->
  calc_radar_moments Gam e ins o c s = (Ok tt, s1) ->
  0 < grav ins -> 0 < rho_ice ins -> 0 < r_d ins -> atmosphere e s P T Q Z ->
  (forall t k, (t < ntm e)%nat -> (S k < nht e)%nat -> Z t k < Z t (S k)) ->
  (forall h, In h hs -> bulk_data e ins c (r_mie o) s h (K h)) ->
  (forall h i t k, In h hs -> size_table e h -> cell e i t k -> bd_present (K h) i t k = true) ->
  (forall h i t k, In h hs -> cell e i t k -> 0 <= bd_mass (K h) i t k /\ 0 <= bd_ext (K h) t k) ->
  exists TH TA, real3 e s1 ("hyd_ext_" ++ cs c)%string TH /\ real2 e s1 "atm_ext" TA
    /\ (forall i t k, cell e i t k -> 0 < TH i t k <= 1 /\ 0 < TA t k <= 1)
    /\ (forall i t, cell e i t 0 -> TH i t 0%nat = 1 /\ TA t 0%nat = 1)
    /\ (forall i t k k', cell e i t k -> cell e i t k' -> (k <= k')%nat ->
          TH i t k' <= TH i t k /\ TA t k' <= TA t k).
Proof. exact bulk_from_surface. Qed.
Print Assumptions C60_bulk_from_surface_partial.
Example C60_bulk_witness : forall Gam,
  atmosphere w_e vt_ds (fun _ k => 900 - 10 * INR k) (fun _ _ => 280) (fun _ _ => 1/1000) (fun _ k => 100 * INR (S k)) /\
  (forall h, In h ["cl"; "ci"]%string -> bulk_data w_e w_radar false false vt_ds h (vt_class h)) /\
  (forall h i t k, In h ["cl"; "ci"]%string -> size_table w_e h -> cell w_e i t k ->
     bd_present (vt_class h) i t k = true) /\
  exists s1, calc_radar_moments Gam w_e w_radar (w_ropts false true ["cl"; "ci"]%string) false vt_ds = (Ok tt, s1) /\
  let cloud := 2 * (3 * (1/10000 * 1000 / (98/10) / 100) / (4 * 1000 * (10 / 10 ^ 6))) in
  let ice := 2 * (3 * (1/100000 * 1000 / (98/10) / 100) / (4 * 917 * (40 / 10 ^ 6))) in
  value s1 "hyd_ext_strat" 0 0 1 = XF (two_way (100 * (cloud + ice))) /\
  value s1 "hyd_ext_strat" 1 0 1 = XF (two_way (100 * cloud)).
Proof. exact (fun Gam => conj vt_atmosphere (w_bulk_transmittance Gam)). Qed.
