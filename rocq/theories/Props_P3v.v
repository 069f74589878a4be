(** C129-C133: what the instruments see of the ice of the P3 scheme, and the
    total velocity and spectral width of the microphysics method.  The
    vocabulary is in Val_P3_Spec.v, Micro_P3_Spec.v and Micro_Width_Spec.v:
    [p3_gives] reads the table of P3 ice at the rime fraction, rime density and
    mean mass of a point; [p3_area] is the projected area of the ice; [p3_seen]
    are the particles of P3 ice in a cell, [class_seen] those of any class. *)
From Verif Require Import Mom_Base Mom_Spec Sched_Model Psd_Model Psd_Spec Lidar_Model Lidar_Spec Lidar_Corol Lidar_Witness
  Radar_Model Radar_Spec Radar_Witness Val_Spec Micro_Spec Micro_Lidar Psd_Witness Micro_Witness Val_P3_Spec Val_P3 Val_P3_Wit Micro_P3_Spec Micro_P3
  Micro_Width_Spec Micro_Width2 Micro_P3_Wit Micro_Width_Wit.
Local Open Scope R_scope.

(** C129: in the bulk method the ice of a P3 model gives the tabulated
    efficiencies times its projected area where it is, and nothing elsewhere. *)
Theorem C129_p3_bulk_lidar : forall Gam e ins o c hs s s1 x A Qe Qb F P Z,
  tables_ok e c -> classes_of e (o_hyds o) hs -> o_emp o = false -> o_rad o || c = true -> ~ In "tot"%string hs ->
  (forall h, In h hs -> self_contained e h) ->
  calc_lidar_moments Gam e ins o c s = (Ok tt, s1) ->
  In "ci"%string hs -> rad_family e = "P3"%string -> 0 < grav ins -> 0 < rho_ice ins ->
  pressures e s P -> heights e s Z -> varb s (fn c "ci") F ->
  p3_fields e s x -> p3_area e ins c (o_mie o) s x P Z A ->
  p3_gives e ins x (p3_ext_name (o_mie o)) Qe -> p3_gives e ins x (p3_back_name (o_mie o)) Qb ->
  forall i t k, cell e i t k -> (hybrid e = 1%nat -> (S k < nht e)%nat /\ Z t k < Z t (S k)) ->
    value s1 (out "alpha_p" "ci" c) i t k = XF (if F i t k then Qe t k * A i t k else 0) /\
    value s1 (out "beta_p" "ci" c) i t k = XF (if F i t k then Qb t k * A i t k else 0).
Proof. exact p3_bulk_lidar. Qed.
Print Assumptions C129_p3_bulk_lidar.
Theorem C129_p3_bulk_radar : forall Gam e ins o c hs s s1 x A Qe Qb F P Z,
  radar_tables_ok e c -> r_emp o = false -> r_rad o || c = true -> plain hs -> classes_of e (r_hyds o) hs ->
  (forall h, In h hs -> self_contained e h) ->
  calc_radar_moments Gam e ins o c s = (Ok tt, s1) ->
  In "ci"%string hs -> rad_family e = "P3"%string -> 0 < grav ins -> 0 < rho_ice ins -> 0 < k_w ins ->
  pressures e s P -> heights e s Z -> varb s (fn c "ci") F ->
  p3_fields e s x -> p3_area e ins c (r_mie o) s x P Z A ->
  p3_gives e ins x (p3_ext_name (r_mie o)) Qe -> p3_gives e ins x (p3_back_name (r_mie o)) Qb ->
  forall i t k, cell e i t k -> (hybrid e = 1%nat -> (S k < nht e)%nat /\ Z t k < Z t (S k)) ->
    value s1 (out "Ze" "ci" c) i t k
    = if F i t k then dBZ (backscatter_Z (wavelen ins) (k_w ins) (Qb t k * A i t k)) else XNaN.
Proof. exact p3_bulk_radar. Qed.
Print Assumptions C129_p3_bulk_radar.
Example C129_lidar_case : forall Gam, exists s1,
  calc_lidar_moments Gam (x_env 0 None) (x_of w_ins) (x_lopts false) false x_ds = (Ok tt, s1) /\
  value s1 "sub_col_alpha_p_ci_strat" 0 0 2 = XF ((2 + 1/2) * (2 / 10 ^ 9 * 10000)) /\
  value s1 "sub_col_beta_p_ci_strat" 0 0 2 = XF (1/10 * (1/2) * (2 / 10 ^ 9 * 10000)) /\
  value s1 "sub_col_alpha_p_ci_strat" 1 0 2 = XF 0.
Proof. exact x_lidar. Qed.
Example C129_radar_case : forall Gam, exists s1,
  calc_radar_moments Gam (x_env 1 (Some [("ci", 1)]%string)) (x_of w_radar) (x_ropts true) false x_ds = (Ok tt, s1) /\
  value s1 "sub_col_Ze_ci_strat" 0 0 1
  = dBZ (backscatter_Z 8600 (88/100)
      (1/100 * projected_area 917 (50 / 10 ^ 6 * 10 ^ 6 * (400 / 917)) (1/100000 * 1000 / (98/10) / 100))) /\
  value s1 "sub_col_Ze_ci_strat" 1 0 1 = XNaN.
Proof. exact x_radar. Qed.

(** C130: in the microphysics method it gives the integrals of the
    single-particle cross-sections over the size distribution stored with it. *)
Theorem C130_p3_micro_lidar : forall Gam e ins o hs s s1,
  micro_tables_ok e -> o_emp o = false -> o_rad o = false -> classes_of e (o_hyds o) hs -> ~ In "tot"%string hs ->
  totals_stored s -> calc_lidar_moments Gam e ins o false s = (Ok tt, s1) ->
  forall i t k n0 lam mu D B A,
  mcphys e = "P3"%string -> In "ci"%string hs -> cell e i t k ->
  p3_distribution e s t k n0 lam mu -> p3_sections e ins (o_mie o) s t k D B A ->
  (p3_present s i t k ->
     value s1 (out "alpha_p" "ci" false) i t k = XF (population D A (gamma_psd n0 lam mu)) /\
     value s1 (out "beta_p" "ci" false) i t k = XF (population D B (gamma_psd n0 lam mu))) /\
  (p3_absent s i t k ->
     value s1 (out "alpha_p" "ci" false) i t k = XF 0 /\ value s1 (out "beta_p" "ci" false) i t k = XF 0).
Proof. exact p3_micro_lidar. Qed.
Print Assumptions C130_p3_micro_lidar.
Theorem C130_p3_micro_radar : forall Gam e ins o hs s s1,
  rmicro_tables_ok e -> r_emp o = false -> r_rad o = false -> classes_of e (r_hyds o) hs -> plain hs ->
  calc_radar_moments Gam e ins o false s = (Ok tt, s1) ->
  forall i t k, 0 < k_w ins -> mcphys e = "P3"%string -> In "ci"%string hs -> cell e i t k ->
  (forall p, p3_seen e ins o s i t k p -> (forall b, In b (pa_B p) -> 0 < b) -> (2 <= length (pa_D p))%nat ->
     value s1 (out "Ze" "ci" false) i t k = dBZ (reflectivity ins (population (pa_D p) (pa_B p) (pa_n p))) /\
     value s1 (out "Vd" "ci" false) i t k = XF (mean_of (pa_D p) (pa_V p) (pa_B p) (pa_n p)) /\
     (r_width o = true -> value s1 (out "sigma_d" "ci" false) i t k = XF (spread_of (pa_D p) (pa_V p) (pa_B p) (pa_n p)))) /\
  (p3_absent s i t k -> value s1 (out "Ze" "ci" false) i t k = XNaN).
Proof. exact p3_micro_radar. Qed.
Print Assumptions C130_p3_micro_radar.
Example C130_lidar_case : forall Gam mie, exists s1,
  calc_lidar_moments Gam y_env (y_with w_ins) (y_lopts mie ["cl"; "ci"]%string) false y_ds = (Ok tt, s1) /\
  value s1 "sub_col_alpha_p_ci_strat" 0 0 1 = XF (population m_D (y_A mie) (gamma_psd (10000 * 5) 1000 2)) /\
  value s1 "sub_col_beta_p_ci_strat" 0 0 1 = XF (population m_D (y_B mie) (gamma_psd (10000 * 5) 1000 2)) /\
  value s1 "sub_col_alpha_p_ci_strat" 1 0 1 = XF 0.
Proof. exact y_lidar. Qed.
Example C130_radar_case : forall Gam mie, exists s1,
  calc_radar_moments Gam y_env (y_with w_radar) (y_ropts mie ["cl"; "ci"]%string) false y_ds = (Ok tt, s1) /\
  value s1 "sub_col_Ze_ci_strat" 0 0 1 = dBZ (reflectivity (y_with w_radar) (population m_D (y_B mie) (gamma_psd (10000 * 5) 1000 2))) /\
  value s1 "sub_col_Vd_ci_strat" 0 0 1 = XF (mean_of m_D (map (fun w => - w * 1) y_W) (y_B mie) (gamma_psd (10000 * 5) 1000 2)) /\
  value s1 "sub_col_Ze_ci_strat" 1 0 1 = XNaN /\
  exists P, (forall h, In h ["cl"; "ci"]%string -> class_seen Gam y_env (y_with w_radar) (y_ropts mie ["cl"; "ci"]%string) y_ds h 0 0 1 (P h)) /\
    value s1 "sub_col_sigma_d_tot_strat" 0 0 1 = XF (all_spread ["cl"; "ci"]%string P).
Proof. exact y_radar. Qed.

(** C131 is false: after a successful microphysics call that includes P3 ice,
    no further microphysics call of the same instrument that includes it
    succeeds, whatever its other options. *)
Theorem C131_p3_lidar_repeat_refuted : forall Gam e ins o hs s s1,
  micro_tables_ok e -> o_emp o = false -> o_rad o = false -> classes_of e (o_hyds o) hs -> ~ In "tot"%string hs ->
  totals_stored s -> calc_lidar_moments Gam e ins o false s = (Ok tt, s1) ->
  forall o2 hs2 s2, mcphys e = "P3"%string -> In "ci"%string hs ->
  o_emp o2 = false -> o_rad o2 = false -> classes_of e (o_hyds o2) hs2 -> ~ In "tot"%string hs2 -> In "ci"%string hs2 ->
  calc_lidar_moments Gam e ins o2 false s1 <> (Ok tt, s2).
Proof. exact p3_again_fails. Qed.
Print Assumptions C131_p3_lidar_repeat_refuted.
Theorem C131_p3_radar_repeat_refuted : forall Gam e ins o hs s s1,
  rmicro_tables_ok e -> r_emp o = false -> r_rad o = false -> classes_of e (r_hyds o) hs -> plain hs ->
  calc_radar_moments Gam e ins o false s = (Ok tt, s1) ->
  forall o2 hs2 s2, mcphys e = "P3"%string -> In "ci"%string hs ->
  r_emp o2 = false -> r_rad o2 = false -> classes_of e (r_hyds o2) hs2 -> plain hs2 -> In "ci"%string hs2 ->
  calc_radar_moments Gam e ins o2 false s1 <> (Ok tt, s2).
Proof. exact p3_radar_again_fails. Qed.
Print Assumptions C131_p3_radar_repeat_refuted.
Example C131_lidar_case : forall Gam, exists s1,
  calc_lidar_moments Gam y_env (y_with w_ins) (y_lopts false ["cl"; "ci"]%string) false y_ds = (Ok tt, s1) /\
  forall s2, calc_lidar_moments Gam y_env (y_with w_ins) (y_lopts false ["cl"; "ci"]%string) false s1 <> (Ok tt, s2).
Proof. exact y_lidar_again. Qed.
Example C131_radar_case : forall Gam, exists s1,
  calc_radar_moments Gam y_env (y_with w_radar) (y_ropts false ["cl"; "ci"]%string) false y_ds = (Ok tt, s1) /\
  forall s2, calc_radar_moments Gam y_env (y_with w_radar) (y_ropts false ["cl"; "ci"]%string) false s1 <> (Ok tt, s2).
Proof. exact y_radar_again. Qed.

(** C132: leaving classes out of a lidar call changes nothing for the others. *)
Theorem C132_fewer_classes_partial : forall Gam e ins o hs1 hs2 s s1,
  micro_tables_ok e -> o_emp o = false -> o_rad o = false -> (forall h, In h hs2 -> In h hs1) -> hs2 <> [] ->
  ~ In "tot"%string hs1 -> (forall h, In h hs1 -> gamma_class e h) -> totals_stored s ->
  calc_lidar_moments Gam e ins (with_hyds o hs1) false s = (Ok tt, s1) ->
  exists s2, calc_lidar_moments Gam e ins (with_hyds o hs2) false s = (Ok tt, s2) /\
    forall f h i t k, In f lidar_fields -> In h hs2 ->
      value s2 (out f h false) i t k = value s1 (out f h false) i t k.
Proof. exact micro_fewer. Qed.
Print Assumptions C132_fewer_classes_partial.
Example C132_fewer_case : (forall h, In h ["ci"]%string -> In h ["pl"; "ci"]%string) /\
  micro_tables_ok w_mg2 /\ totals_stored m_ds /\ (forall h, gamma_class w_mg2 h) /\ exists s1,
  calc_lidar_moments w_gam w_mg2 (m_with w_ins) (with_hyds (m_lopts []) ["pl"; "ci"]%string) false m_ds = (Ok tt, s1).
Proof.
  split; [intros h [<-|[]]; right; left; reflexivity|]. destruct m_C79 as (_ & _ & A & B & C).
  split; [exact A|]. split; [exact B|]. split; [exact C|exact (proj2 m_C80)].
Qed.
(** It is false of the radar, which cannot be run on P3 ice alone. *)
Theorem C132_p3_ice_alone_refuted : forall Gam e ins, mcphys e = "P3"%string ->
  forall o s s1, r_emp o = false -> r_rad o = false -> classes_of e (r_hyds o) ["ci"]%string ->
  has s "N_0" = false -> calc_radar_moments Gam e ins o false s <> (Ok tt, s1).
Proof. exact p3_alone_fails. Qed.
Print Assumptions C132_p3_ice_alone_refuted.
Example C132_case : forall Gam,
  (exists s1, calc_radar_moments Gam y_env (y_with w_radar) (y_ropts false ["cl"; "ci"]%string) false y_ds = (Ok tt, s1)) /\
  forall s1, calc_radar_moments Gam y_env (y_with w_radar) (y_ropts false ["ci"]%string) false y_ds <> (Ok tt, s1).
Proof. exact y_alone. Qed.

(** C133: the total reflectivity is that of the particles of all the classes;
    the total velocity is the backscatter-weighted mean over the particles of
    the classes from "cl" on; the total width is the spread about it when one
    air-density factor is right for all of them. *)
Theorem C133_total_spectrum_partial : forall Gam e ins o hs s s1,
  rmicro_tables_ok e -> r_emp o = false -> r_rad o = false -> classes_of e (r_hyds o) hs -> plain hs ->
  calc_radar_moments Gam e ins o false s = (Ok tt, s1) ->
  forall i t k, 0 < k_w ins -> cell e i t k ->
  (forall h, In h (from_cl hs) -> class_known Gam e ins o s h i t k) ->
  (exists h, In h (from_cl hs) /\ ~ class_seen Gam e ins o s h i t k None) ->
  exists P, (forall h, In h (from_cl hs) -> class_seen Gam e ins o s h i t k (P h)) /\
    0 < all_backscatter (from_cl hs) P /\
    value s1 (out "Vd" "tot" false) i t k = XF (all_mean (from_cl hs) P) /\
    (r_width o = true -> mcphys e <> "nssl"%string ->
     (exists x, forall h, In h (from_cl hs) -> air_factor e s h t k x) ->
     value s1 (out "sigma_d" "tot" false) i t k = XF (all_spread (from_cl hs) P)).
Proof. exact any_width. Qed.
Print Assumptions C133_total_spectrum_partial.
Theorem C133_total_reflectivity : forall Gam e ins o hs s s1,
  rmicro_tables_ok e -> r_emp o = false -> r_rad o = false -> classes_of e (r_hyds o) hs -> plain hs ->
  calc_radar_moments Gam e ins o false s = (Ok tt, s1) ->
  forall i t k, 0 < k_w ins -> cell e i t k ->
  (forall h, In h hs -> class_known Gam e ins o s h i t k) ->
  exists P, (forall h, In h hs -> class_seen Gam e ins o s h i t k (P h)) /\
    value s1 (out "Ze" "tot" false) i t k
    = to_dBZ (xadd (Ze_before s i t k) (XF (reflectivity ins (all_backscatter hs P)))).
Proof. exact any_total_Ze. Qed.
Print Assumptions C133_total_reflectivity.
(** Particles that all fall at one speed have no spread, and yet the stored
    width is positive. *)
Theorem C133_total_width_refuted : exists e ins o hs s s1 i t k,
  calc_radar_moments w_gam e ins o false s = (Ok tt, s1) /\
  r_emp o = false /\ r_rad o = false /\ r_width o = true /\ classes_of e (r_hyds o) hs /\ plain hs /\ from_cl hs = hs /\
  rmicro_tables_ok e /\ 0 < k_w ins /\ cell e i t k /\ mcphys e = "MG2"%string /\
  (forall h, In h hs -> class_known w_gam e ins o s h i t k) /\
  forall P, (forall h, In h hs -> class_seen w_gam e ins o s h i t k (P h)) ->
    all_spread hs P = 0 /\ exists v, value s1 (out "sigma_d" "tot" false) i t k = XF v /\ 0 < v.
Proof. exact z_width. Qed.
Print Assumptions C133_total_width_refuted.
