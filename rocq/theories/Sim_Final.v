(** The driver: final statements. *)
From Verif Require Import Mom_Base Mom_Spec Mom_Facts Xr_Facts Sched_Model Atm_Model Psd_Model Lidar_Model Lidar_Spec Lidar_Ldr
  Radar_Model Radar_Spec Radar_Min Class_Model Sim_Model Sim_Spec Sim_Kinds Sim_Facts Sim_Lidar Sim_Run.
Local Open Scope R_scope.

(** *** Instrument *)
Lemma band_freq f : 0 < f -> exists w, instrument_band (Some f) None = Ok (f, w) /\ 0 < w /\ f * w = 299792458 * 10 ^ 6.
Proof.
  intro H. exists (light / f * 10 ^ 6). split; [reflexivity|]. unfold light. split.
  - apply Rmult_lt_0_compat; [|lra]. apply Rmult_lt_0_compat; [lra|]. apply Rinv_0_lt_compat. exact H.
  - field. lra.
Qed.
Lemma band_wave w : 0 < w -> exists f, instrument_band None (Some w) = Ok (f, w * 10 ^ 6) /\ 0 < f /\
  f * (w * 10 ^ 6) = 299792458 * 10 ^ 6.
Proof.
  intro H. exists (light / w). split; [reflexivity|]. unfold light. split.
  - apply Rmult_lt_0_compat; [lra|]. apply Rinv_0_lt_compat. exact H.
  - field. lra.
Qed.

Section Sim.
Variable Gam : R -> R.
Lemma sim_unsupported e ins a o s : m_only o = false -> lower (i_class ins) <> "radar"%string -> lower (i_class ins) <> "lidar"%string ->
  simulate Gam e ins a o s = (Raise ValueError, s).
Proof.
  intros M N1 N2. unfold simulate. rewrite M. apply String.eqb_neq in N1, N2. rewrite N1, N2. reflexivity.
Qed.
Lemma sim_only e ins a o s : m_only o = true -> simulate Gam e ins a o s = (Ok tt, s).
Proof. intros M. unfold simulate. rewrite M. reflexivity. Qed.
Lemma sim_radar e ins a o s : m_only o = false -> lower (i_class ins) = "radar"%string ->
  simulate Gam e ins a o s = simulate_radar Gam e ins a o s.
Proof. intros M C. unfold simulate. rewrite M, C. reflexivity. Qed.
Lemma sim_lidar e ins a o s : m_only o = false -> lower (i_class ins) = "lidar"%string ->
  simulate Gam e ins a o s = simulate_lidar Gam e ins a o s.
Proof. intros M C. unfold simulate. rewrite M, C. reflexivity. Qed.

Lemma sim_radar_order e ins a o s s1 s2 :
  own_inputs e -> m_only o = false -> lower (i_class ins) = "radar"%string -> m_reg o = false ->
  (m_classify o = true -> each_type e (fun c => hasb s (fn c "cl"))) ->
  calc_radar_moments Gam e ins (sim_ropts e a o false) false s = (Ok tt, s1) ->
  (if p_conv e then calc_radar_moments Gam e ins (sim_ropts e a o true) true s1 = (Ok tt, s2) else s2 = s1) ->
  exists s', simulate Gam e ins a o s = (Ok tt, s').
Proof.
  intros [ON OM] M C RG FL E1 E2. rewrite sim_radar by assumption.
  destruct (simulate_radar Gam e ins a o s) as [[[]|x] s'] eqn:E; [eauto|exfalso].
  assert (NM : ~ is_mask (z_name e)) by (apply OM; simpl; tauto).
  destruct (radar_steps Gam e ins a o s x s' ON NM RG C FL E) as [Q|(s3 & Q1 & PC & Q2)].
  - rewrite E1 in Q. discriminate.
  - rewrite E1 in Q1. injection Q1 as <-. rewrite PC in E2. rewrite E2 in Q2. discriminate.
Qed.
Lemma sim_lidar_order e ins a o hs s s1 s2 :
  own_inputs e -> m_only o = false -> lower (i_class ins) = "lidar"%string ->
  classes_of e (m_hyds o) hs -> (exists h0 rest, hyds e = h0 :: rest /\ In h0 hs) ->
  (forall h, In h hs -> exists w, assoc (ldr_hyd e) h = Some w) ->
  (m_classify o = true -> i_str ins = "HSRL"%string /\ numbered (ia_thresh a)) ->
  calc_lidar_moments Gam e ins (sim_lopts e a o false) false s = (Ok tt, s1) ->
  (if p_conv e then calc_lidar_moments Gam e ins (sim_lopts e a o true) true s1 = (Ok tt, s2) else s2 = s1) ->
  exists s', simulate Gam e ins a o s = (Ok tt, s').
Proof.
  intros OI M C Hc (h0 & rest & H0 & I0) W CF E1 E2. rewrite sim_lidar by assumption.
  eapply lidar_steps; try eassumption.
  - apply set_hyd_ok. exact Hc.
  - intros h I. destruct (W h I) as [w Hw]. exists w. unfold dict. rewrite Hw. reflexivity.
Qed.

Lemma sim_radar_empirical e ins a o hs rho s :
  own_inputs e -> m_only o = false -> lower (i_class ins) = "radar"%string -> m_reg o = false -> m_emp o = true ->
  classes_of e (m_hyds o) hs -> hs <> [] -> assoc (rho_hyd e) "cl" = Some (RConst rho) ->
  air_fields e s -> each_type e (fun c => mass_fields c hs s) ->
  (m_classify o = true -> each_type e (fun c => hasb s (fn c "cl"))) ->
  exists s', simulate Gam e ins a o s = (Ok tt, s').
Proof.
  intros OI M C RG EM Hc NE RH AI [W1 W2] FL. pose proof OI as [ON OM]. apply set_hyd_ok in Hc.
  destruct (radar_empirical_runs Gam e ins (sim_ropts e a o false) false hs rho s ON C EM Hc NE RH AI W1) as ([] & s1 & E1).
  assert (K1 := keeps_radar Gam e ins (sim_ropts e a o false) false).
  destruct (p_conv e) eqn:PC.
  - assert (W3 := stable_water true hs _ _ _ _ _ K1 E1 (W2 eq_refl)).
    assert (A3 := stable_air e ON _ _ _ _ _ K1 E1 AI).
    destruct (radar_empirical_runs Gam e ins (sim_ropts e a o true) true hs rho s1 ON C EM Hc NE RH A3 W3) as ([] & s2 & E2).
    apply (sim_radar_order e ins a o s s1 s2); auto. rewrite PC. exact E2.
  - apply (sim_radar_order e ins a o s s1 s1); auto. rewrite PC. reflexivity.
Qed.
Lemma sim_lidar_empirical e ins a o hs s :
  own_inputs e -> m_only o = false -> lower (i_class ins) = "lidar"%string -> m_emp o = true ->
  classes_of e (m_hyds o) hs -> (exists h0 rest, hyds e = h0 :: rest /\ In h0 hs) ->
  optical_tables e hs -> (forall h, In h hs -> exists w, assoc (ldr_hyd e) h = Some w) ->
  air_fields e s -> each_type e (fun c => mass_fields c hs s /\ radius_fields e c hs s) ->
  (m_classify o = true -> i_str ins = "HSRL"%string /\ numbered (ia_thresh a)) ->
  exists s', simulate Gam e ins a o s = (Ok tt, s').
Proof.
  intros OI M C EM Hc H0 OT LD AI [[W1 D1] WD2] CF. pose proof OI as [ON OM]. pose proof Hc as Hs. apply set_hyd_ok in Hs.
  destruct (lidar_empirical_runs Gam e ins (sim_lopts e a o false) false hs s ON C EM Hs OT AI W1 D1) as ([] & s1 & E1).
  assert (K1 := keeps_lidar Gam e ins (sim_lopts e a o false) false).
  destruct (p_conv e) eqn:PC.
  - destruct (WD2 eq_refl) as [W2 D2].
    assert (W3 := stable_water true hs _ _ _ _ _ K1 E1 W2).
    assert (A3 := stable_air e ON _ _ _ _ _ K1 E1 AI).
    assert (D3 := stable_drops e true hs _ _ _ _ _ K1 E1 D2).
    destruct (lidar_empirical_runs Gam e ins (sim_lopts e a o true) true hs s1 ON C EM Hs OT A3 W3 D3) as ([] & s2 & E2).
    apply (sim_lidar_order e ins a o hs s s1 s2); auto. rewrite PC. exact E2.
  - apply (sim_lidar_order e ins a o hs s s1 s1); auto. rewrite PC. reflexivity.
Qed.

(** Classification of a lidar other than the HSRL. *)
Lemma sim_not_hsrl e ins a o s r s' : m_only o = false -> lower (i_class ins) = "lidar"%string -> m_classify o = true ->
  i_str ins <> "HSRL"%string -> simulate Gam e ins a o s = (r, s') -> r <> Ok tt.
Proof.
  intros M C CF NH E ->. rewrite sim_lidar in E by assumption. unfold simulate_lidar in E.
  do 4 (apply bind_inv in E as (? & ? & _ & E)). rewrite CF in E. apply bind_inv in E as (? & ? & _ & E).
  unfold lidar_emulate_cosp_phase in E. apply bind_inv in E as (? & ? & _ & E).
  apply String.eqb_neq in NH. rewrite NH in E. discriminate E.
Qed.

(** *** The reference range *)
Definition mask_list (ins : inst) : list string :=
  ["strat_phase_mask_" ++ i_str ins ++ "_sounding"; "conv_phase_mask_" ++ i_str ins ++ "_sounding";
   "phase_mask_" ++ i_str ins ++ "_sounding_all_hyd"]%string.
Lemma frame_sounding W e rng conv0 mask ze cloud : In mask W -> frame W (sounding_one e rng conv0 mask ze cloud).
Proof.
  intro I. unfold sounding_one. repeat (apply frame_bind; [|intro]); try apply frame_rd.
  - destruct rng; [apply frame_rd|apply frame_ret].
  - apply frame_assign. exact I.
Qed.
Lemma frame_classify e ins rng conv0 : frame (mask_list ins) (radar_classify_phase e ins rng conv0).
Proof.
  unfold radar_classify_phase. destruct (negb _); [apply frame_raise|]. apply frame_bind; [apply frame_rd|intro].
  destruct (p_conv e).
  - apply frame_bind; [apply frame_rd|intro].
    repeat (apply frame_bind; [apply frame_sounding; simpl; tauto|intro]). apply frame_sounding; simpl; tauto.
  - apply frame_sounding; simpl; tauto.
Qed.
Lemma frame_total e : frame ["sub_col_Ze_tot"; "sub_col_Ze_att_tot"; "detect_mask"]%string (calc_total_reflectivity e).
Proof.
  unfold calc_total_reflectivity. cbv zeta.
  repeat first [apply frame_bind; [|intro] | apply frame_rd | apply frame_ret | apply frame_assign; simpl; tauto
               | match goal with |- frame _ (if ?b then _ else _) => destruct b end].
Qed.
Lemma sim_ref_law e ins a o s s' ref Z : own_inputs e -> m_only o = false -> lower (i_class ins) = "radar"%string ->
  (if m_reg o then m_ref o = Some ref else ref = 1000) -> 0 < ref ->
  real2 e s (z_name e) Z -> (forall t k, point e t k -> 0 < Z t k) ->
  simulate Gam e ins a o s = (Ok tt, s') ->
  real2 e s' "Ze_min" (fun t k => min_detectable (z_min_1km ins) ref (Z t k)).
Proof.
  intros [ON OM] M C RF PR HZ PZ E. rewrite sim_radar in E by assumption. unfold simulate_radar in E.
  assert (SR : sim_ref o = Ok ref).
  { unfold sim_ref. destruct (m_reg o); [rewrite RF|subst]; reflexivity. }
  rewrite (bind_rd _ _ _ ref) in E by exact SR.
  apply bind_inv in E as ([] & s1 & E1 & E). apply bind_inv in E as ([] & s2 & E2 & E).
  assert (Kz : kindof (z_name e) = None) by (apply kindof_none, ON; simpl; tauto).
  assert (K1 := keeps_radar Gam e ins (sim_ropts e a o false) false).
  assert (K2' : keeps (if p_conv e then calc_radar_moments Gam e ins (sim_ropts e a o true) true else lret tt)).
  { destruct (p_conv e); [apply keeps_radar|apply keeps_ret]. }
  assert (HZ2 : real2 e s2 (z_name e) Z).
  { destruct HZ as (z & Vz & Ez). exists z. split; [|exact Ez]. red in Vz |- *.
    rewrite (keeps_same _ _ _ _ _ K2' E2 Kz), (keeps_same _ _ _ _ _ K1 E1 Kz). exact Vz. }
  destruct (ze_min_run e ins ref s2 Z PR HZ2 PZ) as (s3 & E3 & _ & R3). rewrite (bind_ok _ _ _ _ _ E3) in E.
  apply bind_inv in E as ([] & s4 & E4 & E).
  assert (U : assoc (dvars s') "Ze_min" = assoc (dvars s3) "Ze_min").
  { rewrite <- (frame_run _ _ _ _ _ (frame_total e) E4 "Ze_min"%string) by (simpl; intuition discriminate).
    destruct (m_classify o); [|injection E as <-; reflexivity].
    apply (frame_run _ _ _ _ _ (frame_classify e ins (m_rng o) (m_conv0 o)) E).
    unfold mask_list. simpl. intuition discriminate. }
  destruct R3 as (z & Vz & Ez). exists z. split; [|exact Ez]. red in Vz |- *. rewrite U. exact Vz.
Qed.
Lemma sim_reg_alone e ins a o s : m_only o = false -> lower (i_class ins) = "radar"%string -> m_reg o = true -> m_ref o = None ->
  simulate Gam e ins a o s = (Raise KeyError, s).
Proof.
  intros M C R N. rewrite sim_radar by assumption. unfold simulate_radar, lbind, rd, sim_ref. rewrite R, N. reflexivity.
Qed.
End Sim.
