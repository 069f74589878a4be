(** Model of the instrument-simulation part of [make_simulated_data],
    emc2/simulator/main.py 61-118 (option defaults) and 166-234; and of the
    instrument constructor, emc2/core/instrument.py 73-110.  The subcolumn
    generation before it is Driver_Model.v, the final finalisation and
    unstacking (239-246) Dataset models. *)
From Verif Require Import Mom_Base Sched_Model Atm_Model Psd_Model Lidar_Model Radar_Model Class_Model.
Local Open Scope R_scope.

(** *** Instrument constructor *)

(** instrument.py 94: speed of light in m/s. *)
Definition light : R := 299792458.
(** 100-110: (freq in Hz, wavelength in micron) from the frequency in Hz and
    the wavelength in m (unit conversion by pint). *)
Definition instrument_band (frequency wavelength : option R) : res (R * R) :=
  match frequency, wavelength with
  | None, None => Raise ValueError
  | None, Some w => Ok (light / w, w * 10 ^ 6)
  | Some f, None => Ok (f, light / f * 10 ^ 6)
  | Some f, Some w => Ok (f, w * 10 ^ 6)
  end.

(** *** Driver *)

(** Instrument attributes that only the driver reads. *)
Record iattr := { ia_sfc : bool; ia_eta : R; ia_thresh : list thr }.

(** The options of the call; [None] where the caller passes nothing.
    [m_reg] tells whether a keyword [reg_rng] is passed. *)
Record sopts := {
  m_rad : bool; m_sfc : option bool; m_sched : sched; m_conv0 : bool;
  m_rng : option (R * R);           (* mask_height_rng *)
  m_hyds : option (list string); m_mie : option bool; m_emp : bool;
  m_classify : bool; m_width : bool; m_only : bool;   (* subcol_gen_only *)
  m_ref : option R; m_reg : bool;   (* ref_rng, reg_rng *)
  m_ext : option R; m_eta : option R; m_kw : psd_kw }.

(** main.py 67-71. *)
Definition sim_sfc (a : iattr) (o : sopts) : bool := match m_sfc o with Some b => b | None => ia_sfc a end.
(** 103-113. *)
Definition sim_mie (e : menv) (o : sopts) (c : bool) : bool :=
  match m_mie o with
  | Some b => b
  | None => if m_rad o then false
            else if String.eqb (lower (mcphys e)) "p3" then false
            else negb c
  end.
(** 174-178: the caller's [ref_rng] is read only when a keyword [reg_rng] is
    present. *)
Definition sim_ref (o : sopts) : res R :=
  if m_reg o then match m_ref o with Some r => Ok r | None => Raise KeyError end else Ok 1000.
(** 203-212. *)
Definition sim_ext (ins : inst) (o : sopts) : R := match m_ext o with Some x => x | None => ext_OD ins end.
Definition sim_eta (a : iattr) (o : sopts) : R := match m_eta o with Some x => x | None => ia_eta a end.

Definition sim_ropts (e : menv) (a : iattr) (o : sopts) (c : bool) : ropts := {|
  r_sfc := sim_sfc a o; r_hyds := m_hyds o; r_sched := m_sched o; r_mie := sim_mie e o c; r_rad := m_rad o;
  r_emp := m_emp o; r_width := m_width o; r_kw := m_kw o |}.
Definition sim_lopts (e : menv) (a : iattr) (o : sopts) (c : bool) : lopts := {|
  o_sfc := sim_sfc a o; o_hyds := m_hyds o; o_sched := m_sched o; o_eta := sim_eta a o; o_mie := sim_mie e o c;
  o_rad := m_rad o; o_emp := m_emp o; o_kw := m_kw o |}.
Definition sim_copts (a : iattr) (o : sopts) : copts := {|
  c_eta := sim_eta a o; c_sfc := sim_sfc a o; c_curve := disc_curve; c_liq := cross_liq; c_ice := cross_ice;
  c_cloud := 5; c_undef := 30; c_precip := true; c_conv0 := m_conv0 o; c_atb := false; c_hyds := m_hyds o |}.

Section Sim.
Variable Gam : R -> R.

(** 172-198. *)
Definition simulate_radar (e : menv) (ins : inst) (a : iattr) (o : sopts) : L unit :=
  run ref <- rd (fun _ => sim_ref o);
  run _ <- calc_radar_moments Gam e ins (sim_ropts e a o false) false;
  run _ <- (if p_conv e then calc_radar_moments Gam e ins (sim_ropts e a o true) true else lret tt);
  run _ <- calc_radar_Ze_min e ins (XF ref);
  run _ <- calc_total_reflectivity e;
  if m_classify o then radar_classify_phase e ins (m_rng o) (m_conv0 o) else lret tt.

(** 201-232. *)
Definition simulate_lidar (e : menv) (ins : inst) (a : iattr) (o : sopts) : L unit :=
  run _ <- calc_lidar_moments Gam e ins (sim_lopts e a o false) false;
  run _ <- (if p_conv e then calc_lidar_moments Gam e ins (sim_lopts e a o true) true else lret tt);
  run _ <- calc_total_alpha_beta e (sim_eta a o);
  run _ <- calc_LDR_and_ext e (sim_ext ins o) (sim_sfc a o) None (m_hyds o);
  if m_classify o then
    run _ <- lidar_classify_phase e ins (ia_thresh a) None (m_conv0 o) true;
    lidar_emulate_cosp_phase e ins (sim_copts a o)
  else lret tt.

(** 167-234. *)
Definition simulate (e : menv) (ins : inst) (a : iattr) (o : sopts) : L unit :=
  if m_only o then lret tt
  else if String.eqb (lower (i_class ins)) "radar" then simulate_radar e ins a o
  else if String.eqb (lower (i_class ins)) "lidar" then simulate_lidar e ins a o
  else lraise ValueError.
End Sim.
