(** The options a simulation hands to its steps. *)
From Verif Require Import Mom_Base Mom_Spec Mom_Facts Sched_Model Atm_Model Psd_Model Lidar_Model Radar_Model Class_Model Sim_Model Sim_Spec.
Local Open Scope R_scope.
Lemma run_inv {A} (m : L unit) (k : L A) s a s' : lbind m (fun _ => k) s = (Ok a, s') -> exists s1, m s = (Ok tt, s1) /\ k s1 = (Ok a, s').
Proof. unfold lbind. destruct (m s) as [[[]|e] s1]; [eauto|discriminate]. Qed.
Lemma radar_options Gam e ins a o s s' : m_only o = false -> lower (i_class ins) = "radar"%string ->
  simulate Gam e ins a o s = (Ok tt, s') ->
  exists s1, calc_radar_moments Gam e ins {|
    r_sfc := match m_sfc o with Some b => b | None => ia_sfc a end; r_hyds := m_hyds o; r_sched := m_sched o;
    r_mie := sim_mie e o false; r_rad := m_rad o; r_emp := m_emp o; r_width := m_width o; r_kw := m_kw o |} false s = (Ok tt, s1).
Proof.
  intros O C H. unfold simulate in H. rewrite O, C in H. cbn [String.eqb Ascii.eqb Bool.eqb] in H. unfold simulate_radar in H.
  unfold lbind at 1 in H. unfold rd at 1 in H. destruct (sim_ref o); [|discriminate]. apply run_inv in H as (s1 & H & _). exists s1. exact H.
Qed.
Lemma lidar_options Gam e ins a o s s' : m_only o = false -> lower (i_class ins) = "lidar"%string ->
  simulate Gam e ins a o s = (Ok tt, s') ->
  (exists s1, calc_lidar_moments Gam e ins {|
    o_sfc := match m_sfc o with Some b => b | None => ia_sfc a end; o_hyds := m_hyds o; o_sched := m_sched o;
    o_eta := match m_eta o with Some x => x | None => ia_eta a end;
    o_mie := sim_mie e o false; o_rad := m_rad o; o_emp := m_emp o; o_kw := m_kw o |} false s = (Ok tt, s1)) /\
  (m_classify o = true -> exists s2, lidar_emulate_cosp_phase e ins {|
    c_eta := match m_eta o with Some x => x | None => ia_eta a end; c_sfc := match m_sfc o with Some b => b | None => ia_sfc a end;
    c_curve := [9032; -2136; 173394/1000; -3951/1000; 256/1000; -9478/10000000]; c_liq := [4099/10000; 9/1000; 0]; c_ice := [2904/10000; 0];
    c_cloud := 5; c_undef := 30; c_precip := true; c_conv0 := m_conv0 o; c_atb := false; c_hyds := m_hyds o |} s2 = (Ok tt, s')).
Proof.
  intros O C H. unfold simulate in H. rewrite O, C in H. cbn [String.eqb Ascii.eqb Bool.eqb] in H. unfold simulate_lidar in H.
  apply run_inv in H as (s1 & H1 & H). split; [exists s1; exact H1|]. intro K. rewrite K in H.
  do 3 apply run_inv in H as (? & _ & H). apply run_inv in H as (s2 & _ & H). exists s2. exact H.
Qed.
