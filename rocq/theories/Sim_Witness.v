(** Concrete driver calls on the dataset of Lidar_Witness.v. *)
From Verif Require Import Mom_Base Mom_Spec Mom_Facts Xr_Facts Sched_Model Atm_Model Psd_Model Lidar_Model Lidar_Spec Lidar_Witness
  Radar_Model Radar_Spec Radar_Min Radar_Witness Class_Model Class_Witness Sim_Model Sim_Spec Sim_Kinds Sim_Facts Sim_Lidar Sim_Run Sim_Final.
Local Open Scope R_scope.

Definition w_iattr : iattr := {| ia_sfc := true; ia_eta := 1; ia_thresh := hsrl_thr |}.
Definition w_sopts (classify : bool) (ref : option R) (hs : option (list string)) : sopts := {|
  m_rad := false; m_sfc := None; m_sched := Serial; m_conv0 := true; m_rng := Some (150, 1000); m_hyds := hs; m_mie := None;
  m_emp := true; m_classify := classify; m_width := true; m_only := false; m_ref := ref; m_reg := false; m_ext := None;
  m_eta := None; m_kw := {| k_disp := None; k_lo := 2; k_hi := 15 |} |}.
Definition w_kazr : inst := Radar_Witness.w_radar.
(** The same lidar under another name. *)
Definition w_ceil : inst := {|
  i_str := "CEIL"%string; i_class := "Lidar"%string; freq := freq w_ins; wavelen := wavelen w_ins; k_w := 1;
  eps_im := 0; z_min_1km := 0; ext_OD := 4; r_d := 287; grav := 98/10; rho_ice := 917;
  bulk_table := bulk_table w_ins; mie_table := []; scat_table := [];
  p3_bulk := fun _ _ _ _ => XF 1; p3_single := fun _ _ _ _ => XF 1 |}.

Lemma w_own : own_inputs w_e.
Proof.
  split; intros x I; simpl in I.
  - intros [H|[y H]].
    + unfold moment_names in H. simpl in H. intuition (subst; discriminate).
    + intuition (subst; discriminate).
  - intros (y & H). simpl in H. intuition (subst; discriminate).
Qed.
Lemma w_air : air_fields w_e w_ds.
Proof. repeat split; eexists; reflexivity. Qed.
Lemma w_mass : each_type w_e (fun c => mass_fields c ["cl"; "ci"]%string w_ds).
Proof. split; [|intros _]; intros h I; simpl in I; intuition (subst; eexists; reflexivity). Qed.
Lemma w_flags : each_type w_e (fun c => hasb w_ds (fn c "cl")).
Proof. split; [|intros _]; eexists; reflexivity. Qed.
Lemma w_radii : each_type w_e (fun c => radius_fields w_e c ["cl"; "ci"]%string w_ds).
Proof.
  assert (N : ~ moment_name "re_cl" /\ ~ moment_name "re_ci").
  { split; (intros [H|[y H]]; [unfold moment_names in H; simpl in H; intuition discriminate|discriminate]). }
  split; [|intros _]; intros h I; simpl in I; destruct I as [<-|[<-|[]]]; eexists; (split; [reflexivity|]); (split; [apply N|]);
    eexists; reflexivity.
Qed.
Lemma w_tables : optical_tables w_e ["cl"; "ci"]%string.
Proof.
  intros h I. simpl in I. destruct I as [<-|[<-|[]]]; (split; [eexists; reflexivity|]); intros [Q|Q]; try discriminate Q; eexists; reflexivity.
Qed.
Lemma w_numbered : numbered hsrl_thr.
Proof. split; [discriminate|]. intros th I. simpl in I. intuition (subst; simpl; lia). Qed.

Lemma w_radar_sim Gam : exists s', simulate Gam w_e w_kazr w_iattr (w_sopts true None None) w_ds = (Ok tt, s').
Proof.
  apply (sim_radar_empirical Gam w_e w_kazr w_iattr (w_sopts true None None) ["cl"; "ci"]%string 1000 w_ds w_own eq_refl eq_refl eq_refl eq_refl).
  - split; [reflexivity|discriminate].
  - discriminate.
  - reflexivity.
  - exact w_air.
  - exact w_mass.
  - intros _. exact w_flags.
Qed.
Lemma w_lidar_sim Gam : exists s', simulate Gam w_e w_ins w_iattr (w_sopts true None None) w_ds = (Ok tt, s').
Proof.
  apply (sim_lidar_empirical Gam w_e w_ins w_iattr (w_sopts true None None) ["cl"; "ci"]%string w_ds w_own eq_refl eq_refl eq_refl).
  - split; [reflexivity|discriminate].
  - exists "cl"%string, ["ci"%string]. split; [reflexivity|]. left; reflexivity.
  - exact w_tables.
  - intros h I. simpl in I. intuition (subst; eexists; reflexivity).
  - exact w_air.
  - destruct w_mass as [A1 A2]. destruct w_radii as [B1 B2]. split; [split; assumption|]. intro PC. split; [exact (A2 PC)|exact (B2 PC)].
  - intros _. split; [reflexivity|exact w_numbered].
Qed.
(** A requested reference range of 2 km is not used. *)
Lemma w_ref_ignored Gam : exists s' f, simulate Gam w_e w_kazr w_iattr (w_sopts false (Some 2000) None) w_ds = (Ok tt, s') /\
  real2 w_e s' "Ze_min" f /\ exists Z, real2 w_e w_ds (z_name w_e) Z /\ (forall t k, point w_e t k -> 0 < Z t k) /\
  f 0%nat 0%nat <> min_detectable (z_min_1km w_kazr) 2000 (Z 0%nat 0%nat).
Proof.
  destruct (sim_radar_empirical Gam w_e w_kazr w_iattr (w_sopts false (Some 2000) None) ["cl"; "ci"]%string 1000 w_ds w_own eq_refl eq_refl eq_refl eq_refl)
    as [s' E].
  - split; [reflexivity|discriminate].
  - discriminate.
  - reflexivity.
  - exact w_air.
  - exact w_mass.
  - discriminate.
  - set (Z := fun (_ k : nat) => 100 * INR (S k)).
    assert (HZ : real2 w_e w_ds (z_name w_e) Z) by (exists w_z; split; reflexivity).
    assert (PZ : forall t k, point w_e t k -> 0 < Z t k).
    { intros t k _. unfold Z. pose proof (lt_0_INR (S k)). assert (0 < INR (S k)) by (apply H; lia). lra. }
    exists s', (fun t k => min_detectable (z_min_1km w_kazr) 1000 (Z t k)). split; [exact E|].
    assert (P1000 : 0 < 1000) by lra.
    split; [exact (sim_ref_law Gam w_e w_kazr w_iattr (w_sopts false (Some 2000) None) w_ds s' 1000 Z w_own eq_refl eq_refl eq_refl P1000 HZ PZ E)|].
    exists Z. split; [exact HZ|]. split; [exact PZ|].
    unfold min_detectable. intro Q.
    assert (L : ln 1000 < ln 2000) by (apply ln_increasing; lra).
    assert (L10 : 0 < ln 10) by (rewrite <- ln_1; apply ln_increasing; lra).
    assert (ln 1000 / ln 10 < ln 2000 / ln 10).
    { apply Rmult_lt_compat_r; [apply Rinv_0_lt_compat; exact L10|exact L]. }
    lra.
Qed.
(** Leaving out the model's first class. *)
Lemma w_first_class Gam : exists s1 s2 s',
  calc_lidar_moments Gam w_e w_ins (sim_lopts w_e w_iattr (w_sopts false None (Some ["ci"%string])) false) false w_ds = (Ok tt, s1) /\
  calc_lidar_moments Gam w_e w_ins (sim_lopts w_e w_iattr (w_sopts false None (Some ["ci"%string])) true) true s1 = (Ok tt, s2) /\
  simulate Gam w_e w_ins w_iattr (w_sopts false None (Some ["ci"%string])) w_ds = (Raise KeyError, s').
Proof.
  do 3 eexists. split; [apply surjective_pairing|]. split; [apply surjective_pairing|].
  match goal with |- ?x = _ => rewrite (surjective_pairing x) end. reflexivity.
Qed.
(** Another lidar works as long as nothing is classified. *)
Lemma w_other_lidar Gam : (exists s', simulate Gam w_e w_ceil w_iattr (w_sopts false None None) w_ds = (Ok tt, s')) /\
  fst (simulate Gam w_e w_ceil w_iattr (w_sopts true None None) w_ds) = Raise ValueError.
Proof.
  split; [|reflexivity].
  apply (sim_lidar_empirical Gam w_e w_ceil w_iattr (w_sopts false None None) ["cl"; "ci"]%string w_ds w_own eq_refl eq_refl eq_refl).
  - split; [reflexivity|discriminate].
  - exists "cl"%string, ["ci"%string]. split; [reflexivity|]. left; reflexivity.
  - exact w_tables.
  - intros h I. simpl in I. intuition (subst; eexists; reflexivity).
  - exact w_air.
  - destruct w_mass as [A1 A2]. destruct w_radii as [B1 B2]. split; [split; assumption|]. intro PC. split; [exact (A2 PC)|exact (B2 PC)].
  - discriminate.
Qed.
(** Both given: nothing relates them. *)
Lemma w_both_given : exists f w, instrument_band (Some 35) (Some 1) = Ok (f, w) /\ f * w <> 299792458 * 10 ^ 6.
Proof. exists 35, (1 * 10 ^ 6). split; [reflexivity|]. lra. Qed.
Lemma w_separate : separate_inputs w_e.
Proof.
  assert (F : forall x, In x (table_names w_e false ++ table_names w_e true) -> ~ result_name x).
  { intros x I [[H|[y H]]|[y H]]; [unfold moment_names in H| |]; simpl in I, H; intuition (subst; discriminate). }
  intros c x I. apply F. apply in_or_app. destruct c; auto.
Qed.
