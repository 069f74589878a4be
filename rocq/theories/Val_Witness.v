(** The example dataset with pressure decreasing with height. *)
From Verif Require Import Mom_Base Mom_Spec Mom_Facts Xr_Facts Sched_Model Atm_Model Psd_Model Lidar_Model
  Lidar_Spec Lidar_Od Lidar_Api Lidar_Perm Lidar_Corol Lidar_Witness Class_Spec Radar_Model Radar_Spec Radar_Total
  Radar_Witness Val_Spec Val_Lidar Val_Bulk Val_Radar.
Local Open Scope R_scope.

Definition v_p : arr2 := fun _ k => XF (900 - 10 * INR k).
Definition v_flag : nat -> nat -> nat -> bool := fun i _ _ => Nat.eqb i 0.
Definition v_ds : dset :=
  mkds (put (put w_fields "p" (V2 v_p)) "strat_frac_subcolumns_cl" (VB v_flag)) [].

Lemma v_pres : pressures w_e v_ds (fun _ k => 100 * (900 - 10 * INR k)).
Proof. exists v_p. split; [reflexivity|]. intros t k _. unfold v_p. cbn [w_env p_pa xmul]. f_equal. ring. Qed.
Lemma v_temp : temperatures w_e v_ds (fun _ _ => 685/100).
Proof. exists (fun _ _ => XF 280). split; [reflexivity|]. intros t k _. cbn [w_env t_cel]. unfold xsub. cbn [xadd xopp]. f_equal. lra. Qed.
Lemma v_heights : heights w_e v_ds (fun _ k => 100 * INR (S k)).
Proof. exists w_z. split; reflexivity. Qed.
Lemma v_q : real3 w_e v_ds (qn false "cl") (fun _ _ _ => 1/10000) /\ real3 w_e v_ds (qn false "ci") (fun _ _ _ => 1/100000).
Proof.
  split; [exists (fun _ _ _ => XF (1/10000))|exists (fun _ _ _ => XF (1/100000))]; split; reflexivity.
Qed.
Lemma v_radius : class_radius w_e w_ins false v_ds "cl" 1000 (fun _ _ => 10)
  /\ class_radius w_e w_ins false v_ds "ci" 917 (fun _ _ => 40).
Proof.
  split.
  - exists "re_cl"%string, (fun _ _ => 10). split; [reflexivity|].
    split; [exists (fun _ _ => XF 10); split; reflexivity|]. left. split; [simpl; tauto|]. split; reflexivity.
  - exists "re_ci"%string, (fun _ _ => 40). split; [reflexivity|].
    split; [exists (fun _ _ => XF 40); split; reflexivity|]. right.
    split; [simpl; tauto|]. split; [discriminate|]. split; [reflexivity|]. exists (fun _ _ => 500). split; [|reflexivity].
    left. exists 500. split; reflexivity.
Qed.
Lemma v_eff ins p3 : bulk_table ins = bulk_table w_ins \/ bulk_table ins = bulk_table w_radar ->
  class_efficiency w_e ins p3 false v_ds "cl" (fun _ _ => 10) (fun _ _ => 2) (fun _ _ => 1/10) /\
  class_efficiency w_e ins p3 false v_ds "ci" (fun _ _ => 40) (fun _ _ => 2) (fun _ _ => 1/10).
Proof.
  intro Hb. split.
  - exists w_tab. split; [destruct Hb as [-> | ->]; reflexivity|].
    exists w_lam, [("cl", Some "mu_cl")]%string, "lam_cl"%string, "mu_cl"%string, (fun _ _ => 1000), (fun _ _ => 2).
    split; [reflexivity|]. split; [reflexivity|]. split; [exists (fun _ _ => XF 1000); split; reflexivity|].
    split; [reflexivity|]. split; [reflexivity|]. split; [exists (fun _ _ => XF 2); split; reflexivity|].
    intros; split; reflexivity.
  - exists w_tab. split; [destruct Hb as [-> | ->]; reflexivity|].
    exists [1; 100], [2; 2], [1/10; 1/10]. do 3 (split; [reflexivity|]). split; [discriminate|].
    do 2 (split; [reflexivity|]). split.
    { intros j Hj. simpl in Hj. assert (j = 0%nat) as -> by lia. simpl. lra. }
    intros t k _. split; right; right; exists 0%nat; simpl; (split; [lia|]); split; lra.
Qed.
Lemma v_sc h : In h ["cl"; "ci"]%string -> self_contained w_e h.
Proof.
  intros [<-|[<-|[]]].
  - right; right. split; [simpl; tauto|]. exists w_lam, "lam_cl"%string. split; reflexivity.
  - right; left. simpl. tauto.
Qed.
Lemma v_cell i k : (i < 2)%nat -> (k < 3)%nat -> cell w_e i 0 k.
Proof. intros. repeat split; simpl; lia. Qed.

Lemma v_lidar_emp Gam : exists s1,
  calc_lidar_moments Gam w_e w_ins (w_opts true) false v_ds = (Ok tt, s1) /\
  value s1 "sub_col_alpha_p_cl_strat" 0 0 1 = XF (3 * (89 / (287 * 280 * 10)) * 50) /\
  value s1 "sub_col_beta_p_cl_strat" 0 0 1 = XF (3 * (89 / (287 * 280 * 10)) * 50 / 18) /\
  value s1 "sub_col_alpha_p_ci_strat" 0 0 1 = XF (ice_extinction (89 / (287 * 280 * 100)) (685/100)).
Proof.
  destruct (ran (calc_lidar_moments Gam w_e w_ins (w_opts true) false v_ds) eq_refl) as (s1 & E).
  exists s1. split; [exact E|].
  pose proof (v_cell 0 1 ltac:(lia) ltac:(lia)) as Hc.
  assert (R : 0 < r_d w_ins) by (simpl; lra).
  destruct v_q as [Q1 Q2].
  assert (N : ~ In "tot"%string ["cl"; "ci"]%string) by (simpl; intuition discriminate).
  destruct (empirical_lidar_values Gam w_e w_ins (w_opts true) false ["cl"; "ci"]%string v_ds s1 "cl" _ _ _
    (w_tables _ _) eq_refl eq_refl N E (or_introl eq_refl) R v_pres v_temp Q1) as (lr & Hl & HV).
  injection Hl as <-. specialize (HV 0%nat 0%nat 1%nat Hc). cbv zeta in HV. destruct HV as (HA & _ & HB).
  assert (RE : real2 w_e v_ds "re_cl" (fun _ _ => 10)) by (exists (fun _ _ => XF 10); split; reflexivity).
  specialize (HA 1000 "re_cl"%string (fun _ _ => 10) ltac:(simpl; tauto) eq_refl eq_refl RE ltac:(lra) ltac:(lra) ltac:(lra)).
  destruct (empirical_lidar_values Gam w_e w_ins (w_opts true) false ["cl"; "ci"]%string v_ds s1 "ci" _ _ _
    (w_tables _ _) eq_refl eq_refl N E (or_intror (or_introl eq_refl)) R v_pres v_temp Q2) as (lr2 & _ & HV2).
  specialize (HV2 0%nat 0%nat 1%nat Hc). cbv zeta in HV2. destruct HV2 as (_ & HI & _).
  assert (EI : water_content (r_d w_ins) (1 / 100000) (100 * (900 - 10 * INR 1)) (685 / 100) = 89 / (287 * 280 * 100)).
  { unfold water_content. cbn [r_d w_ins INR]. field. }
  rewrite EI in HI. specialize (HI ltac:(simpl; intuition discriminate) ltac:(lra) ltac:(lra)).
  assert (EL : liquid_extinction 1000 (water_content (r_d w_ins) (1 / 10000) (100 * (900 - 10 * INR 1)) (685 / 100)) 10
               = 3 * (89 / (287 * 280 * 10)) * 50).
  { unfold liquid_extinction, water_content. cbn [r_d w_ins INR]. field. }
  cbv beta in HA. rewrite EL in HA. split; [exact HA|]. split.
  - apply HB; [lra|exact HA].
  - change "sub_col_alpha_p_ci_strat"%string with (out "alpha_p" "ci" false). rewrite HI.
    destruct (Rlt_dec 0 (89 / (287 * 280 * 100))); [reflexivity|lra].
Qed.

(** Pressure falls by 1000 Pa over the 100 m layer. *)
Lemma v_lidar_bulk Gam : exists s1,
  calc_lidar_moments Gam w_e w_ins (w_opts false) false v_ds = (Ok tt, s1) /\
  value s1 "sub_col_alpha_p_cl_strat" 0 0 1 = XF (2 * (3 * (1/10000 * 1000 / (98/10) / 100) / (4 * 1000 * (10 / 10 ^ 6)))) /\
  value s1 "sub_col_alpha_p_cl_strat" 1 0 1 = XF 0 /\
  value s1 "sub_col_beta_p_ci_strat" 1 0 1 = XF (1/10 * (3 * (1/100000 * 1000 / (98/10) / 100) / (4 * 917 * (40 / 10 ^ 6)))).
Proof.
  destruct (ran (calc_lidar_moments Gam w_e w_ins (w_opts false) false v_ds) eq_refl) as (s1 & E).
  exists s1. split; [exact E|].
  destruct v_q as [Q1 Q2]. destruct v_radius as [R1 R2].
  destruct (v_eff w_ins "CESM_liq" (or_introl eq_refl)) as [E1 E2].
  assert (N : ~ In "tot"%string ["cl"; "ci"]%string) by (simpl; intuition discriminate).
  assert (G : 0 < grav w_ins) by (simpl; lra). assert (RI : 0 < rho_ice w_ins) by (simpl; lra).
  pose proof (bulk_lidar_values Gam w_e w_ins (w_opts false) false ["cl"; "ci"]%string v_ds s1 "cl" 1000 _ _ _ _ v_flag _ _
    (w_tables _ _) eq_refl eq_refl eq_refl N v_sc E (or_introl eq_refl) G RI ltac:(lra) v_pres v_heights Q1 eq_refl R1 E1) as V1.
  pose proof (bulk_lidar_values Gam w_e w_ins (w_opts false) false ["cl"; "ci"]%string v_ds s1 "ci" 917 _ _ _ _ _ _ _
    (w_tables _ _) eq_refl eq_refl eq_refl N v_sc E (or_intror (or_introl eq_refl)) G RI ltac:(lra) v_pres v_heights Q2 eq_refl R2 E2) as V2.
  cbv zeta beta in V1, V2.
  assert (S1 : (2 < nht w_e)%nat) by (simpl; lia).
  assert (Z1 : 100 * INR 2 < 100 * INR 3) by (simpl; lra).
  assert (LW : forall q, layer_water (grav w_ins) q (fun k => 100 * (900 - 10 * INR k)) (fun k => 100 * INR (S k)) 1
               = q * 1000 / (98/10) / 100).
  { intro q. unfold layer_water. cbn [grav w_ins INR].
    match goal with |- context [Rabs ?x] => replace x with (- (1000)) by ring end.
    rewrite Rabs_Ropp, Rabs_pos_eq by lra. field. }
  split; [|split].
  - destruct (V1 0%nat 0%nat 1%nat (v_cell 0 1 ltac:(lia) ltac:(lia)) S1 Z1 ltac:(lra)) as [HA _].
    change "sub_col_alpha_p_cl_strat"%string with (out "alpha_p" "cl" false). rewrite HA. cbn [v_flag Nat.eqb].
    rewrite LW. reflexivity.
  - destruct (V1 1%nat 0%nat 1%nat (v_cell 1 1 ltac:(lia) ltac:(lia)) S1 Z1 ltac:(lra)) as [HA _]. exact HA.
  - destruct (V2 1%nat 0%nat 1%nat (v_cell 1 1 ltac:(lia) ltac:(lia)) S1 Z1 ltac:(lra)) as [_ HB].
    change "sub_col_beta_p_ci_strat"%string with (out "beta_p" "ci" false). rewrite HB. rewrite LW. reflexivity.
Qed.

Lemma v_plain : plain ["cl"; "ci"]%string.
Proof. plain_list. Qed.
Lemma v_radar_emp Gam : exists s1,
  calc_radar_moments Gam w_e w_radar (w_ropts true true ["cl"; "ci"]%string) false v_ds = (Ok tt, s1) /\
  value s1 "sub_col_Ze_cl_strat" 0 0 1 = dBZ (cloud_Z (1000 * (89 / (287 * 280 * 10)))) /\
  value s1 "sub_col_Ze_ci_strat" 0 0 1 = XF (ice_dBZ 35 (1000 * (89 / (287 * 280 * 100))) (685/100)).
Proof.
  destruct (ran (calc_radar_moments Gam w_e w_radar (w_ropts true true ["cl"; "ci"]%string) false v_ds) eq_refl) as (s1 & E).
  exists s1. split; [exact E|]. destruct v_q as [Q1 Q2].
  assert (R : 0 < r_d w_radar) by (simpl; lra).
  pose proof (empirical_radar_values Gam w_e w_radar (w_ropts true true ["cl"; "ci"]%string) false ["cl"; "ci"]%string v_ds s1 "cl"
    _ _ _ (w_radar_tables _ _) eq_refl v_plain eq_refl E (or_introl eq_refl) R v_pres v_temp Q1 0%nat 0%nat 1%nat
    (v_cell 0 1 ltac:(lia) ltac:(lia)) ltac:(lra)) as V1.
  pose proof (empirical_radar_values Gam w_e w_radar (w_ropts true true ["cl"; "ci"]%string) false ["cl"; "ci"]%string v_ds s1 "ci"
    _ _ _ (w_radar_tables _ _) eq_refl v_plain eq_refl E (or_intror (or_introl eq_refl)) R v_pres v_temp Q2 0%nat 0%nat 1%nat
    (v_cell 0 1 ltac:(lia) ltac:(lia)) ltac:(lra)) as V2.
  cbv zeta beta in V1, V2.
  assert (W1 : water_content (r_d w_radar) (1 / 10000) (100 * (900 - 10 * INR 1)) (685 / 100) = 89 / (287 * 280 * 10)).
  { unfold water_content. cbn [r_d w_radar INR]. field. }
  assert (W2 : water_content (r_d w_radar) (1 / 100000) (100 * (900 - 10 * INR 1)) (685 / 100) = 89 / (287 * 280 * 100)).
  { unfold water_content. cbn [r_d w_radar INR]. field. }
  rewrite W1 in V1. rewrite W2 in V2. specialize (V1 ltac:(lra)). specialize (V2 ltac:(lra)).
  split.
  - change "sub_col_Ze_cl_strat"%string with (out "Ze" "cl" false). rewrite V1.
    destruct (Rlt_dec 0 (1000 * (89 / (287 * 280 * 10)))) as [H|H]; [reflexivity|exfalso; apply H; lra].
  - change "sub_col_Ze_ci_strat"%string with (out "Ze" "ci" false). rewrite V2. clear V1 V2.
    destruct (Rlt_dec 0 (1000 * (89 / (287 * 280 * 100)))) as [H|H]; [|exfalso; apply H; lra]. cbn [lower]. simpl String.eqb. cbv iota.
    replace (freq w_radar / 10 ^ 9) with 35 by (cbn [freq w_radar]; field). reflexivity.
Qed.

Lemma v_radar_bulk Gam : exists s1,
  calc_radar_moments Gam w_e w_radar (w_ropts false true ["cl"; "ci"]%string) false v_ds = (Ok tt, s1) /\
  value s1 "sub_col_Ze_cl_strat" 0 0 1
  = dBZ (backscatter_Z 8600 (88/100) (1/10 * (3 * (1/10000 * 1000 / (98/10) / 100) / (4 * 1000 * (10 / 10 ^ 6))))) /\
  value s1 "sub_col_Ze_cl_strat" 1 0 1 = XNaN.
Proof.
  destruct (ran (calc_radar_moments Gam w_e w_radar (w_ropts false true ["cl"; "ci"]%string) false v_ds) eq_refl) as (s1 & E).
  exists s1. split; [exact E|]. destruct v_q as [Q1 _]. destruct v_radius as [R1 _].
  destruct (v_eff w_radar "p3_liq" (or_intror eq_refl)) as [E1 _].
  assert (G : 0 < grav w_radar) by (simpl; lra). assert (RI : 0 < rho_ice w_radar) by (simpl; lra).
  assert (K : 0 < k_w w_radar) by (simpl; lra).
  pose proof (bulk_radar_values Gam w_e w_radar (w_ropts false true ["cl"; "ci"]%string) false ["cl"; "ci"]%string v_ds s1 "cl"
    1000 _ _ _ _ v_flag _ _ (w_radar_tables _ _) eq_refl eq_refl v_plain eq_refl v_sc E (or_introl eq_refl) G RI ltac:(lra) K
    v_pres v_heights Q1 eq_refl R1 E1) as V1. cbv zeta beta in V1.
  assert (S1 : (2 < nht w_e)%nat) by (simpl; lia).
  assert (Z1 : 100 * INR 2 < 100 * INR 3) by (simpl; lra).
  assert (LW : forall q, layer_water (grav w_radar) q (fun k => 100 * (900 - 10 * INR k)) (fun k => 100 * INR (S k)) 1
               = q * 1000 / (98/10) / 100).
  { intro q. unfold layer_water. cbn [grav w_radar INR].
    match goal with |- context [Rabs ?x] => replace x with (- (1000)) by ring end.
    rewrite Rabs_Ropp, Rabs_pos_eq by lra. field. }
  split.
  - change "sub_col_Ze_cl_strat"%string with (out "Ze" "cl" false).
    rewrite (V1 0%nat 0%nat 1%nat (v_cell 0 1 ltac:(lia) ltac:(lia)) S1 Z1 ltac:(lra)). cbn [v_flag Nat.eqb].
    rewrite LW. reflexivity.
  - exact (V1 1%nat 0%nat 1%nat (v_cell 1 1 ltac:(lia) ltac:(lia)) S1 Z1 ltac:(lra)).
Qed.
