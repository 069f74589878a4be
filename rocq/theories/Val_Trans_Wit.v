(** The example dataset with ice in the first subcolumn only: transmittance of
    the bulk radar method from the surface. *)
From Verif Require Import Mom_Base Mom_Spec Mom_Facts Xr_Facts Sched_Model Atm_Model Psd_Model Lidar_Model
  Lidar_Spec Lidar_Od Lidar_Api Lidar_Perm Lidar_Corol Lidar_Witness Class_Spec Radar_Model Radar_Spec Radar_Total
  Radar_Witness Val_Spec Val_Lidar Val_Bulk Val_Radar Val_Witness Val_Trans.
Local Open Scope R_scope.

Definition vt_ds : dset :=
  mkds (put (put w_fields "p" (V2 v_p)) "strat_frac_subcolumns_ci" (VB v_flag)) [].
Definition vt_class (h : string) : bulk_class_data :=
  if String.eqb h "cl" then
    {| bd_mass := fun _ _ _ => 1/10000; bd_present := fun _ _ _ => true; bd_density := 1000;
       bd_radius := fun _ _ => 10; bd_ext := fun _ _ => 2; bd_back := fun _ _ => 1/10 |}
  else
    {| bd_mass := fun _ _ _ => 1/100000; bd_present := v_flag; bd_density := 917;
       bd_radius := fun _ _ => 40; bd_ext := fun _ _ => 2; bd_back := fun _ _ => 1/10 |}.

Lemma vt_atmosphere : atmosphere w_e vt_ds (fun _ k => 900 - 10 * INR k) (fun _ _ => 280) (fun _ _ => 1/1000)
  (fun _ k => 100 * INR (S k)).
Proof.
  exists v_p, (fun _ _ => XF 280), (fun _ _ => XF (1/1000)), w_z.
  do 4 (split; [reflexivity|]). intros t k (_ & Hk).
  assert (0 < 900 - 10 * INR k).
  { assert (INR k <= INR 3) by (apply le_INR; simpl in Hk; lia). simpl in H. lra. }
  unfold xsub, v_p; simpl. repeat split; try (f_equal; lra); try lra; try reflexivity. eexists. split; [reflexivity|lra].
Qed.
Lemma vt_data h : In h ["cl"; "ci"]%string -> bulk_data w_e w_radar false false vt_ds h (vt_class h).
Proof.
  intros [<-|[<-|[]]]; cbn [vt_class String.eqb Ascii.eqb Bool.eqb].
  - split; [simpl; lra|]. split; [intros; simpl; lra|].
    split; [exists (fun _ _ _ => XF (1/10000)); split; reflexivity|]. split; [reflexivity|]. split.
    + exists "re_cl"%string, (fun _ _ => 10). split; [reflexivity|].
      split; [exists (fun _ _ => XF 10); split; reflexivity|]. left. split; [simpl; tauto|]. split; reflexivity.
    + exists w_tab. split; [reflexivity|].
      exists w_lam, [("cl", Some "mu_cl")]%string, "lam_cl"%string, "mu_cl"%string, (fun _ _ => 1000), (fun _ _ => 2).
      split; [reflexivity|]. split; [reflexivity|]. split; [exists (fun _ _ => XF 1000); split; reflexivity|].
      split; [reflexivity|]. split; [reflexivity|]. split; [exists (fun _ _ => XF 2); split; reflexivity|].
      intros; split; reflexivity.
  - split; [simpl; lra|]. split; [intros; simpl; lra|].
    split; [exists (fun _ _ _ => XF (1/100000)); split; reflexivity|]. split; [reflexivity|]. split.
    + exists "re_ci"%string, (fun _ _ => 40). split; [reflexivity|].
      split; [exists (fun _ _ => XF 40); split; reflexivity|]. right.
      split; [simpl; tauto|]. split; [discriminate|]. split; [reflexivity|]. exists (fun _ _ => 500). split; [|reflexivity].
      left. exists 500. split; reflexivity.
    + exists w_tab. split; [reflexivity|].
      exists [1; 100], [2; 2], [1/10; 1/10]. do 3 (split; [reflexivity|]). split; [discriminate|].
      do 2 (split; [reflexivity|]). split.
      { intros j Hj. simpl in Hj. assert (j = 0%nat) as -> by lia. simpl. lra. }
      intros t k _. cbn [bd_radius bd_ext bd_back].
      split; right; right; exists 0%nat; simpl; (split; [lia|]); split; lra.
Qed.
Lemma vt_present h i t k : In h ["cl"; "ci"]%string -> size_table w_e h -> cell w_e i t k ->
  bd_present (vt_class h) i t k = true.
Proof. intros [<-|[<-|[]]] S _; [reflexivity|]. destruct S as [[_ [S|[S|[]]]]|[S _]]; discriminate S. Qed.
Lemma vt_up t k : (t < ntm w_e)%nat -> (S k < nht w_e)%nat -> 100 * INR (S k) < 100 * INR (S (S k)).
Proof. intros _ _. rewrite (S_INR (S k)). lra. Qed.

Lemma w_bulk_transmittance Gam :
  (forall h, In h ["cl"; "ci"]%string -> bulk_data w_e w_radar false false vt_ds h (vt_class h)) /\
  (forall h i t k, In h ["cl"; "ci"]%string -> size_table w_e h -> cell w_e i t k ->
     bd_present (vt_class h) i t k = true) /\
  exists s1, calc_radar_moments Gam w_e w_radar (w_ropts false true ["cl"; "ci"]%string) false vt_ds = (Ok tt, s1) /\
  let cloud := 2 * (3 * (1/10000 * 1000 / (98/10) / 100) / (4 * 1000 * (10 / 10 ^ 6))) in
  let ice := 2 * (3 * (1/100000 * 1000 / (98/10) / 100) / (4 * 917 * (40 / 10 ^ 6))) in
  value s1 "hyd_ext_strat" 0 0 1 = XF (two_way (100 * (cloud + ice))) /\
  value s1 "hyd_ext_strat" 1 0 1 = XF (two_way (100 * cloud)).
Proof.
  split; [exact vt_data|]. split; [exact vt_present|].
  destruct (ran (calc_radar_moments Gam w_e w_radar (w_ropts false true ["cl"; "ci"]%string) false vt_ds) eq_refl) as (s1 & E).
  exists s1. split; [exact E|].
  assert (PR : pressures w_e vt_ds (fun _ k => 100 * (900 - 10 * INR k))).
  { exists v_p. split; [reflexivity|]. intros t k _. unfold v_p. cbn [w_env p_pa xmul]. f_equal. ring. }
  assert (HT : heights w_e vt_ds (fun _ k => 100 * INR (S k))) by (exists w_z; split; reflexivity).
  assert (G : 0 < grav w_radar) by (simpl; lra). assert (RI : 0 < rho_ice w_radar) by (simpl; lra).
  destruct (bulk_leaves Gam w_e w_radar (w_ropts false true ["cl"; "ci"]%string) false ["cl"; "ci"]%string vt_ds s1
    vt_class _ _ (w_radar_tables _ _) eq_refl eq_refl eq_refl v_plain eq_refl v_sc E G RI PR HT vt_up vt_data vt_present)
    as (a & Va & HV).
  cbv zeta. unfold value. change "hyd_ext_strat"%string with (hyd_ext_name false). rewrite Va.
  rewrite !HV by (repeat split; simpl; lia).
  unfold od_up, total_of, bulk_extinction, vt_class, projected_area, layer_water, v_flag.
  cbn [String.eqb Ascii.eqb Bool.eqb Nat.eqb sumR map fold_right bd_present bd_ext bd_density bd_radius bd_mass grav w_radar].
  assert (DP : Rabs (100 * (900 - 10 * INR 1) - 100 * (900 - 10 * INR 0)) = 1000).
  { simpl. match goal with |- Rabs ?x = _ => replace x with (- (1000)) by ring end.
    rewrite Rabs_Ropp, Rabs_pos_eq by lra. reflexivity. }
  rewrite DP. replace (INR 2) with 2 by (simpl; lra). replace (INR 1) with 1 by reflexivity.
  split; f_equal; f_equal; field.
Qed.
