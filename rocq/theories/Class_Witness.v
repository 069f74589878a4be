(** Concrete classification cases on the dataset of Lidar_Witness.v. *)
From Verif Require Import Mom_Base Mom_Spec Mom_Facts Xr_Facts Lidar_Spec Lidar_Witness Class_Model Class_Spec Class_Lidar Class_Cosp Class_Ratio.
From Coq Require Import Lia ZArith.
Local Open Scope R_scope.

(** instruments.py 196-207: the HSRL thresholds. *)
Definition hsrl_thr : list thr := [
  {| th_ind := 2; th_ldr := [0; 1/10; 100001/1000000; 2/10; 1];
     th_beta := [2/100000; 2/100000; 2/1000000; 5/10000000; 5/10000000] |};
  {| th_ind := 4; th_ldr := [0; 1/10; 100001/1000000; 2/10; 200001/1000000; 1];
     th_beta := [2/100000; 2/100000; 2/1000000; 9/1000000; 1; 1] |};
  {| th_ind := 3; th_ldr := [0; 1/10; 100001/1000000; 2/10; 200001/1000000; 1];
     th_beta := [2/100000; 2/100000; 141421/1000000000; 1/1000; 1; 1] |};
  {| th_ind := 1; th_ldr := [0; 2/10; 200001/1000000; 1]; th_beta := [2/100000; 1/1000; 1; 1] |}].
Definition we : menv := w_env "CESM" w_lam.
Definition w_class : list (string * mv) :=
  [("sub_col_LDR_strat", c3 (1/2)); ("sub_col_LDR_conv", V3 (fun _ _ _ => XNaN)); ("sub_col_LDR_tot", c3 0);
   ("sub_col_beta_p_tot", c3 (1/1000));
   ("sub_col_OD_cl_strat", c3 0); ("sub_col_OD_ci_strat", c3 0); ("sub_col_OD_cl_conv", c3 0); ("sub_col_OD_ci_conv", c3 0);
   ("Ze_min", c2 (-50)); ("sub_col_Ze_att_tot_strat", c3 (-20)); ("sub_col_Ze_att_tot_conv", V3 (fun _ _ _ => XNaN));
   ("sub_col_Ze_att_tot", c3 (-60));
   ("mask", V3 (fun i _ _ => XF (IZR (Z.of_nat i + 1))))]%string.
Definition w_cl : dset := mkds (w_class ++ w_results ++ w_fields) [].
Definition w_radar : inst := {|
  i_str := "KAZR"%string; i_class := "Radar"%string; freq := 35; wavelen := 8600; k_w := 88/100;
  eps_im := 0; z_min_1km := -50; ext_OD := 4; r_d := 287; grav := 98/10; rho_ice := 917;
  bulk_table := []; mie_table := []; scat_table := [];
  p3_bulk := fun _ _ _ _ => XF 1; p3_single := fun _ _ _ _ => XF 1 |}.

Lemma hsrl_ok : Forall thr_ok hsrl_thr.
Proof.
  unfold hsrl_thr. repeat (apply Forall_cons; [|]); try apply Forall_nil; unfold thr_ok; cbn [th_ldr th_beta];
    (split; [discriminate|]); (split; [reflexivity|]);
    (split; [repeat (apply Forall_cons; [lra|]); apply Forall_nil|]);
    intros j Hj; simpl in Hj; do 6 (destruct j as [|j]; [first [exfalso; lia|simpl; lra]|]); lia.
Qed.
Lemma log10_le a b : 0 < a -> a <= b -> log10 a <= log10 b.
Proof.
  intros Ha Hab. unfold log10. apply Rmult_le_compat_r.
  - left. apply Rinv_0_lt_compat. rewrite <- ln_1. apply ln_increasing; lra.
  - destruct Hab as [L| ->]; [left; apply ln_increasing; auto|right; reflexivity].
Qed.
Lemma log10_lt a b : 0 < a -> a < b -> log10 a < log10 b.
Proof.
  intros Ha Hab. unfold log10. apply Rmult_lt_compat_r.
  - apply Rinv_0_lt_compat. rewrite <- ln_1. apply ln_increasing; lra.
  - apply ln_increasing; auto.
Qed.
Lemma not_reaches th x r y : thr_ok th -> on_curve (th_ldr th) (map log10 (th_beta th)) x y -> log10 r < y ->
  ~ reaches th (XF x) (XF r).
Proof.
  intros (Hn & _ & _ & Hm) Hy L (x' & r' & y' & [= <-] & [= <-] & _ & Hy' & H).
  rewrite (on_curve_fun _ _ _ _ _ Hn Hm Hy Hy') in L. lra.
Qed.
(** The class of a cell is determined. *)
Lemma last_class_last ths th l b v : last_class (ths ++ [th]) l b v -> reaches th l b -> v = th_ind th.
Proof.
  intros [[_ H]|(pre & th' & post & E & Hr & -> & Hp)] HR.
  - exfalso. apply (H th); [apply in_or_app; simpl; auto|exact HR].
  - destruct (rev post) as [|x p] eqn:Ep.
    + assert (post = []) as -> by (rewrite <- (rev_involutive post), Ep; reflexivity).
      apply app_inj_tail in E. destruct E as [_ <-]. reflexivity.
    + assert (post = rev p ++ [x]) as -> by (rewrite <- (rev_involutive post), Ep; reflexivity).
      rewrite app_comm_cons, app_assoc in E. apply app_inj_tail in E. destruct E as [_ <-].
      exfalso. apply (Hp th); [apply in_or_app; simpl; auto|exact HR].
Qed.
Lemma last_class_skip ths th l b v : last_class (ths ++ [th]) l b v -> ~ reaches th l b -> last_class ths l b v.
Proof.
  intros [[-> H]|(pre & th' & post & E & Hr & -> & Hp)] HN.
  - left. split; [reflexivity|]. intros x Hx. apply H. apply in_or_app; auto.
  - right. destruct (rev post) as [|x p] eqn:Ep.
    + assert (post = []) as -> by (rewrite <- (rev_involutive post), Ep; reflexivity).
      apply app_inj_tail in E. destruct E as [_ <-]. tauto.
    + assert (post = rev p ++ [x]) as -> by (rewrite <- (rev_involutive post), Ep; reflexivity).
      rewrite app_comm_cons, app_assoc in E. apply app_inj_tail in E. destruct E as [-> <-].
      exists pre, th', (rev p). repeat split; auto. intros y Hy. apply Hp. apply in_or_app; auto.
Qed.
Ltac seg j := right; right; exists j; simpl; split; [lia|]; split; [lra|]; reflexivity.
Lemma w_lidar_class : exists s',
  lidar_classify_phase we w_ins hsrl_thr None false true w_cl = (Ok tt, s') /\
  value s' "phase_mask_HSRL_all_hyd" 0 0 0 = XF 1 /\ value s' "phase_mask_HSRL_all_hyd" 0 0 2 = XF 0 /\
  value s' "strat_phase_mask_HSRL" 1 0 1 = XF 2.
Proof.
  destruct (lidar_classify_run we w_ins hsrl_thr None hsrl_thr false true w_cl) as (s' & E & _ & H).
  - reflexivity.
  - split; [reflexivity|discriminate].
  - exact hsrl_ok.
  - repeat (apply Forall_cons; [simpl; lia|]); apply Forall_nil.
  - eexists. reflexivity.
  - eexists. reflexivity.
  - intros p [<-|[<-|[<-|[]]]]; repeat split; try intros _; eexists; reflexivity.
  - exists s'. split; [exact E|].
    assert (V : forall n i t k a v, assoc (dvars s') n = Some (V3 a) -> a i t k = v -> value s' n i t k = v).
    { intros n i t k a v Ha Hv. unfold value. rewrite Ha. exact Hv. }
    destruct (H _ (or_intror (or_intror (or_introl eq_refl)))) as (m & Hm & Cm).
    destruct (H _ (or_introl eq_refl)) as (m' & Hm' & Cm').
    split; [|split].
    + apply (V _ _ _ _ m); [exact Hm|]. destruct (Cm 0%nat 0%nat 0%nat) as (v & -> & _ & Hv); [repeat split; simpl; lia|exact I|exact I|].
      assert (N : last_class hsrl_thr (XF 0) (XF (1/1000)) v).
      { apply Hv. intros [_ X]. cbn [exceeds value assoc] in X. simpl in X. lra. }
      change hsrl_thr with (firstn 3 hsrl_thr ++ [nth 3 hsrl_thr {| th_ind := 0; th_ldr := []; th_beta := [] |}]) in N.
      apply last_class_last in N; [rewrite N; simpl; reflexivity|].
      exists 0, (1/1000), (log10 (2/100000)). split; [reflexivity|]. split; [reflexivity|]. split; [lra|].
      split; [|apply log10_le; lra]. right; right. exists 0%nat. simpl. split; [lia|]. split; [lra|]. field.
    + apply (V _ _ _ _ m); [exact Hm|]. destruct (Cm 0%nat 0%nat 2%nat) as (v & -> & Hv & _); [repeat split; simpl; lia|exact I|exact I|].
      rewrite Hv; [reflexivity|]. split; [reflexivity|]. cbn. lra.
    + apply (V _ _ _ _ m'); [exact Hm'|]. destruct (Cm' 1%nat 0%nat 1%nat) as (v & -> & _ & Hv); [repeat split; simpl; lia|exact I|exact I|].
      assert (N : last_class hsrl_thr (XF (1/2)) (XF (4/10000)) v).
      { apply Hv. intros [_ X]. cbn [exceeds value assoc] in X. simpl in X. lra. }
      pose proof hsrl_ok as Ok4. unfold hsrl_thr in Ok4.
      inversion Ok4 as [|? ? O1 Ok3]; subst. inversion Ok3 as [|? ? O2 Ok2]; subst. inversion Ok2 as [|? ? O3 Ok1]; subst.
      inversion Ok1 as [|? ? O4 _]; subst. clear Ok4 Ok3 Ok2 Ok1.
      change hsrl_thr with (firstn 3 hsrl_thr ++ [nth 3 hsrl_thr {| th_ind := 0; th_ldr := []; th_beta := [] |}]) in N.
      apply last_class_skip in N.
      2:{ apply (not_reaches _ _ _ (log10 1) O4); [|apply log10_lt; lra]. right; right. exists 2%nat. simpl. split; [lia|]. split; [lra|]. field. }
      change (firstn 3 hsrl_thr) with (firstn 2 hsrl_thr ++ [nth 2 hsrl_thr {| th_ind := 0; th_ldr := []; th_beta := [] |}]) in N.
      apply last_class_skip in N.
      2:{ apply (not_reaches _ _ _ (log10 1) O3); [|apply log10_lt; lra]. right; right. exists 4%nat. simpl. split; [lia|]. split; [lra|]. field. }
      change (firstn 2 hsrl_thr) with (firstn 1 hsrl_thr ++ [nth 1 hsrl_thr {| th_ind := 0; th_ldr := []; th_beta := [] |}]) in N.
      apply last_class_skip in N.
      2:{ apply (not_reaches _ _ _ (log10 1) O2); [|apply log10_lt; lra]. right; right. exists 4%nat. simpl. split; [lia|]. split; [lra|]. field. }
      change (firstn 1 hsrl_thr) with ([] ++ firstn 1 hsrl_thr) in N.
      apply last_class_last in N; [rewrite N; reflexivity|].
      exists (1/2), (4/10000), (log10 (5/10000000)). split; [reflexivity|]. split; [reflexivity|]. split; [lra|].
      split; [|apply log10_le; lra]. right; right. exists 3%nat. simpl. split; [lia|]. split; [lra|]. field.
Qed.

(** Reflectivity above the noise floor with cloud: mixed (2); no echo with
    cloud: cloud (1); level at 100 m is outside the range (150, 1000). *)
Lemma w_radar_class : exists s', radar_classify_phase we w_radar (Some (150, 1000)) false w_cl = (Ok tt, s') /\
  value s' "strat_phase_mask_KAZR_sounding" 0 0 1 = XF 2 /\ value s' "conv_phase_mask_KAZR_sounding" 0 0 1 = XF 1 /\
  value s' "phase_mask_KAZR_sounding_all_hyd" 0 0 0 = XF 0.
Proof.
  set (ze := fun n : string => if String.eqb n "sub_col_Ze_att_tot_strat" then (fun _ _ _ : nat => XF (-20))
    else if String.eqb n "sub_col_Ze_att_tot_conv" then (fun _ _ _ => XNaN) else (fun _ _ _ => XF (-60))).
  destruct (radar_classify_run we w_radar (Some (150, 1000)) false w_cl ze (fun _ _ => XF (-50))
     (fun _ k => 100 * INR (S k)) (fun _ _ _ _ => true)) as (s' & E & _ & H).
  - reflexivity.
  - intros p [<-|[<-|[<-|[]]]]; reflexivity.
  - reflexivity.
  - intros _. exists w_z. split; [reflexivity|]. reflexivity.
  - intros c _. destruct c; reflexivity.
  - intros [X|[X|[X|[]]]]; discriminate.
  - exists s'. split; [exact E|].
    assert (V : forall n i t k a v, var3 s' n a -> a i t k = v -> value s' n i t k = v).
    { intros n i t k a v Ha Hv. unfold value. rewrite Ha. exact Hv. }
    assert (CL : forall cls i t k c, In c cls -> cloudy cls (fun _ _ _ _ => true) i t k) by (intros cls i t k c Hc; exists c; auto).
    destruct (H _ _ _ (or_introl eq_refl)) as (m1 & Hm1 & C1).
    destruct (H _ _ _ (or_intror (or_introl eq_refl))) as (m2 & Hm2 & C2).
    destruct (H _ _ _ (or_intror (or_intror (or_introl eq_refl)))) as (m3 & Hm3 & C3). clear H.
    split; [|split].
    + apply (V _ _ _ _ m1 _ Hm1). destruct (C1 0%nat 0%nat 1%nat) as (v & -> & _ & _ & _ & Hv & _); [repeat split; simpl; lia|].
      rewrite Hv; [reflexivity| | |apply (CL _ _ _ _ false); left; reflexivity]; cbn; lra.
    + apply (V _ _ _ _ m2 _ Hm2). destruct (C2 0%nat 0%nat 1%nat) as (v & -> & _ & _ & Hv & _); [repeat split; simpl; lia|].
      rewrite Hv; [reflexivity| | |apply (CL _ _ _ _ true); left; reflexivity]; cbn; [lra|tauto].
    + apply (V _ _ _ _ m3 _ Hm3). destruct (C3 0%nat 0%nat 0%nat) as (v & -> & Hv & _); [repeat split; simpl; lia|].
      rewrite Hv; [reflexivity|]. cbn. lra.
Qed.

(** classification.py 174-176: the default options. *)
Definition w_copts (atb : bool) : copts := {|
  c_eta := 7/10; c_sfc := true; c_curve := disc_curve; c_liq := cross_liq; c_ice := cross_ice; c_cloud := 5; c_undef := 30;
  c_precip := true; c_conv0 := false; c_atb := atb; c_hyds := None |}.
Definition w_B (c : bool) (h : string) (_ _ _ : nat) : R := if c then 0 else if String.eqb h "cl" then 1/10000 else 3/10000.
Lemma w_cosp_run : exists s', lidar_emulate_cosp_phase we w_ins (w_copts true) w_cl = (Ok tt, s') /\
  (forall mask suffix cls, In (mask, suffix, cls) (cosp_masks we) ->
      fields_ok we (w_copts true) mask suffix s'
        (cosp_sr (w_copts true) ["cl"; "ci"]%string (fun _ _ => 1/1000000) (fun _ _ => 9/10) w_B (fun _ _ _ _ _ => 0) cls)
        (cosp_tot (w_copts true) ["cl"; "ci"]%string (fun _ _ => 1/1000000) (fun _ _ => 9/10) w_B (fun _ _ _ _ _ => 0) cls)
        (cosp_crs (w_copts true) ["cl"; "ci"]%string (fun _ _ => 1/1000000) (fun _ _ => 9/10) w_B (fun _ _ _ _ _ => 0) cls) (fun _ _ => 280)).
Proof.
  destruct (cosp_run we w_ins (w_copts true) ["cl"; "ci"]%string (fun _ _ => 1/1000000) (fun _ _ => 9/10) (fun _ _ => 280)
    w_B (fun _ _ _ _ _ => 0) w_cl (fun _ _ _ => XF (4/10000))) as (s' & E & _ & H).
  - reflexivity.
  - split; [reflexivity|discriminate].
  - eexists. split; reflexivity.
  - eexists. split; reflexivity.
  - eexists. split; reflexivity.
  - intros t k _. lra.
  - reflexivity.
  - eexists. reflexivity.
  - intros c h _ [<-|[<-|[]]]; destruct c; split; (eexists; split; [reflexivity|]); reflexivity.
  - simpl. intuition discriminate.
  - exists s'. auto.
Qed.
Lemma w_cosp : exists s', lidar_emulate_cosp_phase we w_ins (w_copts true) w_cl = (Ok tt, s') /\
  value s' "strat_COSP_phase_mask" 0 0 0 = XF 1 /\ value s' "strat_COSP_phase_mask" 0 0 1 = XF 3 /\
  value s' "conv_COSP_phase_mask" 0 0 0 = XF 0.
Proof.
  destruct w_cosp_run as (s' & E & H). exists s'. split; [exact E|].
  assert (V : forall n i t k a v, var3 s' n a -> a i t k = v -> value s' n i t k = v).
  { intros n i t k a v Ha Hv. unfold value. rewrite Ha. exact Hv. }
  destruct (H _ _ _ (or_introl eq_refl)) as (_ & m1 & Hm1 & C1).
  destruct (H _ _ _ (or_intror (or_introl eq_refl))) as (_ & m2 & Hm2 & C2). clear H.
  assert (SRs : forall i t k, 30 < cosp_sr (w_copts true) ["cl"; "ci"]%string (fun _ _ => 1/1000000) (fun _ _ => 9/10) w_B (fun _ _ _ _ _ => 0) [false] i t k).
  { intros i t k. unfold cosp_sr, cosp_tot, cosp_sum, cosp_cross, cross, att_total, scat_ratio, poly, mdep, cross_liq, cross_ice, w_B, sum_over.
    simpl. rewrite ?Rplus_0_r, ?Rmult_0_r, exp_0. lra. }
  assert (SRc : forall i t k, cosp_sr (w_copts true) ["cl"; "ci"]%string (fun _ _ => 1/1000000) (fun _ _ => 9/10) w_B (fun _ _ _ _ _ => 0) [true] i t k <= 5).
  { intros i t k. rewrite clear_air; try reflexivity; try lra; [|].
    - simpl. unfold mdep. lra.
    - intros c h [<-|[]] _. split; reflexivity. }
  split; [|split].
  - apply (V _ _ _ _ m2 _ Hm2). destruct (C2 0%nat 0%nat 0%nat) as (v & -> & _ & Hv); [repeat split; simpl; lia|].
    destruct Hv as (_ & _ & Hv & _); [cbn [c_cloud w_copts]; specialize (SRs 0 0 0)%nat; lra|].
    rewrite Hv; [reflexivity| |lra]. intros (k' & _ & X & _). simpl in X. lia.
  - apply (V _ _ _ _ m2 _ Hm2). destruct (C2 0%nat 0%nat 1%nat) as (v & -> & _ & Hv); [repeat split; simpl; lia|].
    destruct Hv as (Hv & _); [cbn [c_cloud w_copts]; specialize (SRs 0 0 1)%nat; lra|].
    rewrite Hv; [unfold shown; cbn [andb]; f_equal; rewrite INR_IZR_INZ; reflexivity|]. exists 0%nat. split; [simpl; lia|]. split; [simpl; lia|]. apply SRs.
  - apply (V _ _ _ _ m1 _ Hm1). destruct (C1 0%nat 0%nat 0%nat) as (v & -> & Hv & _); [repeat split; simpl; lia|].
    rewrite Hv; [reflexivity|]. apply SRc.
Qed.
(** The stored scattering ratio of a cell without particles is above 1.2. *)
Lemma w_clear : exists s' v, lidar_emulate_cosp_phase we w_ins (w_copts true) w_cl = (Ok tt, s') /\
  value s' "COSP_SR_conv" 0 0 0 = XF v /\ 12/10 < v.
Proof.
  destruct w_cosp_run as (s' & E & H). destruct (H _ _ _ (or_introl eq_refl)) as (F & _).
  destruct (F eq_refl) as (_ & _ & (a & Ha & Ea)). eexists s', _. split; [exact E|]. split.
  - unfold value. change (("COSP_SR_" ++ cs true)%string) with "COSP_SR_conv"%string in Ha. rewrite Ha. apply Ea. repeat split; simpl; lia.
  - rewrite clear_air; try reflexivity; try lra; [|].
    + simpl. unfold mdep. lra.
    + intros c h [<-|[]] _. split; reflexivity.
Qed.

(** One subcolumn of class 1, one of class 2: the ratio of class 1 is 1/2. *)
Lemma w_fpr : exists s' r, calculate_phase_ratio we [] "mask" [1%Z] None false false None w_cl = (Ok tt, s') /\
  var2 s' "mask_fpr" r /\ r 0%nat 0%nat = XF (1/2).
Proof.
  destruct (fpr_run we [] "mask" [1%Z] None None ["cl"; "ci"]%string w_cl (fun i _ _ => XF (IZR (Z.of_nat i + 1))) (fun _ _ => XF 280))
    as (s' & r & E & _ & Hr & H).
  - split; [reflexivity|discriminate].
  - reflexivity.
  - reflexivity.
  - intros i t k _. right. eauto.
  - discriminate.
  - simpl. lia.
  - intros _. repeat split; simpl; lia.
  - exists s', r. split; [exact E|]. split; [exact Hr|].
    destruct (H 0%nat 0%nat) as (a & d & Ha & Hd & _ & Hv); [repeat split; simpl; lia|].
    assert (a = 1%nat) as ->.
    { eapply count_fun; [exact Ha|]. apply count_no; [apply count_yes; [apply count_0|]|].
      - exists 1%Z. simpl. auto.
      - intros (z & [<-|[]] & X). injection X as X. apply eq_IZR in X. discriminate. }
    assert (d = 2%nat) as ->.
    { eapply count_fun; [exact Hd|]. apply count_yes; [apply count_yes; [apply count_0|]|]; cbn [exceeds]; apply IZR_lt; reflexivity. }
    rewrite Hv by discriminate. reflexivity.
Qed.
Lemma w_mpr : exists s' r rs, calculate_phase_ratio we [] "mask" [1%Z] None true true None w_cl = (Ok tt, s') /\
  var3 s' "mask_mpr" r /\ var2 s' "mask_mpr_sum" rs /\ r 1%nat 0%nat 2%nat = XF (10/11) /\ rs 0%nat 2%nat = XF (10/11).
Proof.
  destruct (mpr_run we [] "mask" [1%Z] None None ["cl"; "ci"]%string w_cl (fun i _ _ => XF (IZR (Z.of_nat i + 1))) (fun _ _ => XF 280)
     (fun _ _ _ => true) (fun _ h _ _ _ => if String.eqb h "cl" then 1/10000 else 1/100000))
    as (s' & r & rs & l & ic & E & _ & Hr & Hrs & H & Hs).
  - split; [reflexivity|discriminate].
  - reflexivity.
  - reflexivity.
  - reflexivity.
  - intros c h _ [<-|[<-|[]]]; (split; [destruct c; (eexists; split; reflexivity)|]); simpl; intros; lra.
  - exists s', r, rs. split; [exact E|]. split; [exact Hr|]. split; [exact Hrs|].
    assert (L : forall i, (i < 2)%nat -> l i 0%nat 2%nat = 2/10000 /\ ic i 0%nat 2%nat = 2/100000).
    { intros i Hi. destruct (H i 0%nat 2%nat) as (A & B & _); [repeat split; simpl; lia|].
      assert (X : exceeds (XF (IZR (Z.of_nat i + 1))) 0) by (apply (IZR_lt 0); lia).
      rewrite (proj1 A X), (proj1 B X). cbn. split; lra. }
    split.
    + destruct (H 1%nat 0%nat 2%nat) as (_ & _ & _ & _ & _ & Sh); [repeat split; simpl; lia|].
      destruct (L 1%nat) as [E1 E2]; [lia|]. rewrite E1, E2 in Sh. rewrite Sh by lra. f_equal. lra.
    + destruct (Hs 0%nat 2%nat) as (_ & Sh); [repeat split; simpl; lia|].
      destruct (L 0%nat) as [E1 E2]; [lia|]. destruct (L 1%nat) as [E3 E4]; [lia|].
      cbn [nsub we w_env sumR] in Sh. rewrite E1, E2, E3, E4 in Sh. rewrite Sh by lra. f_equal. lra.
Qed.
