(** Radar and lidar moments on one model object (empirical and bulk methods). *)
From Verif Require Import Mom_Base Mom_Spec Mom_Facts Sched_Model Atm_Model Psd_Model Lidar_Model Lidar_Spec Lidar_Loop Lidar_Api
  Radar_Model Radar_Spec Radar_Loop Radar_Api.
Local Open Scope R_scope.
Section Two.
Variable Gam : R -> R.
Lemma lidar_reads e ins o c hs (D : string -> Prop) :
  (forall x, inp e c x -> D x) -> classes_of e (o_hyds o) hs -> not_micro o c = true ->
  dep D (calc_lidar_moments Gam e ins o c) (fun x => D x \/ In x (lidar_outs c hs)).
Proof.
  intros Hi Hc NM.
  assert (Hs : set_hyd_types e (o_hyds o) = Ok hs).
  { destruct (o_hyds o) as [l|]; simpl in *; [subst; reflexivity|].
    destruct Hc as [-> N]. destruct hs; [congruence|reflexivity]. }
  assert (M : forall D1 : string -> Prop, (forall x, inp e c x -> D1 x) -> forall pp tc zz,
     dep D1 (if o_emp o then calc_lidar_empirical e ins c pp tc zz (o_sfc o) hs
             else if o_rad o || c then calc_lidar_bulk e ins c pp zz (o_sfc o) hs (o_mie o)
             else calc_lidar_micro Gam e ins zz (o_sfc o) hs (o_mie o) (o_sched o) (o_kw o))
            (fun x => D1 x \/ In x (loop_outs c hs))
     /\ frame (loop_outs c hs)
            (if o_emp o then calc_lidar_empirical e ins c pp tc zz (o_sfc o) hs
             else if o_rad o || c then calc_lidar_bulk e ins c pp zz (o_sfc o) hs (o_mie o)
             else calc_lidar_micro Gam e ins zz (o_sfc o) hs (o_mie o) (o_sched o) (o_kw o))).
  { intros D1 HD1 pp tc zz. unfold not_micro in NM. destruct (o_emp o).
    - unfold calc_lidar_empirical. split; [|apply frame_method].
      apply dep_method; [|exact HD1]. intros. apply empirical_dep; assumption.
    - simpl in NM. rewrite NM. unfold calc_lidar_bulk. split.
      + apply dep_bind with D1; [apply dep_rd; reflexivity|]. intros _.
        apply dep_method; [|exact HD1]. intros. apply bulk_dep; assumption.
      + apply frame_bind; [apply frame_rd|]. intros _. apply frame_method. }
  unfold calc_lidar_moments. rewrite Hs.
  match goal with |- dep _ (lbind (rd (fun _ => Ok hs)) ?k) _ =>
    change (lbind (rd (fun _ => Ok hs)) k) with (k hs) end. cbv beta.
  destruct (negb (String.eqb (lower (i_class ins)) "lidar")).
  { apply dep_raise. }
  assert (Dp : D (p_name e)) by (apply Hi, inp_tab; in_app).
  assert (Dt : D (t_name e)) by (apply Hi, inp_tab; in_app).
  assert (Dz : D (z_name e)) by (apply Hi, inp_tab; in_app).
  assert (Dq : D (qn c "cl")) by (apply Hi, inp_q).
  set (D1 := fun x => D x \/ In x atm_fields).
  assert (Hi1 : forall x, inp e c x -> D1 x) by (intros; left; auto).
  set (D2 := fun x => D1 x \/ In x (loop_outs c hs)).
  assert (Dtot : forall f, (f = "beta_p" \/ f = "OD")%string -> D2 (out f "tot" c)).
  { intros f [->| ->]; right; apply in_loop_outs_t; simpl; tauto. }
  apply dep_bind with D; [apply dep_rd; intros s t A; rewrite (agree_has _ _ _ _ A Dq); reflexivity|].
    intros [|]; cbn [negb]; [|apply dep_raise].
    apply dep_bind with D; [apply dep_rd; intros; eapply agree_g2; eauto|]. intro pr.
    apply dep_bind with D; [apply dep_rd; intros; eapply agree_g2; eauto|]. intro tr.
    apply dep_bind with D; [apply dep_rd; intros; eapply agree_g2; eauto|]. intro zr.
    apply dep_bind with D1; [apply dep_atm; assumption|]. intros _.
    apply dep_bind with D1.
    { apply dep_rd; intros; eapply agree_g2; eauto. right. unfold atm_fields; simpl; tauto. }
    intro bm. apply dep_bind with D1.
    { apply dep_rd; intros; eapply agree_g2; eauto. right. unfold atm_fields; simpl; tauto. }
    intro tau. apply dep_bind with D2; [apply M; exact Hi1|]. intros _.
    apply dep_bind with D2; [apply dep_rd; intros; eapply agree_g3; eauto|]. intro b.
    apply dep_bind with D2; [apply dep_rd; intros; eapply agree_g3; eauto|]. intro od.
    eapply dep_weaken; [intros x Hx; exact Hx| |apply dep_assign].
    intros x [Hx|Hx]; unfold plus, D2, D1; [tauto|]. unfold lidar_outs in Hx. rewrite !in_app_iff in Hx. simpl In in Hx at 3.
    destruct Hx as [H|[H|[H|[]]]]; [tauto|tauto|subst; tauto].
Qed.
Lemma radar_reads e ins o c hs (D : string -> Prop) :
  (forall x, inp e c x -> D x) -> classes_of e (r_hyds o) hs -> not_micro_r o c = true ->
  dep D (calc_radar_moments Gam e ins o c) (fun x => D x \/ In x (radar_outs c hs)).
Proof.
  intros Hi Hc NM.
  assert (Hs : set_hyd_types e (r_hyds o) = Ok hs).
  { destruct (r_hyds o) as [l|]; simpl in *; [subst; reflexivity|].
    destruct Hc as [-> N]. destruct hs; [congruence|reflexivity]. }
  unfold calc_radar_moments. rewrite Hs.
  match goal with |- dep _ (lbind (rd (fun _ => Ok hs)) ?k) _ =>
    change (lbind (rd (fun _ => Ok hs)) k) with (k hs) end. cbv beta.
  destruct (negb (String.eqb (lower (i_class ins)) "radar")).
  { apply dep_raise. }
  assert (Dp : D (p_name e)) by (apply Hi, inp_tab; in_app).
  assert (Dt : D (t_name e)) by (apply Hi, inp_tab; in_app).
  assert (Dz : D (z_name e)) by (apply Hi, inp_tab; in_app).
  assert (Dv : D (qv_name e)) by (apply Hi, inp_tab; in_app).
  assert (Dq : D (qn c "cl")) by (apply Hi, inp_q).
  set (D1 := fun x => D x \/ In x kappas).
  assert (Hi1 : forall x, inp e c x -> D1 x) by (intros; left; auto).
  set (D2 := fun x => D1 x \/ In x (ze_outs c hs ++ att_outs c)).
  assert (B1 : forall x, In x kappas -> In x (radar_outs c hs)) by (intros; apply in_or_app; auto).
  assert (B2 : forall x, In x (ze_outs c hs) -> In x (radar_outs c hs))
    by (intros; apply in_or_app; right; apply in_or_app; auto).
  assert (B3 : forall x, In x (att_outs c) -> In x (radar_outs c hs))
    by (intros; apply in_or_app; right; apply in_or_app; right; apply in_or_app; auto).
  assert (B4 : In (out "Ze_att" "tot" c) (radar_outs c hs)).
  { apply in_or_app; right; apply in_or_app; right; apply in_or_app; right; left; reflexivity. }
  apply dep_bind with D; [apply dep_rd; intros s t A; rewrite (agree_has _ _ _ _ A Dq); reflexivity|].
    intros [|]; cbn [negb]; [|apply dep_raise].
    apply dep_bind with D; [apply dep_rd; intros; eapply agree_g2; eauto|]. intro pr.
    apply dep_bind with D; [apply dep_rd; intros; eapply agree_g2; eauto|]. intro tr.
    apply dep_bind with D; [apply dep_rd; intros; eapply agree_g2; eauto|]. intro zr.
    apply dep_bind with D1; [apply dep_kappa; assumption|]. intros _.
    apply dep_bind with D1.
    { apply dep_rd; intros; eapply agree_g2; eauto. right. unfold kappas; simpl; tauto. }
    intro atm. apply dep_bind with D2; [apply (method_dep Gam e ins o c hs D1 NM Hi1)|]. intros _.
    apply dep_bind with D2.
    { apply dep_dbz. intros h Hh. right. apply in_or_app. left. right.
      apply (in_map (fun h => out "Ze" h c)); exact Hh. }
    intros _.
    apply dep_bind with D2; [apply dep_rd; intros; eapply agree_g3; eauto; right; left; reflexivity|]. intro zt.
    apply dep_bind with D2.
    { apply dep_rd; intros; eapply agree_g3; eauto. right. apply in_or_app. right. left; reflexivity. }
    intro he. apply dep_bind with D2.
    { apply dep_rd; intros; eapply agree_g2; eauto. right. apply in_or_app. right. right; left; reflexivity. }
    intro ae. eapply dep_bind; [apply dep_assign|]. intros _.
    eapply dep_weaken; [intros x Hx; exact Hx| |apply dep_assign].
    intros x [Hx|Hx]; unfold plus, D2, D1; [tauto|]. unfold radar_outs in Hx. rewrite !in_app_iff in *.
    destruct Hx as [H|[H|[H|[H|[]]]]]; tauto || (subst; tauto).
Qed.
End Two.
