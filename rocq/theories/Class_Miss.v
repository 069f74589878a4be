(** Mass phase ratio when some masses are missing; default curves. *)
From Verif Require Import Mom_Base Mom_Spec Mom_Facts Xr_Facts Lidar_Spec Lidar_Ldr Class_Model Class_Spec Class_Lidar Class_Cosp Class_Ratio.
From Coq Require Import Lia ZArith.
Local Open Scope R_scope.

Lemma xsum_has_nan l : In XNaN l -> xsum l = XNaN.
Proof.
  induction l as [|x l IH]; intro H; [destruct H|]. rewrite xsum_cons. destruct H as [->|H]; [reflexivity|].
  rewrite IH by exact H. destruct x; reflexivity.
Qed.
Lemma xsum_numbers l : Forall real_or_nan l -> ~ In XNaN l -> xsum l = XF (sum_over l cell_number).
Proof.
  induction l as [|x l IH]; intros F N; [reflexivity|]. rewrite xsum_cons. inversion F; subst.
  rewrite IH; [|assumption|intro; apply N; right; assumption]. rewrite sum_over_cons.
  destruct x; try (exfalso; assumption); [reflexivity|]. exfalso. apply N. left. reflexivity.
Qed.
Lemma nan_dec l : {In XNaN l} + {~ In XNaN l}.
Proof.
  induction l as [|x l [I|N]].
  - right. auto.
  - left. right. exact I.
  - destruct x; try (right; intros [E|E]; [discriminate|apply N; exact E]). left. left. reflexivity.
Qed.

Lemma mass_group_any m c s a l : (forall h, In h l -> var3 s (qn c h) (a h)) -> forall acc,
  exists r, mass_group m c l acc s = (Ok r, s) /\ forall i t k,
    r i t k = xadd (acc i t k) (if xltb (XF 0) (m i t k) then xsum (map (fun h => a h i t k) l) else XF 0).
Proof.
  induction l as [|h l IH]; intros H acc; cbn [mass_group].
  - exists acc. split; [reflexivity|]. intros i t k. cbn [map]. rewrite xsum_nil. destruct (xltb _ _); symmetry; apply xadd_0_r.
  - rewrite (bind_rd _ _ _ (a h)) by (apply g3_var; apply H; left; reflexivity).
    destruct (IH (fun h' Hh' => H h' (or_intror Hh')) (fun i t k => xadd (acc i t k) (if xltb (XF 0) (m i t k) then a h i t k else XF 0)))
      as (r & Er & Hr).
    exists r. split; [exact Er|]. intros i t k. rewrite Hr. cbn [map]. rewrite xsum_cons, <- xadd_assoc.
    destruct (xltb _ _); [reflexivity|]. rewrite xadd_0_l. reflexivity.
Qed.

(** What the sum over subcolumns adds for a cell. *)
Definition part (on : bool) (vs : list xr) : R := if on then (if nan_dec vs then 0 else sum_over vs cell_number) else 0.
Lemma part_counted e m a l i t k : counted e m a l i t k (part (xltb (XF 0) (m i t k)) (class_masses e a l i t k)).
Proof.
  unfold counted, part. rewrite exceeds_xltb. destruct (xltb _ _).
  - destruct (nan_dec _) as [I|N]; split; tauto.
  - split; [|reflexivity]. intros (E & _). discriminate E.
Qed.
Lemma fillna_part (on : bool) (vs : list xr) : Forall real_or_nan vs -> fillna 0 (if on then xsum vs else XF 0) = XF (part on vs).
Proof.
  intro F. unfold part. destruct on; [|reflexivity]. destruct (nan_dec vs) as [I|N].
  - rewrite xsum_has_nan by exact I. reflexivity.
  - rewrite xsum_numbers by assumption. reflexivity.
Qed.

Lemma missing_masses e qs variable cls al hso hs s m Te fl a :
  classes_of e hso hs -> var3 s variable m -> varb s (fn false "cl") fl -> var2 s (t_name e) Te ->
  (forall c h, In c (cloud_types e) -> In h (liquid_of hs ++ ice_of hs) -> var3 s (qn c h) (a c h) /\
     forall i t k, cell e i t k -> real_or_nan (a c h i t k) /\ 0 <= cell_number (a c h i t k)) ->
  exists s' r rs l ic, calculate_phase_ratio e qs variable cls al true true hso s = (Ok tt, s') /\
    unchanged_except [(variable ++ "_mpr")%string; (variable ++ "_mpr_sum")%string] s s' /\
    var3 s' (variable ++ "_mpr") r /\ var2 s' (variable ++ "_mpr_sum") rs /\
    (forall i t k, cell e i t k -> exceeds (m i t k) 0 -> In XNaN (class_masses e a (liquid_of hs ++ ice_of hs) i t k) -> r i t k = XNaN) /\
    (forall i t k, cell e i t k -> counted e m a (liquid_of hs) i t k (l i t k) /\ counted e m a (ice_of hs) i t k (ic i t k)) /\
    (forall t k, point e t k -> share (rs t k) (sumR (fun i => l i t k) (nsub e)) (sumR (fun i => ic i t k) (nsub e))).
Proof.
  intros Hh Hv Hfl HT HQ. unfold calculate_phase_ratio.
  rewrite (bind_rd _ _ _ hs) by (apply set_hyd_ok; exact Hh). cbv zeta.
  fold (liquid_of hs). fold (ice_of hs).
  rewrite (bind_rd _ _ _ fl) by (apply gb_var; exact Hfl). rewrite (bind_rd _ _ _ m) by (apply g3_var; exact Hv).
  set (X := fun g i t k => if xltb (XF 0) (m i t k) then xsum (class_masses e a g i t k) else XF 0).
  assert (G : forall g, (forall h, In h g -> In h (liquid_of hs ++ ice_of hs)) ->
    exists r1 r2, (if p_conv e then mass_group m true g zeros3 else lret zeros3) s = (Ok r1, s) /\
      mass_group m false g r1 s = (Ok r2, s) /\ forall i t k, r2 i t k = X g i t k).
  { intros g Hg. unfold X, class_masses, cloud_types in *. destruct (p_conv e).
    - destruct (mass_group_any m true s (a true) g) with (acc := zeros3) as (r1 & E1 & H1).
      { intros h Hin. apply HQ; simpl; auto. }
      destruct (mass_group_any m false s (a false) g) with (acc := r1) as (r2 & E2 & H2).
      { intros h Hin. apply HQ; simpl; auto. }
      exists r1, r2. split; [exact E1|]. split; [exact E2|]. intros i t k. rewrite H2, H1.
      unfold zeros3. rewrite xadd_0_l. cbn [flat_map]. rewrite app_nil_r, xsum_app. destruct (xltb _ _); [reflexivity|].
      apply xadd_0_l.
    - destruct (mass_group_any m false s (a false) g) with (acc := zeros3) as (r2 & E2 & H2).
      { intros h Hin. apply HQ; simpl; auto. }
      exists zeros3, r2. split; [reflexivity|]. split; [exact E2|]. intros i t k. rewrite H2.
      unfold zeros3. rewrite xadd_0_l. cbn [flat_map]. rewrite app_nil_r. reflexivity. }
  assert (IL : forall h, In h (liquid_of hs) -> In h (liquid_of hs ++ ice_of hs)) by (intros; apply in_or_app; auto).
  assert (II : forall h, In h (ice_of hs) -> In h (liquid_of hs ++ ice_of hs)) by (intros; apply in_or_app; auto).
  destruct (G _ IL) as (l1 & l2 & E1 & E3 & HL). destruct (G _ II) as (i1 & i2 & E2 & E4 & HI).
  rewrite (bind_ok _ _ _ _ _ E1). rewrite (bind_ok _ _ _ _ _ E2).
  rewrite (bind_ok _ _ _ _ _ E3). rewrite (bind_ok _ _ _ _ _ E4).
  rewrite (bind_rd _ _ _ Te) by (apply g2_var; exact HT). rewrite bind_assign.
  assert (V : forall g i t k, (forall h, In h g -> In h (liquid_of hs ++ ice_of hs)) -> cell e i t k ->
     Forall (fun v => real_or_nan v /\ 0 <= cell_number v) (class_masses e a g i t k)).
  { intros g i t k Hg Hc. apply Forall_forall. intros v Hv'. unfold class_masses in Hv'. apply in_flat_map in Hv'.
    destruct Hv' as (c & Hc' & Hm). apply in_map_iff in Hm. destruct Hm as (h & <- & Hin). apply (HQ c h); auto. }
  assert (V1 : forall g i t k, (forall h, In h g -> In h (liquid_of hs ++ ice_of hs)) -> cell e i t k ->
     Forall real_or_nan (class_masses e a g i t k)).
  { intros g i t k Hg Hc. eapply Forall_impl; [|apply (V g i t k Hg Hc)]. simpl. tauto. }
  set (P := fun g i t k => part (xltb (XF 0) (m i t k)) (class_masses e a g i t k)).
  assert (NP : forall g i t k, (forall h, In h g -> In h (liquid_of hs ++ ice_of hs)) -> cell e i t k -> 0 <= P g i t k).
  { intros g i t k Hg Hc. unfold P, part. destruct (xltb _ _); [|lra]. destruct (nan_dec _); [lra|].
    apply sum_over_nonneg. intros v Iv. pose proof (V g i t k Hg Hc) as F. rewrite Forall_forall in F. apply (F v Iv). }
  assert (NS : forall g b t k, (forall h, In h g -> In h (liquid_of hs ++ ice_of hs)) -> point e t k ->
     (forall i t k, b i t k = X g i t k) -> nansum e b t k = XF (sumR (fun i => P g i t k) (nsub e))).
  { intros g b t k Hg (Ht & Hk) Hb. unfold nansum.
    assert (N : forall n, (n <= nsub e)%nat -> xsum (map (fun i => fillna 0 (b i t k)) (seq 0 n)) = XF (sumR (fun i => P g i t k) n)).
    { induction n as [|n IH]; intro L; [reflexivity|]. rewrite seq_S, map_app, xsum_app, IH by lia. cbn [map].
      rewrite xsum_cons, xsum_nil, xadd_0_r. cbn [Nat.add]. rewrite Hb. unfold X. rewrite fillna_part.
      - reflexivity.
      - apply V1; [exact Hg|]. unfold cell. repeat split; auto; lia. }
    apply N. lia. }
  eexists _, _, _, (P (liquid_of hs)), (P (ice_of hs)). split; [apply assign_eq|]. split; [|split; [|split; [|split; [|split]]]].
  - intros x Hx. rewrite !upd_other by (intro; subst; apply Hx; simpl; auto). reflexivity.
  - unfold var3. rewrite upd_other; [apply upd_same|]. intro E. apply app_str_inj in E. discriminate.
  - apply upd_same.
  - intros i t k Hc Hx HN. unfold lift2. rewrite HL, HI. unfold X. apply exceeds_xltb in Hx. rewrite Hx.
    assert (J : In XNaN (class_masses e a (liquid_of hs) i t k) \/ In XNaN (class_masses e a (ice_of hs) i t k)).
    { unfold class_masses in *. apply in_flat_map in HN. destruct HN as (c & Hc' & Hm). rewrite map_app in Hm.
      apply in_app_or in Hm. destruct Hm as [Hm|Hm]; [left|right]; apply in_flat_map; exists c; auto. }
    unfold ratio. destruct J as [J|J]; rewrite (xsum_has_nan _ J).
    + reflexivity.
    + destruct (xsum (class_masses e a (liquid_of hs) i t k)); reflexivity.
  - intros i t k Hc. split; apply part_counted.
  - intros t k Hp. cbv beta. rewrite (NS _ _ t k IL Hp HL), (NS _ _ t k II Hp HI).
    apply ratio_share_pos; apply sumR_nonneg; intros i Hi; apply NP; auto; unfold cell, point in *; tauto.
Qed.

Lemma default_curves x :
  poly disc_curve x = 9032 * x ^ 5 - 2136 * x ^ 4 + 173394/1000 * x ^ 3 - 3951/1000 * x ^ 2 + 256/1000 * x - 9478/10000000 /\
  poly cross_liq x = 4099/10000 * x ^ 2 + 9/1000 * x /\ poly cross_ice x = 2904/10000 * x.
Proof. unfold poly, disc_curve, cross_liq, cross_ice. cbn [length Nat.sub nth sumR]. repeat split; field. Qed.

(** A column in which the convective cloud water of one of two subcolumns is
    missing: the stratiform cloud water of that subcolumn is lost with it. *)
From Verif Require Import Lidar_Witness Class_Witness.
Definition w_miss_q (c : bool) (h : string) : arr3 :=
  fun i _ _ => if String.eqb h "cl" then (if c && (i =? 0)%nat then XNaN else XF (1/10000)) else XF (1/100000).
Definition w_miss : dset := mkds (("conv_q_subcolumns_cl"%string, V3 (w_miss_q true "cl")) :: w_class ++ w_results ++ w_fields) [].
Lemma w_miss_ok : forall c h, In c (cloud_types we) -> In h (liquid_of ["cl"; "ci"]%string ++ ice_of ["cl"; "ci"]%string) ->
  var3 w_miss (qn c h) (w_miss_q c h) /\
  forall i t k, cell we i t k -> real_or_nan (w_miss_q c h i t k) /\ 0 <= cell_number (w_miss_q c h i t k).
Proof.
  intros c h _ [<-|[<-|[]]]; (split; [destruct c; reflexivity|]); intros i t k _; unfold w_miss_q; cbn [String.eqb Ascii.eqb Bool.eqb];
    destruct c, (i =? 0)%nat; simpl; split; try exact I; lra.
Qed.
Lemma w_miss_ratio : exists s' r rs, calculate_phase_ratio we [] "mask" [1%Z] None true true None w_miss = (Ok tt, s') /\
  var3 s' "mask_mpr" r /\ var2 s' "mask_mpr_sum" rs /\ r 0%nat 0%nat 2%nat = XNaN /\ rs 0%nat 2%nat = XF (5/6).
Proof.
  destruct (missing_masses we [] "mask" [1%Z] None None ["cl"; "ci"]%string w_miss (fun i _ _ => XF (IZR (Z.of_nat i + 1))) (fun _ _ => XF 280)
     (fun _ _ _ => true) w_miss_q) as (s' & r & rs & l & ic & E & _ & Hr & Hrs & HN & H & Hs).
  - split; [reflexivity|discriminate].
  - reflexivity.
  - reflexivity.
  - reflexivity.
  - exact w_miss_ok.
  - exists s', r, rs. split; [exact E|]. split; [exact Hr|]. split; [exact Hrs|].
    assert (X : forall i, exceeds (XF (IZR (Z.of_nat i + 1))) 0) by (intro i; apply (IZR_lt 0); lia).
    split.
    + apply HN; [repeat split; simpl; lia|apply X|]. left. reflexivity.
    + destruct (H 0%nat 0%nat 2%nat) as ((_ & A0) & (B0 & _)); [repeat split; simpl; lia|].
      destruct (H 1%nat 0%nat 2%nat) as ((A1 & _) & (B1 & _)); [repeat split; simpl; lia|].
      assert (L0 : l 0%nat 0%nat 2%nat = 0) by (apply A0; intros (_ & N); apply N; left; reflexivity).
      assert (L1 : l 1%nat 0%nat 2%nat = 2/10000).
      { rewrite A1; [cbn; lra|]. split; [apply X|]. cbn. intuition discriminate. }
      assert (I0 : ic 0%nat 0%nat 2%nat = 2/100000).
      { rewrite B0; [cbn; lra|]. split; [apply X|]. cbn. intuition discriminate. }
      assert (I1 : ic 1%nat 0%nat 2%nat = 2/100000).
      { rewrite B1; [cbn; lra|]. split; [apply X|]. cbn. intuition discriminate. }
      destruct (Hs 0%nat 2%nat) as [_ S1]; [repeat split; simpl; lia|].
      change (nsub we) with 2%nat in S1. cbn [sumR] in S1. rewrite L0, L1, I0, I1 in S1.
      rewrite S1 by lra. apply (f_equal XF). field.
Qed.
