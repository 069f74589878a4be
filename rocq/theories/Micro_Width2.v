(** The radar microphysics method as called, on any classes. *)
From Verif Require Import Mom_Base Mom_Spec Mom_Facts Xr_Facts Sched_Model Atm_Model Psd_Model Lidar_Model Lidar_Spec
  Lidar_Od Lidar_Loop Lidar_Api Lidar_Corol Mom_Writes Psd_Spec Psd_Int Psd_Facts Radar_Model Radar_Spec Radar_Total Radar_Att Radar_Loop Radar_Api
  Radar_Corol Micro_Spec Micro_Loop Micro_Char Micro_Psd Micro_Cell Micro_Any Micro_P3_Spec Micro_P3 Micro_Rloop Micro_Rcall Micro_Rcell
  Micro_Radar Micro_Rany Micro_Rany2 Micro_Width_Spec Micro_Width.
Local Open Scope R_scope.

Lemma from_cl_last hs pre h : hs = pre ++ [h] -> In h (from_cl hs).
Proof.
  revert pre. induction hs as [|x hs IH]; intros [|p pre] Q; try discriminate Q.
  - injection Q as -> ->. left. reflexivity.
  - injection Q as <- Q. cbn [from_cl]. destruct (existsb (String.eqb "cl") hs); [exact (IH pre Q)|].
    right. rewrite Q. apply in_or_app. right. left. reflexivity.
Qed.
Lemma sum_over_pos (l : list string) f : (forall x, In x l -> 0 <= f x) -> (exists x, In x l /\ 0 < f x) -> 0 < sum_over l f.
Proof.
  unfold sum_over. induction l as [|a l IH]; intros H (x & I & P); [destruct I|]. cbn [fold_right].
  assert (Nn : 0 <= fold_right (fun y acc => f y + acc) 0 l).
  { clear -H. assert (H' : forall x, In x l -> 0 <= f x) by (intros; apply H; right; assumption). clear H.
    induction l as [|b l IH]; cbn [fold_right]; [lra|]. pose proof (H' b (or_introl eq_refl)).
    assert (0 <= fold_right (fun y acc => f y + acc) 0 l) by (apply IH; intros; apply H'; right; assumption). lra. }
  destruct I as [->|I]; [lra|]. pose proof (H a (or_introl eq_refl)).
  assert (0 < fold_right (fun y acc => f y + acc) 0 l) by (apply IH; eauto using in_cons). lra.
Qed.

Section Call.
Variables (Gam : R -> R) (e : menv) (ins : inst) (o : ropts) (hs : list string) (s s1 : dset).
Hypotheses (TO : rmicro_tables_ok e) (Ee : r_emp o = false) (Er : r_rad o = false)
  (Hc : classes_of e (r_hyds o) hs) (PL : plain hs)
  (E : calc_radar_moments Gam e ins o false s = (Ok tt, s1)).

Lemma p3_micro_radar i t k : 0 < k_w ins ->
  mcphys e = "P3"%string -> In "ci"%string hs -> cell e i t k ->
  (forall p, p3_seen e ins o s i t k p -> (forall b, In b (pa_B p) -> 0 < b) -> (2 <= length (pa_D p))%nat ->
     value s1 (out "Ze" "ci" false) i t k = dBZ (reflectivity ins (population (pa_D p) (pa_B p) (pa_n p))) /\
     value s1 (out "Vd" "ci" false) i t k = XF (mean_of (pa_D p) (pa_V p) (pa_B p) (pa_n p)) /\
     (r_width o = true -> value s1 (out "sigma_d" "ci" false) i t k = XF (spread_of (pa_D p) (pa_V p) (pa_B p) (pa_n p)))) /\
  (p3_absent s i t k -> value s1 (out "Ze" "ci" false) i t k = XNaN).
Proof.
  intros Hk P Hh Cl.
  destruct (gany_leaves Gam e ins o hs TO Ee Er Hc PL s s1 E) as (_ & zr & lut & Cs & _ & Hl & (L1 & _) & _).
  destruct (L1 _ Hh) as (R0 & R1 & R2 & R3).
  destruct (p3_spectrum Gam e ins o lut s Hk Hl (Cs "ci"%string) i t k P Cl R0) as [K1 K2]. split.
  - intros p HP HB HD. destruct (K1 p HP HB HD) as (_ & _ & HV). split; [|split].
    + rewrite R1, HV. reflexivity.
    + rewrite (value_var _ _ _ _ _ _ R2), HV. reflexivity.
    + intro Wd. rewrite Wd in R3. rewrite (value_var _ _ _ _ _ _ R3), HV. reflexivity.
  - intro HN. destruct (K2 HN) as (_ & _ & _ & _ & Z). cbn [ob_ze] in Z. rewrite R1. exact Z.
Qed.

Lemma any_width i t k : 0 < k_w ins -> cell e i t k ->
  (forall h, In h (from_cl hs) -> class_known Gam e ins o s h i t k) ->
  (exists h, In h (from_cl hs) /\ ~ class_seen Gam e ins o s h i t k None) ->
  exists P, (forall h, In h (from_cl hs) -> class_seen Gam e ins o s h i t k (P h)) /\
    0 < all_backscatter (from_cl hs) P /\
    value s1 (out "Vd" "tot" false) i t k = XF (all_mean (from_cl hs) P) /\
    (r_width o = true -> mcphys e <> "nssl"%string ->
     (exists x, forall h, In h (from_cl hs) -> air_factor e s h t k x) ->
     value s1 (out "sigma_d" "tot" false) i t k = XF (all_spread (from_cl hs) P)).
Proof.
  intros Hk Cl HD (h0 & I0 & N0).
  destruct (gany_leaves Gam e ins o hs TO Ee Er Hc PL s s1 E) as (Hne & zr & lut & Cs & _ & Hl & (L1 & L2 & _ & _ & L5) & _).
  assert (X : exists P, forall h, In h (from_cl hs) ->
    class_seen Gam e ins o s h i t k (P h) /\ gives ins (P h) (Cs h) i t k /\
    (forall corr vd S x m, is_nssl e = false -> gsig Gam e ins (r_mie o) (r_sched o) (r_kw o) lut corr vd h s = Ok S ->
       air_factor e s h t k x -> corr t k = XF x -> vd i t k = XF m -> spreads (P h) m S i t k)).
  { apply (choose_list (fun h c => class_seen Gam e ins o s h i t k c /\ gives ins c (Cs h) i t k /\
      (forall corr vd S x m, is_nssl e = false -> gsig Gam e ins (r_mie o) (r_sched o) (r_kw o) lut corr vd h s = Ok S ->
       air_factor e s h t k x -> corr t k = XF x -> vd i t k = XF m -> spreads c m S i t k)) None).
    intros h Hf. destruct (L1 h (from_cl_in h hs Hf)) as (R0 & _).
    exact (one_class Gam e ins o lut s Hk Hl h (Cs h) i t k Cl (HD h Hf) R0). }
  destruct X as (P & HP). exists P. split; [intros h Hf; apply HP, Hf|].
  assert (ED : xsum (map (fun h => nan_to_num (pt ob_md (Cs h) i t k)) (from_cl hs)) = XF (all_backscatter (from_cl hs) P)).
  { apply xsum_real. intros h Hf. destruct (HP h Hf) as (_ & G & _). unfold gives in G. destruct (P h) as [p|].
    - rewrite (proj2 (proj2 G)). reflexivity.
    - destruct G as (_ & G & _). exact G. }
  assert (EN : xsum (map (fun h => nan_to_num (pt ob_vn (Cs h) i t k)) (from_cl hs))
             = XF (over_classes (from_cl hs) P (fun p => products (pa_V p) (pa_B p)))).
  { apply xsum_real. intros h Hf. destruct (HP h Hf) as (_ & G & _). unfold gives in G. destruct (P h) as [p|].
    - rewrite (proj2 (proj2 G)). reflexivity.
    - destruct G as (G & _). exact G. }
  assert (PB : 0 < all_backscatter (from_cl hs) P).
  { apply sum_over_pos.
    - intros h Hf. destruct (HP h Hf) as (_ & G & _). unfold gives in G. destruct (P h); [left; apply G|lra].
    - exists h0. split; [exact I0|]. destruct (HP h0 I0) as (CS & G & _). unfold gives in G. destruct (P h0); [apply G|].
      destruct (N0 CS). }
  assert (EM : value s1 (out "Vd" "tot" false) i t k = XF (all_mean (from_cl hs) P)).
  { rewrite L2, EN, ED, xdiv_fin by lra. reflexivity. }
  split; [exact PB|]. split; [exact EM|]. intros Wd Nn (x & HA).
  destruct (exists_last Hne) as (pre & hl & El).
  destruct (L5 Wd pre hl El) as (ra & vd & Sg & Hra & Hvd & HS & ->).
  pose proof (from_cl_last hs pre hl El) as Il.
  assert (Ns : is_nssl e = false) by (unfold is_nssl; apply String.eqb_neq; exact Nn).
  assert (ES : xsum (map (fun x => nan_to_num (pts (Sg x) i t k)) (from_cl hs))
    = XF (over_classes (from_cl hs) P (fun p => products (map (fun v => (v - all_mean (from_cl hs) P) ^ 2) (pa_V p)) (pa_B p)))).
  { apply xsum_real. intros h Hf. destruct (HP h Hf) as (_ & _ & G).
    pose proof (G _ _ _ x (all_mean (from_cl hs) P) Ns (HS h (from_cl_in h hs Hf)) (HA h Hf)
      (corr_real e hl s ra t k x Hra (HA hl Il))) as Q.
    unfold spreads in Q. rewrite Q; [destruct (P h); reflexivity|].
    rewrite (value_var _ _ _ _ _ _ Hvd) in EM. exact EM. }
  rewrite ES, ED, xdiv_fin by lra. unfold all_spread. unfold xsqrt.
  match goal with |- context [Rlt_dec ?a ?b] => destruct (Rlt_dec a b) as [L|L] end; [|reflexivity].
  exfalso. apply (Rlt_not_le _ _ L). apply Rmult_le_pos; [|left; apply Rinv_0_lt_compat; exact PB].
  unfold over_classes, sum_over.
  assert (Nn' : forall l, (forall h, In h l -> In h (from_cl hs)) ->
    0 <= fold_right (fun h acc => match P h with Some p => population (pa_D p)
      (products (map (fun v => (v - all_mean (from_cl hs) P) ^ 2) (pa_V p)) (pa_B p)) (pa_n p) | None => 0 end + acc) 0 l).
  { induction l as [|h l IH]; intro Hin; cbn [fold_right]; [lra|]. apply Rplus_le_le_0_compat; [|apply IH; intros; apply Hin; right; assumption].
    destruct (HP h (Hin h (or_introl eq_refl))) as (_ & G & _). unfold gives in G. destruct (P h); [|lra].
    apply G. intros v Hv. apply in_map_iff in Hv as (u & <- & _). apply pow2_ge_0. }
  apply Nn'. auto.
Qed.

Lemma any_total_Ze i t k : 0 < k_w ins -> cell e i t k ->
  (forall h, In h hs -> class_known Gam e ins o s h i t k) ->
  exists P, (forall h, In h hs -> class_seen Gam e ins o s h i t k (P h)) /\
    value s1 (out "Ze" "tot" false) i t k
    = to_dBZ (xadd (Ze_before s i t k) (XF (reflectivity ins (all_backscatter hs P)))).
Proof.
  intros Hk Cl HD.
  destruct (gany_leaves Gam e ins o hs TO Ee Er Hc PL s s1 E) as (_ & zr & lut & Cs & _ & Hl & (L1 & _ & _ & L4 & _) & _).
  assert (X : exists P, forall h, In h hs -> class_seen Gam e ins o s h i t k (P h) /\ gives ins (P h) (Cs h) i t k).
  { apply (choose_list (fun h c => class_seen Gam e ins o s h i t k c /\ gives ins c (Cs h) i t k) None).
    intros h Hh. destruct (L1 h Hh) as (R0 & _).
    destruct (one_class Gam e ins o lut s Hk Hl h (Cs h) i t k Cl (HD h Hh) R0) as (c & K1 & K2 & _). eauto. }
  destruct X as (P & HP). exists P. split; [intros h Hh; apply HP, Hh|].
  rewrite L4, to_dBZ_total. do 2 f_equal. rewrite (reflectivity_lin ins (all_backscatter hs P)).
  unfold all_backscatter, over_classes. rewrite <- sum_over_scale. apply xsum_real. intros h Hh.
  destruct (HP h Hh) as (_ & G). unfold gives in G. destruct (P h) as [p|].
  - rewrite (proj2 (proj2 G)). cbn [ob_ze fillna]. rewrite (reflectivity_lin ins (population (pa_D p) (pa_B p) (pa_n p))). reflexivity.
  - destruct G as (_ & _ & _ & G & _). cbn [ob_ze] in G. rewrite G. f_equal. ring.
Qed.

(** The next call, whatever its options, does not succeed. *)
Lemma p3_radar_again_fails o2 hs2 s2 : mcphys e = "P3"%string -> In "ci"%string hs ->
  r_emp o2 = false -> r_rad o2 = false -> classes_of e (r_hyds o2) hs2 -> plain hs2 -> In "ci"%string hs2 ->
  calc_radar_moments Gam e ins o2 false s1 <> (Ok tt, s2).
Proof.
  intros P Hh Ee2 Er2 Hc2 PL2 Hh2 E2.
  assert (PX : forall l, In "ci"%string l -> existsb (is_p3ci e) l = true).
  { intros l I. apply existsb_exists. exists "ci"%string. split; [exact I|]. unfold is_p3ci. rewrite P. reflexivity. }
  destruct (gany_leaves Gam e ins o hs TO Ee Er Hc PL s s1 E) as (_ & _ & _ & _ & _ & _ & _ & _ & Sn & _).
  destruct (gany_leaves Gam e ins o2 hs2 TO Ee2 Er2 Hc2 PL2 s1 s2 E2) as (_ & _ & _ & _ & _ & _ & _ & _ & _ & Sf).
  specialize (Sf (PX hs2 Hh2)). rewrite Sn, (PX hs Hh), orb_true_r in Sf. discriminate Sf.
Qed.
End Call.

(** *** P3 ice alone *)
Section Alone.
Variables (Gam : R -> R) (e : menv) (ins : inst).
Hypothesis P : mcphys e = "P3"%string.
Notation other := (fun x : string => x <> "N_0"%string).
Lemma p3_ice_writes_nothing kw : writes other (calc_and_set_psd_params Gam e kw "ci").
Proof.
  unfold calc_and_set_psd_params. rewrite P. cbn [memb existsb String.eqb Ascii.eqb Bool.eqb orb].
  change (memb (lower "P3") ["mg2"; "mg"; "morrison"; "nssl"]%string) with false.
  change (memb (lower "P3") ["p3"]%string) with true. cbv iota. apply writes_rd.
Qed.
Lemma p3_class_writes mie width sch kw lut l : writes other (radar_class Gam e ins mie width sch kw lut "ci" l).
Proof.
  unfold radar_class, radar_totals.
  repeat first [apply p3_ice_writes_nothing | apply writes_kw | apply writes_ret | apply writes_rd | apply writes_raise |
    apply writes_add_to; discriminate | apply writes_assign; discriminate | apply writes_bind; [|intro] |
    match goal with |- writes _ (if ?b then _ else _) => destruct b end].
Qed.
Lemma p3_sigma_writes mie sch kw lut p3 corr acc :
  writes other (sigma_loop Gam e ins mie sch kw lut p3 corr ["ci"]%string acc).
Proof.
  cbn [sigma_loop].
  repeat first [apply p3_ice_writes_nothing | apply writes_ret | apply writes_rd | apply writes_raise | apply writes_bind; [|intro] |
    match goal with |- writes _ (if ?b then _ else _) => destruct b | |- writes _ (match ?b with _ => _ end) => destruct b end].
Qed.
Lemma p3_alone_fails o s s1 : r_emp o = false -> r_rad o = false -> classes_of e (r_hyds o) ["ci"]%string ->
  has s "N_0" = false -> calc_radar_moments Gam e ins o false s <> (Ok tt, s1).
Proof.
  intros Ee Er Hc HN E.
  destruct (radar_inv Gam e ins o false _ s s1 Hc E)
    as (q & pr & tr & zr & s0 & atm & sm & sd & zt & he & ae & El & Hq & Hp & Ht & Hz & Ea & Hatm & Em & _).
  assert (A0 : assoc (dvars s0) "N_0" = assoc (dvars s) "N_0").
  { apply (frame_run _ _ _ _ _ (frame_kappa e ins) Ea). unfold kappas. simpl. intuition discriminate. }
  unfold radar_method in Em. rewrite Ee, Er in Em. cbn [orb] in Em. unfold calc_radar_micro in Em.
  apply rd_bind_inv in Em as (qc & Hqc & Em). apply rd_bind_inv in Em as (lut & Hl & Em).
  apply bind_inv in Em as (l & sl & Ecl & Em). cbn [radar_classes] in Ecl.
  apply bind_inv in Ecl as (l' & s' & Ecl & Er'). injection Er' as <- <-.
  pose proof (writes_run _ _ _ _ _ "N_0"%string (p3_class_writes _ _ _ _ _ _) Ecl (fun Q => Q eq_refl)) as A1.
  apply rd_bind_inv in Em as (zt' & Hzt' & Em). rewrite bind_assign in Em.
  set (sv := upd _ _ _) in Em.
  assert (A2 : assoc (dvars sv) "N_0" = assoc (dvars s') "N_0") by (unfold sv; apply upd_other; discriminate).
  apply bind_inv in Em as (sg & sw & Esg & Em).
  assert (A3 : assoc (dvars sw) "N_0" = assoc (dvars sv) "N_0").
  { destruct (r_width o); [|injection Esg as _ <-; reflexivity].
    destruct (v_corr l'); [|injection Esg as _ <-; reflexivity].
    exact (writes_run _ _ _ _ _ "N_0"%string (p3_sigma_writes _ _ _ _ _ _ _) Esg (fun Q => Q eq_refl)). }
  apply bind_inv in Em as ([] & sx & Edr & _). unfold drop_vars in Edr. cbn [forallb] in Edr.
  assert (H0 : has sw "N_0" = false) by (unfold has in *; rewrite A3, A2, A1, A0; exact HN).
  rewrite H0 in Edr. discriminate Edr.
Qed.
End Alone.
