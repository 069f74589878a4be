(** What a successful radar call with the microphysics method leaves, for any
    classes. *)
From Verif Require Import Mom_Base Mom_Spec Mom_Facts Xr_Facts Sched_Model Atm_Model Psd_Model Lidar_Model Lidar_Spec
  Lidar_Od Lidar_Loop Lidar_Api Lidar_Corol Mom_Writes Psd_Spec Radar_Model Radar_Spec Radar_Total Radar_Att Radar_Loop Radar_Api
  Micro_Spec Micro_Loop Micro_Char Micro_Any Micro_Rloop Micro_Rany.
Local Open Scope R_scope.

Lemma kappa_seen e ins s s0 : calc_radar_atm_attenuation e ins s = (Ok tt, s0) -> dseen s0 = dseen s.
Proof.
  intro E. assert (K : keeps_seen (calc_radar_atm_attenuation e ins)).
  { unfold calc_radar_atm_attenuation. cbv zeta.
    repeat match goal with
    | |- keeps_seen (lbind _ _) => apply ks_bind; [|intro]
    | |- _ => intro; reflexivity
    end. }
  specialize (K s). rewrite E in K. exact K.
Qed.
Lemma ks_run {A} (m : L A) s a s' : keeps_seen m -> m s = (a, s') -> dseen s' = dseen s.
Proof. intros K E. specialize (K s). rewrite E in K. exact K. Qed.
Lemma ks_rd' {A} (f : dset -> res A) : keeps_seen (rd f).
Proof. intro s. unfold rd. destruct (f s); reflexivity. Qed.
Lemma ks_dbz c hs : keeps_seen (dbz_loop c hs).
Proof.
  induction hs as [|h hs IH]; cbn [dbz_loop]; [intro; reflexivity|].
  apply ks_bind; [apply ks_rd'|intro]. apply ks_bind; [intro; reflexivity|intro]. exact IH.
Qed.
Lemma ks_att e c z x atm sfc b : keeps_seen (accumulate_attenuation e c z x atm sfc b).
Proof.
  unfold accumulate_attenuation. cbv zeta.
  repeat match goal with
  | |- keeps_seen (lbind _ _) => apply ks_bind; [|intro]
  | |- keeps_seen (rd _) => apply ks_rd'
  | |- keeps_seen (if ?b then _ else _) => destruct b
  | |- _ => intro; reflexivity
  end.
Qed.
Lemma ks_sigma Gam e ins mie sch kw lut p3 corr hs : forall acc, keeps_seen (sigma_loop Gam e ins mie sch kw lut p3 corr hs acc).
Proof.
  induction hs as [|h hs IH]; intro acc; cbn [sigma_loop]; [intro; reflexivity|].
  apply ks_bind; [intro s; apply psd_seen|]. intro ft.
  apply ks_bind; [apply ks_rd'|]. intro tab. apply ks_bind; [apply ks_rd'|]. intro v.
  apply ks_bind.
  { destruct (is_nssl e || negb (is_p3ci e h)); [intro; reflexivity|]. destruct p3; intro; reflexivity. }
  intro w. repeat (apply ks_bind; [apply ks_rd'|]; intro). apply IH.
Qed.
Lemma drop_seen names s s' : drop_vars names s = (Ok tt, s') -> dseen s' = dseen s.
Proof. unfold drop_vars. destruct (forallb (has s) names); [|discriminate]. intro H. injection H as <-. reflexivity. Qed.

Section Call.
Variables (Gam : R -> R) (e : menv) (ins : inst) (o : ropts) (hs : list string).
Hypotheses (TO : rmicro_tables_ok e) (Ee : r_emp o = false) (Er : r_rad o = false)
  (Hc : classes_of e (r_hyds o) hs) (PL : plain hs).

(** Everything the call stores. *)
Definition gleft (s : dset) (lut : string * bool) (z : arr2) (C : string -> list (nat -> nat -> obs)) (s1 : dset) : Prop :=
  (forall h, In h hs -> grobs Gam e ins (r_mie o) (r_sched o) (r_kw o) lut h s = Ok (C h) /\
     (forall i t k, value s1 (out "Ze" h false) i t k = to_dBZ (pt ob_ze (C h) i t k)) /\
     var3 s1 (out "Vd" h false) (pt ob_vd (C h)) /\
     var3 s1 (out "sigma_d" h false) (if r_width o then pt ob_sg (C h) else zeros3)) /\
  (forall i t k, value s1 (out "Vd" "tot" false) i t k
     = xdiv (xsum (map (fun h => nan_to_num (pt ob_vn (C h) i t k)) (from_cl hs)))
            (xsum (map (fun h => nan_to_num (pt ob_md (C h) i t k)) (from_cl hs)))) /\
  (forall pre h, hs = pre ++ [h] ->
     var3 s1 (hyd_ext_name false) (hyd_T e (r_sfc o) false z (map3 nan_to_num (pt ob_ext (C h))))) /\
  (forall i t k, value s1 (out "Ze" "tot" false) i t k
     = total_dbz (xadd (Ze_before s i t k) (xsum (map (fun h => fillna 0 (pt ob_ze (C h) i t k)) hs)))) /\
  (r_width o = true -> forall pre h, hs = pre ++ [h] -> exists ra vd S, var2 s "rho_a" ra /\
     var3 s1 (out "Vd" "tot" false) vd /\
     (forall x, In x hs -> gsig Gam e ins (r_mie o) (r_sched o) (r_kw o) lut (rhoa_corr e h ra) vd x s = Ok (S x)) /\
     forall i t k, value s1 (out "sigma_d" "tot" false) i t k
       = xsqrt (xdiv (xsum (map (fun x => nan_to_num (pts (S x) i t k)) (from_cl hs)))
                     (xsum (map (fun x => nan_to_num (pt ob_md (C x) i t k)) (from_cl hs))))).

Lemma gany_leaves s s1 : calc_radar_moments Gam e ins o false s = (Ok tt, s1) ->
  hs <> [] /\ exists zr lut C, var2 s (z_name e) zr /\ radar_lut (r_mie o) (rad_family e) = Ok lut /\
    gleft s lut (fun t k => z_met e (zr t k)) C s1 /\ agree (rinp e) s s1 /\
    (memb (i_str ins) (dseen s1) = memb (i_str ins) (dseen s) || existsb (is_p3ci e) hs) /\
    (existsb (is_p3ci e) hs = true -> memb (i_str ins) (dseen s) = false).
Proof.
  intro E. destruct PL as (ND & NT & NA).
  destruct (radar_inv Gam e ins o false hs s s1 Hc E)
    as (q & pr & tr & zr & s0 & atm & sm & sd & zt & he & ae & El & Hq & Hp & Ht & Hz & Ea & Hatm & Em & Ed & Hzt & Hhe & Hae & ->).
  assert (A0 : agree (rinp e) s0 s).
  { intros x Hx. apply (frame_run _ _ _ _ _ (frame_kappa e ins) Ea).
    intro I. apply (rinp_not_radar e x TO Hx). left. unfold kappas, radar_fields in *. simpl in *. tauto. }
  unfold radar_method in Em. rewrite Ee, Er in Em. cbn [orb] in Em. unfold calc_radar_micro in Em.
  apply rd_bind_inv in Em as (qc & Hqc & Em). apply g3_ok in Hqc.
  apply rd_bind_inv in Em as (lut & Hl & Em).
  apply bind_inv in Em as (l & sl & Ecl & Em).
  match type of Ecl with radar_classes _ _ _ _ _ _ _ _ _ ?l0 _ = _ =>
    assert (KN : kw_kept (v_kw l0) s0) by (intros w Q; discriminate Q) end.
  destruct (gclasses_inv Gam e ins (r_mie o) (r_width o) (r_sched o) (r_kw o) lut TO hs _ _ _ _ ND NT
              KN Ecl) as (C & K1 & K2 & K3 & K4 & K5 & K6 & K7 & K8 & K9 & K10 & K11 & K12).
  cbn [v_kw] in K10.
  assert (S0 : dseen s0 = dseen s) by (exact (kappa_seen e ins s s0 Ea)). rewrite S0 in K9, K10.
  apply rd_bind_inv in Em as (zt' & Hzt' & Em). rewrite bind_assign in Em.
  set (sv := upd sl _ _) in Em.
  apply bind_inv in Em as (sg & sw & Esg & Em).
  assert (Uw : forall x, ~ In x psd_names -> assoc (dvars sw) x = assoc (dvars sv) x).
  { intros x Nx. destruct (r_width o); [|injection Esg as _ <-; reflexivity].
    destruct hs; [injection Esg as _ <-; reflexivity|].
    destruct (v_corr l); [|injection Esg as _ <-; reflexivity].
    exact (writes_run _ _ _ _ _ x (writes_sigma Gam e ins (r_mie o) (r_sched o) (r_kw o) lut _ _ _ _) Esg Nx). }
  apply bind_inv in Em as ([] & sx & Edr & Em).
  pose proof (drop_inv _ _ _ Edr) as Ux.
  apply bind_inv in Em as ([] & sy & Esy & Em).
  assert (Uy : forall x, x <> out "sigma_d" "tot" false -> assoc (dvars sy) x = assoc (dvars sx) x).
  { intros x Nx. destruct (r_width o); [rewrite assign_eq in Esy; injection Esy as <-; apply upd_other; exact Nx|].
    injection Esy as <-. reflexivity. }
  assert (Uall : forall x, ~ In x psd_names -> x <> out "sigma_d" "tot" false -> assoc (dvars sy) x = assoc (dvars sv) x).
  { intros x N1 N2. rewrite (Uy x N2), (Ux x), (Uw x N1); [reflexivity|]. simpl in *. tauto. }
  destruct (v_ext l) as [ext|] eqn:Ev; [|discriminate Em].
  assert (Hne : hs <> []).
  { intro Q. destruct (K4 Q) as [K _]. cbn [v_ext] in K. congruence. }
  destruct (K5 Hne) as (z0 & z1 & Z0 & Z1 & Z2).
  assert (Hz1 : var3 sy (out "Ze" "tot" false) z1).
  { unfold var3. rewrite Uall by (apply psd_out || discriminate). unfold sv. rewrite upd_other by discriminate. exact Z1. }
  pose proof Em as Em0. unfold accumulate_attenuation in Em. apply rd_bind_inv in Em as (qc' & Hqc' & Em).
  rewrite lbind_assoc in Em. apply rd_bind_inv in Em as (zt2 & _ & Em). rewrite bind_lret, bind_assign in Em.
  apply rd_bind_inv in Em as (tk & Htk & _). apply g2_ok in Htk. apply g3_ok in Hqc'.
  assert (Nte : t_name e <> hyd_ext_name false).
  { intro Q. apply (proj1 TO (t_name e)); [unfold table_names; simpl; tauto|]. left. rewrite Q. unfold radar_fields. simpl. tauto. }
  unfold var2 in Htk. rewrite upd_other in Htk by exact Nte.
  destruct (accumulate_attenuation_run e false (fun t k => z_met e (zr t k)) ext atm (r_sfc o) false sy qc' z1 tk Hqc' (fun _ => Hz1) Htk Nte)
    as (sm' & Em1 & UA & HE & AE).
  rewrite Em0 in Em1. injection Em1 as <-.
  assert (Um : forall f h, assoc (dvars sm) (out f h false) = assoc (dvars sy) (out f h false)).
  { intros f h. apply UA. apply out_not_att. }
  destruct (dbz_run false hs sm (fun h => pt ob_ze (C h)) ND) as (sd' & Ed' & Ud & Vd & _).
  { intros h Hh. destruct (K1 h Hh) as (_ & V1 & _). unfold var3. rewrite Um, Uall by (apply psd_out || discriminate).
    unfold sv. rewrite upd_other by discriminate. exact V1. }
  rewrite Ed in Ed'. injection Ed' as <-.
  assert (Uf : forall f h, f = "Vd"%string \/ f = "sigma_d"%string -> h <> "tot"%string ->
     assoc (dvars sd) (out f h false) = assoc (dvars sl) (out f h false)).
  { intros f h Hf Nh. rewrite Ud.
    2:{ intro I. apply in_map_iff in I as (h' & Q & _). destruct Hf as [-> | ->]; discriminate Q. }
    assert (out f h false <> out "sigma_d" "tot" false).
    { destruct Hf as [-> | ->]; [discriminate|]. apply out_neq. exact Nh. }
    rewrite Um, Uall by (apply psd_out || assumption). unfold sv. apply upd_other.
    destruct Hf as [-> | ->]; [|discriminate]. apply out_neq. exact Nh. }
  split; [exact Hne|]. exists zr, lut, C. split; [exact Hz|]. split; [exact Hl|].
  split.
  2:{ split; [|split; [|intro HX; destruct (memb (i_str ins) (dseen s)) eqn:Es; [exfalso; exact (K10 HX eq_refl eq_refl)|reflexivity]]].
      2:{ rewrite <- K9. cbn [dseen upd]. rewrite (ks_run _ _ _ _ (ks_dbz false hs) Ed).
          rewrite (ks_run _ _ _ _ (ks_att e false _ _ _ _ _) Em0).
          assert (Y1 : dseen sy = dseen sx) by (destruct (r_width o); [rewrite assign_eq in Esy|]; injection Esy as <-; reflexivity).
          rewrite Y1, (drop_seen _ _ _ Edr).
          assert (Y2 : dseen sw = dseen sv).
          { destruct (r_width o); [|injection Esg as _ <-; reflexivity].
            destruct hs; [injection Esg as _ <-; reflexivity|].
            destruct (v_corr l); [|injection Esg as _ <-; reflexivity].
            exact (ks_run _ _ _ _ (ks_sigma Gam e ins (r_mie o) (r_sched o) (r_kw o) lut _ _ _ _) Esg). }
          rewrite Y2. reflexivity. }
      intros x Hx. pose proof (rinp_not_radar e x TO Hx) as NR. pose proof (rinp_not_psd e x TO Hx) as NP.
      assert (NO : forall f h, x <> out f h false) by (intros f h ->; apply NR, out_radar_reserved).
      rewrite !upd_other by apply NO. rewrite Ud.
      2:{ intro I. apply in_map_iff in I as (h' & Q & _). exact (NO _ _ (eq_sym Q)). }
      rewrite UA.
      2:{ intro I. apply NR. left. unfold radar_fields. simpl in *. tauto. }
      rewrite Uall by (assumption || apply NO). unfold sv. rewrite upd_other by apply NO. rewrite K6.
      - symmetry. apply A0. exact Hx.
      - unfold routs. rewrite !in_app_iff. intros [I|[I|I]]; [exact (NR (router_reserved _ _ I))| |exact (NP I)].
        apply in_flat_map in I as (h & _ & I). exact (NR (router_reserved _ _ I)). }
  split; [|split; [|split; [|split]]].
  - intros h Hh. destruct (K1 h Hh) as (V0 & V1 & V2 & V3).
    assert (Nh : h <> "tot"%string) by (intros ->; tauto).
    split; [apply (grobs_dep Gam e ins _ _ _ lut h s0 s _ A0 V0)|]. split; [|split].
    + intros i t k. rewrite !value_upd_other.
      * apply Vd. exact Hh.
      * intro Q. apply NA. change (out "Ze_att" "tot" false) with (out "Ze" "att_tot" false) in Q.
        apply out_inj in Q as [<- _]. exact Hh.
      * apply out_neq. exact Nh.
    + unfold var3. rewrite !upd_other by discriminate. rewrite Uf by auto. exact V2.
    + unfold var3. rewrite !upd_other by discriminate. rewrite Uf by auto. exact V3.
  - intros i t k. rewrite !value_upd_other by discriminate. unfold value.
    rewrite Ud.
    2:{ intro I. apply in_map_iff in I as (h' & Q & _). discriminate Q. }
    rewrite Um, Uall by (apply psd_out || discriminate). unfold sv. rewrite upd_same.
    unfold lift2. destruct (K2 i t k) as [-> ->]. rewrite !gather_from. cbn [v_numer v_denom].
    unfold zeros3. cbv beta. destruct (existsb (String.eqb "cl") hs); cbv iota; rewrite !xadd_0_l; reflexivity.
  - intros pre h Q. unfold var3. rewrite !upd_other by discriminate. rewrite Ud.
    2:{ intro I. apply in_map_iff in I as (h' & J & _). discriminate J. }
    pose proof (K3 pre h Q) as Q3. injection Q3 as ->. exact HE.
  - intros i t k. unfold value at 1. rewrite upd_same. unfold map3. f_equal.
    assert (zt = z1) as ->.
    { unfold var3 in Hzt. rewrite Ud in Hzt.
      2:{ intro I. apply in_map_iff in I as (h' & J & I). apply out_inj in J as [J _]. subst h'. tauto. }
      rewrite Um in Hzt. unfold var3 in Hz1. congruence. }
    rewrite Z2. f_equal. unfold Ze_before, started in *.
    assert (Hs0 : assoc (dvars s0) (out "Ze" "tot" false) = assoc (dvars s) (out "Ze" "tot" false)).
    { apply (frame_run _ _ _ _ _ (frame_kappa e ins) Ea). unfold kappas. simpl. intuition discriminate. }
    unfold has in *. rewrite Hs0 in Z0. destruct (assoc (dvars s) (out "Ze" "tot" false)) eqn:Q.
    + unfold var3 in Z0. rewrite Hs0 in Z0. unfold value. rewrite Q. injection Z0 as ->. reflexivity.
    + subst z0. reflexivity.
  - intros Wd pre h Q. rewrite Wd in Esg, Esy.
    destruct (K8 pre h Q) as (ra & Hra & Hco). rewrite Hco in Esg.
    assert (Esg' : sigma_loop Gam e ins (r_mie o) (r_sched o) (r_kw o) lut (v_kw l) (rhoa_corr e h ra) hs zeros3 sv = (Ok sg, sw)).
    { destruct hs as [|h0 hs0]; [destruct (Hne eq_refl)|exact Esg]. }
    assert (Agv : agree (rinp e) s0 sv).
    { intros x Hx. rewrite (K12 x Hx). unfold sv. rewrite upd_other; [reflexivity|].
      intros ->. apply (rinp_not_radar e _ TO Hx), out_radar_reserved. }
    assert (Agl : agree (minp e) sl sv).
    { intros x Hx. rewrite <- (K12 x (or_introl Hx)). apply Agv. left. exact Hx. }
    destruct (sigma_inv Gam e ins (r_mie o) (r_sched o) (r_kw o) lut TO (v_kw l) (rhoa_corr e h ra) _ hs zeros3 sv sg sw
       (kw_kept_dep e _ sl sv Agl K7) (upd_same _ _ _) ND Esg') as (S & S1 & S2).
    eexists ra, _, S. split; [|split; [|split]].
    + unfold var2 in *. rewrite <- (A0 "rho_a"%string) by (right; reflexivity). exact Hra.
    + unfold var3. rewrite !upd_other by discriminate. rewrite Ud.
      2:{ intro I. apply in_map_iff in I as (h' & J & _). discriminate J. }
      rewrite Um, Uall by (apply psd_out || discriminate). unfold sv. apply upd_same.
    + intros x Hx. apply (gsig_dep Gam e ins (r_mie o) (r_sched o) (r_kw o) lut _ _ x sv s); [|apply S1, Hx].
      intros y Hy. rewrite <- (Agv y) by (left; exact Hy). apply A0. left. exact Hy.
    + intros i t k. rewrite !value_upd_other by discriminate. unfold value. rewrite Ud.
      2:{ intro I. apply in_map_iff in I as (h' & J & _). discriminate J. }
      rewrite Um. rewrite assign_eq in Esy. injection Esy as <-. rewrite upd_same. unfold map3, lift2.
      rewrite S2. destruct (K2 i t k) as [_ ->]. rewrite !gather_from. cbn [v_denom].
      unfold zeros3. destruct (existsb (String.eqb "cl") hs); rewrite !xadd_0_l; reflexivity.
Qed.
End Call.
