(** Radar results in the form of the property statements. *)
From Verif Require Import Mom_Base Mom_Spec Mom_Facts Xr_Facts Sched_Model Atm_Model Psd_Model Lidar_Model
  Lidar_Spec Lidar_Od Lidar_Api Lidar_Perm Lidar_Corol Radar_Model Radar_Spec Radar_Total Radar_Att Radar_Loop Radar_Api.
Local Open Scope R_scope.

Section Call.
Variable Gam : R -> R.


Lemma radar_leaves e ins o c hs s s1 :
  radar_tables_ok e c -> not_micro_r o c = true -> plain hs -> (forall h, In h hs -> rfree e o h) ->
  classes_of e (r_hyds o) hs -> calc_radar_moments Gam e ins o c s = (Ok tt, s1) ->
  exists q pr tr zr s0 atm F,
  lower (i_class ins) = "radar"%string /\ var3 s (qn c "cl") q /\
  var2 s (p_name e) pr /\ var2 s (t_name e) tr /\ var2 s (z_name e) zr /\
  calc_radar_atm_attenuation e ins s = (Ok tt, s0) /\ var2 s0 "kappa_att" atm /\
  ready e o hs /\
  (forall h, In h hs -> rcon e ins o c (fun t k => p_pa e (pr t k)) (fun t k => t_cel e (tr t k))
      (fun t k => z_met e (zr t k)) h s = Ok (F h)) /\
  leaves e ins o c s (fun t k => p_pa e (pr t k)) (fun t k => t_cel e (tr t k))
         (fun t k => z_met e (zr t k)) atm F hs s1.
Proof.
  intros T NM (ND & NT & NA) HF Hc E.
  destruct (radar_ready Gam e ins o c hs s s1 T NM NT HF Hc E)
    as (q & pr & tr & zr & s0 & atm & F & El & Hq & Hp & Ht & Hz & Ea & Ha & RD & HC).
  destruct (radar_leaves_run Gam e ins o c hs s pr tr zr s0 atm q F T NM ND NT NA HF Hc El Hq Hp Ht Hz Ea Ha RD HC)
    as (s1' & E' & LV).
  rewrite E in E'. injection E' as <-.
  exists q, pr, tr, zr, s0, atm, F. repeat match goal with |- _ /\ _ => split end; auto; apply LV.
Qed.

(** Same classes in another order. *)
Lemma radar_perm e ins o c hs1 hs2 s s1 :
  radar_tables_ok e c -> not_micro_r o c = true -> plain hs1 -> (forall h, In h hs1 -> rfree e o h) ->
  Permutation hs1 hs2 ->
  calc_radar_moments Gam e ins (radar_hyds o hs1) c s = (Ok tt, s1) ->
  exists s2, calc_radar_moments Gam e ins (radar_hyds o hs2) c s = (Ok tt, s2)
    /\ (forall x, x <> hyd_ext_name c -> x <> out "Ze_att" "tot" c ->
          same_value (assoc (dvars s1) x) (assoc (dvars s2) x))
    /\ (r_emp o = false -> same_data s1 s2).
Proof.
  intros T NM (ND & NT & NA) HF P E.
  assert (I12 : forall h, In h hs2 -> In h hs1) by (intros; eapply Permutation_in; [apply Permutation_sym|]; eauto).
  assert (I21 : forall h, In h hs1 -> In h hs2) by (intros; eapply Permutation_in; eauto).
  destruct (radar_leaves e ins (radar_hyds o hs1) c hs1 s s1 T NM (conj ND (conj NT NA)) HF eq_refl E)
    as (q & pr & tr & zr & s0 & atm & F & El & Hq & Hp & Ht & Hz & Ea & Ha & RD & HC & L1).
  destruct (radar_leaves_run Gam e ins (radar_hyds o hs2) c hs2 s pr tr zr s0 atm q F T NM) as (s2 & E2 & L2); auto.
  { eapply Permutation_NoDup; eauto. }
  { intros h Hh. apply HF. auto. }
  { reflexivity. }
  { unfold ready in *. cbn [r_emp radar_hyds] in *. destruct (r_emp o); [|exact RD]. destruct RD as [N R]. split; [|exact R].
    intros ->. apply N. apply Permutation_sym, Permutation_nil in P. exact P. }
  { intros h Hh. apply HC. auto. }
  exists s2. split; [exact E2|].
  destruct L1 as (A1 & A2 & (zt & A3 & A3') & (za & A4 & A4') & A5 & A6 & A7 & (s0' & A8 & A8')).
  destruct L2 as (B1 & B2 & (zt2 & B3 & B3') & (za2 & B4 & B4') & B5 & B6 & B7 & (s0'' & B8 & B8')).
  assert (ET : forall i t k, xsum (map (fun h => fillna 0 (snd (F h) i t k)) hs1)
                           = xsum (map (fun h => fillna 0 (snd (F h) i t k)) hs2)).
  { intros. apply xsum_perm. apply Permutation_map. exact P. }
  assert (EO : forall x, In x (radar_outs c hs1) <-> In x (radar_outs c hs2)).
  { intro x. unfold radar_outs, ze_outs. rewrite !in_app_iff. simpl.
    assert (Q : In x (map (fun h => out "Ze" h c) hs1) <-> In x (map (fun h => out "Ze" h c) hs2)).
    { rewrite !in_map_iff. split; intros (h & E' & I); exists h; auto. }
    tauto. }
  assert (G1 : forall x, x <> hyd_ext_name c -> x <> out "Ze_att" "tot" c ->
          same_value (assoc (dvars s1) x) (assoc (dvars s2) x)).
  { intros x N1 N2. destruct (in_dec string_dec x (radar_outs c hs1)) as [I|I].
    - unfold radar_outs, ze_outs, att_outs in I. rewrite !in_app_iff in I. simpl in I.
      destruct I as [I|[[<-|I]|[[I|[<-|[]]]|[I|[]]]]]; try congruence.
      + assert (I' : In x kappas) by exact I. rewrite A8', B8' by exact I'.
        rewrite A8 in B8. injection B8 as <-. apply same_value_refl.
      + rewrite A3, B3. simpl. intros. rewrite A3', B3', ET. reflexivity.
      + apply in_map_iff in I as (h & <- & I). destruct (A2 h I) as (a & Va & Ea').
        destruct (B2 h (I21 h I)) as (b & Vb & Eb'). rewrite Va, Vb. simpl. intros. rewrite Ea', Eb'. reflexivity.
      + rewrite A6, B6. simpl. reflexivity.
    - rewrite A1 by exact I. rewrite B1 by (rewrite <- EO; exact I). apply same_value_refl. }
  split; [exact G1|]. intro Ee.
  assert (EH : forall i t k, hyd_of e ins (radar_hyds o hs1) hs1 F i t k = hyd_of e ins (radar_hyds o hs2) hs2 F i t k).
  { intros. unfold hyd_of. cbn [r_emp radar_hyds]. rewrite Ee, !fold_lift2. f_equal. rewrite !map_map.
    apply xsum_perm. apply Permutation_map. exact P. }
  cbn [r_sfc r_emp radar_hyds] in *.
  pose proof (hyd_T_ext e (r_sfc o) (r_emp o) (fun t k => z_met e (zr t k)) _ _ EH) as ETT.
  intro x. destruct (string_dec x (hyd_ext_name c)) as [->|N1].
  { rewrite A5, B5. simpl. exact ETT. }
  destruct (string_dec x (out "Ze_att" "tot" c)) as [->|N2]; [|apply G1; assumption].
  rewrite A4, B4. simpl. intros. rewrite A4', B4'. unfold ze_att. rewrite ET, ETT. reflexivity.
Qed.

(** Every class's contribution is the same whatever the other classes are,
    and the total is their sum. *)
Lemma radar_contributions e ins o c s :
  radar_tables_ok e c -> not_micro_r o c = true ->
  exists Z : string -> arr3, forall hs s1,
    plain hs -> (forall h, In h hs -> rfree e o h) ->
    calc_radar_moments Gam e ins (radar_hyds o hs) c s = (Ok tt, s1) ->
    (forall h i t k, In h hs -> value s1 (out "Ze" h c) i t k = to_dBZ (Z h i t k))
    /\ (forall i t k, value s1 (out "Ze" "tot" c) i t k
          = to_dBZ (xsum (map (fun h => fillna 0 (Z h i t k)) hs))).
Proof.
  intros T NM.
  set (pr := match g2 s (p_name e) with Ok a => a | _ => fun _ _ => XNaN end).
  set (tr := match g2 s (t_name e) with Ok a => a | _ => fun _ _ => XNaN end).
  set (zr := match g2 s (z_name e) with Ok a => a | _ => fun _ _ => XNaN end).
  exists (fun h => match rcon e ins o c (fun t k => p_pa e (pr t k)) (fun t k => t_cel e (tr t k))
      (fun t k => z_met e (zr t k)) h s with Ok x => snd x | Raise _ => zeros3 end).
  intros hs s1 PL HF E.
  destruct (radar_leaves e ins (radar_hyds o hs) c hs s s1 T NM PL HF eq_refl E)
    as (q & pr' & tr' & zr' & s0 & atm & F & El & Hq & Hp & Ht & Hz & Ea & Ha & RD & HC & L1).
  assert (pr = pr') by (unfold pr; rewrite (g2_var _ _ _ Hp); reflexivity).
  assert (tr = tr') by (unfold tr; rewrite (g2_var _ _ _ Ht); reflexivity).
  assert (zr = zr') by (unfold zr; rewrite (g2_var _ _ _ Hz); reflexivity). subst pr' tr' zr'.
  destruct L1 as (A1 & A2 & (zt & A3 & A3') & _).
  assert (HZ : forall h, In h hs -> rcon e ins o c (fun t k => p_pa e (pr t k)) (fun t k => t_cel e (tr t k))
      (fun t k => z_met e (zr t k)) h s = Ok (F h)) by exact HC.
  split.
  - intros h i t k Hh. destruct (A2 h Hh) as (a & Va & Ea'). unfold value. rewrite Va, Ea'.
    rewrite HZ by exact Hh. reflexivity.
  - intros i t k. unfold value. rewrite A3, A3'. f_equal. f_equal. apply map_ext_in. intros h Hh.
    rewrite HZ by exact Hh. reflexivity.
Qed.

(** In linear units, where every contribution is a non-negative number or
    missing. *)
Definition Zok (x : xr) : Prop := match x with XF r => 0 <= r | XNaN => True | _ => False end.
Lemma Zok_linear x : Zok x -> fillna 0 x = XF (linear (to_dBZ x)).
Proof.
  destruct x as [r| | |]; intro H; try (exfalso; exact H); [|reflexivity].
  cbn [fillna isnan to_dBZ]. rewrite linear_dBZ by exact H. reflexivity.
Qed.
Lemma xsum_real {A} (l : list A) (f : A -> xr) (g : A -> R) :
  (forall x, In x l -> f x = XF (g x)) -> xsum (map f l) = XF (sum_over l g).
Proof.
  induction l as [|a l IH]; intro H; [reflexivity|]. cbn [map]. rewrite xsum_cons, H by (left; reflexivity).
  rewrite IH by (intros; apply H; right; assumption). reflexivity.
Qed.
Lemma sum_over_nonneg {A} (l : list A) g : (forall x, In x l -> 0 <= g x) -> 0 <= sum_over l g.
Proof.
  induction l as [|a l IH]; intro H; simpl; [lra|].
  assert (0 <= g a) by (apply H; left; reflexivity).
  assert (0 <= sum_over l g) by (apply IH; intros; apply H; right; assumption). unfold sum_over in *. lra.
Qed.

(** Empirical reflectivities of real fields are non-negative or missing. *)
Lemma xpow_Zok r b : 0 < b -> Zok (xpow (XF r) (XF b)).
Proof.
  intro Hb. simpl. destruct (Rlt_dec 0 r); simpl; [left; apply Rpower_pos|].
  destruct (Req_EM_T b 0); [simpl; lra|]. destruct (Rlt_dec r 0); [exact I|].
  destruct (Rlt_dec 0 b); simpl; lra.
Qed.
Lemma hogan_Zok a b den wc t : 0 < den -> Zok (ze_hogan a b (XF den) (XF wc) (XF t)).
Proof.
  intro Hd. unfold ze_hogan. simpl xlog10. destruct (Rlt_dec 0 wc).
  - cbn [xmul xadd]. rewrite !xdiv_fin by lra. unfold xp10. rewrite xpow_fin by lra. simpl. left; apply Rpower_pos.
  - destruct (Rlt_dec wc 0); [simpl; unfold xp10, xpow; destruct (Req_EM_T 10 1); simpl; auto; lra|].
    cbn [xmul xadd xdiv]. destruct (Rlt_dec den 0); [lra|]. cbn [xdiv]. destruct (Rlt_dec 10 0); [lra|].
    unfold xp10, xpow. destruct (Rlt_dec 10 0); [lra|]. destruct (Rlt_dec 1 10); [|lra]. simpl; lra.
Qed.
Lemma ice_Zok f wc t : -150 < t -> Zok (ze_ice f (XF wc) (XF t)).
Proof.
  intro Ht. unfold ze_ice. cbv zeta.
  destruct (within (2 * 10 ^ 9) (4 * 10 ^ 9) f); [apply hogan_Zok; lra|].
  destruct (within (27 * 10 ^ 9) (40 * 10 ^ 9) f); [cbn [xmul xadd]; apply hogan_Zok; lra|].
  destruct (within (75 * 10 ^ 9) (110 * 10 ^ 9) f); cbn [xmul xadd]; apply hogan_Zok; lra.
Qed.
Lemma wc_real ins q p t : 0 < r_d ins -> -(27315 / 100) < t -> exists w, wc_g ins (XF q) (XF p) (XF t) = XF w
  /\ (0 <= q -> 0 <= p -> 0 <= w).
Proof.
  intros Hr Ht. unfold wc_g, wc_cell. cbn [xmul xadd].
  assert (D : 0 < r_d ins * (t + 27315 / 100)) by (apply Rmult_lt_0_compat; lra).
  rewrite xdiv_fin by lra. cbn [xmul]. eexists. split; [reflexivity|]. intros.
  apply Rmult_le_pos; [|lra]. apply Rmult_le_pos; [apply Rmult_le_pos; assumption|].
  left. apply Rinv_0_lt_compat; exact D.
Qed.

Lemma empirical_linear_total e ins o c hs s s1 P Tc :
  radar_tables_ok e c -> r_emp o = true -> plain hs -> 0 < r_d ins ->
  (forall t k, point e t k -> exists a, var2 s (p_name e) a /\ p_pa e (a t k) = XF (P t k)) ->
  (forall t k, point e t k -> exists a, var2 s (t_name e) a /\ t_cel e (a t k) = XF (Tc t k)) ->
  (forall t k, point e t k -> -150 < Tc t k) ->
  (forall h, In h hs -> exists Q, real3 e s (qn c h) Q) ->
  calc_radar_moments Gam e ins (radar_hyds o hs) c s = (Ok tt, s1) ->
  forall i t k, cell e i t k ->
    linear (value s1 (out "Ze" "tot" c) i t k) = sum_over hs (fun h => linear (value s1 (out "Ze" h c) i t k))
    /\ value s1 (out "Ze" "tot" c) i t k = dBZ (sum_over hs (fun h => linear (value s1 (out "Ze" h c) i t k))).
Proof.
  intros T Ee PL Hr HP HT HT' HQ E i t k Hc.
  assert (NM : not_micro_r o c = true) by (unfold not_micro_r; rewrite Ee; reflexivity).
  assert (HF : forall h, In h hs -> rfree e (radar_hyds o hs) h) by (intros; left; exact Ee).
  destruct (radar_leaves e ins (radar_hyds o hs) c hs s s1 T NM PL HF eq_refl E)
    as (q & pr & tr & zr & s0 & atm & F & El & Hq & Hp & Ht & Hz & Ea & Ha & RD & HC & L1).
  destruct L1 as (A1 & A2 & (zt & A3 & A3') & _).
  assert (Hpt : point e t k) by (destruct Hc as (? & ? & ?); split; assumption).
  destruct (HP t k Hpt) as (a1 & Va1 & Ep). red in Hp, Va1. rewrite Hp in Va1. injection Va1 as <-.
  destruct (HT t k Hpt) as (a2 & Va2 & Et). red in Ht, Va2. rewrite Ht in Va2. injection Va2 as <-.
  assert (ZO : forall h, In h hs -> Zok (snd (F h) i t k)).
  { intros h Hh. specialize (HC h Hh). unfold rcon in HC. cbn [r_emp radar_hyds] in HC. rewrite Ee in HC.
    unfold emp_con, empirical_class in HC. destruct (HQ h Hh) as (Q & qa & Vq & Eq).
    rewrite (g3_var _ _ _ Vq) in HC. cbn [bind] in HC. injection HC as HC. rewrite <- HC. cbn [snd].
    destruct (wc_real ins (Q i t k) (P t k) (Tc t k) Hr ltac:(specialize (HT' t k Hpt); lra)) as (w & Ew & _).
    destruct (is_cl h); [|destruct (is_pl h)]; unfold map3; rewrite Eq by exact Hc; rewrite Ep, Et, Ew.
    - unfold ze_cl. pose proof (xpow_Zok w (156 / 100) ltac:(lra)) as Z.
      destruct (xpow (XF w) (XF (156 / 100))); simpl in *; try tauto. apply Rmult_le_pos; lra.
    - unfold ze_pl. cbn [xmul]. rewrite xdiv_fin by lra. apply xpow_Zok; lra.
    - apply ice_Zok. apply HT'; exact Hpt. }
  assert (EV : forall h, In h hs -> value s1 (out "Ze" h c) i t k = to_dBZ (snd (F h) i t k)).
  { intros h Hh. destruct (A2 h Hh) as (a & Va & Ea'). unfold value. rewrite Va. apply Ea'. }
  assert (ES : xsum (map (fun h => fillna 0 (snd (F h) i t k)) hs)
             = XF (sum_over hs (fun h => linear (value s1 (out "Ze" h c) i t k)))).
  { apply xsum_real. intros h Hh. rewrite EV by exact Hh. apply Zok_linear. apply ZO; exact Hh. }
  assert (EVt : value s1 (out "Ze" "tot" c) i t k
              = dBZ (sum_over hs (fun h => linear (value s1 (out "Ze" h c) i t k)))).
  { unfold value at 1. rewrite A3, A3', ES. reflexivity. }
  split; [|exact EVt]. rewrite EVt. apply linear_dBZ. apply sum_over_nonneg. intros. apply linear_nonneg.
Qed.

(** The empirical method attenuates with the last class only. *)
Lemma empirical_last e ins o c hs h s s1 :
  radar_tables_ok e c -> r_emp o = true -> plain (hs ++ [h]) ->
  calc_radar_moments Gam e ins (radar_hyds o (hs ++ [h])) c s = (Ok tt, s1) ->
  exists s2, calc_radar_moments Gam e ins (radar_hyds o [h]) c s = (Ok tt, s2)
    /\ same_value (assoc (dvars s1) (hyd_ext_name c)) (assoc (dvars s2) (hyd_ext_name c)).
Proof.
  intros T Ee PL E.
  assert (NM : not_micro_r o c = true) by (unfold not_micro_r; rewrite Ee; reflexivity).
  destruct (radar_leaves e ins (radar_hyds o (hs ++ [h])) c (hs ++ [h]) s s1 T NM PL
              (fun _ _ => or_introl Ee) eq_refl E)
    as (q & pr & tr & zr & s0 & atm & F & El & Hq & Hp & Ht & Hz & Ea & Ha & RD & HC & L1).
  destruct PL as (ND & NT & NA).
  assert (Ih : In h (hs ++ [h])) by (apply in_or_app; right; left; reflexivity).
  destruct (radar_leaves_run Gam e ins (radar_hyds o [h]) c [h] s pr tr zr s0 atm q F T NM) as (s2 & E2 & L2); auto.
  { constructor; [intros []|constructor]. }
  { intros [E0|[]]. apply NT. rewrite <- E0. exact Ih. }
  { intros [E0|[]]. apply NA. rewrite <- E0. exact Ih. }
  { intros x _. left. exact Ee. }
  { reflexivity. }
  { unfold ready in *. cbn [r_emp radar_hyds] in *. rewrite Ee in *. destruct RD as [_ R]. split; [discriminate|exact R]. }
  { intros x [<-|[]]. apply HC. exact Ih. }
  exists s2. split; [exact E2|].
  destruct L1 as (_ & _ & _ & _ & A5 & _). destruct L2 as (_ & _ & _ & _ & B5 & _).
  rewrite A5, B5. unfold hyd_of. cbn [r_emp radar_hyds]. rewrite Ee, last_last. cbn [last].
  apply same_value_refl.
Qed.


Lemma hyd_T_real e sfc emp z hyd (Z : nat -> nat -> R) (H : nat -> nat -> nat -> R) i t k :
  (forall t k, point e t k -> z t k = XF (Z t k)) ->
  (forall i t k, cell e i t k -> hyd i t k = XF (H i t k)) -> cell e i t k ->
  hyd_T e sfc emp z hyd i t k
  = XF (if emp then two_way_dB (path sfc (nht e) (km (Z t)) (H i t) k)
        else two_way (path sfc (nht e) (Z t) (H i t) k)).
Proof.
  intros HZ HH (Hi & Ht & Hk). unfold hyd_T, map3, of_prof3.
  assert (PZ : forall j, (j < nht e)%nat ->
     nth j (prof2 e (fun t k => xdiv (z t k) (XF 1000)) t) XNaN = XF (km (Z t) j)).
  { intros j L2. rewrite nth_prof2 by exact L2. rewrite HZ by (split; auto).
    rewrite xdiv_fin by lra. reflexivity. }
  destruct emp.
  - rewrite od_profile_path with (Z := km (Z t)) (A := H i t) (n := nht e); auto using length_prof2, length_prof3.
    + apply trans_db_fin.
    + intros j Hj. rewrite nth_prof3 by exact Hj. apply HH. repeat split; auto.
  - rewrite od_profile_path with (Z := km (Z t)) (A := fun j => H i t j * 1000) (n := nht e);
      auto using length_prof2, length_prof3.
    + rewrite trans_od_fin. f_equal. f_equal.
      rewrite (path_ext _ _ _ _ (fun j => / 1000 * Z t j) (fun j => 1000 * H i t j));
        [rewrite path_scale; field|exact Hk| |]; intros; unfold km; field.
    + intros j Hj. rewrite nth_prof3 by exact Hj. rewrite HH by (repeat split; auto). reflexivity.
Qed.
Lemma path_0 sfc n Z k : path sfc n Z (fun _ => 0) k = 0.
Proof.
  assert (S0 : forall m (f : nat -> R), (forall j, f j = 0) -> sumR f m = 0).
  { induction m as [|m IH]; intros f Hf; simpl; [reflexivity|]. rewrite IH, Hf by exact Hf. ring. }
  unfold path. destruct sfc; unfold od_up, od_down; apply S0; intros; ring.
Qed.

(** With an ice class last, no hydrometeor attenuates. *)
Lemma empirical_ice_last e ins o c hs h s s1 Z :
  radar_tables_ok e c -> r_emp o = true -> plain (hs ++ [h]) ->
  lower h <> "cl"%string -> lower h <> "pl"%string -> heights e s Z ->
  calc_radar_moments Gam e ins (radar_hyds o (hs ++ [h])) c s = (Ok tt, s1) ->
  forall i t k, cell e i t k -> value s1 (hyd_ext_name c) i t k = XF 1.
Proof.
  intros T Ee PL Nc Np (za & Vz & HZ) E i t k Hc.
  assert (NM : not_micro_r o c = true) by (unfold not_micro_r; rewrite Ee; reflexivity).
  destruct (radar_leaves e ins (radar_hyds o (hs ++ [h])) c (hs ++ [h]) s s1 T NM PL
              (fun _ _ => or_introl Ee) eq_refl E)
    as (q & pr & tr & zr & s0 & atm & F & El & Hq & Hp & Ht & Hz & Ea & Ha & RD & HC & L1).
  destruct L1 as (_ & _ & _ & _ & A5 & _). unfold value. rewrite A5. cbn [r_sfc r_emp radar_hyds].
  red in Hz, Vz. rewrite Hz in Vz. injection Vz as <-.
  rewrite (hyd_T_real e (r_sfc o) (r_emp o) _ _ Z (fun _ _ _ => 0)); auto.
  - rewrite Ee, path_0, two_way_dB_0. reflexivity.
  - intros i' t' k' Hc'. unfold hyd_of. cbn [r_emp radar_hyds]. rewrite Ee, last_last.
    unfold ready in RD. cbn [r_emp radar_hyds] in RD. rewrite Ee in RD. destruct RD as (_ & rh & Hr). rewrite Hr.
    assert (Ih : In h (hs ++ [h])) by (apply in_or_app; right; left; reflexivity).
    specialize (HC h Ih). unfold rcon in HC. cbn [r_emp radar_hyds] in HC. rewrite Ee in HC.
    unfold emp_con, empirical_class in HC.
    destruct (g3 s (qn c h)) as [qa|]; [|discriminate HC]. cbn [bind] in HC.
    assert (I1 : is_cl h = false) by (apply String.eqb_neq; exact Nc).
    assert (I2 : is_pl h = false) by (apply String.eqb_neq; exact Np).
    rewrite I1, I2 in HC. cbn [orb] in HC. injection HC as HC. rewrite <- HC. cbn [fst].
    unfold map3, zeros3. simpl. f_equal. ring.
Qed.
End Call.
