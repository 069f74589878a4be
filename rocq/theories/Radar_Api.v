(** [calc_radar_moments] with the empirical and bulk methods. *)
From Verif Require Import Mom_Base Mom_Spec Mom_Facts Xr_Facts Sched_Model Atm_Model Psd_Model Lidar_Model
  Lidar_Spec Lidar_Od Lidar_Api Lidar_Perm Lidar_Corol Radar_Model Radar_Spec Radar_Total Radar_Att Radar_Loop.
Local Open Scope R_scope.

(** *** Names *)
Definition kappas : list string := ["kappa_o2"; "kappa_wv"; "kappa_att"]%string.
Definition att_outs (c : bool) : list string := [hyd_ext_name c; "atm_ext"%string].
Definition radar_outs (c : bool) (hs : list string) : list string :=
  kappas ++ ze_outs c hs ++ att_outs c ++ [out "Ze_att" "tot" c].

Lemma out_radar_reserved f h c : radar_reserved (out f h c).
Proof. right. exists (f ++ "_" ++ h ++ "_" ++ cs c)%string. reflexivity. Qed.
Lemma radar_outs_reserved c hs x : In x (radar_outs c hs) -> radar_reserved x.
Proof.
  unfold radar_outs. rewrite !in_app_iff. intros [H|[H|[H|H]]].
  - left. unfold kappas, radar_fields in *. simpl in *. tauto.
  - unfold ze_outs in H. destruct H as [<-|H]; [apply out_radar_reserved|].
    apply in_map_iff in H as (h & <- & _). apply out_radar_reserved.
  - left. unfold att_outs, radar_fields in *. destruct c; simpl in *; tauto.
  - destruct H as [<-|[]]. apply out_radar_reserved.
Qed.
Lemma inp_not_radar e c x : radar_tables_ok e c -> inp e c x -> ~ radar_reserved x.
Proof.
  intros T [H|[[h [->| ->]]|H]]; [apply T; exact H| | |].
  - intros [K|[y K]]; [|destruct c; discriminate K].
    unfold radar_fields in K. simpl in K. destruct c; simpl in K; intuition discriminate.
  - intros [K|[y K]]; [|destruct c; discriminate K].
    unfold radar_fields in K. simpl in K. destruct c; simpl in K; intuition discriminate.
  - simpl in H. destruct H as [<-|[<-|[<-|[]]]]; intros [H|[y H]]; try discriminate H;
      unfold radar_fields in H; simpl in H; intuition discriminate.
Qed.

(** *** Gaseous attenuation *)
Lemma frame_kappa e ins : frame kappas (calc_radar_atm_attenuation e ins).
Proof.
  unfold calc_radar_atm_attenuation.
  repeat first [apply frame_bind|apply frame_rd|apply frame_assign|intro]; unfold kappas; simpl; tauto.
Qed.
Lemma dep_kappa e ins (D : string -> Prop) :
  D (p_name e) -> D (t_name e) -> D (qv_name e) ->
  dep D (calc_radar_atm_attenuation e ins) (fun x => D x \/ In x kappas).
Proof.
  intros H1 H2 H3. unfold calc_radar_atm_attenuation.
  do 3 (apply dep_bind with D; [apply dep_rd; intros; eapply agree_g2; eauto|]; intro).
  do 2 (eapply dep_bind; [apply dep_assign|]; intros _).
  eapply dep_weaken; [intros x Hx; exact Hx| |apply dep_assign].
  unfold plus. intros x [Hx|Hx]; [tauto|].
  unfold kappas in Hx. simpl in Hx.
  repeat (destruct Hx as [Hx|Hx]; [subst x; tauto|]). destruct Hx.
Qed.

(** *** Attenuation *)
Definition hyd_T (e : menv) (sfc emp : bool) (z : arr2) (hyd : arr3) : arr3 :=
  map3 (if emp then trans_db else trans_od)
    (of_prof3 (fun i t => od_profile sfc (prof2 e (fun t k => xdiv (z t k) (XF 1000)) t)
       (prof3 e (if emp then hyd else map3 (fun x => xmul x (XF 1000)) hyd) i t))).
Definition atm_T (e : menv) (sfc : bool) (z atm : arr2) : arr2 :=
  fun t k => trans_db (of_prof2 (fun t => od_profile sfc
    (prof2 e (fun t k => xdiv (z t k) (XF 1000)) t) (prof2 e atm t)) t k).
Lemma hyd_T_ext e sfc emp z h1 h2 :
  (forall i t k, h1 i t k = h2 i t k) -> forall i t k, hyd_T e sfc emp z h1 i t k = hyd_T e sfc emp z h2 i t k.
Proof.
  intros H i t k. unfold hyd_T, map3, of_prof3.
  assert (E : prof3 e (if emp then h1 else fun i t k => xmul (h1 i t k) (XF 1000)) i t
            = prof3 e (if emp then h2 else fun i t k => xmul (h2 i t k) (XF 1000)) i t).
  { unfold prof3. apply map_ext. intro j. destruct emp; rewrite H; reflexivity. }
  rewrite E. reflexivity.
Qed.
Lemma frame_attenuation e c z hyd atm sfc emp : frame (att_outs c) (accumulate_attenuation e c z hyd atm sfc emp).
Proof.
  unfold accumulate_attenuation. apply frame_bind; [apply frame_rd|]. intros _.
  apply frame_bind.
  { destruct emp; [apply frame_ret|]. apply frame_bind; [apply frame_rd|]. intros _. apply frame_ret. }
  intros _. apply frame_bind; [apply frame_assign; left; reflexivity|]. intros _.
  apply frame_bind; [apply frame_rd|]. intros _. apply frame_assign. right; left; reflexivity.
Qed.
Lemma dep_attenuation (D : string -> Prop) e c z hyd atm sfc emp :
  D (qn c "cl") -> D (out "Ze" "tot" c) -> D (t_name e) ->
  dep D (accumulate_attenuation e c z hyd atm sfc emp) (fun x => D x \/ In x (att_outs c)).
Proof.
  intros H1 H2 H3. unfold accumulate_attenuation.
  apply dep_bind with D; [apply dep_rd; intros; eapply agree_g3; eauto|]. intros _.
  apply dep_bind with D.
  { destruct emp; [apply dep_ret|]. apply dep_bind with D; [apply dep_rd; intros; eapply agree_g3; eauto|].
    intros _. apply dep_ret. }
  intros _. eapply dep_bind; [apply dep_assign|]. intros _.
  eapply dep_bind; [apply dep_rd; intros; eapply agree_g2; eauto; left; exact H3|]. intros _.
  eapply dep_weaken; [intros x Hx; exact Hx| |apply dep_assign].
  unfold plus, att_outs. simpl. intros x [Hx|[<-|[<-|[]]]]; tauto.
Qed.

(** *** dBZ *)
Lemma frame_dbz c hs : frame (ze_outs c hs) (dbz_loop c hs).
Proof.
  induction hs as [|h hs IH]; cbn [dbz_loop]; [apply frame_ret|].
  apply frame_bind; [apply frame_rd|]. intros a.
  apply frame_bind; [apply frame_assign; right; left; reflexivity|]. intros _.
  apply (frame_weaken (ze_outs c hs)); [|exact IH]. unfold ze_outs. simpl. tauto.
Qed.
Lemma dep_dbz c hs (D : string -> Prop) : (forall h, In h hs -> D (out "Ze" h c)) -> dep D (dbz_loop c hs) D.
Proof.
  induction hs as [|h hs IH]; intro H; cbn [dbz_loop]; [apply dep_ret|].
  apply dep_bind with D; [apply dep_rd; intros; eapply agree_g3; eauto; apply H; left; reflexivity|]. intro a.
  apply dep_bind with D.
  { apply (dep_weaken D D (plus D (out "Ze" h c)) D); [auto| |apply dep_assign]. left; assumption. }
  intros _. apply IH. intros; apply H; right; assumption.
Qed.
Lemma dbz_run c hs : forall s (F : string -> arr3), NoDup hs ->
  (forall h, In h hs -> var3 s (out "Ze" h c) (F h)) ->
  exists s', dbz_loop c hs s = (Ok tt, s')
    /\ unchanged_except (map (fun h => out "Ze" h c) hs) s s'
    /\ (forall h, In h hs -> forall i t k, value s' (out "Ze" h c) i t k = to_dBZ (F h i t k))
    /\ (forall h, In h hs -> exists a, var3 s' (out "Ze" h c) a).
Proof.
  induction hs as [|h hs IH]; intros s F ND H; cbn [dbz_loop].
  - exists s. split; [reflexivity|]. split; [intros x _; reflexivity|]. split; intros h [].
  - inversion ND as [|? ? Nh ND']; subst.
    rewrite (bind_rd _ _ _ (F h)) by (apply g3_var; apply H; left; reflexivity).
    rewrite bind_assign. set (s1 := upd _ _ _).
    assert (O : forall h', In h' hs -> out "Ze" h' c <> out "Ze" h c)
      by (intros h' I; apply out_neq; intros ->; exact (Nh I)).
    destruct (IH s1 F ND') as (s' & E & U & V & VV).
    { intros h' I. unfold s1, var3. rewrite upd_other by (apply O; exact I). apply H. right; exact I. }
    assert (Uh : assoc (dvars s') (out "Ze" h c) = assoc (dvars s1) (out "Ze" h c)).
    { apply U. intro I. apply in_map_iff in I as (h' & Q & I). exact (O h' I Q). }
    exists s'. split; [exact E|]. split; [|split].
    + intros x Hx. rewrite U by (intro; apply Hx; right; assumption).
      unfold s1. apply upd_other. intros ->. apply Hx. left; reflexivity.
    + intros h' [<-|I] i t k; [|apply V; exact I].
      unfold value. rewrite Uh. unfold s1. rewrite upd_same. unfold map3. apply to_dBZ_class.
    + intros h' [<-|I]; [|apply VV; exact I].
      eexists. unfold var3. rewrite Uh. unfold s1. apply upd_same.
Qed.

(** *** The method *)
Section Call.
Variable Gam : R -> R.

Definition radar_method (e : menv) (ins : inst) (o : ropts) (c : bool) (p tc z atm : arr2) (hs : list string) : L unit :=
  if r_emp o then calc_radar_empirical e ins c p tc z atm (r_sfc o) hs
  else if r_rad o || c then calc_radar_bulk e ins c p z atm (r_sfc o) hs (r_mie o)
  else calc_radar_micro Gam e ins z atm (r_sfc o) hs (r_mie o) (r_width o) (r_sched o) (r_kw o).
Definition not_micro_r (o : ropts) (c : bool) : bool := r_emp o || r_rad o || c.

Definition rcon (e : menv) (ins : inst) (o : ropts) (c : bool) (p tc z : arr2) (h : string) (s : dset)
  : res (arr3 * arr3) :=
  if r_emp o then emp_con ins c p tc h s else bulk_con e ins c (r_mie o) p z h s.
Definition ready (e : menv) (o : ropts) (hs : list string) : Prop :=
  if r_emp o then hs <> [] /\ exists rh, rho_num e "cl" = Ok rh
  else exists lt, bulk_luts "p3_liq" (rad_family e) = Ok lt.
Definition hyd_of (e : menv) (ins : inst) (o : ropts) (hs : list string) (F : string -> arr3 * arr3) : arr3 :=
  if r_emp o then
    match rho_num e "cl" with
    | Ok rh => map3 (fun x => xmul x (XF (kappa_f ins rh))) (fst (F (last hs EmptyString)))
    | Raise _ => zeros3
    end
  else fold_left (lift2 xadd) (map (fun h => fst (F h)) hs) zeros3.

Lemma rcon_dep e ins o c p tc z h s s' :
  agree (inp e c) s s' -> rcon e ins o c p tc z h s = rcon e ins o c p tc z h s'.
Proof. intro A. unfold rcon. destruct (r_emp o); eauto using emp_con_dep, bulk_con_dep. Qed.

Lemma zero_Ze_run c s q : var3 s (qn c "cl") q -> zero_Ze c s = (Ok tt, upd s (out "Ze" "tot" c) (V3 zeros3)).
Proof. intro H. unfold zero_Ze. rewrite (bind_rd _ _ _ q) by (apply g3_var; exact H). reflexivity. Qed.

Lemma tot_not_ze c hs : ~ In "tot"%string hs -> ~ In (out "Ze" "tot" c) (map (fun h => out "Ze" h c) hs).
Proof. intros H I. apply in_map_iff in I as (h & Q & I). apply out_inj in Q as [-> _]. exact (H I). Qed.
Lemma out_not_att f h c : ~ In (out f h c) (att_outs c).
Proof. unfold att_outs. simpl. destruct c; intros [H|[H|[]]]; discriminate H. Qed.

Lemma method_run e ins o c p tc z atm hs s q tk F :
  radar_tables_ok e c -> not_micro_r o c = true -> ~ In "tot"%string hs ->
  (forall h, In h hs -> rfree e o h) -> ready e o hs ->
  var3 s (qn c "cl") q -> var2 s (t_name e) tk ->
  (forall h, In h hs -> rcon e ins o c p tc z h s = Ok (F h)) ->
  exists s' t1, radar_method e ins o c p tc z atm hs s = (Ok tt, s')
    /\ unchanged_except (ze_outs c hs ++ att_outs c) s s'
    /\ var3 s' (out "Ze" "tot" c) t1
    /\ (forall i t k, t1 i t k = xsum (map (fun h => fillna 0 (snd (F h) i t k)) hs))
    /\ (forall h, In h hs -> var3 s' (out "Ze" h c) (snd (F h)))
    /\ var3 s' (hyd_ext_name c) (hyd_T e (r_sfc o) (r_emp o) z (hyd_of e ins o hs F))
    /\ var2 s' "atm_ext" (atm_T e (r_sfc o) z atm).
Proof.
  intros T NM NT HF RD Hq Ht HC.
  assert (Hinp : forall x, inp e c x -> forall h, x <> out "Ze" h c).
  { intros x Hx h ->. apply (inp_not_radar e c _ T Hx). apply out_radar_reserved. }
  assert (Hn : t_name e <> hyd_ext_name c).
  { intro Q. apply (inp_not_radar e c (t_name e) T); [apply inp_tab; in_app|]. left. rewrite Q.
    unfold radar_fields. destruct c; simpl; tauto. }
  set (s0 := upd s (out "Ze" "tot" c) (V3 zeros3)).
  assert (A0 : agree (inp e c) s0 s).
  { intros x Hx. unfold s0. apply upd_other. apply Hinp. exact Hx. }
  assert (FIN : forall (loc : Type) (opt : string -> loc -> dset -> res (loc * arr3)) l l' s' t1 hyd,
    ze_loop c opt hs l s0 = (Ok l', s') -> unchanged_except (ze_outs c hs) s0 s' ->
    var3 s' (out "Ze" "tot" c) t1 ->
    (forall i t k, t1 i t k = xadd (zeros3 i t k) (xsum (map (fun h => fillna 0 (snd (F h) i t k)) hs))) ->
    (forall h, In h hs -> var3 s' (out "Ze" h c) (snd (F h))) ->
    hyd = hyd_of e ins o hs F ->
    exists s2 t1, accumulate_attenuation e c z hyd atm (r_sfc o) (r_emp o) s' = (Ok tt, s2)
    /\ unchanged_except (ze_outs c hs ++ att_outs c) s s2
    /\ var3 s2 (out "Ze" "tot" c) t1
    /\ (forall i t k, t1 i t k = xsum (map (fun h => fillna 0 (snd (F h) i t k)) hs))
    /\ (forall h, In h hs -> var3 s2 (out "Ze" h c) (snd (F h)))
    /\ var3 s2 (hyd_ext_name c) (hyd_T e (r_sfc o) (r_emp o) z (hyd_of e ins o hs F))
    /\ var2 s2 "atm_ext" (atm_T e (r_sfc o) z atm)).
  { intros loc opt l l' s' t1 hyd E U V Tt VC ->.
    assert (Uq : forall x, inp e c x -> assoc (dvars s') x = assoc (dvars s) x).
    { intros x Hx. rewrite U; [apply A0; exact Hx|]. intros [Q|Q]; [exact (Hinp x Hx _ (eq_sym Q))|].
      apply in_map_iff in Q as (h & Q & _). exact (Hinp x Hx _ (eq_sym Q)). }
    destruct (accumulate_attenuation_run e c z (hyd_of e ins o hs F) atm (r_sfc o) (r_emp o) s' q t1 tk)
      as (s2 & E2 & U2 & VH & VA).
    - unfold var3. rewrite Uq by apply inp_q. exact Hq.
    - intros _. exact V.
    - unfold var2. rewrite Uq by (apply inp_tab; in_app). exact Ht.
    - exact Hn.
    - exists s2, t1. split; [exact E2|]. split; [|split; [|split; [|split; [|split]]]].
      + intros x Hx. rewrite in_app_iff in Hx. rewrite U2 by tauto. rewrite U by tauto.
        unfold s0. apply upd_other. intros ->. apply Hx. left; left; reflexivity.
      + unfold var3. rewrite U2 by apply out_not_att. exact V.
      + intros. rewrite Tt. apply xadd_0_l.
      + intros h Hh. unfold var3. rewrite U2 by apply out_not_att. apply VC; exact Hh.
      + exact VH.
      + exact VA. }
  unfold radar_method, not_micro_r, ready, rcon, rfree in *. destruct (r_emp o) eqn:Ee.
  - destruct RD as (Nn & rh & Hr).
    destruct (ze_loop_run c (empirical_class ins c p tc) arr3 (option arr3) (emp_con ins c p tc) (fun l => l)
                emp_step (inp e c) (fun _ => True)) with (hs := hs) (l := @None arr3) (s := s0) (t0 := zeros3) (F := F)
      as (l' & s' & t1 & E & U & P & V & Tt & VC); auto.
    { intros h l s' _. apply emp_hcon. }
    { intros h s' s'' _ A. apply (emp_con_dep e); exact A. }
    { unfold s0, var3. apply upd_same. }
    { intros h Hh. rewrite (emp_con_dep e ins c p tc h s0 s A0). apply HC; exact Hh. }
    unfold calc_radar_empirical. rewrite (bind_ok _ _ _ tt s0) by (apply (zero_Ze_run c s q); exact Hq).
    rewrite (bind_ok _ _ _ l' s') by exact E. rewrite (bind_rd _ _ _ rh) by exact Hr.
    destruct (exists_last Nn) as (hs' & h & Eh).
    assert (Pl : l' = Some (fst (F (last hs EmptyString)))).
    { rewrite P, Eh, map_app. cbn [map]. rewrite fold_emp_step, last_last. reflexivity. }
    rewrite Pl. eapply FIN; eauto. unfold hyd_of. rewrite Ee, Hr. reflexivity.
  - cbn [orb] in NM. rewrite NM. destruct RD as (lt & Hl).
    destruct (ze_loop_run c (bulk_class e ins c (r_mie o) p z) arr3 arr3 (bulk_con e ins c (r_mie o) p z) snd
                (lift2 xadd) (inp e c) (self_contained e)) with (hs := hs) (l := (no_locals, zeros3)) (s := s0) (t0 := zeros3) (F := F)
      as (l' & s' & t1 & E & U & P & V & Tt & VC); auto.
    { intros h l s' Sc. apply bulk_hcon; exact Sc. }
    { intros h s' s'' _ A. apply bulk_con_dep; exact A. }
    { intros h Hh. destruct (HF h Hh) as [?|?]; [discriminate|assumption]. }
    { unfold s0, var3. apply upd_same. }
    { intros h Hh. rewrite (bulk_con_dep e ins c (r_mie o) p z h s0 s A0). apply HC; exact Hh. }
    unfold calc_radar_bulk. rewrite (bind_rd _ _ _ lt) by exact Hl.
    rewrite (bind_ok _ _ _ tt s0) by (apply (zero_Ze_run c s q); exact Hq).
    rewrite (bind_ok _ _ _ l' s') by exact E. eapply FIN; eauto.
    unfold hyd_of. rewrite Ee, P. reflexivity.
Qed.

Lemma method_inv e ins o c p tc z atm hs s sm :
  radar_tables_ok e c -> not_micro_r o c = true -> ~ In "tot"%string hs ->
  (forall h, In h hs -> rfree e o h) ->
  radar_method e ins o c p tc z atm hs s = (Ok tt, sm) ->
  ready e o hs /\ (exists q, var3 s (qn c "cl") q)
  /\ forall h, In h hs -> exists x, rcon e ins o c p tc z h s = Ok x.
Proof.
  intros T NM NT HF E.
  assert (Hinp : forall x, inp e c x -> forall h, x <> out "Ze" h c).
  { intros x Hx h ->. apply (inp_not_radar e c _ T Hx). apply out_radar_reserved. }
  set (s0 := upd s (out "Ze" "tot" c) (V3 zeros3)).
  assert (A0 : agree (inp e c) s0 s).
  { intros x Hx. unfold s0. apply upd_other. apply Hinp. exact Hx. }
  assert (Z : forall s1, zero_Ze c s = (Ok tt, s1) -> s1 = s0 /\ exists q, var3 s (qn c "cl") q).
  { unfold zero_Ze. intros s1 H. apply rd_bind_inv in H as (q & Hq & H). rewrite assign_eq in H.
    injection H as <-. split; [reflexivity|]. eauto using g3_ok. }
  unfold radar_method, not_micro_r, ready, rcon, rfree in *. destruct (r_emp o) eqn:Ee.
  - unfold calc_radar_empirical in E. apply bind_inv in E as ([] & s1 & E1 & E).
    apply Z in E1 as [-> Hq]. apply bind_inv in E as (l' & s2 & E2 & E).
    apply rd_bind_inv in E as (rh & Hr & E). split; [|split; [exact Hq|]].
    + split; [|eauto]. intros ->. simpl in E2. injection E2 as <- <-. discriminate E.
    + intros h Hh. rewrite <- (emp_con_dep e ins c p tc h s0 s A0).
      apply (ze_loop_inv c (empirical_class ins c p tc) arr3 (option arr3) (emp_con ins c p tc) (fun l => l)
                emp_step (inp e c) (fun _ => True)) with (hs := hs) (l := @None arr3) (t0 := zeros3) (l' := l') (s' := s2); auto.
      { intros h' l s' _. apply emp_hcon. }
      { intros h' s' s'' _ A. apply (emp_con_dep e); exact A. }
      { unfold s0, var3. apply upd_same. }
  - cbn [orb] in NM. rewrite NM in E. unfold calc_radar_bulk in E.
    apply rd_bind_inv in E as (lt & Hl & E). apply bind_inv in E as ([] & s1 & E1 & E).
    apply Z in E1 as [-> Hq]. apply bind_inv in E as (l' & s2 & E2 & E).
    split; [eauto|]. split; [exact Hq|].
    intros h Hh. rewrite <- (bulk_con_dep e ins c (r_mie o) p z h s0 s A0).
    apply (ze_loop_inv c (bulk_class e ins c (r_mie o) p z) arr3 arr3 (bulk_con e ins c (r_mie o) p z) snd
                (lift2 xadd) (inp e c) (self_contained e)) with (hs := hs) (l := (no_locals, zeros3)) (t0 := zeros3) (l' := l') (s' := s2); auto.
    { intros h' l s' Sc. apply bulk_hcon; exact Sc. }
    { intros h' s' s'' _ A. apply bulk_con_dep; exact A. }
    { intros h' Hh'. destruct (HF h' Hh') as [?|?]; [discriminate|assumption]. }
    { unfold s0, var3. apply upd_same. }
Qed.

(** *** The call: check, gaseous attenuation, method, dBZ. *)
Definition ze_att (zt he : arr3) (ae : arr2) : arr3 :=
  fun i t k => xmul (xmul (zt i t k) (fillna 1 (he i t k))) (fillna 1 (ae t k)).
Lemma radar_inv e ins o c hs s s1 :
  classes_of e (r_hyds o) hs ->
  calc_radar_moments Gam e ins o c s = (Ok tt, s1) ->
  exists q pr tr zr s0 atm sm sd zt he ae,
    lower (i_class ins) = "radar"%string /\
    assoc (dvars s) (qn c "cl") = Some q /\
    var2 s (p_name e) pr /\ var2 s (t_name e) tr /\ var2 s (z_name e) zr /\
    calc_radar_atm_attenuation e ins s = (Ok tt, s0) /\ var2 s0 "kappa_att" atm /\
    radar_method e ins o c (fun t k => p_pa e (pr t k)) (fun t k => t_cel e (tr t k))
      (fun t k => z_met e (zr t k)) atm hs s0 = (Ok tt, sm) /\
    dbz_loop c hs sm = (Ok tt, sd) /\
    var3 sd (out "Ze" "tot" c) zt /\ var3 sd (hyd_ext_name c) he /\ var2 sd "atm_ext" ae /\
    s1 = upd (upd sd (out "Ze_att" "tot" c) (V3 (map3 total_dbz (ze_att zt he ae))))
             (out "Ze" "tot" c) (V3 (map3 total_dbz zt)).
Proof.
  intros Hc E. unfold calc_radar_moments in E.
  apply rd_bind_inv in E as (hs' & Hs & E).
  assert (hs' = hs) as ->.
  { destruct (r_hyds o) as [l|]; simpl in *; [congruence|].
    destruct Hc as [<- N]. destruct (hyds e); congruence. }
  destruct (String.eqb (lower (i_class ins)) "radar") eqn:El; cbn [negb] in E; [|discriminate].
  apply String.eqb_eq in El.
  apply rd_bind_inv in E as (hq & Hq & E).
  destruct hq; cbn [negb] in E; [|discriminate].
  assert (exists q, assoc (dvars s) (qn c "cl") = Some q) as (q & Hq').
  { injection Hq as Hq. unfold has in Hq. destruct (assoc (dvars s) (qn c "cl")); [eauto|discriminate]. }
  apply rd_bind_inv in E as (pr & Hp & E). apply rd_bind_inv in E as (tr & Ht & E).
  apply rd_bind_inv in E as (zr & Hz & E). cbv zeta in E.
  apply bind_inv in E as ([] & s0 & Ea & E). apply rd_bind_inv in E as (atm & Hatm & E).
  apply bind_inv in E as ([] & sm & Em & E). apply bind_inv in E as ([] & sd & Ed & E).
  apply rd_bind_inv in E as (zt & Hzt & E). apply rd_bind_inv in E as (he & Hhe & E).
  apply rd_bind_inv in E as (ae & Hae & E).
  rewrite bind_assign, assign_eq in E. injection E as <-.
  exists q, pr, tr, zr, s0, atm, sm, sd, zt, he, ae.
  repeat match goal with |- _ /\ _ => split end; auto using g2_ok, g3_ok.
Qed.
Lemma radar_run e ins o c hs s q pr tr zr s0 atm sm sd zt he ae :
  classes_of e (r_hyds o) hs ->
  lower (i_class ins) = "radar"%string ->
  assoc (dvars s) (qn c "cl") = Some q ->
  var2 s (p_name e) pr -> var2 s (t_name e) tr -> var2 s (z_name e) zr ->
  calc_radar_atm_attenuation e ins s = (Ok tt, s0) -> var2 s0 "kappa_att" atm ->
  radar_method e ins o c (fun t k => p_pa e (pr t k)) (fun t k => t_cel e (tr t k))
      (fun t k => z_met e (zr t k)) atm hs s0 = (Ok tt, sm) ->
  dbz_loop c hs sm = (Ok tt, sd) ->
  var3 sd (out "Ze" "tot" c) zt -> var3 sd (hyd_ext_name c) he -> var2 sd "atm_ext" ae ->
  calc_radar_moments Gam e ins o c s
  = (Ok tt, upd (upd sd (out "Ze_att" "tot" c) (V3 (map3 total_dbz (ze_att zt he ae))))
                (out "Ze" "tot" c) (V3 (map3 total_dbz zt))).
Proof.
  intros Hc El Hq Hp Ht Hz Ea Ha Em Ed Hzt Hhe Hae. unfold calc_radar_moments.
  rewrite (bind_rd _ _ _ hs).
  2:{ destruct (r_hyds o) as [l|]; simpl in *; [congruence|].
      destruct Hc as [<- N]. destruct (hyds e); congruence. }
  rewrite El. cbn [String.eqb Ascii.eqb Bool.eqb negb].
  rewrite (bind_rd _ _ _ true) by (unfold has; rewrite Hq; reflexivity). cbn [negb].
  rewrite (bind_rd _ _ _ pr) by (apply g2_var; exact Hp).
  rewrite (bind_rd _ _ _ tr) by (apply g2_var; exact Ht).
  rewrite (bind_rd _ _ _ zr) by (apply g2_var; exact Hz). cbv zeta.
  rewrite (bind_ok _ _ _ tt s0) by exact Ea.
  rewrite (bind_rd _ _ _ atm) by (apply g2_var; exact Ha).
  rewrite (bind_ok _ _ _ tt sm) by exact Em.
  rewrite (bind_ok _ _ _ tt sd) by exact Ed.
  rewrite (bind_rd _ _ _ zt) by (apply g3_var; exact Hzt).
  rewrite (bind_rd _ _ _ he) by (apply g3_var; exact Hhe).
  rewrite (bind_rd _ _ _ ae) by (apply g2_var; exact Hae).
  rewrite bind_assign, assign_eq. reflexivity.
Qed.

(** *** C35 *)
Lemma method_dep e ins o c hs (D : string -> Prop) :
  not_micro_r o c = true -> (forall x, inp e c x -> D x) -> forall p tc z atm,
  dep D (radar_method e ins o c p tc z atm hs) (fun x => D x \/ In x (ze_outs c hs ++ att_outs c))
  /\ frame (ze_outs c hs ++ att_outs c) (radar_method e ins o c p tc z atm hs).
Proof.
  intros NM Hi p tc z atm. unfold radar_method, not_micro_r in *.
  assert (DZ : dep D (zero_Ze c) (plus D (out "Ze" "tot" c))).
  { unfold zero_Ze. apply dep_bind with D; [apply dep_rd; intros; eapply agree_g3; eauto; apply Hi, inp_q|].
    intros _. apply dep_assign. }
  assert (FZ : frame (ze_outs c hs) (zero_Ze c)).
  { unfold zero_Ze. apply frame_bind; [apply frame_rd|]. intros _. apply frame_assign. left; reflexivity. }
  set (D1 := plus D (out "Ze" "tot" c)). set (D2 := fun x => D1 x \/ In x (ze_outs c hs)).
  assert (Hi1 : forall x, inp e c x -> D1 x) by (intros; left; auto).
  assert (AT : forall hyd emp, dep D2 (accumulate_attenuation e c z hyd atm (r_sfc o) emp)
                 (fun x => D x \/ In x (ze_outs c hs ++ att_outs c))).
  { intros hyd emp. eapply dep_weaken; [intros x Hx; exact Hx| |apply dep_attenuation].
    - intros x [Hx|Hx]; [left; left; left; exact Hx|]. rewrite in_app_iff in Hx.
      destruct Hx as [Hx|Hx]; [left; right; exact Hx|right; exact Hx].
    - left. apply Hi1, inp_q.
    - right. left; reflexivity.
    - left. apply Hi1, inp_tab. in_app. }
  assert (W1 : forall x, In x (ze_outs c hs) -> In x (ze_outs c hs ++ att_outs c)) by (intros; apply in_or_app; auto).
  assert (W2 : forall x, In x (att_outs c) -> In x (ze_outs c hs ++ att_outs c)) by (intros; apply in_or_app; auto).
  destruct (r_emp o).
  - unfold calc_radar_empirical. split.
    + apply dep_bind with D1; [exact DZ|]. intros _.
      apply dep_bind with D2.
      { apply dep_ze_loop with (e := e); [intros; apply (emp_class_dep e); assumption|exact Hi1|right; reflexivity]. }
      intro w. apply dep_bind with D2; [apply dep_rd; reflexivity|]. intro rh.
      destruct w; [apply AT|apply dep_raise].
    + apply frame_bind; [eapply frame_weaken; [exact W1|exact FZ]|]. intros _.
      apply frame_bind; [eapply frame_weaken; [exact W1|apply frame_ze_loop]|]. intro w.
      apply frame_bind; [apply frame_rd|]. intro rh.
      destruct w; [eapply frame_weaken; [exact W2|apply frame_attenuation]|apply frame_raise].
  - cbn [orb] in NM. rewrite NM. unfold calc_radar_bulk. split.
    + apply dep_bind with D; [apply dep_rd; reflexivity|]. intros _.
      apply dep_bind with D1; [exact DZ|]. intros _.
      apply dep_bind with D2.
      { apply dep_ze_loop with (e := e); [intros; apply bulk_class_dep; assumption|exact Hi1|right; reflexivity]. }
      intro w. apply AT.
    + apply frame_bind; [apply frame_rd|]. intros _.
      apply frame_bind; [eapply frame_weaken; [exact W1|exact FZ]|]. intros _.
      apply frame_bind; [eapply frame_weaken; [exact W1|apply frame_ze_loop]|]. intro w.
      eapply frame_weaken; [exact W2|apply frame_attenuation].
Qed.

Lemma radar_dep e ins o c hs :
  radar_tables_ok e c -> classes_of e (r_hyds o) hs -> not_micro_r o c = true ->
  dep (fun x => ~ In x (radar_outs c hs)) (calc_radar_moments Gam e ins o c) (fun _ => True)
  /\ frame (radar_outs c hs) (calc_radar_moments Gam e ins o c).
Proof.
  intros T Hc NM. set (D := fun x => ~ In x (radar_outs c hs)).
  assert (Hi : forall x, inp e c x -> D x).
  { intros x Hx H. apply radar_outs_reserved in H. revert H. apply (inp_not_radar e c); assumption. }
  assert (Hs : set_hyd_types e (r_hyds o) = Ok hs).
  { destruct (r_hyds o) as [l|]; simpl in *; [subst; reflexivity|].
    destruct Hc as [-> N]. destruct hs; [congruence|reflexivity]. }
  unfold calc_radar_moments. rewrite Hs.
  match goal with |- dep _ (lbind (rd (fun _ => Ok hs)) ?k) _ /\ _ =>
    change (lbind (rd (fun _ => Ok hs)) k) with (k hs) end. cbv beta.
  destruct (negb (String.eqb (lower (i_class ins)) "radar")).
  { split; [apply dep_raise|apply frame_raise]. }
  assert (Dp : D (p_name e)) by (apply Hi, inp_tab; in_app).
  assert (Dt : D (t_name e)) by (apply Hi, inp_tab; in_app).
  assert (Dz : D (z_name e)) by (apply Hi, inp_tab; in_app).
  assert (Dv : D (qv_name e)) by (apply Hi, inp_tab; in_app).
  assert (Dq : D (qn c "cl")) by (apply Hi, inp_q).
  set (D1 := fun x => D x \/ In x kappas).
  assert (Hi1 : forall x, inp e c x -> D1 x) by (intros; left; auto).
  set (D2 := fun x => D1 x \/ In x (ze_outs c hs ++ att_outs c)).
  assert (B1 : forall x, In x kappas -> In x (radar_outs c hs)) by (intros; apply in_or_app; auto).
  assert (B2 : forall x, In x (ze_outs c hs) -> In x (radar_outs c hs))
    by (intros; apply in_or_app; right; apply in_or_app; auto).
  assert (B3 : forall x, In x (att_outs c) -> In x (radar_outs c hs))
    by (intros; apply in_or_app; right; apply in_or_app; right; apply in_or_app; auto).
  assert (B4 : In (out "Ze_att" "tot" c) (radar_outs c hs)).
  { apply in_or_app; right; apply in_or_app; right; apply in_or_app; right; left; reflexivity. }
  split.
  - apply dep_bind with D; [apply dep_rd; intros s t A; rewrite (agree_has _ _ _ _ A Dq); reflexivity|].
    intros [|]; cbn [negb]; [|apply dep_raise].
    apply dep_bind with D; [apply dep_rd; intros; eapply agree_g2; eauto|]. intro pr.
    apply dep_bind with D; [apply dep_rd; intros; eapply agree_g2; eauto|]. intro tr.
    apply dep_bind with D; [apply dep_rd; intros; eapply agree_g2; eauto|]. intro zr.
    apply dep_bind with D1; [apply dep_kappa; assumption|]. intros _.
    apply dep_bind with D1.
    { apply dep_rd; intros; eapply agree_g2; eauto. right. unfold kappas; simpl; tauto. }
    intro atm. apply dep_bind with D2; [apply (method_dep e ins o c hs D1 NM Hi1)|]. intros _.
    apply dep_bind with D2.
    { apply dep_dbz. intros h Hh. right. apply in_or_app. left. right.
      apply (in_map (fun h => out "Ze" h c)); exact Hh. }
    intros _.
    apply dep_bind with D2; [apply dep_rd; intros; eapply agree_g3; eauto; right; left; reflexivity|]. intro zt.
    apply dep_bind with D2.
    { apply dep_rd; intros; eapply agree_g3; eauto. right. apply in_or_app. right. left; reflexivity. }
    intro he. apply dep_bind with D2.
    { apply dep_rd; intros; eapply agree_g2; eauto. right. apply in_or_app. right. right; left; reflexivity. }
    intro ae. eapply dep_bind; [apply dep_assign|]. intros _.
    eapply dep_weaken; [intros x Hx; exact Hx| |apply dep_assign].
    intros x _. unfold plus, D2, D1, D.
    destruct (in_dec string_dec x (radar_outs c hs)) as [H|H]; [|tauto].
    unfold radar_outs in H. rewrite !in_app_iff in H. rewrite !in_app_iff.
    destruct H as [H|[H|[H|[H|[]]]]]; tauto || (subst; tauto).
  - apply frame_bind; [apply frame_rd|]. intros [|]; cbn [negb]; [|apply frame_raise].
    do 3 (apply frame_bind; [apply frame_rd|]; intro).
    apply frame_bind; [eapply frame_weaken; [exact B1|apply frame_kappa]|]. intros _.
    apply frame_bind; [apply frame_rd|]. intro.
    apply frame_bind.
    { eapply frame_weaken; [|apply (method_dep e ins o c hs D1 NM Hi1)].
      intros x Hx. apply in_app_or in Hx as [Hx|Hx]; auto. }
    intros _. apply frame_bind; [eapply frame_weaken; [exact B2|apply frame_dbz]|]. intros _.
    do 3 (apply frame_bind; [apply frame_rd|]; intro).
    apply frame_bind; [apply frame_assign; exact B4|]. intros _.
    apply frame_assign. apply B2. left; reflexivity.
Qed.
Lemma radar_rerun e ins o c hs s s1 :
  radar_tables_ok e c -> classes_of e (r_hyds o) hs -> not_micro_r o c = true ->
  calc_radar_moments Gam e ins o c s = (Ok tt, s1) ->
  exists s2, calc_radar_moments Gam e ins o c s1 = (Ok tt, s2)
    /\ forall x, assoc (dvars s2) x = assoc (dvars s1) x.
Proof.
  intros T Hc NM E. destruct (radar_dep e ins o c hs T Hc NM) as [Hd Hf].
  exact (rerun (radar_outs c hs) _ s tt s1 Hf Hd E).
Qed.

(** *** C34 *)
(** Everything a successful call with the classes [hs] leaves behind. *)
Definition leaves e ins o c (s : dset) (p tc z atm : arr2) (F : string -> arr3 * arr3) (hs : list string) (s1 : dset) : Prop :=
  let T := hyd_T e (r_sfc o) (r_emp o) z (hyd_of e ins o hs F) in
  let A := atm_T e (r_sfc o) z atm in
  let tot := fun i t k => xsum (map (fun h => fillna 0 (snd (F h) i t k)) hs) in
  (forall x, ~ In x (radar_outs c hs) -> assoc (dvars s1) x = assoc (dvars s) x)
  /\ (forall h, In h hs -> exists a, var3 s1 (out "Ze" h c) a /\ forall i t k, a i t k = to_dBZ (snd (F h) i t k))
  /\ (exists a, var3 s1 (out "Ze" "tot" c) a /\ forall i t k, a i t k = to_dBZ (tot i t k))
  /\ (exists a, var3 s1 (out "Ze_att" "tot" c) a /\ forall i t k, a i t k = to_dBZ (ze_att tot T A i t k))
  /\ var3 s1 (hyd_ext_name c) T /\ var2 s1 "atm_ext" A /\ var2 s1 "kappa_att" atm
  /\ exists s0, calc_radar_atm_attenuation e ins s = (Ok tt, s0)
       /\ forall x, In x kappas -> assoc (dvars s1) x = assoc (dvars s0) x.

Lemma radar_leaves_run e ins o c hs s pr tr zr s0 atm q F :
  radar_tables_ok e c -> not_micro_r o c = true -> NoDup hs -> ~ In "tot"%string hs -> ~ In "att_tot"%string hs ->
  (forall h, In h hs -> rfree e o h) -> classes_of e (r_hyds o) hs ->
  lower (i_class ins) = "radar"%string -> var3 s (qn c "cl") q ->
  var2 s (p_name e) pr -> var2 s (t_name e) tr -> var2 s (z_name e) zr ->
  calc_radar_atm_attenuation e ins s = (Ok tt, s0) -> var2 s0 "kappa_att" atm ->
  ready e o hs ->
  (forall h, In h hs -> rcon e ins o c (fun t k => p_pa e (pr t k)) (fun t k => t_cel e (tr t k))
      (fun t k => z_met e (zr t k)) h s = Ok (F h)) ->
  exists s1, calc_radar_moments Gam e ins o c s = (Ok tt, s1)
    /\ leaves e ins o c s (fun t k => p_pa e (pr t k)) (fun t k => t_cel e (tr t k))
         (fun t k => z_met e (zr t k)) atm F hs s1.
Proof.
  intros T NM ND NT NA HF Hc El Hq Hp Ht Hz Ea Ha RD HC.
  set (p := fun t k => p_pa e (pr t k)) in *. set (tc := fun t k => t_cel e (tr t k)) in *.
  set (z := fun t k => z_met e (zr t k)) in *.
  assert (U0 : unchanged_except kappas s s0).
  { exact (frame_run _ _ _ _ _ (frame_kappa e ins) Ea). }
  assert (A0 : agree (inp e c) s0 s).
  { intros x Hx. apply U0. intro I. apply (inp_not_radar e c x T Hx). left.
    unfold kappas, radar_fields in *. simpl in *. tauto. }
  destruct (method_run e ins o c p tc z atm hs s0 q tr F T NM NT HF RD) as (sm & t1 & Em & U & V & Tt & VC & VH & VA).
  - unfold var3. rewrite A0 by apply inp_q. exact Hq.
  - unfold var2. rewrite A0 by (apply inp_tab; in_app). exact Ht.
  - intros h Hh. rewrite (rcon_dep e ins o c p tc z h s0 s A0). apply HC; exact Hh.
  - destruct (dbz_run c hs sm (fun h => snd (F h)) ND VC) as (sd & Ed & Ud & Vd & VVd).
    assert (Nt : ~ In (out "Ze" "tot" c) (map (fun h => out "Ze" h c) hs)) by (apply tot_not_ze; exact NT).
    assert (Nz : forall x, (forall h, x <> out "Ze" h c) -> ~ In x (map (fun h => out "Ze" h c) hs)).
    { intros x Hx I. apply in_map_iff in I as (h & Q & _). exact (Hx h (eq_sym Q)). }
    assert (Hh1 : forall h, hyd_ext_name c <> out "Ze" h c) by (intros h Q; destruct c; discriminate Q).
    assert (Hh2 : forall h, "atm_ext"%string <> out "Ze" h c) by (intros h Q; destruct c; discriminate Q).
    assert (Nat1 : forall h, h <> "att_tot"%string -> out "Ze_att" "tot" c <> out "Ze" h c).
    { intros h N Q. change (out "Ze_att" "tot" c) with (out "Ze" "att_tot" c) in Q.
      apply out_inj in Q as [Q _]. exact (N (eq_sym Q)). }
    eexists. split.
    + eapply (radar_run e ins o c hs s (V3 q) pr tr zr s0 atm sm sd t1); eauto.
      * unfold var3. rewrite Ud by exact Nt. exact V.
      * unfold var3. rewrite Ud by (apply Nz; exact Hh1). exact VH.
      * unfold var2. rewrite Ud by (apply Nz; exact Hh2). exact VA.
    + unfold leaves. cbv zeta. split; [|split; [|split; [|split; [|split; [|split; [|split]]]]]].
      * intros x Hx. unfold radar_outs in Hx. rewrite !in_app_iff in Hx.
        rewrite upd_other by (intros ->; apply Hx; right; left; left; reflexivity).
        rewrite upd_other by (intros ->; apply Hx; right; right; right; left; reflexivity).
        rewrite Ud by (intro I; apply Hx; right; left; right; exact I).
        rewrite U by (rewrite in_app_iff; tauto). apply U0. tauto.
      * intros h Hh. destruct (VVd h Hh) as (a & Ha'). exists a. split.
        -- unfold var3. rewrite upd_other by (apply out_neq; intros ->; exact (NT Hh)).
           rewrite upd_other by (intro Q; refine (Nat1 h _ (eq_sym Q)); intros ->; exact (NA Hh)). exact Ha'.
        -- intros i t k. rewrite <- (Vd h Hh). unfold value. rewrite Ha'. reflexivity.
      * eexists. split; [apply upd_same|]. intros. unfold map3. rewrite to_dBZ_total, Tt. reflexivity.
      * eexists. split; [unfold var3; rewrite upd_other by (apply Nat1; discriminate); apply upd_same|].
        intros. unfold map3. rewrite to_dBZ_total. unfold ze_att. rewrite Tt. reflexivity.
      * unfold var3. rewrite upd_other by (apply Hh1). rewrite upd_other by (intro Q; destruct c; discriminate Q).
        rewrite Ud by (apply Nz; exact Hh1). exact VH.
      * unfold var2. rewrite upd_other by (apply Hh2). rewrite upd_other by (intro Q; destruct c; discriminate Q).
        rewrite Ud by (apply Nz; exact Hh2). exact VA.
      * unfold var2. rewrite !upd_other by (intro Q; destruct c; discriminate Q).
        rewrite Ud by (apply Nz; intros h Q; destruct c; discriminate Q).
        rewrite U; [exact Ha|]. rewrite in_app_iff. unfold ze_outs, att_outs. simpl.
        intros [[Q|Q]|[Q|[Q|[]]]]; try (destruct c; discriminate Q).
        apply in_map_iff in Q as (h & Q & _). destruct c; discriminate Q.
      * exists s0. split; [exact Ea|]. intros x Hx.
        assert (Kx : forall f h, x <> out f h c).
        { intros f h ->. unfold kappas in Hx. simpl in Hx. intuition discriminate. }
        rewrite !upd_other by apply Kx. rewrite Ud by (apply Nz; apply Kx). apply U.
        rewrite in_app_iff. intros [[Q|Q]|Q].
        -- exact (Kx _ _ (eq_sym Q)).
        -- apply in_map_iff in Q as (h & Q & _). exact (Kx _ _ (eq_sym Q)).
        -- unfold kappas, att_outs in *. simpl in *. destruct c; intuition; subst; discriminate.
Qed.

Lemma radar_ready e ins o c hs s s1 :
  radar_tables_ok e c -> not_micro_r o c = true -> ~ In "tot"%string hs ->
  (forall h, In h hs -> rfree e o h) -> classes_of e (r_hyds o) hs ->
  calc_radar_moments Gam e ins o c s = (Ok tt, s1) ->
  exists q pr tr zr s0 atm F,
  lower (i_class ins) = "radar"%string /\ var3 s (qn c "cl") q /\
  var2 s (p_name e) pr /\ var2 s (t_name e) tr /\ var2 s (z_name e) zr /\
  calc_radar_atm_attenuation e ins s = (Ok tt, s0) /\ var2 s0 "kappa_att" atm /\
  ready e o hs /\
  (forall h, In h hs -> rcon e ins o c (fun t k => p_pa e (pr t k)) (fun t k => t_cel e (tr t k))
      (fun t k => z_met e (zr t k)) h s = Ok (F h)).
Proof.
  intros T NM NT HF Hc E.
  apply radar_inv with (hs := hs) in E; [|exact Hc].
  destruct E as (q & pr & tr & zr & s0 & atm & sm & sd & zt & he & ae & El & Hq & Hp & Ht & Hz & Ea & Ha & Em & _).
  destruct (method_inv e ins o c _ _ _ atm hs s0 sm T NM NT HF Em) as (RD & (q' & Hq') & HC).
  assert (A0 : agree (inp e c) s0 s).
  { intros x Hx. apply (frame_run _ _ _ _ _ (frame_kappa e ins) Ea). intro I. apply (inp_not_radar e c x T Hx).
    left. unfold kappas, radar_fields in *. simpl in *. tauto. }
  set (G := rcon e ins o c (fun t k => p_pa e (pr t k)) (fun t k => t_cel e (tr t k)) (fun t k => z_met e (zr t k))) in *.
  exists q', pr, tr, zr, s0, atm, (fun h => match G h s with Ok x => x | Raise _ => (zeros3, zeros3) end).
  repeat match goal with |- _ /\ _ => split end; auto.
  - unfold var3. rewrite <- A0 by apply inp_q. exact Hq'.
  - intros h Hh. destruct (HC h Hh) as (x & Ex). unfold G in *. rewrite <- (rcon_dep _ _ _ _ _ _ _ h s0 s A0), Ex.
    reflexivity.
Qed.
End Call.
