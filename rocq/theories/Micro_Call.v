(** [calc_lidar_moments] with the microphysics method. *)
From Coq Require Import Permutation.
From Verif Require Import Mom_Base Mom_Spec Mom_Facts Xr_Facts Sched_Model Atm_Model Psd_Model Lidar_Model Lidar_Spec
  Lidar_Od Lidar_Loop Lidar_Api Lidar_Perm Lidar_Corol Mom_Writes Psd_Spec Radar_Model Micro_Spec Micro_Loop Micro_Char.
Local Open Scope R_scope.

Section Call.
Variable Gam : R -> R.
Notation mo e ins o lut := (mopt Gam e ins (o_mie o) (o_sched o) (o_kw o) lut).

(** What the method leaves behind. *)
Definition left_by e ins o lut (z : arr2) hs (s s' : dset) : Prop :=
  (forall h, In h hs -> exists al be, mo e ins o lut h s = Ok (al, be) /\
     var3 s' (out "alpha_p" h false) (fill0 al) /\ var3 s' (out "beta_p" h false) (fill0 be) /\
     var3 s' (out "OD" h false) (od_of e z (o_sfc o) (fill0 al))) /\
  (forall f, In f lidar_fields -> exists a, var3 s' (out f "tot" false) a) /\
  (forall f i t k, In f lidar_fields ->
     value s' (out f "tot" false) i t k
     = xadd (total_before s f i t k) (xsum (map (fun h => fillna 0 (value s' (out f h false) i t k)) hs))).

Lemma start_totals s : totals_stored s -> exists at0 bt ot,
  var3 (with_totals s) (out "alpha_p" "tot" false) at0 /\ var3 (with_totals s) (out "beta_p" "tot" false) bt /\
  var3 (with_totals s) (out "OD" "tot" false) ot /\
  (forall i t k, at0 i t k = total_before s "alpha_p" i t k) /\
  (forall i t k, bt i t k = total_before s "beta_p" i t k) /\
  (forall i t k, ot i t k = total_before s "OD" i t k).
Proof.
  intro H. unfold totals_stored, total_before in *. destruct (has s (out "beta_p" "tot" false)) eqn:E.
  - specialize (H eq_refl).
    destruct (H "alpha_p"%string) as (a & Ha); [simpl; tauto|].
    destruct (H "beta_p"%string) as (b & Hb); [simpl; tauto|].
    destruct (H "OD"%string) as (c & Hc); [simpl; tauto|].
    exists a, b, c. unfold with_totals. rewrite E.
    do 3 (split; [assumption|]). split; [|split]; intros; symmetry; apply value_var; assumption.
  - destruct (with_totals_fresh s E) as (A & B & C). exists zeros3, zeros3, zeros3. auto 10.
Qed.

Section One.
Variables (e : menv) (ins : inst) (o : lopts) (z : arr2) (hs : list string).
Hypotheses (TO : micro_tables_ok e) (NT : ~ In "tot"%string hs) (HG : forall h, In h hs -> gamma_class e h).
Notation method := (calc_lidar_micro Gam e ins z (o_sfc o) hs (o_mie o) (o_sched o) (o_kw o)).

Lemma NP h : In h hs -> is_p3ci e h = false.
Proof. intro H. apply gamma_not_p3. apply HG. exact H. Qed.

Lemma method_run s lut q : micro_lut (rad_family e) = Ok lut -> var3 s (qn false "cl") q ->
  hs <> [] -> totals_stored s ->
  (forall h, In h hs -> (exists p, mo e ins o lut h s = Ok p) /\ exists q, var3 s (qn false h) q) ->
  exists s', method s = (Ok tt, s') /\ left_by e ins o lut z hs s s' /\ dseen s' = dseen s /\
    (forall x, ~ In x (loop_outs false hs ++ psd_names) -> assoc (dvars s') x = assoc (dvars s) x).
Proof.
  intros Hl Hq Hne HT Hs.
  destruct (start_totals s HT) as (at0 & bt & ot & Ta & Tb & To & Va & Vb & Vo).
  pose proof (with_totals_agree e TO s) as Ag.
  destruct (micro_char Gam e ins z (o_sfc o) (o_mie o) (o_sched o) (o_kw o) lut TO hs None (with_totals s) at0 bt ot
     NP NT Ta Tb To) as (s' & at1 & bt1 & ot1 & E & V1 & V2 & V3 & VC & T & Sn & Fr).
  { intros h Hh. destruct (Hs h Hh) as [[p Hp] [q' Hq']]. split.
    - exists p. exact (mopt_dep Gam e ins (o_mie o) (o_sched o) (o_kw o) lut h s _ p Ag Hp).
    - exists q'. unfold var3. rewrite <- (Ag (qn false h)); [exact Hq'|left; apply inp_q]. }
  exists s'. split; [|split; [|split]].
  - unfold calc_lidar_micro. rewrite (bind_rd _ _ _ lut) by exact Hl.
    rewrite (bind_rd _ _ _ q) by (apply g3_var; exact Hq).
    destruct hs as [|h hs']; [congruence|]. rewrite loop_with_totals. exact E.
  - assert (W : forall h, In h hs -> exists al be, mo e ins o lut h s = Ok (al, be) /\
       aM Gam e ins (o_mie o) (o_sched o) (o_kw o) lut (with_totals s) h = fill0 al /\
       bM Gam e ins (o_mie o) (o_sched o) (o_kw o) lut (with_totals s) h = fill0 be).
    { intros h Hh. destruct (Hs h Hh) as [[[al be] Hp] _]. exists al, be. split; [exact Hp|].
      unfold aM, bM. rewrite (mopt_dep Gam e ins (o_mie o) (o_sched o) (o_kw o) lut h s _ _ Ag Hp). auto. }
    split; [|split].
    + intros h Hh. destruct (W h Hh) as (al & be & Hp & Ea & Eb). destruct (VC h Hh) as (C1 & C2 & C3).
      rewrite Ea in C1, C3. rewrite Eb in C2. exists al, be. auto.
    + intros f Hf. simpl in Hf. destruct Hf as [<-|[<-|[<-|[]]]]; eauto.
    + intros f i t k Hf. destruct (T i t k) as (T1 & T2 & T3).
      simpl in Hf. destruct Hf as [<-|[<-|[<-|[]]]].
      * rewrite (value_var _ _ _ _ _ _ V1), T1, Va. do 2 f_equal. apply map_ext_in. intros h Hh.
        destruct (VC h Hh) as (C1 & C2 & C3). rewrite (value_var _ _ _ _ _ _ C1). reflexivity.
      * rewrite (value_var _ _ _ _ _ _ V2), T2, Vb. do 2 f_equal. apply map_ext_in. intros h Hh.
        destruct (VC h Hh) as (C1 & C2 & C3). rewrite (value_var _ _ _ _ _ _ C2). reflexivity.
      * rewrite (value_var _ _ _ _ _ _ V3), T3, Vo. do 2 f_equal. apply map_ext_in. intros h Hh.
        destruct (VC h Hh) as (C1 & C2 & C3). rewrite (value_var _ _ _ _ _ _ C3). reflexivity.
  - rewrite Sn. apply with_totals_seen.
  - intros x Nx. rewrite (Fr x Nx). unfold with_totals. destruct (has s (out "beta_p" "tot" false)); [reflexivity|].
    rewrite !upd_other; [reflexivity|..]; intros ->; apply Nx; apply in_or_app; left; apply in_loop_outs_t; simpl; tauto.
Qed.

Lemma method_success s s' : totals_stored s -> method s = (Ok tt, s') ->
  exists lut q, micro_lut (rad_family e) = Ok lut /\ var3 s (qn false "cl") q /\
  forall h, In h hs -> (exists p, mo e ins o lut h s = Ok p) /\ exists q, var3 s (qn false h) q.
Proof.
  intros HT E. unfold calc_lidar_micro in E.
  apply rd_bind_inv in E as (lut & Hl & E). apply rd_bind_inv in E as (q & Hq & E). apply g3_ok in Hq.
  exists lut, q. split; [exact Hl|]. split; [exact Hq|]. intros h Hh.
  assert (E' : micro_loop Gam e ins z (o_sfc o) (o_mie o) (o_sched o) (o_kw o) lut hs None (with_totals s) = (Ok tt, s')).
  { clear NT HG. destruct hs; [destruct Hh|]. rewrite loop_with_totals in E. exact E. }
  destruct (start_totals s HT) as (at0 & bt & ot & Ta & Tb & To & _).
  pose proof (with_totals_agree e TO s) as Ag.
  assert (Ag' : agree (minp e) (with_totals s) s) by (intros x Hx; symmetry; apply Ag; exact Hx).
  destruct (micro_success Gam e ins z (o_sfc o) (o_mie o) (o_sched o) (o_kw o) lut TO hs None (with_totals s) s' at0 bt ot
     NP NT Ta Tb To E' h Hh) as [[p Hp] [q' Hq']].
  split.
  - exists p. exact (mopt_dep Gam e ins (o_mie o) (o_sched o) (o_kw o) lut h _ s p Ag' Hp).
  - exists q'. unfold var3. rewrite (Ag (qn false h)); [exact Hq'|left; apply inp_q].
Qed.
End One.

Lemma atm_agree e ins s s0 : micro_tables_ok e -> calc_theory_beta_m e (wavelen ins) true s = (Ok tt, s0) ->
  agree (minp e) s s0 /\ (forall f h c, assoc (dvars s0) (out f h c) = assoc (dvars s) (out f h c)).
Proof.
  intros TO Ea. pose proof (frame_run _ _ _ _ _ (frame_atm e _ _) Ea) as F. split.
  - intros x Hx. symmetry. apply F. intro I. apply (minp_not_reserved e x TO Hx). left. exact I.
  - intros f h c. apply F. unfold atm_fields, out. simpl. intuition discriminate.
Qed.
Lemma totals_same s s0 : (forall f h c, assoc (dvars s0) (out f h c) = assoc (dvars s) (out f h c)) ->
  (totals_stored s -> totals_stored s0) /\ (forall f i t k, total_before s0 f i t k = total_before s f i t k).
Proof.
  intro H. unfold totals_stored, total_before, has, var3, value. rewrite H. split.
  - intros T B f Hf. rewrite H. exact (T B f Hf).
  - intros. rewrite H. reflexivity.
Qed.
Lemma mo_iff e ins o lut h s t p : agree (minp e) s t -> mo e ins o lut h s = Ok p -> mo e ins o lut h t = Ok p.
Proof. apply mopt_dep. Qed.
Lemma agree_sym D s t : agree D s t -> agree D t s.
Proof. intros H x Hx. symmetry. auto. Qed.

(** What a successful call leaves behind. *)
Lemma micro_leaves e ins o hs s s1 :
  micro_tables_ok e -> o_emp o = false -> o_rad o = false -> classes_of e (o_hyds o) hs ->
  ~ In "tot"%string hs -> (forall h, In h hs -> gamma_class e h) -> totals_stored s ->
  calc_lidar_moments Gam e ins o false s = (Ok tt, s1) ->
  exists zr lut, var2 s (z_name e) zr /\ micro_lut (rad_family e) = Ok lut /\
    left_by e ins o lut (fun t k => z_met e (zr t k)) hs s s1 /\ agree (minp e) s s1 /\
    (hs = [] -> has s (out "beta_p" "tot" false) = true).
Proof.
  intros TO Ee Er Hc NT HG HT E.
  apply moments_inv with (hs := hs) in E; [|exact Hc].
  destruct E as (q & pr & tr & zr & s0 & bm & tau & sm & b & od & El & Hq & Hp & Ht & Hz & Ea & Hb & Htau & Em & Hbt & Hod & ->).
  destruct (atm_agree e ins s s0 TO Ea) as [A0 O0]. destruct (totals_same s s0 O0) as [HT0 TB0]. specialize (HT0 HT).
  unfold method_of in Em. rewrite Ee, Er in Em. cbn [orb] in Em.
  destruct (method_success e ins o (fun t k => z_met e (zr t k)) hs TO NT HG s0 sm HT0 Em) as (lut & q0 & Hl & Hq0 & HS).
  exists zr, lut. split; [exact Hz|]. split; [exact Hl|].
  set (z := fun t k => z_met e (zr t k)) in *.
  assert (G : left_by e ins o lut z hs s0 sm /\ 
     (forall x, ~ In x (loop_outs false hs ++ psd_names) -> assoc (dvars sm) x = assoc (dvars s0) x) /\
     (hs = [] -> has s (out "beta_p" "tot" false) = true)).
  { destruct hs as [|h0 hs'] eqn:Eh.
    - unfold calc_lidar_micro in Em. rewrite (bind_rd _ _ _ lut) in Em by exact Hl.
      rewrite (bind_rd _ _ _ q0) in Em by (apply g3_var; exact Hq0). injection Em as <-.
      assert (Hh : has s0 (out "beta_p" "tot" false) = true) by (apply has_var3 with (a := b); exact Hbt).
      split; [|split; [auto|]].
      + split; [intros h []|]. split; [exact (HT0 Hh)|]. intros f i t k Hf. cbn [map]. rewrite xsum_nil, xadd_0_r.
        unfold total_before. rewrite Hh. reflexivity.
      + intros _. unfold has in *. rewrite O0 in Hh. exact Hh.
    - rewrite <- Eh in *.
      destruct (method_run e ins o z hs TO NT HG s0 lut q0 Hl Hq0 ltac:(rewrite Eh; discriminate) HT0 HS)
        as (sm' & Em' & L & _ & Fr).
      rewrite Em in Em'. injection Em' as <-. split; [exact L|]. split; [exact Fr|].
      rewrite Eh. discriminate. }
  destruct G as (L & Fr & He). split; [|split; [|exact He]].
  - destruct L as (L1 & L2 & L3). split; [|split].
    + intros h Hh. destruct (L1 h Hh) as (al & be & Hm & V1 & V2 & V3). exists al, be.
      split; [exact (mo_iff e ins o lut h s0 s _ (agree_sym _ _ _ A0) Hm)|].
      split; [|split]; unfold var3; rewrite upd_other; auto; apply field_att; simpl; tauto.
    + intros f Hf. destruct (L2 f Hf) as (a & Ha). exists a. unfold var3. rewrite upd_other; [exact Ha|].
      apply field_att; exact Hf.
    + intros f i t k Hf. rewrite value_upd_other by (apply field_att; exact Hf). rewrite (L3 f i t k Hf), TB0.
      do 2 f_equal. apply map_ext. intro h. rewrite value_upd_other by (apply field_att; exact Hf). reflexivity.
  - intros x Hx. rewrite upd_other by (apply (minp_not_outs e TO); exact Hx).
    rewrite Fr; [exact (A0 x Hx)|]. intro I. apply in_app_or in I as [I|I].
    + apply (minp_not_reserved e x TO Hx). apply (lidar_outs_reserved false hs).
      unfold lidar_outs. apply in_or_app. right. apply in_or_app. left. exact I.
    + exact (minp_not_psd e x TO Hx I).
Qed.

(** A call on inputs that agree, for some of the classes in any order. *)
Lemma micro_some e ins o o' hs hs' s t s1 :
  micro_tables_ok e -> o_emp o = false -> o_rad o = false -> classes_of e (o_hyds o) hs ->
  o_emp o' = false -> o_rad o' = false -> classes_of e (o_hyds o') hs' ->
  o_sfc o' = o_sfc o -> o_mie o' = o_mie o -> o_kw o' = o_kw o -> o_sched o' = o_sched o -> o_eta o' = o_eta o ->
  (forall h, In h hs' -> In h hs) ->
  ~ In "tot"%string hs -> (forall h, In h hs -> gamma_class e h) ->
  totals_stored s -> totals_stored t -> (hs' = [] -> has t (out "beta_p" "tot" false) = true) ->
  agree (minp e) s t ->
  calc_lidar_moments Gam e ins o false s = (Ok tt, s1) ->
  exists t1, calc_lidar_moments Gam e ins o' false t = (Ok tt, t1) /\
    forall f h i tt k, In f lidar_fields -> In h hs' ->
      value t1 (out f h false) i tt k = value s1 (out f h false) i tt k.
Proof.
  intros TO Ee Er Hc Ee' Er' Hc' Ef Em1 Ek Es Et P NT HG HT HT' Hne A E.
  pose proof (micro_leaves e ins o hs s s1 TO Ee Er Hc NT HG HT E) as (zr & lut & Hz & Hl & (L1 & _ & _) & _ & _).
  apply moments_inv with (hs := hs) in E; [|exact Hc].
  destruct E as (q & pr & tr & zr' & s0 & bm & tau & sm & b & od & El & Hq & Hp & Ht & Hz' & Ea & Hb & Htau & Em & Hbt & Hod & Es1).
  assert (zr' = zr) as -> by (unfold var2 in *; congruence).
  destruct (atm_agree e ins s s0 TO Ea) as [A0 O0]. destruct (totals_same s s0 O0) as [HT0 _]. specialize (HT0 HT).
  assert (NP1 : minp e (p_name e)) by (left; left; in_app).
  assert (NT1 : minp e (t_name e)) by (left; left; in_app).
  assert (NZ1 : minp e (z_name e)) by (left; left; in_app).
  pose proof (dep_atm e (wavelen ins) true (minp e) NP1 NT1 NZ1 s t A) as D. rewrite Ea in D.
  destruct (calc_theory_beta_m e (wavelen ins) true t) as [[[]|] t0] eqn:Ea'; [|tauto]. destruct D as [_ D].
  destruct (atm_agree e ins t t0 TO Ea') as [A0' O0']. destruct (totals_same t t0 O0') as [HT1 _]. specialize (HT1 HT').
  set (z := fun t k => z_met e (zr t k)) in *.
  assert (NT' : ~ In "tot"%string hs').
  { intro I. apply NT. exact (P _ I). }
  assert (HG' : forall h, In h hs' -> gamma_class e h).
  { intros h Hh. apply HG. exact (P _ Hh). }
  unfold method_of in Em. rewrite Ee, Er in Em. cbn [orb] in Em.
  destruct (method_success e ins o z hs TO NT HG s0 sm HT0 Em) as (lut' & q0 & Hl' & Hq0 & HS).
  assert (lut' = lut) as -> by congruence.
  assert (At : agree (minp e) s0 t0) by (intros x Hx; apply D; left; exact Hx).
  assert (Hq1 : var3 t0 (qn false "cl") q0).
  { unfold var3. rewrite <- (At (qn false "cl")); [exact Hq0|left; apply inp_q]. }
  assert (Emo : forall h p, mo e ins o lut h s0 = Ok p -> mo e ins o' lut h t0 = Ok p).
  { intros h p Hm. rewrite Em1, Es, Ek. exact (mo_iff e ins o lut h s0 t0 p At Hm). }
  assert (HS' : forall h, In h hs' -> (exists p, mo e ins o' lut h t0 = Ok p) /\ exists q, var3 t0 (qn false h) q).
  { intros h Hh. destruct (HS h (P h Hh)) as [[p Hm] [q' Hq']]. split.
    - exists p. apply Emo. exact Hm.
    - exists q'. unfold var3. rewrite <- (At (qn false h)); [exact Hq'|left; apply inp_q]. }
  assert (R : exists tm, calc_lidar_micro Gam e ins z (o_sfc o') hs' (o_mie o') (o_sched o') (o_kw o') t0 = (Ok tt, tm) /\
     (forall h, In h hs' -> exists al be, mo e ins o' lut h t0 = Ok (al, be) /\
     var3 tm (out "alpha_p" h false) (fill0 al) /\ var3 tm (out "beta_p" h false) (fill0 be) /\
     var3 tm (out "OD" h false) (od_of e z (o_sfc o') (fill0 al))) /\
     (forall f, In f lidar_fields -> exists a, var3 tm (out f "tot" false) a)).
  { destruct hs' as [|h0 hs''] eqn:Eh.
    - exists t0. split; [|split].
      + unfold calc_lidar_micro. rewrite (bind_rd _ _ _ lut) by exact Hl.
        rewrite (bind_rd _ _ _ q0) by (apply g3_var; exact Hq1). reflexivity.
      + intros h [].
      + apply HT1. unfold has. rewrite O0'. exact (Hne eq_refl).
    - rewrite <- Eh in *.
      destruct (method_run e ins o' z hs' TO NT' HG' t0 lut q0 Hl Hq1 ltac:(rewrite Eh; discriminate) HT1 HS')
        as (tm & Em' & (M1 & M2 & _) & _ & _). exists tm. auto. }
  destruct R as (tm & Em' & M1 & M2).
  destruct (M2 "beta_p"%string) as (b' & Hb'); [simpl; tauto|].
  destruct (M2 "OD"%string) as (od' & Hod'); [simpl; tauto|].
  eexists. split.
  - apply (moments_run Gam e ins o' false hs' t q pr tr zr t0 bm tau tm b' od'); auto.
    + rewrite <- (A (qn false "cl")); [exact Hq|left; apply inp_q].
    + unfold var2. rewrite <- (A _ NP1). exact Hp.
    + unfold var2. rewrite <- (A _ NT1). exact Ht.
    + unfold var2. rewrite <- (A _ NZ1). exact Hz.
    + unfold var2. rewrite <- (D "sigma_180_vol"%string); [exact Hb|right; simpl; tauto].
    + unfold var2. rewrite <- (D "tau"%string); [exact Htau|right; simpl; tauto].
    + unfold method_of. rewrite Ee', Er'. exact Em'.
  - intros f h i tt k Hf Hh.
    rewrite value_upd_other by (apply field_att; exact Hf).
    destruct (L1 h (P h Hh)) as (al & be & Hm & V1 & V2 & V3).
    destruct (M1 h Hh) as (al' & be' & Hm' & W1 & W2 & W3).
    pose proof (Emo h _ (mo_iff e ins o lut h s s0 _ A0 Hm)) as Hm2. rewrite Hm' in Hm2. injection Hm2 as <- <-.
    simpl in Hf. destruct Hf as [<-|[<-|[<-|[]]]].
    + rewrite (value_var _ _ _ _ _ _ V1), (value_var _ _ _ _ _ _ W1). reflexivity.
    + rewrite (value_var _ _ _ _ _ _ V2), (value_var _ _ _ _ _ _ W2). reflexivity.
    + rewrite (value_var _ _ _ _ _ _ V3), (value_var _ _ _ _ _ _ W3), Ef. reflexivity.
Qed.
Lemma micro_again e ins o o' hs hs' s t s1 :
  micro_tables_ok e -> o_emp o = false -> o_rad o = false -> classes_of e (o_hyds o) hs ->
  o_emp o' = false -> o_rad o' = false -> classes_of e (o_hyds o') hs' ->
  o_sfc o' = o_sfc o -> o_mie o' = o_mie o -> o_kw o' = o_kw o -> o_sched o' = o_sched o -> o_eta o' = o_eta o ->
  Permutation hs hs' ->
  ~ In "tot"%string hs -> (forall h, In h hs -> gamma_class e h) ->
  totals_stored s -> totals_stored t -> (hs = [] -> has t (out "beta_p" "tot" false) = true) ->
  agree (minp e) s t ->
  calc_lidar_moments Gam e ins o false s = (Ok tt, s1) ->
  exists t1, calc_lidar_moments Gam e ins o' false t = (Ok tt, t1) /\
    forall f h i tt k, In f lidar_fields -> In h hs ->
      value t1 (out f h false) i tt k = value s1 (out f h false) i tt k.
Proof.
  intros TO Ee Er Hc Ee' Er' Hc' Ef Em1 Ek Es Et P NT HG HT HT' Hne A E.
  destruct (micro_some e ins o o' hs hs' s t s1) as (t1 & E1 & V); auto.
  - intros h Hh. exact (Permutation_in _ (Permutation_sym P) Hh).
  - intros ->. apply Hne. apply Permutation_nil, Permutation_sym, P.
  - exists t1. split; [exact E1|]. intros f h i tt k Hf Hh. apply V; [exact Hf|exact (Permutation_in _ P Hh)].
Qed.
End Call.
