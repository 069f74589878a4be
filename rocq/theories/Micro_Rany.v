(** The loops of the radar microphysics method on any classes, the ice of the
    P3 scheme among them, and the second pass for the spectral width. *)
From Verif Require Import Mom_Base Mom_Spec Mom_Facts Xr_Facts Sched_Model Psd_Model Lidar_Model Lidar_Spec
  Lidar_Od Lidar_Loop Lidar_Api Lidar_Corol Mom_Writes Psd_Spec Radar_Model Radar_Spec Radar_Att Radar_Loop Radar_Api
  Micro_Spec Micro_Loop Micro_Char Micro_Any Micro_Rloop.
Local Open Scope R_scope.

Section M.
Variables (Gam : R -> R) (e : menv) (ins : inst) (mie width : bool) (sch : sched) (kw : psd_kw)
  (lut : string * bool).
Hypothesis TO : rmicro_tables_ok e.
Notation rstep := (rstep width).

(** The spectra of a class, one column after the other. *)
Definition grobs (h : string) (s : dset) : res (list (nat -> nat -> obs)) :=
  do w <- kw_of e h s;
  do ft <- psd_of Gam e kw h s;
  do fl <- gb s (fn false h);
  do n <- g3 s (nn false h);
  do tab <- micro_table ins lut mie h;
  do v <- class_velocity e h (fst (fst tab));
  do ra <- g2 s "rho_a";
  do order <- tt_order sch (ntm e);
  do cols0 <- (if String.eqb h "cl"
    then run_cols (liquid_column e ins ft tab (match v with Some x => x | None => [] end) (rhoa_corr e h ra) (weighted fl n)) order
    else run_cols (other_column e ins h mie ft tab v (rhoa_corr e h ra) (weighted fl n) fl w) order);
  stack_cols e cols0.
Lemma grobs_dep h s t p : agree (rinp e) s t -> grobs h s = Ok p -> grobs h t = Ok p.
Proof.
  intros A E. unfold grobs in *. rewrite <- (kw_dep e h s t (rinp_minp e s t A)).
  apply res_bind_ok in E as (w & Hw & E). rewrite Hw. cbn [bind].
  apply res_bind_ok in E as (ft & Hf & E).
  rewrite (psd_dep Gam e kw lut h s t ft (rinp_minp e s t A) Hf). cbn [bind].
  rewrite <- (agree_gb _ s t (fn false h) A) by auto with minp.
  apply res_bind_ok in E as (fl & Hfl & E). rewrite Hfl. cbn [bind].
  rewrite <- (agree_g3 _ s t (nn false h) A) by auto with minp.
  apply res_bind_ok in E as (n & Hn & E). rewrite Hn. cbn [bind].
  apply res_bind_ok in E as (tab & Ht & E). rewrite Ht. cbn [bind].
  apply res_bind_ok in E as (v & Hv & E). rewrite Hv. cbn [bind].
  rewrite <- (agree_g2 _ s t "rho_a" A) by (right; reflexivity). exact E.
Qed.

(** What stays in the local variables. *)
Definition kept (h : string) (l : rlocals) (s : dset) (l' : rlocals) (s' : dset) : Prop :=
  kw_kept (v_kw l') s' /\ (exists ra, var2 s "rho_a" ra /\ v_corr l' = Some (rhoa_corr e h ra)) /\
  memb (i_str ins) (dseen s') = memb (i_str ins) (dseen s) || is_p3ci e h /\
  (is_p3ci e h = false -> v_kw l' = v_kw l) /\
  (is_p3ci e h = true -> memb (i_str ins) (dseen s) = true -> v_kw l <> None) /\
  (is_p3ci e h = true -> v_kw l' <> None).
Lemma gstep_inv h l s l' s' : h <> "tot"%string -> kw_kept (v_kw l) s ->
  radar_class Gam e ins mie width sch kw lut h l s = (Ok l', s') ->
  exists cols, grobs h s = Ok cols /\ rstep h cols l s l' s' /\ kept h l s l' s'.
Proof.
  intros Nt KK E. unfold radar_class in E.
  destruct (totals_spec lut s) as (sa & Ea & T1 & T2 & T3).
  rewrite (bind_ok _ _ _ tt sa Ea) in E. rewrite !bind_assign in E.
  set (sb := upd _ _ _) in E.
  assert (Fb : forall x, ~ In x (router "tot" ++ router h) -> assoc (dvars sb) x = assoc (dvars s) x).
  { intros x Nx. unfold sb. rewrite in_app_iff in Nx. simpl in Nx.
    rewrite !upd_other by (intros ->; apply Nx; tauto). apply T3. simpl. tauto. }
  assert (Ab : agree (rinp e) sb s).
  { intros x Hx. apply Fb. rewrite in_app_iff. intros [I|I];
      exact (rinp_not_radar e x TO Hx (router_reserved _ _ I)). }
  apply bind_inv in E as (ft & sc & Ep & E).
  assert (Hf : psd_of Gam e kw h s = Ok ft).
  { apply (psd_dep Gam e kw lut h sb s ft (rinp_minp _ _ _ Ab)). unfold psd_of. rewrite Ep. reflexivity. }
  assert (U : forall x, ~ In x psd_names -> assoc (dvars sc) x = assoc (dvars sb) x).
  { intros x Nx. apply (writes_run _ _ _ _ _ x (writes_psd_only Gam e kw lut h) Ep Nx). }
  assert (Um : forall x, rinp e x -> assoc (dvars sc) x = assoc (dvars s) x).
  { intros x Hx. rewrite U by (exact (rinp_not_psd e x TO Hx)). apply Ab; exact Hx. }
  apply rd_bind_inv in E as (fl & Hfl & E). apply gb_ok in Hfl. unfold varb in Hfl.
  rewrite Um in Hfl by auto with minp.
  apply rd_bind_inv in E as (n & Hn & E). apply g3_ok in Hn. unfold var3 in Hn.
  rewrite Um in Hn by auto with minp. cbv zeta in E.
  apply rd_bind_inv in E as (tab & Ht & E). apply rd_bind_inv in E as (v & Hv & E).
  assert (Ag0 : agree (minp e) s sc) by (intros x Hx; symmetry; apply Um; left; exact Hx).
  assert (Sn : dseen sc = dseen s).
  { pose proof (psd_seen Gam e kw h sb) as P. rewrite Ep in P. cbn [snd] in P. rewrite P. unfold sb. cbn [dseen upd].
    destruct (has s (out "Ze" "tot" false)) eqn:Hh0; [rewrite (T1 eq_refl); reflexivity|].
    unfold radar_totals, lbind at 1, rd in Ea. rewrite Hh0, !bind_assign, assign_eq in Ea. injection Ea as <-. reflexivity. }
  apply bind_inv in E as (w & sk & Ek & E).
  assert (Kc : kw_kept (v_kw l) sc) by (apply (kw_kept_dep e (v_kw l) s sc Ag0 KK)).
  assert (Q : kw_of e h sc = Ok (snd w) /\ dvars sk = dvars sc /\ kw_kept (fst w) sk /\
    memb (i_str ins) (dseen sk) = memb (i_str ins) (dseen sc) || is_p3ci e h /\
    (is_p3ci e h = false -> fst w = v_kw l) /\
    (is_p3ci e h = true -> memb (i_str ins) (dseen sc) = true -> v_kw l <> None) /\
    (is_p3ci e h = true -> fst w <> None)).
  { destruct (is_nssl e) eqn:Ns.
    - assert (NP : is_p3ci e h = false).
      { unfold is_nssl in Ns. apply String.eqb_eq in Ns. unfold is_p3ci. rewrite Ns. apply andb_false_r. }
      injection Ek as <- <-. unfold kw_of. rewrite NP, orb_false_r. cbn [fst snd].
      repeat split; auto; try discriminate; apply Kc; assumption.
    - destruct (kw_inv e ins h (v_kw l) sc w sk Kc Ek) as (A1 & A2 & A3 & A4 & A5 & A6). do 5 (split; [assumption|]).
      split; [assumption|]. intro P. unfold micro_kw in Ek. rewrite P in Ek. apply rd_bind_inv in Ek as (seen & _ & Ek).
      destruct seen.
      + destruct (v_kw l); [|discriminate Ek]. injection Ek as <- <-. discriminate.
      + apply bind_inv in Ek as (u & s9 & _ & Ek). apply rd_bind_inv in Ek as (? & _ & Ek). apply rd_bind_inv in Ek as (? & _ & Ek).
        injection Ek as <- <-. discriminate. }
  clear Ek. destruct Q as (Ew & Ev & Kk & Sk & Hl1 & Hl2 & Hl3).
  assert (Vk : forall x, assoc (dvars sk) x = assoc (dvars sc) x) by (intro x; rewrite Ev; reflexivity).
  assert (Ew' : kw_of e h s = Ok (snd w)) by (rewrite (kw_dep e h s sc Ag0); exact Ew).
  apply rd_bind_inv in E as (ra & Hra & E). apply g2_ok in Hra. unfold var2 in Hra.
  rewrite Vk, Um in Hra by (right; reflexivity).
  apply rd_bind_inv in E as (order & Ho & E). apply rd_bind_inv in E as (cols0 & Hc & E).
  apply rd_bind_inv in E as (cols & Hs & E). rewrite !bind_assign in E.
  exists cols. split.
  { unfold grobs. rewrite Ew'. cbn [bind]. rewrite Hf. cbn [bind]. rewrite (gb_var _ _ _ Hfl). cbn [bind].
    rewrite (g3_var _ _ _ Hn). cbn [bind]. rewrite Ht. cbn [bind]. rewrite Hv. cbn [bind].
    rewrite (g2_var _ _ _ Hra). cbn [bind]. rewrite Ho. cbn [bind]. rewrite Hc. exact Hs. }
  set (sd := upd (upd sk _ _) _ _) in E.
  apply bind_inv in E as ([] & se & Ee & E).
  assert (Zs : var3 sb (out "sigma_d" h false) zeros3) by (unfold sb; rlook).
  assert (Fe : var3 se (out "Ze" h false) (pt ob_ze cols) /\ var3 se (out "Vd" h false) (pt ob_vd cols) /\
     var3 se (out "sigma_d" h false) (if width then pt ob_sg cols else zeros3) /\
     (forall x, ~ In x (router h) -> assoc (dvars se) x = assoc (dvars sc) x) /\ dseen se = dseen sk).
  { destruct width.
    - rewrite assign_eq in Ee. injection Ee as <-. unfold sd. split; [rlook|]. split; [rlook|]. split; [rlook|].
      split; [|reflexivity].
      intros x Nx. simpl in Nx. rewrite !upd_other by (intros ->; apply Nx; tauto). apply Vk.
    - injection Ee as <-. unfold sd. split; [rlook|]. split; [rlook|]. split.
      + unfold var3. rewrite !upd_other by rnames. rewrite Vk, U by apply psd_out. exact Zs.
      + split; [|reflexivity]. intros x Nx. simpl in Nx. rewrite !upd_other by (intros ->; apply Nx; tauto). apply Vk. }
  destruct Fe as (F1 & F2 & F3 & F4 & F5).
  unfold add_to in E. rewrite lbind_assoc in E. apply rd_bind_inv in E as (z1 & Hz & E). apply g3_ok in Hz.
  rewrite bind_assign in E. injection E as <- <-.
  match goal with |- rstep _ _ _ _ _ ?x /\ _ => set (s9 := x) end.
  assert (RS : rstep h cols l s {| v_numer := (if String.eqb h "cl" then map3 nan_to_num (pt ob_vn cols) else lift2 xadd (v_numer l) (map3 nan_to_num (pt ob_vn cols)));
          v_denom := (if String.eqb h "cl" then map3 nan_to_num (pt ob_md cols) else lift2 xadd (v_denom l) (map3 nan_to_num (pt ob_md cols)));
          v_ext := Some (map3 nan_to_num (pt ob_ext cols)); v_kw := fst w; v_corr := Some (rhoa_corr e h ra) |} s9).
  2:{ split; [exact RS|]. unfold kept. cbn [v_kw v_corr]. split.
      - apply (kw_kept_dep e _ sk s9); [|exact Kk]. intros x Hx. rewrite Vk, Um by (left; exact Hx).
        exact (rstep_agree e width TO _ _ _ _ _ _ RS x (or_introl Hx)).
      - split; [exists ra; split; [exact Hra|reflexivity]|].
        assert (Sd : dseen s9 = dseen sk) by exact F5. rewrite Sd, Sk, Sn. split; [reflexivity|].
        split; [exact Hl1|]. split; [rewrite <- Sn; exact Hl2|exact Hl3]. }
  unfold s9. clear s9.
  unfold Micro_Rloop.rstep. cbv zeta. cbn [v_numer v_denom v_ext].
  do 3 (split; [reflexivity|]). split; [rlook|]. split; [rlook|]. split; [rlook|]. split.
  - exists z1. split; [|apply upd_same]. unfold started.
    assert (N : ~ In (out "Ze" "tot" false) (router h)).
    { simpl. intros [I|[I|[I|[]]]]; try discriminate I. apply out_inj in I as [I _]. congruence. }
    unfold var3 in Hz. rewrite F4, U in Hz by (assumption || apply psd_out). unfold sb in Hz.
    rewrite !upd_other in Hz by rnames. destruct (has s (out "Ze" "tot" false)).
    + rewrite (T1 eq_refl) in Hz. exact Hz.
    + specialize (T2 eq_refl). unfold var3 in T2. congruence.
  - intros x Nx. rewrite !in_app_iff in Nx. rewrite upd_other by (intros ->; apply Nx; left; simpl; tauto).
    rewrite F4, U by tauto. apply Fb. rewrite in_app_iff. tauto.
Qed.

Lemma gclasses_inv hs : forall l s l' s', NoDup hs -> ~ In "tot"%string hs ->
  kw_kept (v_kw l) s ->
  radar_classes Gam e ins mie width sch kw lut hs l s = (Ok l', s') ->
  exists C : string -> list (nat -> nat -> obs),
    (forall h, In h hs -> grobs h s = Ok (C h) /\ var3 s' (out "Ze" h false) (pt ob_ze (C h)) /\
       var3 s' (out "Vd" h false) (pt ob_vd (C h)) /\
       var3 s' (out "sigma_d" h false) (if width then pt ob_sg (C h) else zeros3)) /\
    (forall i t k, v_numer l' i t k = gather (fun h => pt ob_vn (C h) i t k) hs (v_numer l i t k) /\
                   v_denom l' i t k = gather (fun h => pt ob_md (C h) i t k) hs (v_denom l i t k)) /\
    (forall pre h, hs = pre ++ [h] -> v_ext l' = Some (map3 nan_to_num (pt ob_ext (C h)))) /\
    (hs = [] -> v_ext l' = v_ext l /\ s' = s) /\
    (hs <> [] -> exists z0 z1, started s z0 /\ var3 s' (out "Ze" "tot" false) z1 /\
       forall i t k, z1 i t k = xadd (z0 i t k) (xsum (map (fun h => fillna 0 (pt ob_ze (C h) i t k)) hs))) /\
    (forall x, ~ In x (routs hs) -> assoc (dvars s') x = assoc (dvars s) x) /\
    kw_kept (v_kw l') s' /\
    (forall pre h, hs = pre ++ [h] -> exists ra, var2 s "rho_a" ra /\ v_corr l' = Some (rhoa_corr e h ra)) /\
    memb (i_str ins) (dseen s') = memb (i_str ins) (dseen s) || existsb (is_p3ci e) hs /\
    (existsb (is_p3ci e) hs = true -> memb (i_str ins) (dseen s) = true -> v_kw l <> None) /\
    (existsb (is_p3ci e) hs = true \/ v_kw l <> None -> v_kw l' <> None) /\ agree (rinp e) s s'.
Proof.
  induction hs as [|h hs IH]; intros l s l' s' ND NT KK E.
  - injection E as <- <-. exists (fun _ => []). split; [intros h []|]. split; [auto|].
    split; [intros [|? ?] ? Q; discriminate Q|]. split; [auto|]. split; [intro Q; destruct (Q eq_refl)|]. split; [auto|].
    split; [exact KK|]. split; [intros [|? ?] ? Q; discriminate Q|]. cbn [existsb]. rewrite orb_false_r.
    split; [reflexivity|]. split; [discriminate|]. split; [intros [Q|Q]; [discriminate Q|exact Q]|]. intros x _. reflexivity.
  - cbn [radar_classes] in E. apply bind_inv in E as (l1 & s1 & E1 & E).
    inversion ND as [|? ? Nh ND']; subst.
    assert (Nt : h <> "tot"%string) by (intros ->; apply NT; left; reflexivity).
    destruct (gstep_inv h l s l1 s1 Nt KK E1) as (cols & Hc & RS & KP).
    destruct KP as (P1 & (ra0 & P2 & P2') & P3 & P4 & P5 & P6).
    pose proof (rstep_agree e width TO _ _ _ _ _ _ RS) as Ag.
    destruct RS as (R1 & R2 & R3 & R4 & R5 & R6 & (z0 & Z0 & Z1) & R8).
    destruct (IH l1 s1 l' s' ND') as (C & K1 & K2 & K3 & K4 & K5 & K6 & K7 & K8 & K9 & K10 & K11 & K12); auto.
    { intro; apply NT; right; assumption. }
    assert (Ag' : agree (rinp e) s1 s) by (intros x Hx; symmetry; apply Ag; exact Hx).
    exists (fun x => if String.eqb x h then cols else C x).
    assert (Eh : String.eqb h h = true) by apply String.eqb_refl.
    assert (Eo : forall x, In x hs -> String.eqb x h = false).
    { intros x Hx. apply String.eqb_neq. intros ->. exact (Nh Hx). }
    assert (Ex : forall f i t k, map (fun x => fillna 0 (pt f (if String.eqb x h then cols else C x) i t k)) hs
               = map (fun x => fillna 0 (pt f (C x) i t k)) hs).
    { intros f i t k. apply map_ext_in. intros x Hx. rewrite (Eo x Hx). reflexivity. }
    assert (Eg : forall f i t k x, gather (fun x => pt f (if String.eqb x h then cols else C x) i t k) hs x
               = gather (fun x => pt f (C x) i t k) hs x).
    { intros f i t k x. apply gather_ext. intros y Hy. rewrite (Eo y Hy). reflexivity. }
    split; [|split; [|split; [|split; [|split; [|split; [|split; [|split; [|split; [|split; [|split]]]]]]]]]].
    + intros x [<-|Hx].
      * rewrite Eh. split; [exact Hc|].
        unfold var3. rewrite !K6 by (apply (kept_out lut); simpl; auto). auto.
      * rewrite (Eo x Hx). destruct (K1 x Hx) as (A1 & A2). split; [|exact A2].
        apply (grobs_dep x s1 s _ Ag' A1).
    + intros i t k. destruct (K2 i t k) as [G1 G2]. cbn [gather]. rewrite Eh, !Eg, G1, G2, R1, R2.
      destruct (String.eqb h "cl"); split; reflexivity.
    + intros pre h' Q. destruct pre as [|p pre].
      * injection Q as <- ->. rewrite Eh. destruct (K4 eq_refl) as [K _]. rewrite K, R3. reflexivity.
      * injection Q as <- ->. rewrite (Eo h') by (apply in_or_app; right; left; reflexivity). apply (K3 pre). reflexivity.
    + discriminate.
    + intros _. exists z0. destruct hs as [|h1 hs1].
      * destruct (K4 eq_refl) as [_ ->]. eexists. split; [exact Z0|]. split; [exact Z1|].
        intros i t k. cbn [map]. rewrite Eh, xsum_cons, xsum_nil, xadd_0_r. reflexivity.
      * destruct (K5 ltac:(discriminate)) as (z0' & z1 & Q0 & Q1 & Q2). exists z1. split; [exact Z0|]. split; [exact Q1|].
        intros i t k. rewrite Q2, <- (Ex ob_ze i t k).
        remember (h1 :: hs1) as hs2. cbn [map]. rewrite Eh, xsum_cons, xadd_assoc.
        assert (z0' = lift2 xadd z0 (fill0 (pt ob_ze cols))) as ->.
        { unfold started in Q0. rewrite (has_var3 _ _ _ Z1) in Q0. unfold var3 in *. congruence. }
        reflexivity.
    + intros x Nx. unfold routs in *. cbn [flat_map] in Nx. rewrite !in_app_iff in Nx.
      rewrite K6 by (rewrite !in_app_iff; tauto). apply R8. rewrite !in_app_iff. tauto.
    + exact K7.
    + intros pre h' Q. destruct pre as [|p pre].
      * injection Q as <- ->. cbn [radar_classes] in E. injection E as <- <-. exists ra0. auto.
      * injection Q as <- ->. destruct (K8 pre h' eq_refl) as (ra1 & A1 & A2). exists ra1. split; [|exact A2].
        unfold var2 in *. rewrite (Ag "rho_a"%string) by (right; reflexivity). exact A1.
    + rewrite K9, P3. cbn [existsb]. rewrite orb_assoc. reflexivity.
    + cbn [existsb]. intros HX Hm. destruct (is_p3ci e h) eqn:P; [exact (P5 eq_refl Hm)|].
      cbn [orb] in HX. rewrite <- (P4 eq_refl). apply K10; [exact HX|]. rewrite P3, Hm. reflexivity.
    + cbn [existsb]. intro HX. apply K11. destruct (is_p3ci e h) eqn:P; [right; exact (P6 eq_refl)|].
      rewrite (P4 eq_refl). exact HX.
    + intros x Hx. rewrite (Ag x Hx). apply K12. exact Hx.
Qed.

(** The second pass. *)
Definition gsig (corr : arr2) (vd : arr3) (h : string) (s : dset) : res (list (nat -> nat -> xr)) :=
  do w <- kw_of e h s;
  do ft <- psd_of Gam e kw h s;
  do tab <- micro_table ins lut mie h;
  do v <- class_velocity e h (fst (fst tab));
  do fl <- gb s (fn false h);
  do n <- g3 s (nn false h);
  do order <- tt_order sch (ntm e);
  do cols0 <- (if String.eqb h "cl"
    then run_cols (sigma_liquid e ins ft (fst (fst tab)) corr (weighted fl n) vd) order
    else run_cols (sigma_other e ins h mie ft tab v corr (weighted fl n) vd fl w) order);
  stack_cols e cols0.
Lemma gsig_dep corr vd h s t p : agree (minp e) s t -> gsig corr vd h s = Ok p -> gsig corr vd h t = Ok p.
Proof.
  intros A E. unfold gsig in *. rewrite <- (kw_dep e h s t A).
  apply res_bind_ok in E as (w & Hw & E). rewrite Hw. cbn [bind].
  apply res_bind_ok in E as (ft & Hf & E).
  rewrite (psd_dep Gam e kw lut h s t ft A Hf). cbn [bind].
  apply res_bind_ok in E as (tab & Ht & E). rewrite Ht. cbn [bind].
  apply res_bind_ok in E as (v & Hv & E). rewrite Hv. cbn [bind].
  rewrite <- (agree_gb _ s t (fn false h) A) by auto with minp.
  apply res_bind_ok in E as (fl & Hfl & E). rewrite Hfl. cbn [bind].
  rewrite <- (agree_g3 _ s t (nn false h) A) by auto with minp. exact E.
Qed.
Definition pts (cols : list (nat -> nat -> xr)) : arr3 := of_cols (fun (o : nat -> nat -> xr) i k => o i k) cols.
Lemma minp_psd x : minp e x -> ~ In x psd_names.
Proof. intro H. apply (rinp_not_psd e x TO). left. exact H. Qed.
Lemma sigma_inv p3 corr vd hs : forall acc s r s', kw_kept p3 s -> var3 s (out "Vd" "tot" false) vd -> NoDup hs ->
  sigma_loop Gam e ins mie sch kw lut p3 corr hs acc s = (Ok r, s') ->
  exists S : string -> list (nat -> nat -> xr),
    (forall h, In h hs -> gsig corr vd h s = Ok (S h)) /\
    (forall i t k, r i t k = gather (fun h => pts (S h) i t k) hs (acc i t k)).
Proof.
  induction hs as [|h hs IH]; intros acc s r s' K HV ND E.
  - injection E as <- <-. exists (fun _ => []). split; [intros h []|reflexivity].
  - cbn [sigma_loop] in E. inversion ND as [|? ? Nh ND']; subst.
    apply bind_inv in E as (ft & sc & Ep & E).
    assert (Hf : psd_of Gam e kw h s = Ok ft) by (unfold psd_of; rewrite Ep; reflexivity).
    assert (U : forall x, ~ In x psd_names -> assoc (dvars sc) x = assoc (dvars s) x).
    { intros x Nx. apply (writes_run _ _ _ _ _ x (writes_psd_only Gam e kw lut h) Ep Nx). }
    assert (Ag : agree (minp e) s sc) by (intros x Hx; symmetry; apply U, minp_psd, Hx).
    apply rd_bind_inv in E as (tab & Ht & E). apply rd_bind_inv in E as (v & Hv & E).
    apply bind_inv in E as (w & sk & Ek & E).
    assert (Q : sk = sc /\ kw_of e h s = Ok w).
    { unfold kw_of. destruct (is_p3ci e h) eqn:P.
      - assert (Ns : is_nssl e = false).
        { unfold is_p3ci in P. apply andb_prop in P as [_ P]. apply String.eqb_eq in P. unfold is_nssl. rewrite P. reflexivity. }
        rewrite Ns in Ek. cbn [orb negb] in Ek. destruct p3 as [x|]; [|discriminate Ek]. injection Ek as <- <-.
        split; [reflexivity|]. destruct (K x eq_refl) as [K1 K2]. rewrite K1, K2. cbn [bind]. destruct x; reflexivity.
      - rewrite orb_true_r in Ek. injection Ek as <- <-. auto. }
    destruct Q as [-> Hw]. clear Ek.
    apply rd_bind_inv in E as (fl & Hfl & E). apply gb_ok in Hfl. unfold varb in Hfl.
    rewrite U in Hfl by (apply minp_psd; auto with minp).
    apply rd_bind_inv in E as (n & Hn & E). apply g3_ok in Hn. unfold var3 in Hn.
    rewrite U in Hn by (apply minp_psd; auto with minp). cbv zeta in E.
    apply rd_bind_inv in E as (vd' & Hvd & E). apply g3_ok in Hvd. unfold var3 in Hvd. rewrite U in Hvd by apply psd_out.
    assert (vd' = vd) as -> by (unfold var3 in *; congruence).
    apply rd_bind_inv in E as (order & Ho & E). apply rd_bind_inv in E as (cols0 & Hc & E).
    apply rd_bind_inv in E as (cols & Hs & E).
    assert (G : gsig corr vd h s = Ok cols).
    { unfold gsig. rewrite Hw. cbn [bind]. rewrite Hf. cbn [bind]. rewrite Ht. cbn [bind]. rewrite Hv. cbn [bind].
      rewrite (gb_var _ _ _ Hfl). cbn [bind]. rewrite (g3_var _ _ _ Hn). cbn [bind]. rewrite Ho. cbn [bind]. rewrite Hc. exact Hs. }
    assert (HV' : var3 sc (out "Vd" "tot" false) vd) by (unfold var3 in *; rewrite U by apply psd_out; exact HV).
    destruct (IH _ _ _ _ (kw_kept_dep e p3 s sc Ag K) HV' ND' E) as (S & S1 & S2).
    exists (fun x => if String.eqb x h then cols else S x).
    assert (Eh : String.eqb h h = true) by apply String.eqb_refl.
    assert (Eo : forall x, In x hs -> String.eqb x h = false).
    { intros x Hx. apply String.eqb_neq. intros ->. exact (Nh Hx). }
    split.
    + intros x [<-|Hx]; [rewrite Eh; exact G|]. rewrite (Eo x Hx). apply (gsig_dep corr vd x sc s); [|apply S1, Hx].
      intros y Hy. symmetry. apply Ag, Hy.
    + intros i t k. rewrite S2. cbn [gather]. rewrite Eh.
      rewrite (gather_ext (fun x => pts (if String.eqb x h then cols else S x) i t k) (fun x => pts (S x) i t k)).
      * destruct (String.eqb h "cl"); reflexivity.
      * intros x Hx. rewrite (Eo x Hx). reflexivity.
Qed.
End M.
