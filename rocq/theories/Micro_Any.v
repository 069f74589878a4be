(** The lidar microphysics method on any classes, the ice of the P3 scheme
    among them. *)
From Verif Require Import Mom_Base Mom_Spec Mom_Facts Xr_Facts Sched_Model Atm_Model Psd_Model Lidar_Model Lidar_Spec
  Lidar_Od Lidar_Loop Lidar_Api Lidar_Perm Lidar_Corol Mom_Writes Psd_Spec Radar_Model Micro_Spec Micro_Loop Micro_Char
  Micro_Call.
Local Open Scope R_scope.

Lemma minp_fr e : minp e "Fr"%string. Proof. left. right. right. simpl. tauto. Qed.
Lemma minp_rr e : minp e "rho_r"%string. Proof. left. right. right. simpl. tauto. Qed.

Section M.
Variables (Gam : R -> R) (e : menv) (ins : inst) (z : arr2) (sfc mie : bool) (sch : sched) (kw : psd_kw)
  (lut : string * bool).
Hypothesis TO : micro_tables_ok e.
Notation loop := (micro_loop Gam e ins z sfc mie sch kw lut).

Definition kw_of (h : string) (s : dset) : res (option p3kw) :=
  if is_p3ci e h then
    do fr <- g2 s "Fr"; do rr <- g2 s "rho_r"; Ok (Some {| kw_fr := fr; kw_rr := rr |})
  else Ok None.
Definition gopt (h : string) (s : dset) : res (arr3 * arr3) :=
  do w <- kw_of h s;
  do ft <- psd_of Gam e kw h s;
  do fl <- gb s (fn false h);
  do n <- g3 s (nn false h);
  do tab <- micro_table ins lut mie h;
  do order <- tt_order sch (ntm e);
  do cols0 <- run_cols (lidar_column e ins h mie ft tab (weighted fl n) fl w) order;
  do cols <- stack_cols e cols0;
  Ok (of_cols snd cols, of_cols fst cols).
Lemma kw_dep h s t : agree (minp e) s t -> kw_of h s = kw_of h t.
Proof.
  intro A. unfold kw_of. destruct (is_p3ci e h); [|reflexivity].
  rewrite (agree_g2 _ s t "Fr"%string A (minp_fr e)), (agree_g2 _ s t "rho_r"%string A (minp_rr e)). reflexivity.
Qed.
Lemma gopt_dep h s t p : agree (minp e) s t -> gopt h s = Ok p -> gopt h t = Ok p.
Proof.
  intros A E. unfold gopt in *. rewrite <- (kw_dep h s t A).
  apply res_bind_ok in E as (w & Hw & E). rewrite Hw. cbn [bind].
  apply res_bind_ok in E as (ft & Hf & E).
  rewrite (psd_dep Gam e kw lut h s t ft A Hf). cbn [bind].
  rewrite <- (agree_gb _ s t (fn false h) A) by (left; apply inp_f).
  apply res_bind_ok in E as (fl & Hfl & E). rewrite Hfl. cbn [bind].
  rewrite <- (agree_g3 _ s t (nn false h) A) by apply minp_n. exact E.
Qed.

(** The locals kept from earlier iterations are those of the dataset. *)
Definition kw_kept (l : option p3kw) (s : dset) : Prop :=
  forall w, l = Some w -> g2 s "Fr" = Ok (kw_fr w) /\ g2 s "rho_r" = Ok (kw_rr w).
Lemma kw_kept_dep l s t : agree (minp e) s t -> kw_kept l s -> kw_kept l t.
Proof.
  intros A K w E. destruct (K w E) as [K1 K2].
  rewrite <- (agree_g2 _ s t "Fr"%string A (minp_fr e)), <- (agree_g2 _ s t "rho_r"%string A (minp_rr e)). auto.
Qed.

Lemma kw_inv h l s w s1 : kw_kept l s -> micro_kw e ins h l s = (Ok w, s1) ->
  kw_of h s = Ok (snd w) /\ dvars s1 = dvars s /\ kw_kept (fst w) s1 /\
  memb (i_str ins) (dseen s1) = memb (i_str ins) (dseen s) || is_p3ci e h /\
  (is_p3ci e h = false -> fst w = l) /\
  (is_p3ci e h = true -> memb (i_str ins) (dseen s) = true -> l <> None).
Proof.
  intros K E. unfold micro_kw, kw_of in *. destruct (is_p3ci e h) eqn:P.
  - apply rd_bind_inv in E as (seen & Hs & E). injection Hs as <-.
    destruct (memb (i_str ins) (dseen s)) eqn:Es.
    + destruct l as [w0|]; [|discriminate E]. injection E as <- <-. cbn [fst snd].
      destruct (K w0 eq_refl) as [K1 K2]. rewrite K1, K2. cbn [bind]. destruct w0; cbn.
      rewrite Es. repeat split; try reflexivity; try discriminate; apply K; assumption.
    + rewrite (bind_ok _ _ _ tt (mkds (dvars s) (i_str ins :: dseen s))) in E by reflexivity.
      apply rd_bind_inv in E as (fr & H1 & E). apply rd_bind_inv in E as (rr & H2 & E). injection E as <- <-. cbn [fst snd].
      change (g2 (mkds (dvars s) (i_str ins :: dseen s)) "Fr" = Ok fr) in H1.
      assert (H1' : g2 s "Fr" = Ok fr) by exact H1. assert (H2' : g2 s "rho_r" = Ok rr) by exact H2.
      rewrite H1', H2'. cbn [bind]. split; [reflexivity|]. split; [reflexivity|]. split.
      { intros w E. injection E as <-. cbn. auto. }
      split; [|split; [discriminate|discriminate]].
      rewrite orb_true_r. cbn [dseen memb existsb]. unfold memb. cbn [existsb]. rewrite String.eqb_refl. reflexivity.
  - injection E as <- <-. cbn [fst snd]. rewrite orb_false_r. repeat split; auto; try discriminate; apply K; assumption.
Qed.

(** The state after one class. *)
Definition left_class (s : dset) (h : string) (al be at0 bt ot : arr3) (s1 : dset) : Prop :=
  var3 s1 (out "alpha_p" h false) (fill0 al) /\ var3 s1 (out "beta_p" h false) (fill0 be) /\
  var3 s1 (out "OD" h false) (od_of e z sfc (fill0 al)) /\
  var3 s1 (out "alpha_p" "tot" false) (lift2 xadd at0 (fill0 (fill0 al))) /\
  var3 s1 (out "beta_p" "tot" false) (lift2 xadd bt (fill0 (fill0 be))) /\
  var3 s1 (out "OD" "tot" false) (lift2 xadd ot (fill0 (od_of e z sfc (fill0 al)))) /\
  forall x, ~ In x (class_outs false "tot" ++ class_outs false h ++ psd_names) ->
    assoc (dvars s1) x = assoc (dvars s) x.
Lemma left_agree s h al be at0 bt ot s1 : left_class s h al be at0 bt ot s1 -> agree (minp e) s s1.
Proof.
  intros (_ & _ & _ & _ & _ & _ & F) x Hx. symmetry. apply F. intro I.
  rewrite !in_app_iff in I. destruct I as [I|[I|I]].
  - simpl in I. destruct I as [I|[I|[I|[]]]]; apply (minp_not_outs e TO x _ _ Hx (eq_sym I)).
  - simpl in I. destruct I as [I|[I|[I|[]]]]; apply (minp_not_outs e TO x _ _ Hx (eq_sym I)).
  - exact (minp_not_psd e x TO Hx I).
Qed.

Lemma any_inv h hs l s s' at0 bt ot :
  h <> "tot"%string -> kw_kept l s ->
  var3 s (out "alpha_p" "tot" false) at0 -> var3 s (out "beta_p" "tot" false) bt ->
  var3 s (out "OD" "tot" false) ot ->
  loop (h :: hs) l s = (Ok tt, s') ->
  exists al be l1 s1, gopt h s = Ok (al, be) /\
    left_class s h al be at0 bt ot s1 /\ loop hs l1 s1 = (Ok tt, s') /\ kw_kept l1 s1 /\
    memb (i_str ins) (dseen s1) = memb (i_str ins) (dseen s) || is_p3ci e h /\
    (is_p3ci e h = false -> l1 = l) /\
    (is_p3ci e h = true -> memb (i_str ins) (dseen s) = true -> l <> None).
Proof.
  intros Nt K Hat Hbt Hot E. cbn [micro_loop] in E.
  rewrite (bind_ok _ _ _ tt s) in E by (apply micro_totals_present; apply has_var3 with (a := bt); exact Hbt).
  rewrite !bind_assign in E.
  set (sb := upd (upd s (out "beta_p" h false) (V3 zeros3)) (out "alpha_p" h false) (V3 zeros3)) in E.
  assert (Ab : agree (minp e) sb s).
  { intros x Hx. unfold sb. rewrite !upd_other by (apply (minp_not_outs e TO); exact Hx). reflexivity. }
  apply bind_inv in E as (ft & sc & Ep & E).
  assert (Hf : psd_of Gam e kw h s = Ok ft).
  { apply (psd_dep Gam e kw lut h sb s ft Ab). unfold psd_of. rewrite Ep. reflexivity. }
  assert (U : forall x, ~ In x psd_names -> assoc (dvars sc) x = assoc (dvars sb) x).
  { intros x Nx. apply (writes_run _ _ _ _ _ x (writes_psd_only Gam e kw lut h) Ep Nx). }
  assert (Sn : dseen sc = dseen s).
  { pose proof (psd_seen Gam e kw h sb) as P. rewrite Ep in P. exact P. }
  assert (Um : forall x, minp e x -> assoc (dvars sc) x = assoc (dvars s) x).
  { intros x Hx. rewrite (U x (minp_not_psd e x TO Hx)). apply Ab; exact Hx. }
  apply rd_bind_inv in E as (fl & Hfl & E). apply gb_ok in Hfl. unfold varb in Hfl.
  rewrite Um in Hfl by auto with minp.
  apply rd_bind_inv in E as (n & Hn & E). apply g3_ok in Hn. unfold var3 in Hn.
  rewrite Um in Hn by auto with minp. cbv zeta in E.
  apply rd_bind_inv in E as (tab & Ht & E).
  apply bind_inv in E as (w & sk & Ek & E).
  assert (Kc : kw_kept l sc).
  { apply (kw_kept_dep l s sc); [|exact K]. intros x Hx. symmetry. apply Um; exact Hx. }
  destruct (kw_inv h l sc w sk Kc Ek) as (Ew & Ev & Kk & Sk & Hl1 & Hl2).
  assert (Ew' : kw_of h s = Ok (snd w)).
  { rewrite (kw_dep h s sc); [exact Ew|]. intros x Hx. symmetry. apply Um; exact Hx. }
  apply rd_bind_inv in E as (order & Ho & E). apply rd_bind_inv in E as (cols0 & Hc & E).
  apply rd_bind_inv in E as (cols & Hs & E). rewrite !bind_assign in E.
  set (A := fill0 (of_cols snd cols)) in *. set (B := fill0 (of_cols fst cols)) in *.
  set (sd := upd (upd sk (out "beta_p" h false) (V3 B)) (out "alpha_p" h false) (V3 A)) in *.
  assert (Vk : forall x, assoc (dvars sk) x = assoc (dvars sc) x) by (intro x; rewrite Ev; reflexivity).
  assert (Ha0 : var3 sk (out "alpha_p" "tot" false) at0).
  { unfold var3. rewrite Vk, U by apply psd_out. unfold sb. rewrite !upd_other by names. exact Hat. }
  assert (Hb0 : var3 sk (out "beta_p" "tot" false) bt).
  { unfold var3. rewrite Vk, U by apply psd_out. unfold sb. rewrite !upd_other by names. exact Hbt. }
  assert (Ho0 : var3 sk (out "OD" "tot" false) ot).
  { unfold var3. rewrite Vk, U by apply psd_out. unfold sb. rewrite !upd_other by names. exact Hot. }
  assert (Hq0 : exists q, var3 sk (qn false h) q).
  { apply bind_inv in E as (u & s2 & Ef & _). unfold finish_class in Ef.
    apply bind_inv in Ef as (u1 & s3 & Ea & _). unfold accumulate_OD in Ea.
    apply rd_bind_inv in Ea as (q & Eq & _). apply g3_ok in Eq. exists q. unfold var3 in *.
    unfold sd in Eq. rewrite !upd_other in Eq by names. exact Eq. }
  destruct Hq0 as (q & Hq0).
  assert (Ef : finish_class e false z sfc h sd = (Ok tt, 
     upd (upd (upd (upd sd (out "OD" h false) (V3 (od_of e z sfc A)))
                   (out "beta_p" "tot" false) (V3 (lift2 xadd bt (fill0 B))))
              (out "alpha_p" "tot" false) (V3 (lift2 xadd at0 (fill0 A))))
         (out "OD" "tot" false) (V3 (lift2 xadd ot (fill0 (od_of e z sfc A)))))).
  { apply (finish_run e false z sfc h sd q A B at0 bt ot); [exact Nt|unfold sd; look..]. }
  rewrite (bind_ok _ _ _ tt _ Ef) in E.
  match type of E with micro_loop _ _ _ _ _ _ _ _ _ _ _ ?x = _ => set (s1 := x) in E end.
  assert (LC : left_class s h (of_cols snd cols) (of_cols fst cols) at0 bt ot s1).
  { unfold left_class. fold A B. unfold s1.
    split; [unfold sd; look|]. split; [unfold sd; look|]. split; [unfold sd; look|].
    split; [unfold sd; look|]. split; [unfold sd; look|]. split; [unfold sd; look|].
    intros x Nx. rewrite !in_app_iff in Nx. unfold class_outs in Nx. simpl in Nx.
    rewrite !upd_other by (intros ->; apply Nx; tauto). unfold sd.
    rewrite !upd_other by (intros ->; apply Nx; tauto). rewrite Vk, U by (simpl; tauto). unfold sb.
    rewrite !upd_other by (intros ->; apply Nx; tauto). reflexivity. }
  exists (of_cols snd cols), (of_cols fst cols), (fst w), s1.
  split.
  - unfold gopt. rewrite Ew'. cbn [bind]. rewrite Hf. cbn [bind]. rewrite (gb_var _ _ _ Hfl). cbn [bind].
    rewrite (g3_var _ _ _ Hn). cbn [bind]. rewrite Ht. cbn [bind]. rewrite Ho. cbn [bind].
    unfold weighted. rewrite Hc. cbn [bind]. rewrite Hs. reflexivity.
  - split; [exact LC|]. split; [exact E|]. split.
    + apply (kw_kept_dep _ sk s1); [|exact Kk]. intros x Hx. rewrite Vk, (Um x Hx).
      exact (left_agree _ _ _ _ _ _ _ _ LC x Hx).
    + assert (Sd : dseen s1 = dseen sk) by reflexivity. rewrite Sd, Sk, Sn. split; [reflexivity|].
      split; [exact Hl1|]. rewrite <- Sn. exact Hl2.
Qed.

Definition aG (s : dset) (h : string) : arr3 := match gopt h s with Ok (a, _) => fill0 a | _ => zeros3 end.
Definition bG (s : dset) (h : string) : arr3 := match gopt h s with Ok (_, b) => fill0 b | _ => zeros3 end.
Lemma aG_agree h s t p : agree (minp e) s t -> gopt h s = Ok p -> aG s h = aG t h /\ bG s h = bG t h.
Proof. intros A E. unfold aG, bG. rewrite E, (gopt_dep h s t p A E). auto. Qed.

Lemma any_char hs : forall l s s' at0 bt ot,
  kw_kept l s -> ~ In "tot"%string hs ->
  var3 s (out "alpha_p" "tot" false) at0 -> var3 s (out "beta_p" "tot" false) bt -> var3 s (out "OD" "tot" false) ot ->
  loop hs l s = (Ok tt, s') ->
  exists at1 bt1 ot1, 
    (forall h, In h hs -> exists p, gopt h s = Ok p) /\
    var3 s' (out "alpha_p" "tot" false) at1 /\ var3 s' (out "beta_p" "tot" false) bt1 /\
    var3 s' (out "OD" "tot" false) ot1 /\
    (forall h, In h hs -> var3 s' (out "alpha_p" h false) (aG s h) /\ var3 s' (out "beta_p" h false) (bG s h)
                          /\ var3 s' (out "OD" h false) (od_of e z sfc (aG s h))) /\
    (forall i t k,
      at1 i t k = xadd (at0 i t k) (xsum (map (fun h => fillna 0 (aG s h i t k)) hs)) /\
      bt1 i t k = xadd (bt i t k) (xsum (map (fun h => fillna 0 (bG s h i t k)) hs)) /\
      ot1 i t k = xadd (ot i t k) (xsum (map (fun h => fillna 0 (od_of e z sfc (aG s h) i t k)) hs))) /\
    (memb (i_str ins) (dseen s') = memb (i_str ins) (dseen s) || existsb (is_p3ci e) hs) /\
    (existsb (is_p3ci e) hs = true -> memb (i_str ins) (dseen s) = true -> l <> None) /\
    (forall x, ~ In x (loop_outs false hs ++ psd_names) -> assoc (dvars s') x = assoc (dvars s) x).
Proof.
  induction hs as [|h hs IH]; intros l s s' at0 bt ot K NT Hat Hbt Hot E.
  - injection E as <-. exists at0, bt, ot. split; [intros h []|]. do 3 (split; [assumption|]).
    split; [intros h []|]. split; [|cbn [existsb]; rewrite orb_false_r; repeat split; auto; discriminate].
    intros i t k. cbn [map]. rewrite xsum_nil, !xadd_0_r. auto.
  - assert (Nt : h <> "tot"%string) by (intros ->; apply NT; left; reflexivity).
    assert (NT' : ~ In "tot"%string hs) by (intro; apply NT; right; assumption).
    destruct (any_inv h hs l s s' at0 bt ot Nt K Hat Hbt Hot E) as (al & be & l1 & s1 & Hp & LC & E1 & K1 & Sn & Hl1 & Hl2).
    pose proof (left_agree s h al be at0 bt ot s1 LC) as Ag.
    assert (Ag' : agree (minp e) s1 s) by (intros x Hx; symmetry; apply Ag; exact Hx).
    destruct LC as (Ca & Cb & Co & Ta & Tb & To & Fr).
    assert (EaM : aG s h = fill0 al) by (unfold aG; rewrite Hp; reflexivity).
    assert (EbM : bG s h = fill0 be) by (unfold bG; rewrite Hp; reflexivity).
    destruct (IH l1 s1 s' _ _ _ K1 NT' Ta Tb To E1)
      as (at1 & bt1 & ot1 & HS & V1 & V2 & V3 & VC & T & Sn' & Hl3 & Fr').
    exists at1, bt1, ot1. split.
    { intros h' [<-|Hh']; [eauto|]. destruct (HS h' Hh') as [p Hp']. exists p. exact (gopt_dep h' s1 s p Ag' Hp'). }
    do 3 (split; [assumption|]).
    assert (Heq : forall h', In h' hs -> aG s h' = aG s1 h' /\ bG s h' = bG s1 h').
    { intros h' Hh'. destruct (HS h' Hh') as [p Hp']. destruct (aG_agree h' s1 s p Ag' Hp') as [-> ->]. auto. }
    split; [|split; [|split; [|split]]].
    + intros h' Hh'. destruct (in_dec string_dec h' hs) as [Hin|Nin].
      * destruct (Heq h' Hin) as [-> ->]. apply VC; exact Hin.
      * destruct Hh' as [<-|Hh']; [|contradiction]. rewrite EaM, EbM.
        split; [|split]; unfold var3; (rewrite Fr' by (apply not_outs_psd; auto)); assumption.
    + intros i t k. destruct (T i t k) as (T1 & T2 & T3). cbn [map]. rewrite !xsum_cons.
      assert (Em : forall G : dset -> string -> arr3,
                 (forall h', In h' hs -> G s h' = G s1 h') ->
                 map (fun h' => fillna 0 (G s1 h' i t k)) hs = map (fun h' => fillna 0 (G s h' i t k)) hs).
      { intros G HG. apply map_ext_in. intros h' Hh'. rewrite (HG h' Hh'). reflexivity. }
      rewrite T1, T2, T3.
      rewrite (Em aG), (Em bG), (Em (fun s h' => od_of e z sfc (aG s h'))).
      * rewrite EaM, EbM, !xadd_assoc. auto.
      * intros h' Hh'. f_equal. apply (Heq h' Hh').
      * intros h' Hh'. apply (Heq h' Hh').
      * intros h' Hh'. apply (Heq h' Hh').
    + rewrite Sn', Sn. cbn [existsb]. rewrite orb_assoc. reflexivity.
    + cbn [existsb]. intros HX Hm. destruct (is_p3ci e h) eqn:P.
      * exact (Hl2 eq_refl Hm).
      * cbn [orb] in HX. rewrite <- (Hl1 eq_refl). apply Hl3; [exact HX|]. rewrite Sn, Hm. reflexivity.
    + intros x Nx. rewrite !in_app_iff in Nx. unfold loop_outs in Nx. rewrite in_app_iff in Nx. cbn [flat_map] in Nx.
      rewrite in_app_iff in Nx.
      rewrite Fr'.
      * apply Fr. rewrite !in_app_iff. tauto.
      * unfold loop_outs. rewrite !in_app_iff. tauto.
Qed.
End M.

Section Call.
Variable Gam : R -> R.
Notation go e ins o lut := (gopt Gam e ins (o_mie o) (o_sched o) (o_kw o) lut).

Definition left_any e ins o lut (z : arr2) hs (s s' : dset) : Prop :=
  (forall h, In h hs -> exists al be, go e ins o lut h s = Ok (al, be) /\
     var3 s' (out "alpha_p" h false) (fill0 al) /\ var3 s' (out "beta_p" h false) (fill0 be) /\
     var3 s' (out "OD" h false) (od_of e z (o_sfc o) (fill0 al))) /\
  (forall f, In f lidar_fields -> exists a, var3 s' (out f "tot" false) a) /\
  (forall f i t k, In f lidar_fields ->
     value s' (out f "tot" false) i t k
     = xadd (total_before s f i t k) (xsum (map (fun h => fillna 0 (value s' (out f h false) i t k)) hs))).

Lemma atm_seen e lam sfc s s0 : calc_theory_beta_m e lam sfc s = (Ok tt, s0) -> dseen s0 = dseen s.
Proof.
  intro E. assert (K : keeps_seen (calc_theory_beta_m e lam sfc)).
  { unfold calc_theory_beta_m. cbv zeta.
    repeat match goal with
    | |- keeps_seen (lbind _ _) => apply ks_bind; [|intro]
    | |- _ => intro; reflexivity
    end. }
  specialize (K s). rewrite E in K. exact K.
Qed.

Lemma any_leaves e ins o hs s s1 :
  micro_tables_ok e -> o_emp o = false -> o_rad o = false -> classes_of e (o_hyds o) hs ->
  ~ In "tot"%string hs -> totals_stored s ->
  calc_lidar_moments Gam e ins o false s = (Ok tt, s1) ->
  exists zr lut, var2 s (z_name e) zr /\ micro_lut (rad_family e) = Ok lut /\
    left_any e ins o lut (fun t k => z_met e (zr t k)) hs s s1 /\ agree (minp e) s s1 /\
    (memb (i_str ins) (dseen s1) = memb (i_str ins) (dseen s) || existsb (is_p3ci e) hs) /\
    (existsb (is_p3ci e) hs = true -> memb (i_str ins) (dseen s) = false).
Proof.
  intros TO Ee Er Hc NT HT E.
  apply moments_inv with (hs := hs) in E; [|exact Hc].
  destruct E as (q & pr & tr & zr & s0 & bm & tau & sm & b & od & El & Hq & Hp & Ht & Hz & Ea & Hb & Htau & Em & Hbt & Hod & ->).
  destruct (atm_agree e ins s s0 TO Ea) as [A0 O0]. destruct (totals_same s s0 O0) as [HT0 TB0]. specialize (HT0 HT).
  pose proof (atm_seen e (wavelen ins) true s s0 Ea) as S0.
  unfold method_of in Em. rewrite Ee, Er in Em. cbn [orb] in Em.
  unfold calc_lidar_micro in Em.
  apply rd_bind_inv in Em as (lut & Hl & Em). apply rd_bind_inv in Em as (q0 & Hq0 & Em). apply g3_ok in Hq0.
  exists zr, lut. split; [exact Hz|]. split; [exact Hl|].
  set (z := fun t k => z_met e (zr t k)) in *.
  assert (A0' : agree (minp e) s0 s) by (apply agree_sym; exact A0).
  assert (G : left_any e ins o lut z hs s0 sm /\ 
     (forall x, ~ In x (loop_outs false hs ++ psd_names) -> assoc (dvars sm) x = assoc (dvars s0) x) /\
     (memb (i_str ins) (dseen sm) = memb (i_str ins) (dseen s) || existsb (is_p3ci e) hs) /\
     (existsb (is_p3ci e) hs = true -> memb (i_str ins) (dseen s) = false)).
  { destruct hs as [|h0 hs'] eqn:Eh.
    - injection Em as <-.
      assert (Hh : has s0 (out "beta_p" "tot" false) = true) by (apply has_var3 with (a := b); exact Hbt).
      split; [|split; [auto|]].
      + split; [intros h []|]. split; [exact (HT0 Hh)|]. intros f i t k Hf. cbn [map]. rewrite xsum_nil, xadd_0_r.
        unfold total_before. rewrite Hh. reflexivity.
      + cbn [existsb]. rewrite orb_false_r, S0. split; [reflexivity|discriminate].
    - rewrite loop_with_totals in Em. rewrite <- Eh in *.
      destruct (start_totals s0 HT0) as (at0 & bt & ot & Ta & Tb & To & Va & Vb & Vo).
      pose proof (with_totals_agree e TO s0) as Ag.
      assert (Ag' : agree (minp e) (with_totals s0) s0) by (apply agree_sym; exact Ag).
      assert (K : kw_kept None (with_totals s0)) by (intros w X; discriminate X).
      destruct (any_char Gam e ins z (o_sfc o) (o_mie o) (o_sched o) (o_kw o) lut TO hs None (with_totals s0) sm at0 bt ot
         K NT Ta Tb To Em) as (at1 & bt1 & ot1 & HS & V1 & V2 & V3 & VC & T & Sn & Hl2 & Fr).
      rewrite with_totals_seen, S0 in Sn, Hl2.
      assert (W : forall h, In h hs -> exists al be, go e ins o lut h s0 = Ok (al, be) /\
         aG Gam e ins (o_mie o) (o_sched o) (o_kw o) lut (with_totals s0) h = fill0 al /\
         bG Gam e ins (o_mie o) (o_sched o) (o_kw o) lut (with_totals s0) h = fill0 be).
      { intros h Hh. destruct (HS h Hh) as [[al be] Hp']. exists al, be. split.
        - exact (gopt_dep Gam e ins (o_mie o) (o_sched o) (o_kw o) lut h _ _ _ Ag' Hp').
        - unfold aG, bG. rewrite Hp'. auto. }
      split; [split; [|split]|split; [|split]].
      + intros h Hh. destruct (W h Hh) as (al & be & Hp' & Ea' & Eb'). destruct (VC h Hh) as (C1 & C2 & C3).
        rewrite Ea' in C1, C3. rewrite Eb' in C2. exists al, be. auto.
      + intros f Hf. simpl in Hf. destruct Hf as [<-|[<-|[<-|[]]]]; eauto.
      + intros f i t k Hf. destruct (T i t k) as (T1 & T2 & T3).
        simpl in Hf. destruct Hf as [<-|[<-|[<-|[]]]].
        * rewrite (value_var _ _ _ _ _ _ V1), T1, Va. do 2 f_equal. apply map_ext_in. intros h Hh.
          destruct (VC h Hh) as (C1 & C2 & C3). rewrite (value_var _ _ _ _ _ _ C1). reflexivity.
        * rewrite (value_var _ _ _ _ _ _ V2), T2, Vb. do 2 f_equal. apply map_ext_in. intros h Hh.
          destruct (VC h Hh) as (C1 & C2 & C3). rewrite (value_var _ _ _ _ _ _ C2). reflexivity.
        * rewrite (value_var _ _ _ _ _ _ V3), T3, Vo. do 2 f_equal. apply map_ext_in. intros h Hh.
          destruct (VC h Hh) as (C1 & C2 & C3). rewrite (value_var _ _ _ _ _ _ C3). reflexivity.
      + intros x Nx. rewrite (Fr x Nx). unfold with_totals. destruct (has s0 (out "beta_p" "tot" false)); [reflexivity|].
        rewrite !upd_other; [reflexivity|..]; intros ->; apply Nx; apply in_or_app; left; apply in_loop_outs_t; simpl; tauto.
      + exact Sn.
      + intros HX. destruct (memb (i_str ins) (dseen s)) eqn:Es; [|reflexivity]. exfalso. exact (Hl2 HX eq_refl eq_refl). }
  destruct G as (L & Fr & Sn & Sf). split; [|split; [|split; [|exact Sf]]].
  - destruct L as (L1 & L2 & L3). split; [|split].
    + intros h Hh. destruct (L1 h Hh) as (al & be & Hm & V1 & V2 & V3). exists al, be.
      split; [exact (gopt_dep Gam e ins (o_mie o) (o_sched o) (o_kw o) lut h s0 s _ A0' Hm)|].
      split; [|split]; unfold var3; rewrite upd_other; auto; apply field_att; simpl; tauto.
    + intros f Hf. destruct (L2 f Hf) as (a & Ha). exists a. unfold var3. rewrite upd_other; [exact Ha|].
      apply field_att; exact Hf.
    + intros f i t k Hf. rewrite value_upd_other by (apply field_att; exact Hf). rewrite (L3 f i t k Hf), TB0.
      do 2 f_equal. apply map_ext. intro h. rewrite value_upd_other by (apply field_att; exact Hf). reflexivity.
  - intros x Hx. rewrite upd_other by (apply (minp_not_outs e TO); exact Hx).
    rewrite Fr; [exact (A0 x Hx)|]. intro I. apply in_app_or in I as [I|I].
    + apply (minp_not_reserved e x TO Hx). apply (lidar_outs_reserved false hs).
      unfold lidar_outs. apply in_or_app. right. apply in_or_app. left. exact I.
    + exact (minp_not_psd e x TO Hx I).
  - exact Sn.
Qed.
End Call.
