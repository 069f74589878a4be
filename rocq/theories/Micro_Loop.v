(** The loop of the lidar microphysics method over gamma classes. *)
From Verif Require Import Mom_Base Mom_Spec Mom_Facts Xr_Facts Sched_Model Psd_Model Lidar_Model Lidar_Spec
  Lidar_Od Lidar_Loop Lidar_Api Mom_Writes Psd_Spec Radar_Model Micro_Spec.
Local Open Scope R_scope.

(** *** What the method reads *)
Definition minp (e : menv) (x : string) : Prop := inp e false x \/ exists h, x = nn false h.

Lemma psd_qn h c : ~ In (qn c h) psd_names. Proof. destruct c; simpl; intuition discriminate. Qed.
Lemma psd_nn h c : ~ In (nn c h) psd_names. Proof. destruct c; simpl; intuition discriminate. Qed.
Lemma psd_fn h c : ~ In (fn c h) psd_names. Proof. destruct c; simpl; intuition discriminate. Qed.
Lemma psd_out f h c : ~ In (out f h c) psd_names.
Proof. unfold out. simpl. intuition discriminate. Qed.
Lemma nn_not_reserved c h : ~ reserved (nn c h).
Proof.
  intros [H|[y H]]; [|destruct c; discriminate H].
  unfold atm_fields in H. simpl in H. destruct c; simpl in H; intuition discriminate.
Qed.
Lemma minp_not_reserved e x : micro_tables_ok e -> minp e x -> ~ reserved x.
Proof. intros [T _] [H|[h ->]]; [exact (inp_not_reserved e false x T H)|apply nn_not_reserved]. Qed.
Lemma minp_not_psd e x : micro_tables_ok e -> minp e x -> ~ In x psd_names.
Proof.
  intros [_ T] [H|[h ->]]; [|apply psd_nn].
  destruct H as [H|[[h [->| ->]]|H]]; [exact (T x H)|apply psd_qn|apply psd_fn|].
  simpl in H |- *. intuition congruence.
Qed.
Lemma minp_inp e x : inp e false x -> minp e x. Proof. left; assumption. Qed.
Lemma minp_n e h : minp e (nn false h). Proof. right; eauto. Qed.
Global Hint Resolve minp_n minp_inp inp_q inp_f : minp.

Section M.
Variables (Gam : R -> R) (e : menv) (ins : inst) (z : arr2) (sfc mie : bool) (sch : sched) (kw : psd_kw)
  (lut : string * bool).
Hypothesis TO : micro_tables_ok e.
Notation loop := (micro_loop Gam e ins z sfc mie sch kw lut).

Lemma writes_psd_only h : writes (fun x => In x psd_names) (calc_and_set_psd_params Gam e kw h).
Proof. unfold calc_and_set_psd_params, psd_fit3, calc_mu_lambda. wr; apply writes_assign; simpl; tauto. Qed.

Definition lam3 (q n : arr3) (rh : arr2) h : arr3 := fun i t k =>
  lambda_cell Gam (rh t k) (n i t k) (q i t k) (mu_cell e kw h false (n i t k)).
Definition n03 (q n : arr3) (rh : arr2) h : arr3 := fun i t k =>
  n0_cell Gam (n i t k) (lam3 q n rh h i t k) (mu_cell e kw h false (n i t k)).
Lemma fit3_run h s q n rh : var3 s (qn false h) q -> var3 s (nn false h) n ->
  bind (dict (rho_hyd e) h) (fun r => match r with
     | RConst x => Ok (fun _ _ => XF x) | RVar => do v <- dict (var_density e) h; g2 s v end) = Ok rh ->
  fst (psd_fit3 Gam e kw h s)
  = Ok (Fit3 (n03 q n rh h) (lam3 q n rh h) (fun i t k => mu_cell e kw h false (n i t k))).
Proof.
  intros Hq Hn Hr. unfold psd_fit3, calc_mu_lambda.
  rewrite lbind_assoc. rewrite (bind_rd _ _ _ q) by (apply g3_var; exact Hq).
  rewrite lbind_assoc. rewrite (bind_rd _ _ _ n) by (apply g3_var; exact Hn).
  rewrite lbind_assoc. rewrite (bind_rd _ _ _ rh) by exact Hr. cbv zeta.
  rewrite lbind_assoc, bind_assign, lbind_assoc, bind_assign, bind_assign.
  unfold rd. cbn [fst].
  rewrite (g3_var _ "N_0" _ (upd_same _ _ _)). cbn [bind].
  erewrite (g3_var _ "lambda"); [|unfold var3; rewrite upd_other by discriminate; apply upd_same]. cbn [bind].
  erewrite (g3_var _ "mu"); [|unfold var3; rewrite !upd_other by discriminate; apply upd_same]. cbn [bind].
  reflexivity.
Qed.
Lemma fit3_inv h s ft : fst (psd_fit3 Gam e kw h s) = Ok ft -> exists q n rh,
  var3 s (qn false h) q /\ var3 s (nn false h) n /\
  bind (dict (rho_hyd e) h) (fun r => match r with
     | RConst x => Ok (fun _ _ => XF x) | RVar => do v <- dict (var_density e) h; g2 s v end) = Ok rh /\
  ft = Fit3 (n03 q n rh h) (lam3 q n rh h) (fun i t k => mu_cell e kw h false (n i t k)).
Proof.
  intro E. destruct (psd_fit3 Gam e kw h s) as [r s'] eqn:E1. cbn [fst] in E. subst r.
  pose proof E1 as E2. unfold psd_fit3, calc_mu_lambda in E2. rewrite lbind_assoc in E2.
  apply rd_bind_inv in E2 as (q & Hq & E2). rewrite lbind_assoc in E2.
  apply rd_bind_inv in E2 as (n & Hn & E2). rewrite lbind_assoc in E2.
  apply rd_bind_inv in E2 as (rh & Hr & _). apply g3_ok in Hq. apply g3_ok in Hn.
  exists q, n, rh. do 3 (split; [assumption|]).
  pose proof (fit3_run h s q n rh Hq Hn Hr) as F. rewrite E1 in F. cbn [fst] in F. congruence.
Qed.
Lemma rho_dep h s t : agree (minp e) s t ->
  bind (dict (rho_hyd e) h) (fun r => match r with
     | RConst x => Ok (fun _ _ => XF x) | RVar => do v <- dict (var_density e) h; g2 s v end)
  = bind (dict (rho_hyd e) h) (fun r => match r with
     | RConst x => Ok (fun _ _ => XF x) | RVar => do v <- dict (var_density e) h; g2 t v end).
Proof.
  intro A. apply dict_bind_ext. intros [x|] _; [reflexivity|]. apply dict_bind_ext. intros v Hv.
  apply (agree_g2 _ _ _ _ A). left. apply (inp_vd e false h v Hv).
Qed.
Lemma fit3_dep h s t ft : agree (minp e) s t ->
  fst (psd_fit3 Gam e kw h s) = Ok ft -> fst (psd_fit3 Gam e kw h t) = Ok ft.
Proof.
  intros A E. apply fit3_inv in E as (q & n & rh & Hq & Hn & Hr & ->).
  apply fit3_run; unfold var3.
  - rewrite <- (A (qn false h)); [exact Hq|left; apply inp_q].
  - rewrite <- (A (nn false h)); [exact Hn|apply minp_n].
  - rewrite <- (rho_dep h s t A). exact Hr.
Qed.

Definition psd_of (h : string) (s : dset) : res fits := fst (calc_and_set_psd_params Gam e kw h s).
Lemma psd_dep h s t ft : agree (minp e) s t -> psd_of h s = Ok ft -> psd_of h t = Ok ft.
Proof.
  intros A. unfold psd_of, calc_and_set_psd_params.
  destruct (memb h ["cl"; "pl"]%string).
  - destruct (memb (lower (mcphys e)) ["mg2"; "mg"; "morrison"; "nssl"; "p3"]%string); [|discriminate].
    apply fit3_dep; exact A.
  - destruct (memb (lower (mcphys e)) ["mg2"; "mg"; "morrison"; "nssl"]%string); [apply fit3_dep; exact A|].
    destruct (memb (lower (mcphys e)) ["p3"]%string); [|discriminate]. unfold rd. cbn [fst].
    intro E. rewrite <- E. clear E.
    rewrite <- (agree_g2 _ s t (p3_ni e) A) by (left; apply inp_ni).
    apply bind_ext. intros ni _.
    rewrite <- (agree_g2 _ s t (p3_n0 e) A) by (left; left; in_app).
    apply bind_ext. intros n0 _. apply bind_ext. intros ln Hl.
    rewrite <- (agree_g2 _ s t ln A).
    2:{ left. unfold field_of in Hl. destruct (lam_field e) as [d|] eqn:El; [|discriminate].
        destruct (assoc d "ci"%string) as [[m|]|] eqn:Ea; try discriminate. injection Hl as ->.
        apply (inp_lam e false d "ci"%string ln El Ea). }
    apply bind_ext. intros l _. apply bind_ext. intros mn Hm.
    rewrite <- (agree_g2 _ s t mn A) by (left; apply (inp_mu e false _ mn Hm)). reflexivity.
Qed.

(** The extinction and backscatter the method computes for a class. *)
Definition mopt (h : string) (s : dset) : res (arr3 * arr3) :=
  do ft <- psd_of h s;
  do fl <- gb s (fn false h);
  do n <- g3 s (nn false h);
  do tab <- micro_table ins lut mie h;
  do order <- tt_order sch (ntm e);
  do cols0 <- run_cols (lidar_column e ins h mie ft tab (weighted fl n) fl None) order;
  do cols <- stack_cols e cols0;
  Ok (of_cols snd cols, of_cols fst cols).
Lemma mopt_dep h s t p : agree (minp e) s t -> mopt h s = Ok p -> mopt h t = Ok p.
Proof.
  intros A E. unfold mopt in *. apply res_bind_ok in E as (ft & Hf & E).
  rewrite (psd_dep h s t ft A Hf). cbn [bind].
  rewrite <- (agree_gb _ s t (fn false h) A) by (left; apply inp_f).
  apply res_bind_ok in E as (fl & Hfl & E). rewrite Hfl. cbn [bind].
  rewrite <- (agree_g3 _ s t (nn false h) A) by apply minp_n. exact E.
Qed.

(** The state after one class, described by what it holds. *)
Definition after_class (s : dset) (h : string) (al be at0 bt ot : arr3) (s1 : dset) : Prop :=
  var3 s1 (out "alpha_p" h false) (fill0 al) /\ var3 s1 (out "beta_p" h false) (fill0 be) /\
  var3 s1 (out "OD" h false) (od_of e z sfc (fill0 al)) /\
  var3 s1 (out "alpha_p" "tot" false) (lift2 xadd at0 (fill0 (fill0 al))) /\
  var3 s1 (out "beta_p" "tot" false) (lift2 xadd bt (fill0 (fill0 be))) /\
  var3 s1 (out "OD" "tot" false) (lift2 xadd ot (fill0 (od_of e z sfc (fill0 al)))) /\
  dseen s1 = dseen s /\
  forall x, ~ In x (class_outs false "tot" ++ class_outs false h ++ psd_names) ->
    assoc (dvars s1) x = assoc (dvars s) x.

Definition keeps_seen {A} (m : L A) : Prop := forall s, dseen (snd (m s)) = dseen s.
Lemma ks_bind {A B} (m : L A) (k : A -> L B) : keeps_seen m -> (forall a, keeps_seen (k a)) -> keeps_seen (lbind m k).
Proof.
  intros Hm Hk s. unfold lbind. specialize (Hm s). destruct (m s) as [[a|x] s']; simpl in *; [|exact Hm].
  rewrite Hk. exact Hm.
Qed.
Lemma psd_seen h : keeps_seen (calc_and_set_psd_params Gam e kw h).
Proof.
  unfold calc_and_set_psd_params, psd_fit3, calc_mu_lambda. cbv zeta.
  repeat match goal with
  | |- keeps_seen (lbind _ _) => apply ks_bind; [|intro]
  | |- keeps_seen (if ?b then _ else _) => destruct b
  | |- _ => intro; reflexivity
  end.
Qed.

Lemma minp_not_outs x f h : minp e x -> x <> out f h false.
Proof. intros Hx ->. apply (minp_not_reserved e _ TO Hx). apply out_reserved. Qed.

Lemma after_agree s h al be at0 bt ot s1 : after_class s h al be at0 bt ot s1 -> agree (minp e) s s1.
Proof.
  intros (_ & _ & _ & _ & _ & _ & _ & F) x Hx. symmetry. apply F. intro I.
  rewrite !in_app_iff in I. destruct I as [I|[I|I]].
  - simpl in I. destruct I as [I|[I|[I|[]]]]; apply (minp_not_outs x _ _ Hx (eq_sym I)).
  - simpl in I. destruct I as [I|[I|[I|[]]]]; apply (minp_not_outs x _ _ Hx (eq_sym I)).
  - exact (minp_not_psd e x TO Hx I).
Qed.

Lemma micro_totals_present s : has s (out "beta_p" "tot" false) = true -> micro_totals s = (Ok tt, s).
Proof. intro H. unfold micro_totals, lbind, rd. rewrite H. reflexivity. Qed.

Lemma step_core h hs l s ft fl n q tab order cols0 cols at0 bt ot :
  h <> "tot"%string -> is_p3ci e h = false ->
  var3 s (out "alpha_p" "tot" false) at0 -> var3 s (out "beta_p" "tot" false) bt ->
  var3 s (out "OD" "tot" false) ot ->
  psd_of h s = Ok ft -> varb s (fn false h) fl -> var3 s (nn false h) n -> var3 s (qn false h) q ->
  micro_table ins lut mie h = Ok tab -> tt_order sch (ntm e) = Ok order ->
  run_cols (lidar_column e ins h mie ft tab (weighted fl n) fl None) order = Ok cols0 ->
  stack_cols e cols0 = Ok cols ->
  exists s1, loop (h :: hs) l s = loop hs l s1 /\
    after_class s h (of_cols snd cols) (of_cols fst cols) at0 bt ot s1.
Proof.
  intros Nt NP Hat Hbt Hot Hf Hfl Hn Hq Ht Ho Hc Hs. cbn [micro_loop].
  rewrite (bind_ok _ _ _ tt s) by (apply micro_totals_present; apply has_var3 with (a := bt); exact Hbt).
  rewrite !bind_assign.
  set (sb := upd (upd s (out "beta_p" h false) (V3 zeros3)) (out "alpha_p" h false) (V3 zeros3)).
  assert (Ab : agree (minp e) s sb).
  { intros x Hx. unfold sb. rewrite !upd_other by (apply minp_not_outs; exact Hx). reflexivity. }
  pose proof (psd_dep h s sb ft Ab Hf) as Hf'. unfold psd_of in Hf'.
  destruct (calc_and_set_psd_params Gam e kw h sb) as [r sc] eqn:Ep. cbn [fst] in Hf'. subst r.
  rewrite (bind_ok _ _ _ ft sc) by exact Ep.
  assert (U : forall x, ~ In x psd_names -> assoc (dvars sc) x = assoc (dvars sb) x).
  { intros x Nx. apply (writes_run _ _ _ _ _ x (writes_psd_only h) Ep Nx). }
  assert (Sn : dseen sc = dseen s).
  { pose proof (psd_seen h sb) as P. rewrite Ep in P. exact P. }
  assert (Um : forall x, minp e x -> assoc (dvars sc) x = assoc (dvars s) x).
  { intros x Hx. rewrite (U x (minp_not_psd e x TO Hx)). symmetry. apply Ab; exact Hx. }
  rewrite (bind_rd _ _ _ fl) by (apply gb_var; unfold varb; rewrite Um by auto with minp; exact Hfl).
  rewrite (bind_rd _ _ _ n) by (apply g3_var; unfold var3; rewrite Um by auto with minp; exact Hn).
  cbv zeta. rewrite (bind_rd _ _ _ tab) by exact Ht.
  unfold micro_kw at 1. rewrite NP. rewrite bind_lret. cbn [fst snd].
  rewrite (bind_rd _ _ _ order) by exact Ho.
  rewrite (bind_rd _ _ _ cols0) by exact Hc.
  rewrite (bind_rd _ _ _ cols) by exact Hs. rewrite !bind_assign.
  set (A := fill0 (of_cols snd cols)). set (B := fill0 (of_cols fst cols)).
  set (sd := upd (upd sc (out "beta_p" h false) (V3 B)) (out "alpha_p" h false) (V3 A)).
  assert (Ha0 : var3 sc (out "alpha_p" "tot" false) at0).
  { unfold var3. rewrite U by apply psd_out. unfold sb. rewrite !upd_other by names. exact Hat. }
  assert (Hb0 : var3 sc (out "beta_p" "tot" false) bt).
  { unfold var3. rewrite U by apply psd_out. unfold sb. rewrite !upd_other by names. exact Hbt. }
  assert (Ho0 : var3 sc (out "OD" "tot" false) ot).
  { unfold var3. rewrite U by apply psd_out. unfold sb. rewrite !upd_other by names. exact Hot. }
  assert (Hq0 : var3 sc (qn false h) q).
  { unfold var3. rewrite Um by auto with minp. exact Hq. }
  assert (E : finish_class e false z sfc h sd = (Ok tt, 
     upd (upd (upd (upd sd (out "OD" h false) (V3 (od_of e z sfc A)))
                   (out "beta_p" "tot" false) (V3 (lift2 xadd bt (fill0 B))))
              (out "alpha_p" "tot" false) (V3 (lift2 xadd at0 (fill0 A))))
         (out "OD" "tot" false) (V3 (lift2 xadd ot (fill0 (od_of e z sfc A)))))).
  { apply (finish_run e false z sfc h sd q A B at0 bt ot); [exact Nt|unfold sd; look..]. }
  eexists. split.
  - exact (bind_ok _ _ _ tt _ E).
  - unfold after_class. fold A B. 
    split; [unfold sd; look|]. split; [unfold sd; look|]. split; [unfold sd; look|].
    split; [unfold sd; look|]. split; [unfold sd; look|]. split; [unfold sd; look|].
    split; [exact Sn|].
    intros x Nx. rewrite !in_app_iff in Nx. unfold class_outs in Nx. simpl in Nx.
    rewrite !upd_other by (intros ->; apply Nx; tauto). unfold sd.
    rewrite !upd_other by (intros ->; apply Nx; tauto). rewrite U by (simpl; tauto). unfold sb.
    rewrite !upd_other by (intros ->; apply Nx; tauto). reflexivity.
Qed.

Lemma step_run h hs l s al be q at0 bt ot :
  h <> "tot"%string -> is_p3ci e h = false ->
  var3 s (out "alpha_p" "tot" false) at0 -> var3 s (out "beta_p" "tot" false) bt ->
  var3 s (out "OD" "tot" false) ot ->
  mopt h s = Ok (al, be) -> var3 s (qn false h) q ->
  exists s1, loop (h :: hs) l s = loop hs l s1 /\ after_class s h al be at0 bt ot s1.
Proof.
  intros Nt NP Hat Hbt Hot Hm Hq. unfold mopt in Hm.
  apply res_bind_ok in Hm as (ft & Hf & Hm). apply res_bind_ok in Hm as (fl & Hfl & Hm).
  apply res_bind_ok in Hm as (n & Hn & Hm). apply res_bind_ok in Hm as (tab & Ht & Hm).
  apply res_bind_ok in Hm as (order & Ho & Hm). apply res_bind_ok in Hm as (cols0 & Hc & Hm).
  apply res_bind_ok in Hm as (cols & Hs & Hm). injection Hm as <- <-.
  apply (step_core h hs l s ft fl n q tab order cols0 cols at0 bt ot); auto using gb_ok, g3_ok.
Qed.

Lemma step_inv h hs l s s' at0 bt ot :
  h <> "tot"%string -> is_p3ci e h = false ->
  var3 s (out "alpha_p" "tot" false) at0 -> var3 s (out "beta_p" "tot" false) bt ->
  var3 s (out "OD" "tot" false) ot ->
  loop (h :: hs) l s = (Ok tt, s') ->
  exists al be q s1, mopt h s = Ok (al, be) /\ var3 s (qn false h) q /\
    after_class s h al be at0 bt ot s1 /\ loop hs l s1 = (Ok tt, s').
Proof.
  intros Nt NP Hat Hbt Hot E. pose proof E as E0. cbn [micro_loop] in E.
  rewrite (bind_ok _ _ _ tt s) in E by (apply micro_totals_present; apply has_var3 with (a := bt); exact Hbt).
  rewrite !bind_assign in E.
  set (sb := upd (upd s (out "beta_p" h false) (V3 zeros3)) (out "alpha_p" h false) (V3 zeros3)) in E.
  assert (Ab : agree (minp e) sb s).
  { intros x Hx. unfold sb. rewrite !upd_other by (apply minp_not_outs; exact Hx). reflexivity. }
  apply bind_inv in E as (ft & sc & Ep & E).
  assert (Hf : psd_of h s = Ok ft).
  { apply (psd_dep h sb s ft Ab). unfold psd_of. rewrite Ep. reflexivity. }
  assert (Um : forall x, minp e x -> assoc (dvars sc) x = assoc (dvars s) x).
  { intros x Hx. rewrite (writes_run _ _ _ _ _ x (writes_psd_only h) Ep (minp_not_psd e x TO Hx)).
    apply Ab; exact Hx. }
  apply rd_bind_inv in E as (fl & Hfl & E). apply gb_ok in Hfl. unfold varb in Hfl.
  rewrite Um in Hfl by auto with minp.
  apply rd_bind_inv in E as (n & Hn & E). apply g3_ok in Hn. unfold var3 in Hn.
  rewrite Um in Hn by auto with minp. cbv zeta in E.
  apply rd_bind_inv in E as (tab & Ht & E). unfold micro_kw at 1 in E. rewrite NP, bind_lret in E. cbn [fst snd] in E.
  apply rd_bind_inv in E as (order & Ho & E). apply rd_bind_inv in E as (cols0 & Hc & E).
  apply rd_bind_inv in E as (cols & Hs & E). rewrite !bind_assign in E.
  apply bind_inv in E as (u & s2 & Ef & _). unfold finish_class in Ef.
  apply bind_inv in Ef as (u1 & s3 & Ea & _). unfold accumulate_OD in Ea.
  apply rd_bind_inv in Ea as (q & Eq & _). apply g3_ok in Eq. unfold var3 in Eq.
  rewrite !upd_other in Eq by names. rewrite Um in Eq by auto with minp.
  destruct (step_core h hs l s ft fl n q tab order cols0 cols at0 bt ot) as (s1 & E1 & AC); auto.
  exists (of_cols snd cols), (of_cols fst cols), q, s1.
  split.
  - unfold mopt. rewrite Hf. cbn [bind]. rewrite (gb_var _ _ _ Hfl). cbn [bind].
    rewrite (g3_var _ _ _ Hn). cbn [bind]. rewrite Ht. cbn [bind]. rewrite Ho. cbn [bind].
    unfold weighted. rewrite Hc. cbn [bind]. rewrite Hs. reflexivity.
  - split; [exact Eq|]. split; [exact AC|]. rewrite <- E1. exact E0.
Qed.
End M.
