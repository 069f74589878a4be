(** The loops of the radar microphysics method over gamma classes. *)
From Verif Require Import Mom_Base Mom_Spec Mom_Facts Xr_Facts Sched_Model Psd_Model Lidar_Model Lidar_Spec
  Lidar_Od Lidar_Loop Lidar_Api Lidar_Corol Mom_Writes Psd_Spec Radar_Model Radar_Spec Radar_Att Radar_Loop Radar_Api
  Micro_Spec Micro_Loop Micro_Char.
Local Open Scope R_scope.

Definition rinp (e : menv) (x : string) : Prop := minp e x \/ x = "rho_a"%string.
Lemma rinp_not_radar e x : rmicro_tables_ok e -> rinp e x -> ~ radar_reserved x.
Proof.
  intros [T _] [[H|[h ->]]| ->].
  - exact (inp_not_radar e false x T H).
  - intros [K|[y K]]; [|discriminate K]. unfold radar_fields in K. simpl in K. intuition discriminate.
  - intros [K|[y K]]; [|discriminate K]. unfold radar_fields in K. simpl in K. intuition discriminate.
Qed.
Lemma rinp_not_psd e x : rmicro_tables_ok e -> rinp e x -> ~ In x psd_names.
Proof.
  intros [_ T] [[H|[h ->]]| ->]; [|apply psd_nn|simpl; intuition discriminate].
  destruct H as [H|[[h [->| ->]]|H]]; [exact (T x H)|apply psd_qn|apply psd_fn|].
  simpl in H |- *. intuition congruence.
Qed.
Lemma rinp_m e x : minp e x -> rinp e x. Proof. left; assumption. Qed.
Global Hint Resolve rinp_m : minp.
Lemma rinp_minp e s t : agree (rinp e) s t -> agree (minp e) s t.
Proof. intros A x Hx. apply A. left. exact Hx. Qed.

Definition router (h : string) : list string := [out "Ze" h false; out "Vd" h false; out "sigma_d" h false].
Lemma router_reserved h x : In x (router h) -> radar_reserved x.
Proof. unfold router. simpl. intros [<-|[<-|[<-|[]]]]; apply out_radar_reserved. Qed.
Lemma router_psd h x : In x (router h) -> ~ In x psd_names.
Proof. unfold router. simpl. intros [<-|[<-|[<-|[]]]]; apply psd_out. Qed.

Ltac rnames :=
  first [ assumption | discriminate
        | apply out_neq; assumption | apply out_neq; apply not_eq_sym; assumption ].
Ltac rlook := unfold var3; repeat (rewrite upd_other by rnames); first [apply upd_same | assumption].

Section M.
Variables (Gam : R -> R) (e : menv) (ins : inst) (mie width : bool) (sch : sched) (kw : psd_kw)
  (lut : string * bool).
Hypothesis TO : rmicro_tables_ok e.

(** The spectra of a class, one column after the other. *)
Definition robs (h : string) (s : dset) : res (list (nat -> nat -> obs)) :=
  do ft <- psd_of Gam e kw h s;
  do fl <- gb s (fn false h);
  do n <- g3 s (nn false h);
  do tab <- micro_table ins lut mie h;
  do v <- class_velocity e h (fst (fst tab));
  do ra <- g2 s "rho_a";
  do order <- tt_order sch (ntm e);
  do cols0 <- (if String.eqb h "cl"
    then run_cols (liquid_column e ins ft tab (match v with Some x => x | None => [] end) (rhoa_corr e h ra) (weighted fl n)) order
    else run_cols (other_column e ins h mie ft tab v (rhoa_corr e h ra) (weighted fl n) fl None) order);
  stack_cols e cols0.
Definition pt (f : obs -> xr) (cols : list (nat -> nat -> obs)) : arr3 :=
  of_cols (fun (o : nat -> nat -> obs) i k => f (o i k)) cols.
Lemma robs_dep h s t p : agree (rinp e) s t -> robs h s = Ok p -> robs h t = Ok p.
Proof.
  intros A E. unfold robs in *. apply res_bind_ok in E as (ft & Hf & E).
  rewrite (psd_dep Gam e kw lut h s t ft (rinp_minp e s t A) Hf). cbn [bind].
  rewrite <- (agree_gb _ s t (fn false h) A) by auto with minp.
  apply res_bind_ok in E as (fl & Hfl & E). rewrite Hfl. cbn [bind].
  rewrite <- (agree_g3 _ s t (nn false h) A) by auto with minp.
  apply res_bind_ok in E as (n & Hn & E). rewrite Hn. cbn [bind].
  apply res_bind_ok in E as (tab & Ht & E). rewrite Ht. cbn [bind].
  apply res_bind_ok in E as (v & Hv & E). rewrite Hv. cbn [bind].
  rewrite <- (agree_g2 _ s t "rho_a" A) by (right; reflexivity). exact E.
Qed.

Definition started (s : dset) (z0 : arr3) : Prop :=
  if has s (out "Ze" "tot" false) then var3 s (out "Ze" "tot" false) z0 else z0 = zeros3.

(** One class. *)
Definition rstep (h : string) (cols : list (nat -> nat -> obs)) (l : rlocals) (s : dset) (l' : rlocals) (s' : dset) : Prop :=
  let num f : arr3 := map3 nan_to_num (pt f cols) in
  let new old f := if String.eqb h "cl" then num f else lift2 xadd old (num f) in
  v_numer l' = new (v_numer l) ob_vn /\ v_denom l' = new (v_denom l) ob_md /\ v_ext l' = Some (num ob_ext) /\
  var3 s' (out "Ze" h false) (pt ob_ze cols) /\ var3 s' (out "Vd" h false) (pt ob_vd cols) /\
  var3 s' (out "sigma_d" h false) (if width then pt ob_sg cols else zeros3) /\
  (exists z0, started s z0 /\ var3 s' (out "Ze" "tot" false) (lift2 xadd z0 (fill0 (pt ob_ze cols)))) /\
  forall x, ~ In x (router "tot" ++ router h ++ psd_names) -> assoc (dvars s') x = assoc (dvars s) x.

Lemma rstep_agree h cols l s l' s' : rstep h cols l s l' s' -> agree (rinp e) s s'.
Proof.
  intros (_ & _ & _ & _ & _ & _ & _ & F) x Hx. symmetry. apply F. intro I.
  rewrite !in_app_iff in I. destruct I as [I|[I|I]].
  - exact (rinp_not_radar e x TO Hx (router_reserved _ _ I)).
  - exact (rinp_not_radar e x TO Hx (router_reserved _ _ I)).
  - exact (rinp_not_psd e x TO Hx I).
Qed.

Lemma totals_spec s : exists s', radar_totals s = (Ok tt, s') /\
  (has s (out "Ze" "tot" false) = true -> s' = s) /\
  (has s (out "Ze" "tot" false) = false -> var3 s' (out "Ze" "tot" false) zeros3) /\
  forall x, ~ In x (router "tot") -> assoc (dvars s') x = assoc (dvars s) x.
Proof.
  unfold radar_totals. unfold lbind at 1, rd. destruct (has s (out "Ze" "tot" false)).
  - exists s. repeat split; auto. discriminate.
  - rewrite !bind_assign, assign_eq. eexists. split; [reflexivity|]. split; [discriminate|]. split.
    + intros _. rlook.
    + intros x Nx. unfold router in Nx. simpl in Nx. rewrite !upd_other by (intros ->; apply Nx; tauto). reflexivity.
Qed.

Lemma rstep_inv h l s l' s' : h <> "tot"%string -> is_p3ci e h = false ->
  radar_class Gam e ins mie width sch kw lut h l s = (Ok l', s') ->
  exists cols, robs h s = Ok cols /\ rstep h cols l s l' s'.
Proof.
  intros Nt NP E. unfold radar_class in E.
  destruct (totals_spec s) as (sa & Ea & T1 & T2 & T3).
  rewrite (bind_ok _ _ _ tt sa Ea) in E. rewrite !bind_assign in E.
  set (sb := upd _ _ _) in E.
  assert (Fb : forall x, ~ In x (router "tot" ++ router h) -> assoc (dvars sb) x = assoc (dvars s) x).
  { intros x Nx. unfold sb. rewrite in_app_iff in Nx. simpl in Nx.
    rewrite !upd_other by (intros ->; apply Nx; tauto). apply T3. simpl. tauto. }
  assert (Ab : agree (rinp e) sb s).
  { intros x Hx. apply Fb. rewrite in_app_iff. intros [I|I];
      exact (rinp_not_radar e x TO Hx (router_reserved _ _ I)). }
  apply bind_inv in E as (ft & sc & Ep & E).
  assert (Hf : psd_of Gam e kw h s = Ok ft).
  { apply (psd_dep Gam e kw lut h sb s ft (rinp_minp _ _ _ Ab)). unfold psd_of. rewrite Ep. reflexivity. }
  assert (U : forall x, ~ In x psd_names -> assoc (dvars sc) x = assoc (dvars sb) x).
  { intros x Nx. apply (writes_run _ _ _ _ _ x (writes_psd_only Gam e kw lut h) Ep Nx). }
  assert (Um : forall x, rinp e x -> assoc (dvars sc) x = assoc (dvars s) x).
  { intros x Hx. rewrite U by (exact (rinp_not_psd e x TO Hx)). apply Ab; exact Hx. }
  apply rd_bind_inv in E as (fl & Hfl & E). apply gb_ok in Hfl. unfold varb in Hfl.
  rewrite Um in Hfl by auto with minp.
  apply rd_bind_inv in E as (n & Hn & E). apply g3_ok in Hn. unfold var3 in Hn.
  rewrite Um in Hn by auto with minp. cbv zeta in E.
  apply rd_bind_inv in E as (tab & Ht & E). apply rd_bind_inv in E as (v & Hv & E).
  assert (Ew : (if is_nssl e then lret (v_kw l, None) else micro_kw e ins h (v_kw l)) sc = (Ok (v_kw l, None), sc)).
  { destruct (is_nssl e); [reflexivity|]. unfold micro_kw. rewrite NP. reflexivity. }
  rewrite (bind_ok _ _ _ _ _ Ew) in E. cbn [fst snd] in E.
  apply rd_bind_inv in E as (ra & Hra & E). apply g2_ok in Hra. unfold var2 in Hra.
  rewrite Um in Hra by (right; reflexivity).
  apply rd_bind_inv in E as (order & Ho & E). apply rd_bind_inv in E as (cols0 & Hc & E).
  apply rd_bind_inv in E as (cols & Hs & E). rewrite !bind_assign in E.
  exists cols. split.
  { unfold robs. rewrite Hf. cbn [bind]. rewrite (gb_var _ _ _ Hfl). cbn [bind].
    rewrite (g3_var _ _ _ Hn). cbn [bind]. rewrite Ht. cbn [bind]. rewrite Hv. cbn [bind].
    rewrite (g2_var _ _ _ Hra). cbn [bind]. rewrite Ho. cbn [bind]. rewrite Hc. exact Hs. }
  set (sd := upd (upd sc _ _) _ _) in E.
  apply bind_inv in E as ([] & se & Ee & E).
  assert (Zs : var3 sb (out "sigma_d" h false) zeros3) by (unfold sb; rlook).
  assert (Fe : var3 se (out "Ze" h false) (pt ob_ze cols) /\ var3 se (out "Vd" h false) (pt ob_vd cols) /\
     var3 se (out "sigma_d" h false) (if width then pt ob_sg cols else zeros3) /\
     (forall x, ~ In x (router h) -> assoc (dvars se) x = assoc (dvars sc) x)).
  { destruct width.
    - rewrite assign_eq in Ee. injection Ee as <-. unfold sd. split; [rlook|]. split; [rlook|]. split; [rlook|].
      intros x Nx. simpl in Nx. rewrite !upd_other by (intros ->; apply Nx; tauto). reflexivity.
    - injection Ee as <-. unfold sd. split; [rlook|]. split; [rlook|]. split.
      + unfold var3. rewrite !upd_other by rnames. rewrite U by apply psd_out. exact Zs.
      + intros x Nx. simpl in Nx. rewrite !upd_other by (intros ->; apply Nx; tauto). reflexivity. }
  destruct Fe as (F1 & F2 & F3 & F4).
  unfold add_to in E. rewrite lbind_assoc in E. apply rd_bind_inv in E as (z1 & Hz & E). apply g3_ok in Hz.
  rewrite bind_assign in E. injection E as <- <-. unfold rstep. cbv zeta. cbn [v_numer v_denom v_ext].
  do 3 (split; [reflexivity|]). split; [rlook|]. split; [rlook|]. split; [rlook|]. split.
  - exists z1. split; [|apply upd_same]. unfold started.
    assert (N : ~ In (out "Ze" "tot" false) (router h)).
    { simpl. intros [I|[I|[I|[]]]]; try discriminate I. apply out_inj in I as [I _]. congruence. }
    unfold var3 in Hz. rewrite F4, U in Hz by (assumption || apply psd_out). unfold sb in Hz.
    rewrite !upd_other in Hz by rnames. destruct (has s (out "Ze" "tot" false)).
    + rewrite (T1 eq_refl) in Hz. exact Hz.
    + specialize (T2 eq_refl). unfold var3 in T2. congruence.
  - intros x Nx. rewrite !in_app_iff in Nx. rewrite upd_other by (intros ->; apply Nx; left; simpl; tauto).
    rewrite F4, U by tauto. apply Fb. rewrite in_app_iff. tauto.
Qed.

(** All of them. *)
Fixpoint gather (f : string -> xr) (hs : list string) (x : xr) : xr :=
  match hs with
  | [] => x
  | h :: hs' => gather f hs' (if String.eqb h "cl" then nan_to_num (f h) else xadd x (nan_to_num (f h)))
  end.
Lemma gather_from f hs : forall x, gather f hs x
  = xadd (if existsb (String.eqb "cl") hs then XF 0 else x) (xsum (map (fun h => nan_to_num (f h)) (from_cl hs))).
Proof.
  induction hs as [|h hs IH]; intro x; cbn [gather from_cl existsb map].
  - rewrite xsum_nil, xadd_0_r. reflexivity.
  - rewrite IH. rewrite (String.eqb_sym "cl" h). destruct (existsb (String.eqb "cl") hs) eqn:Ex.
    + rewrite orb_true_r. reflexivity.
    + rewrite orb_false_r. cbn [map]. rewrite xsum_cons, xadd_assoc. f_equal.
      * destruct (String.eqb h "cl"); [rewrite xadd_0_l; reflexivity|reflexivity].
      * f_equal. destruct hs as [|h' hs']; [reflexivity|]. cbn [from_cl existsb] in *.
        apply orb_false_iff in Ex as [_ Ex]. rewrite Ex. reflexivity.
Qed.
Lemma gather_ext f g hs : (forall h, In h hs -> f h = g h) -> forall x, gather f hs x = gather g hs x.
Proof.
  induction hs as [|h hs IH]; intros H x; [reflexivity|]. cbn [gather]. rewrite H by (left; reflexivity).
  apply IH. intros h' I. apply H. right. exact I.
Qed.

Definition routs (hs : list string) : list string := router "tot" ++ flat_map router hs ++ psd_names.
Lemma in_router x h hs : In h hs -> In x (router h) -> In x (flat_map router hs).
Proof. intros. apply in_flat_map. eauto. Qed.
Lemma out_router f h h' : h <> h' -> ~ In (out f h false) (router h') \/ ~ In f ["Ze"; "Vd"; "sigma_d"]%string.
Proof.
  intro N. destruct (in_dec String.string_dec f ["Ze"; "Vd"; "sigma_d"]%string) as [I|I]; [left|right; exact I].
  simpl in I. destruct I as [<-|[<-|[<-|[]]]]; simpl; intros [J|[J|[J|[]]]]; try discriminate J;
    apply out_inj in J as [J _]; congruence.
Qed.
Lemma kept_out f h hs : In f ["Ze"; "Vd"; "sigma_d"]%string -> h <> "tot"%string -> ~ In h hs ->
  ~ In (out f h false) (routs hs).
Proof.
  intros Hf Nt Nh I. unfold routs in I. rewrite !in_app_iff in I. destruct I as [I|[I|I]].
  - destruct (out_router f h "tot" Nt); tauto.
  - apply in_flat_map in I as (h' & Ih & I). assert (h <> h') by (intros ->; tauto).
    destruct (out_router f h h'); tauto.
  - exact (psd_out _ _ _ I).
Qed.

Lemma rclasses_inv hs : forall l s l' s', NoDup hs -> ~ In "tot"%string hs ->
  (forall h, In h hs -> is_p3ci e h = false) ->
  radar_classes Gam e ins mie width sch kw lut hs l s = (Ok l', s') ->
  exists C : string -> list (nat -> nat -> obs),
    (forall h, In h hs -> robs h s = Ok (C h) /\ var3 s' (out "Ze" h false) (pt ob_ze (C h)) /\
       var3 s' (out "Vd" h false) (pt ob_vd (C h)) /\
       var3 s' (out "sigma_d" h false) (if width then pt ob_sg (C h) else zeros3)) /\
    (forall i t k, v_numer l' i t k = gather (fun h => pt ob_vn (C h) i t k) hs (v_numer l i t k) /\
                   v_denom l' i t k = gather (fun h => pt ob_md (C h) i t k) hs (v_denom l i t k)) /\
    (forall pre h, hs = pre ++ [h] -> v_ext l' = Some (map3 nan_to_num (pt ob_ext (C h)))) /\
    (hs = [] -> v_ext l' = v_ext l /\ s' = s) /\
    (hs <> [] -> exists z0 z1, started s z0 /\ var3 s' (out "Ze" "tot" false) z1 /\
       forall i t k, z1 i t k = xadd (z0 i t k) (xsum (map (fun h => fillna 0 (pt ob_ze (C h) i t k)) hs))) /\
    forall x, ~ In x (routs hs) -> assoc (dvars s') x = assoc (dvars s) x.
Proof.
  induction hs as [|h hs IH]; intros l s l' s' ND NT NP E.
  - injection E as <- <-. exists (fun _ => []). split; [intros h []|]. split; [auto|].
    split; [intros [|? ?] ? Q; discriminate Q|]. split; [auto|]. split; [intro Q; destruct (Q eq_refl)|auto].
  - cbn [radar_classes] in E. apply bind_inv in E as (l1 & s1 & E1 & E).
    inversion ND as [|? ? Nh ND']; subst.
    assert (Nt : h <> "tot"%string) by (intros ->; apply NT; left; reflexivity).
    destruct (rstep_inv h l s l1 s1 Nt (NP h (or_introl eq_refl)) E1) as (cols & Hc & RS).
    pose proof (rstep_agree _ _ _ _ _ _ RS) as Ag.
    destruct RS as (R1 & R2 & R3 & R4 & R5 & R6 & (z0 & Z0 & Z1) & R8).
    destruct (IH l1 s1 l' s' ND') as (C & K1 & K2 & K3 & K4 & K5 & K6); auto.
    { intro; apply NT; right; assumption. }
    { intros; apply NP; right; assumption. }
    assert (Ag' : agree (rinp e) s1 s) by (intros x Hx; symmetry; apply Ag; exact Hx).
    exists (fun x => if String.eqb x h then cols else C x).
    assert (Eh : String.eqb h h = true) by apply String.eqb_refl.
    assert (Eo : forall x, In x hs -> String.eqb x h = false).
    { intros x Hx. apply String.eqb_neq. intros ->. exact (Nh Hx). }
    assert (Ex : forall f i t k, map (fun x => fillna 0 (pt f (if String.eqb x h then cols else C x) i t k)) hs
               = map (fun x => fillna 0 (pt f (C x) i t k)) hs).
    { intros f i t k. apply map_ext_in. intros x Hx. rewrite (Eo x Hx). reflexivity. }
    assert (Eg : forall f i t k x, gather (fun x => pt f (if String.eqb x h then cols else C x) i t k) hs x
               = gather (fun x => pt f (C x) i t k) hs x).
    { intros f i t k x. apply gather_ext. intros y Hy. rewrite (Eo y Hy). reflexivity. }
    split; [|split; [|split; [|split; [|split]]]].
    + intros x [<-|Hx].
      * rewrite Eh. split; [exact Hc|].
        unfold var3. rewrite !K6 by (apply kept_out; simpl; auto). auto.
      * rewrite (Eo x Hx). destruct (K1 x Hx) as (A1 & A2). split; [|exact A2].
        apply (robs_dep x s1 s _ Ag' A1).
    + intros i t k. destruct (K2 i t k) as [G1 G2]. cbn [gather]. rewrite Eh, !Eg, G1, G2, R1, R2.
      destruct (String.eqb h "cl"); split; reflexivity.
    + intros pre h' Q. destruct pre as [|p pre].
      * injection Q as <- ->. rewrite Eh. destruct (K4 eq_refl) as [K _]. rewrite K, R3. reflexivity.
      * injection Q as <- ->. rewrite (Eo h') by (apply in_or_app; right; left; reflexivity). apply (K3 pre). reflexivity.
    + discriminate.
    + intros _. exists z0. destruct hs as [|h1 hs1].
      * destruct (K4 eq_refl) as [_ ->]. eexists. split; [exact Z0|]. split; [exact Z1|].
        intros i t k. cbn [map]. rewrite Eh, xsum_cons, xsum_nil, xadd_0_r. reflexivity.
      * destruct (K5 ltac:(discriminate)) as (z0' & z1 & Q0 & Q1 & Q2). exists z1. split; [exact Z0|]. split; [exact Q1|].
        intros i t k. rewrite Q2, <- (Ex ob_ze i t k).
        remember (h1 :: hs1) as hs2. cbn [map]. rewrite Eh, xsum_cons, xadd_assoc.
        assert (z0' = lift2 xadd z0 (fill0 (pt ob_ze cols))) as ->.
        { unfold started in Q0. rewrite (has_var3 _ _ _ Z1) in Q0. unfold var3 in *. congruence. }
        reflexivity.
    + intros x Nx. unfold routs in *. cbn [flat_map] in Nx. rewrite !in_app_iff in Nx.
      rewrite K6 by (rewrite !in_app_iff; tauto). apply R8. rewrite !in_app_iff. tauto.
Qed.

Lemma writes_sigma p3 corr hs : forall acc, writes (fun x => In x psd_names) (sigma_loop Gam e ins mie sch kw lut p3 corr hs acc).
Proof.
  induction hs as [|h hs IH]; intro acc; cbn [sigma_loop]; [apply writes_ret|].
  apply writes_bind; [apply (writes_psd_only Gam e kw lut)|]. intro ft.
  apply writes_bind; [apply writes_rd|]. intro tab. apply writes_bind; [apply writes_rd|]. intro v.
  apply writes_bind.
  { destruct (is_nssl e || negb (is_p3ci e h)); [apply writes_ret|]. destruct p3; [apply writes_ret|apply writes_raise]. }
  intro w. repeat (apply writes_bind; [apply writes_rd|]; intro). apply IH.
Qed.
End M.

Lemma drop_inv names s s' : drop_vars names s = (Ok tt, s') ->
  forall x, ~ In x names -> assoc (dvars s') x = assoc (dvars s) x.
Proof.
  unfold drop_vars. destruct (forallb (has s) names); [|discriminate]. intro H. injection H as <-. cbn [dvars].
  intros x Nx. induction (dvars s) as [|[y v] l IH]; [reflexivity|]. cbn [filter fst assoc].
  destruct (memb y names) eqn:Em; cbn [negb assoc fst].
  - rewrite IH. destruct (String.eqb_spec y x) as [->|N]; [|reflexivity]. exfalso. apply Nx.
    unfold memb in Em. apply existsb_exists in Em as (w & Iw & Ew). apply String.eqb_eq in Ew. congruence.
  - destruct (String.eqb y x); [reflexivity|exact IH].
Qed.
