(** [calc_lidar_moments] with the empirical and bulk methods: inputs,
    outputs, repetition and order of classes. *)
From Verif Require Import Mom_Base Mom_Spec Mom_Facts Xr_Facts Sched_Model Atm_Model Psd_Model
  Lidar_Model Lidar_Spec Lidar_Od Lidar_Loop.
Local Open Scope R_scope.

(** *** What the methods read *)
Definition inp (e : menv) (c : bool) (x : string) : Prop :=
  In x (table_names e c) \/ (exists h, x = qn c h \/ x = fn c h)
  \/ In x ["Fr"; "rho_r"; "qi_norm"]%string.

Lemma out_reserved f h c : reserved (out f h c).
Proof. right. exists (f ++ "_" ++ h ++ "_" ++ cs c)%string. reflexivity. Qed.
Lemma qn_not_reserved c h : ~ reserved (qn c h).
Proof.
  intros [H|[y H]]; [|destruct c; discriminate H].
  unfold atm_fields in H. simpl in H. destruct c; simpl in H; intuition discriminate.
Qed.
Lemma fn_not_reserved c h : ~ reserved (fn c h).
Proof.
  intros [H|[y H]]; [|destruct c; discriminate H].
  unfold atm_fields in H. simpl in H. destruct c; simpl in H; intuition discriminate.
Qed.
Lemma inp_not_reserved e c x : tables_ok e c -> inp e c x -> ~ reserved x.
Proof.
  intros T [H|[[h [->| ->]]|H]]; [apply T; exact H|apply qn_not_reserved|apply fn_not_reserved|].
  simpl in H. destruct H as [<-|[<-|[<-|[]]]]; intros [H|[y H]]; try discriminate H;
    unfold atm_fields in H; simpl in H; intuition discriminate.
Qed.

Lemma assoc_in {A} (l : list (string * A)) k v : assoc l k = Some v -> In v (map snd l).
Proof.
  induction l as [|[x w] l IH]; simpl; [discriminate|].
  destruct (String.eqb x k); intro H; [injection H as ->; left; reflexivity|right; auto].
Qed.
Lemma assoc_names l k n : assoc l k = Some (Some n) -> In n (names_in (Some l)).
Proof.
  intro H. simpl. induction l as [|[x w] l IH]; simpl in *; [discriminate|].
  apply in_or_app. destruct (String.eqb x k); [injection H as ->; left; left; reflexivity|right; auto].
Qed.
Lemma dict_ok {A} (l : list (string * A)) k v : dict l k = Ok v -> assoc l k = Some v.
Proof. unfold dict. destruct (assoc l k); congruence. Qed.

Ltac in_app := unfold table_names; repeat rewrite in_app_iff; simpl; tauto.
Lemma inp_tab e c x : In x (table_names e c) -> inp e c x.
Proof. left; assumption. Qed.
Lemma inp_re e c h n : assoc (re_fields e c) h = Some n -> inp e c n.
Proof. intro H. left. apply assoc_in in H. unfold re_fields in H. in_app. Qed.
Lemma inp_vd e c h n : assoc (var_density e) h = Some n -> inp e c n.
Proof. intro H. left. apply assoc_in in H. in_app. Qed.
Lemma inp_lam e c d h n : lam_field e = Some d -> assoc d h = Some (Some n) -> inp e c n.
Proof. intros E H. left. apply assoc_names in H. rewrite <- E in H. in_app. Qed.
Lemma inp_mu e c h n : field_of (mu_field e) h = Ok n -> inp e c n.
Proof.
  intro H. left. unfold field_of in H. destruct (mu_field e) as [d|] eqn:E; [|discriminate].
  destruct (assoc d h) as [[m|]|] eqn:A; try discriminate. injection H as ->.
  apply assoc_names in A. rewrite <- E in A. in_app.
Qed.
Lemma inp_q e c h : inp e c (qn c h).
Proof. right; left. exists h. auto. Qed.
Lemma inp_f e c h : inp e c (fn c h).
Proof. right; left. exists h. auto. Qed.
Lemma inp_p3 e c x : In x ["Fr"; "rho_r"; "qi_norm"]%string -> inp e c x.
Proof. intro. right; right. assumption. Qed.
Lemma inp_ni e c : inp e c (p3_ni e).
Proof. left. in_app. Qed.

(** Both optics functions read only inputs. *)
Ltac same_reads A :=
  repeat match goal with
  | |- context [g3 ?s (qn ?c ?h)] =>
      first [ rewrite (agree_g3 _ _ _ (qn c h) A (inp_q _ c h)); fail 1 | idtac ]
  end.

Lemma dict_bind_ext {A B} (l : list (string * A)) k (f g : A -> res B) :
  (forall v, assoc l k = Some v -> f v = g v) -> bind (dict l k) f = bind (dict l k) g.
Proof. unfold dict. destruct (assoc l k); simpl; auto. Qed.
Lemma bind_ext {A B} (x : res A) (f g : A -> res B) :
  (forall v, x = Ok v -> f v = g v) -> bind x f = bind x g.
Proof. destruct x; simpl; auto. Qed.

Lemma empirical_dep e ins c p t h l s s' :
  agree (inp e c) s s' -> optics_empirical e ins c p t h l s = optics_empirical e ins c p t h l s'.
Proof.
  intro A. unfold optics_empirical. rewrite (agree_g3 _ _ _ _ A (inp_q e c h)).
  apply bind_ext. intros q _. apply dict_bind_ext. intros rn Hr.
  rewrite (agree_g2 _ _ _ _ A (inp_re e c h rn Hr)). reflexivity.
Qed.

Lemma p3_inputs_dep e c s s' : agree (inp e c) s s' -> p3_inputs e s = p3_inputs e s'.
Proof.
  intro A. unfold p3_inputs.
  rewrite (agree_g2 _ _ _ "Fr"%string A) by (apply inp_p3; simpl; tauto).
  rewrite (agree_g2 _ _ _ "rho_r"%string A) by (apply inp_p3; simpl; tauto).
  rewrite (agree_g2 _ _ _ "qi_norm"%string A) by (apply inp_p3; simpl; tauto).
  rewrite (agree_g2 _ _ _ _ A (inp_ni e c)). reflexivity.
Qed.

Lemma bulk_area_dep e ins c mie p z h l s s' :
  agree (inp e c) s s' -> bulk_area e ins c mie p z h l s = bulk_area e ins c mie p z h l s'.
Proof.
  intro A. unfold bulk_area. apply bind_ext. intros isl _.
  match goal with |- bind ?X _ = bind ?Y _ => assert (E : X = Y) end.
  { destruct isl.
    - apply bind_ext. intros rb _. apply dict_bind_ext. intros rn Hr.
      rewrite (agree_g2 _ _ _ _ A (inp_re e c h rn Hr)). apply bind_ext. intros re _.
      destruct (lam_field e) as [d|] eqn:El; [|reflexivity].
      f_equal. apply dict_bind_ext. intros [ln|] Ho; [|reflexivity].
      rewrite (agree_g2 _ _ _ _ A (inp_lam e c d h ln El Ho)). apply bind_ext. intros la _.
      apply bind_ext. intros mn Hm. rewrite (agree_g2 _ _ _ _ A (inp_mu e c h mn Hm)). reflexivity.
    - destruct (String.eqb h "ci" && String.eqb (rad_family e) "P3").
      + rewrite (p3_inputs_dep e c s s' A). reflexivity.
      + apply dict_bind_ext. intros r _.
        assert (R : (match r with RVar => do v <- dict (var_density e) h; g2 s v | RConst x => Ok (fun _ _ => XF x) end)
                  = (match r with RVar => do v <- dict (var_density e) h; g2 s' v | RConst x => Ok (fun _ _ => XF x) end)).
        { destruct r; [reflexivity|]. apply dict_bind_ext. intros v Hv.
          apply (agree_g2 _ _ _ _ A (inp_vd e c h v Hv)). }
        rewrite R. apply bind_ext. intros rh _. apply dict_bind_ext. intros rn Hr.
        rewrite (agree_g2 _ _ _ _ A (inp_re e c h rn Hr)). reflexivity. }
  rewrite E. apply bind_ext. intros [l' [rad own]] _.
  rewrite (agree_gb _ _ _ _ A (inp_f e c h)). apply bind_ext. intros fl _.
  destruct rad as [[rb re]|]; [|reflexivity].
  rewrite (agree_g3 _ _ _ _ A (inp_q e c h)). reflexivity.
Qed.
Lemma bulk_eff_dep e ins c p3liq mie h re fl l s s' :
  agree (inp e c) s s' -> bulk_eff e ins p3liq mie h re fl l s = bulk_eff e ins p3liq mie h re fl l s'.
Proof.
  intro A. unfold bulk_eff. apply bind_ext. intros [ice liq] _.
  destruct (memb h ice_classes && String.eqb (rad_family e) "P3"); [|reflexivity].
  rewrite (p3_inputs_dep e c s s' A). reflexivity.
Qed.
Lemma bulk_dep e ins c mie p z h l s s' :
  agree (inp e c) s s' -> optics_bulk e ins c mie p z h l s = optics_bulk e ins c mie p z h l s'.
Proof.
  intro A. unfold optics_bulk. rewrite (bulk_area_dep e ins c mie p z h l s s' A).
  apply bind_ext. intros [l1 [[ar re] fl]] _. rewrite (bulk_eff_dep e ins c _ mie h re fl l1 s s' A). reflexivity.
Qed.

(** *** Non-interference of the loop *)
Section Dep.
Variables (e : menv) (c : bool) (z : arr2) (sfc : bool).
Context {loc : Type}.
Variable optics : string -> loc -> dset -> res (loc * (arr3 * arr3)).
Hypothesis Hopt : forall h l s s', agree (inp e c) s s' -> optics h l s = optics h l s'.

Lemma dep_finish (D : string -> Prop) h :
  D (qn c h) -> (forall x, In x (class_outs c "tot") -> D x) ->
  D (out "alpha_p" h c) -> D (out "beta_p" h c) ->
  dep D (finish_class e c z sfc h) (plus D (out "OD" h c)).
Proof.
  intros Hq Ht Ha Hb. unfold finish_class.
  set (D' := plus D (out "OD" h c)).
  assert (HD : forall x, D x -> D' x) by (intros; left; assumption).
  apply dep_bind with D'.
  { unfold accumulate_OD. apply dep_bind with D; [apply dep_rd; intros; eapply agree_g3; eauto|].
    intros _. apply dep_bind with D; [apply dep_rd; intros; eapply agree_g3; eauto|].
    intro a. apply dep_assign. }
  intros _. apply dep_bind with D'; [apply dep_rd; intros; eapply agree_g3; eauto|]. intro b.
  apply dep_bind with D'; [apply dep_add_to; apply HD, Ht; simpl; tauto|]. intros _.
  apply dep_bind with D'; [apply dep_rd; intros; eapply agree_g3; eauto|]. intro a.
  apply dep_bind with D'; [apply dep_add_to; apply HD, Ht; simpl; tauto|]. intros _.
  apply dep_bind with D'; [apply dep_rd; intros; eapply agree_g3; eauto; right; reflexivity|]. intro o.
  apply dep_add_to; apply HD, Ht; simpl; tauto.
Qed.

Lemma dep_loop hs : forall (D : string -> Prop) l,
  (forall x, inp e c x -> D x) -> (forall x, In x (class_outs c "tot") -> D x) ->
  dep D (class_loop e c z sfc (fun _ => lret tt) optics hs l)
      (fun x => D x \/ In x (flat_map (class_outs c) hs)).
Proof.
  induction hs as [|h hs IH]; intros D l Hi Ht; cbn [class_loop].
  - eapply dep_weaken; [intros x Hx; exact Hx| |apply dep_ret]. simpl. tauto.
  - apply dep_bind with D; [apply dep_ret|]. intros _.
    apply dep_bind with D.
    { apply dep_rd. intros s t A. apply Hopt. intros x Hx. apply A. auto. }
    intros (l' & al & be).
    apply dep_bind with (plus D (out "alpha_p" h c)); [apply dep_assign|]. intros _.
    apply dep_bind with (plus (plus D (out "alpha_p" h c)) (out "beta_p" h c)); [apply dep_assign|]. intros _.
    set (D2 := plus (plus D (out "alpha_p" h c)) (out "beta_p" h c)).
    apply dep_bind with (plus D2 (out "OD" h c)).
    { apply dep_finish.
      - left; left. apply Hi. apply inp_q.
      - intros x Hx. left; left. auto.
      - left; right; reflexivity.
      - right; reflexivity. }
    intros _. eapply dep_weaken; [intros x Hx; exact Hx| |apply IH].
    + intros x [Hx|Hx]; [left; left; left; left; exact Hx|].
      cbn [flat_map] in Hx. apply in_app_or in Hx as [Hx|Hx]; [|right; exact Hx]. left.
      simpl in Hx. destruct Hx as [<-|[<-|[<-|[]]]].
      * left; left; right; reflexivity.
      * left; right; reflexivity.
      * right; reflexivity.
    + intros x Hx. left; left; left. auto.
    + intros x Hx. left; left; left. auto.
Qed.

Lemma dep_zero (D : string -> Prop) : D (qn c "cl") ->
  dep D (zero_totals c) (fun x => D x \/ In x (class_outs c "tot")).
Proof.
  intro Hq. unfold zero_totals.
  apply dep_bind with D; [apply dep_rd; intros; eapply agree_g3; eauto|]. intros _.
  eapply dep_bind; [apply dep_assign|]. intros _.
  eapply dep_bind; [apply dep_assign|]. intros _.
  eapply dep_weaken; [intros x Hx; exact Hx| |apply dep_assign].
  intros x [Hx|Hx]; [left; left; left; exact Hx|].
  simpl in Hx. destruct Hx as [<-|[<-|[<-|[]]]].
  - left; right; reflexivity.
  - left; left; right; reflexivity.
  - right; reflexivity.
Qed.

Lemma dep_method hs l (D : string -> Prop) : (forall x, inp e c x -> D x) ->
  dep D (lbind (zero_totals c) (fun _ => class_loop e c z sfc (fun _ => lret tt) optics hs l))
      (fun x => D x \/ In x (loop_outs c hs)).
Proof.
  intro Hi. eapply dep_bind; [apply dep_zero; apply Hi, inp_q|]. intros _.
  eapply dep_weaken; [intros x Hx; exact Hx| |apply dep_loop].
  - intros x [Hx|Hx]; [left; left; exact Hx|].
    apply in_app_or in Hx as [Hx|Hx]; [left; right; exact Hx|right; exact Hx].
  - intros x Hx; left; auto.
  - intros x Hx; right; exact Hx.
Qed.
Lemma frame_method hs l : frame (loop_outs c hs)
  (lbind (zero_totals c) (fun _ => class_loop e c z sfc (fun _ => lret tt) optics hs l)).
Proof.
  apply frame_bind; [|intros _; apply frame_loop].
  unfold zero_totals. repeat first [apply frame_bind|apply frame_rd|apply frame_assign|intro];
    apply in_loop_outs_t; simpl; tauto.
Qed.
End Dep.

(** *** The molecular fields *)
Lemma frame_atm e lam sfc : frame atm_fields (calc_theory_beta_m e lam sfc).
Proof.
  unfold calc_theory_beta_m.
  repeat first [apply frame_bind|apply frame_rd|apply frame_assign|intro]; unfold atm_fields; simpl; tauto.
Qed.
Lemma dep_atm e lam sfc (D : string -> Prop) :
  D (p_name e) -> D (t_name e) -> D (z_name e) ->
  dep D (calc_theory_beta_m e lam sfc) (fun x => D x \/ In x atm_fields).
Proof.
  intros H1 H2 H3. unfold calc_theory_beta_m.
  do 3 (apply dep_bind with D; [apply dep_rd; intros; eapply agree_g2; eauto|]; intro).
  do 8 (eapply dep_bind; [apply dep_assign|]; intros _).
  eapply dep_weaken; [intros x Hx; exact Hx| |apply dep_assign].
  unfold plus. intros x [Hx|Hx]; [tauto|].
  unfold atm_fields in Hx. simpl in Hx.
  repeat (destruct Hx as [Hx|Hx]; [subst x; tauto|]). destruct Hx.
Qed.

(** *** The whole call *)
Definition lidar_outs (c : bool) (hs : list string) : list string :=
  atm_fields ++ loop_outs c hs ++ [out "beta_att" "tot" c].

Lemma lidar_outs_reserved c hs x : In x (lidar_outs c hs) -> reserved x.
Proof.
  intro H. unfold lidar_outs in H. apply in_app_or in H as [H|H]; [left; exact H|].
  apply in_app_or in H as [H|H].
  - apply in_app_or in H as [H|H].
    + simpl in H. destruct H as [<-|[<-|[<-|[]]]]; apply out_reserved.
    + apply in_flat_map in H as (h & _ & H). simpl in H.
      destruct H as [<-|[<-|[<-|[]]]]; apply out_reserved.
  - destruct H as [<-|[]]. apply out_reserved.
Qed.

Section Call.
Variable Gam : R -> R.

(** The method selected by the options is not the microphysics one. *)
Definition not_micro (o : lopts) (c : bool) : bool := o_emp o || o_rad o || c.

Lemma moments_dep e ins o c hs :
  tables_ok e c -> classes_of e (o_hyds o) hs -> not_micro o c = true ->
  dep (fun x => ~ In x (lidar_outs c hs)) (calc_lidar_moments Gam e ins o c) (fun _ => True)
  /\ frame (lidar_outs c hs) (calc_lidar_moments Gam e ins o c).
Proof.
  intros T Hc NM. set (D := fun x => ~ In x (lidar_outs c hs)).
  assert (Hi : forall x, inp e c x -> D x).
  { intros x Hx H. apply lidar_outs_reserved in H. revert H. apply (inp_not_reserved e c); assumption. }
  assert (Hs : set_hyd_types e (o_hyds o) = Ok hs).
  { destruct (o_hyds o) as [l|]; simpl in *; [subst; reflexivity|].
    destruct Hc as [-> N]. destruct hs; [congruence|reflexivity]. }
  assert (M : forall D1 : string -> Prop, (forall x, inp e c x -> D1 x) -> forall pp tc zz,
     dep D1 (if o_emp o then calc_lidar_empirical e ins c pp tc zz (o_sfc o) hs
             else if o_rad o || c then calc_lidar_bulk e ins c pp zz (o_sfc o) hs (o_mie o)
             else calc_lidar_micro Gam e ins zz (o_sfc o) hs (o_mie o) (o_sched o) (o_kw o))
            (fun x => D1 x \/ In x (loop_outs c hs))
     /\ frame (loop_outs c hs)
            (if o_emp o then calc_lidar_empirical e ins c pp tc zz (o_sfc o) hs
             else if o_rad o || c then calc_lidar_bulk e ins c pp zz (o_sfc o) hs (o_mie o)
             else calc_lidar_micro Gam e ins zz (o_sfc o) hs (o_mie o) (o_sched o) (o_kw o))).
  { intros D1 HD1 pp tc zz. unfold not_micro in NM. destruct (o_emp o).
    - unfold calc_lidar_empirical. split; [|apply frame_method].
      apply dep_method; [|exact HD1]. intros. apply empirical_dep; assumption.
    - simpl in NM. rewrite NM. unfold calc_lidar_bulk. split.
      + apply dep_bind with D1; [apply dep_rd; reflexivity|]. intros _.
        apply dep_method; [|exact HD1]. intros. apply bulk_dep; assumption.
      + apply frame_bind; [apply frame_rd|]. intros _. apply frame_method. }
  unfold calc_lidar_moments. rewrite Hs.
  match goal with |- dep _ (lbind (rd (fun _ => Ok hs)) ?k) _ /\ _ =>
    change (lbind (rd (fun _ => Ok hs)) k) with (k hs) end. cbv beta.
  destruct (negb (String.eqb (lower (i_class ins)) "lidar")).
  { split; [apply dep_raise|apply frame_raise]. }
  assert (Dp : D (p_name e)) by (apply Hi, inp_tab; in_app).
  assert (Dt : D (t_name e)) by (apply Hi, inp_tab; in_app).
  assert (Dz : D (z_name e)) by (apply Hi, inp_tab; in_app).
  assert (Dq : D (qn c "cl")) by (apply Hi, inp_q).
  set (D1 := fun x => D x \/ In x atm_fields).
  assert (Hi1 : forall x, inp e c x -> D1 x) by (intros; left; auto).
  set (D2 := fun x => D1 x \/ In x (loop_outs c hs)).
  assert (Dtot : forall f, (f = "beta_p" \/ f = "OD")%string -> D2 (out f "tot" c)).
  { intros f [->| ->]; right; apply in_loop_outs_t; simpl; tauto. }
  split.
  - apply dep_bind with D; [apply dep_rd; intros s t A; rewrite (agree_has _ _ _ _ A Dq); reflexivity|].
    intros [|]; cbn [negb]; [|apply dep_raise].
    apply dep_bind with D; [apply dep_rd; intros; eapply agree_g2; eauto|]. intro pr.
    apply dep_bind with D; [apply dep_rd; intros; eapply agree_g2; eauto|]. intro tr.
    apply dep_bind with D; [apply dep_rd; intros; eapply agree_g2; eauto|]. intro zr.
    apply dep_bind with D1; [apply dep_atm; assumption|]. intros _.
    apply dep_bind with D1.
    { apply dep_rd; intros; eapply agree_g2; eauto. right. unfold atm_fields; simpl; tauto. }
    intro bm. apply dep_bind with D1.
    { apply dep_rd; intros; eapply agree_g2; eauto. right. unfold atm_fields; simpl; tauto. }
    intro tau. apply dep_bind with D2; [apply M; exact Hi1|]. intros _.
    apply dep_bind with D2; [apply dep_rd; intros; eapply agree_g3; eauto|]. intro b.
    apply dep_bind with D2; [apply dep_rd; intros; eapply agree_g3; eauto|]. intro od.
    eapply dep_weaken; [intros x Hx; exact Hx| |apply dep_assign].
    intros x _. unfold plus, D2, D1, D.
    destruct (in_dec string_dec x (lidar_outs c hs)) as [H|H]; [|tauto].
    unfold lidar_outs in H. apply in_app_or in H as [H|H]; [tauto|].
    apply in_app_or in H as [H|H]; [tauto|]. destruct H as [<-|[]]. tauto.
  - assert (I1 : forall x, In x atm_fields -> In x (lidar_outs c hs))
      by (intros; apply in_or_app; left; assumption).
    assert (I2 : forall x, In x (loop_outs c hs) -> In x (lidar_outs c hs))
      by (intros; apply in_or_app; right; apply in_or_app; left; assumption).
    apply frame_bind; [apply frame_rd|]. intros [|]; cbn [negb]; [|apply frame_raise].
    do 3 (apply frame_bind; [apply frame_rd|]; intro).
    apply frame_bind; [eapply frame_weaken; [exact I1|apply frame_atm]|]. intros _.
    do 2 (apply frame_bind; [apply frame_rd|]; intro).
    apply frame_bind; [eapply frame_weaken; [exact I2|apply (M D1 Hi1)]|]. intros _.
    do 2 (apply frame_bind; [apply frame_rd|]; intro).
    apply frame_assign. apply in_or_app; right. apply in_or_app; right. left; reflexivity.
Qed.

(** C35 for the empirical and bulk methods. *)
Lemma moments_rerun e ins o c hs s s1 :
  tables_ok e c -> classes_of e (o_hyds o) hs -> not_micro o c = true ->
  calc_lidar_moments Gam e ins o c s = (Ok tt, s1) ->
  exists s2, calc_lidar_moments Gam e ins o c s1 = (Ok tt, s2)
    /\ forall x, assoc (dvars s2) x = assoc (dvars s1) x.
Proof.
  intros T Hc NM E. destruct (moments_dep e ins o c hs T Hc NM) as [Hd Hf].
  exact (rerun (lidar_outs c hs) _ s tt s1 Hf Hd E).
Qed.
End Call.
