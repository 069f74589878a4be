(** Values of the lidar fields of each class after a call. *)
From Verif Require Import Mom_Base Mom_Spec Mom_Facts Xr_Facts Sched_Model Psd_Model Lidar_Model Lidar_Spec
  Lidar_Od Lidar_Ldr Lidar_Loop Lidar_Api Lidar_Perm Lidar_Corol Class_Model Class_Spec Class_Lidar
  Radar_Model Radar_Spec Val_Spec.
Local Open Scope R_scope.

Definition lopt e ins o c (p tc z : arr2) h s : res (arr3 * arr3) :=
  if o_emp o then opt_emp e ins c p tc h s else opt_bulk e ins c (o_mie o) p z h s.


Lemma zeroed_agree e c s : tables_ok e c -> agree (inp e c) s (zeroed c s).
Proof.
  intros T x Hx. pose proof (inp_not_reserved e c x T Hx) as N. unfold zeroed. symmetry.
  rewrite !upd_other; try reflexivity; intros ->; apply N; apply out_reserved.
Qed.

Section Call.
Variable Gam : R -> R.

(** What a successful empirical or bulk call stores for every class. *)
Lemma lidar_leaves e ins o c hs s s1 :
  tables_ok e c -> not_micro o c = true -> classes_of e (o_hyds o) hs -> ~ In "tot"%string hs ->
  (forall h, In h hs -> order_free e o h) ->
  calc_lidar_moments Gam e ins o c s = (Ok tt, s1) ->
  exists pr tr zr,
    var2 s (p_name e) pr /\ var2 s (t_name e) tr /\ var2 s (z_name e) zr /\
    forall h, In h hs -> exists al be,
      lopt e ins o c (fun t k => p_pa e (pr t k)) (fun t k => t_cel e (tr t k))
        (fun t k => z_met e (zr t k)) h s = Ok (al, be) /\
      var3 s1 (out "alpha_p" h c) (fill0 al) /\ var3 s1 (out "beta_p" h c) (fill0 be).
Proof.
  intros T NM Hc NT HF E.
  apply moments_inv with (hs := hs) in E; [|exact Hc].
  destruct E as (q & pr & tr & zr & s0 & bm & tau & sm & b & od & El & Hq & Hp & Ht & Hz & Ea & Hb & Htau & Em & Hbt & Hod & ->).
  exists pr, tr, zr. split; [exact Hp|]. split; [exact Ht|]. split; [exact Hz|].
  assert (A0 : agree (inp e c) s s0).
  { intros x Hx. pose proof (inp_not_reserved e c x T Hx) as N. symmetry.
    apply (frame_run _ _ _ _ _ (frame_atm e _ _) Ea). intro I. apply N. left. exact I. }
  assert (A : agree (inp e c) s (zeroed c s0)).
  { intros x Hx. rewrite (A0 x Hx). exact (zeroed_agree e c s0 T x Hx). }
  assert (Hinp : forall x, inp e c x -> forall f h, x <> out f h c).
  { intros x Hx f h ->. apply (inp_not_reserved e c (out f h c) T Hx). apply out_reserved. }
  set (p := fun t k => p_pa e (pr t k)) in *. set (tc := fun t k => t_cel e (tr t k)) in *.
  set (z := fun t k => z_met e (zr t k)) in *.
  assert (G : forall h, In h hs -> exists al be, lopt e ins o c p tc z h s = Ok (al, be) /\
     var3 sm (out "alpha_p" h c) (fill0 al) /\ var3 sm (out "beta_p" h c) (fill0 be)).
  { unfold method_of, not_micro in *. unfold lopt. destruct (o_emp o) eqn:Ee.
    - unfold calc_lidar_empirical in Em. apply bind_inv in Em as ([] & sz & Ez & Em).
      apply zero_totals_inv in Ez as [-> _].
      pose proof (loop_success e c z (o_sfc o) (optics_empirical e ins c p tc) (opt_emp e ins c p tc)
         (inp e c) (fun _ => True) (fun h l s _ => emp_hopt e ins c p tc h l s)
         (fun h s t _ A => ltac:(unfold opt_emp; rewrite (empirical_dep e ins c p tc h tt s t A); reflexivity)) Hinp
         hs tt _ sm _ _ _ (fun _ _ => I) NT (zeroed_a c s0) (zeroed_b c s0) (zeroed_o c s0) Em) as HS.
      destruct (loop_char e c z (o_sfc o) (optics_empirical e ins c p tc) (opt_emp e ins c p tc)
         (inp e c) (fun _ => True) (fun h l s _ => emp_hopt e ins c p tc h l s)
         (fun h s t _ A => ltac:(unfold opt_emp; rewrite (empirical_dep e ins c p tc h tt s t A); reflexivity)) Hinp
         hs tt _ _ _ _ (fun _ _ => I) NT (zeroed_a c s0) (zeroed_b c s0) (zeroed_o c s0) HS)
        as (sm' & ? & ? & ? & Em' & _ & _ & _ & VC & _).
      rewrite Em in Em'. injection Em' as <-.
      intros h Hh. destruct (HS h Hh) as [[[al be] Ho] _]. destruct (VC h Hh) as (V1 & V2 & _).
      exists al, be. split; [|split].
      + rewrite <- Ho. unfold opt_emp. rewrite (empirical_dep e ins c p tc h tt _ _ A). reflexivity.
      + unfold aF in V1. rewrite Ho in V1. exact V1.
      + unfold bF in V2. rewrite Ho in V2. exact V2.
    - cbn [orb] in NM. rewrite NM in Em. unfold calc_lidar_bulk in Em.
      apply rd_bind_inv in Em as (lt & Hl & Em). apply bind_inv in Em as ([] & sz & Ez & Em).
      apply zero_totals_inv in Ez as [-> _].
      assert (HF' : forall h, In h hs -> self_contained e h).
      { intros h Hh. destruct (HF h Hh) as [H|H]; [congruence|exact H]. }
      pose proof (loop_success e c z (o_sfc o) (optics_bulk e ins c (o_mie o) p z) (opt_bulk e ins c (o_mie o) p z)
         (inp e c) (self_contained e) (fun h l s Sc => bulk_hopt e ins c (o_mie o) p z h l s Sc)
         (fun h s t _ A => ltac:(unfold opt_bulk; rewrite (bulk_dep e ins c _ p z h no_locals s t A); reflexivity)) Hinp
         hs no_locals _ sm _ _ _ HF' NT (zeroed_a c s0) (zeroed_b c s0) (zeroed_o c s0) Em) as HS.
      destruct (loop_char e c z (o_sfc o) (optics_bulk e ins c (o_mie o) p z) (opt_bulk e ins c (o_mie o) p z)
         (inp e c) (self_contained e) (fun h l s Sc => bulk_hopt e ins c (o_mie o) p z h l s Sc)
         (fun h s t _ A => ltac:(unfold opt_bulk; rewrite (bulk_dep e ins c _ p z h no_locals s t A); reflexivity)) Hinp
         hs no_locals _ _ _ _ HF' NT (zeroed_a c s0) (zeroed_b c s0) (zeroed_o c s0) HS)
        as (sm' & ? & ? & ? & Em' & _ & _ & _ & VC & _).
      rewrite Em in Em'. injection Em' as <-.
      intros h Hh. destruct (HS h Hh) as [[[al be] Ho] _]. destruct (VC h Hh) as (V1 & V2 & _).
      exists al, be. split; [|split].
      + rewrite <- Ho. unfold opt_bulk. rewrite (bulk_dep e ins c _ p z h no_locals _ _ A). reflexivity.
      + unfold aF in V1. rewrite Ho in V1. exact V1.
      + unfold bF in V2. rewrite Ho in V2. exact V2. }
  intros h Hh. destruct (G h Hh) as (al & be & Ho & V1 & V2). exists al, be. split; [exact Ho|].
  split; unfold var3; rewrite upd_other; auto; apply field_att; simpl; tauto.
Qed.
End Call.

(** Water content of a cell of numbers. *)
Lemma wc_cell_real ins q p t : 0 < r_d ins -> -(27315 / 100) < t ->
  wc_cell ins (XF q) (XF p) (XF t) = XF (water_content (r_d ins) q p t).
Proof.
  intros Hr Ht. unfold wc_cell, water_content. cbn [xmul xadd].
  assert (0 < r_d ins * (t + 27315 / 100)) by (apply Rmult_lt_0_compat; lra).
  rewrite xdiv_fin by lra. reflexivity.
Qed.
Lemma alpha_liq_real rho w re : 0 < rho -> 0 < re ->
  alpha_liq rho (XF w) (XF re) = XF (liquid_extinction rho w re).
Proof.
  intros Hr He. unfold alpha_liq, liquid_extinction. cbn [xmul].
  rewrite xdiv_fin; [f_equal; field; lra|].
  apply Rgt_not_eq, Rmult_lt_0_compat; [|exact He]. apply Rmult_lt_0_compat; lra.
Qed.
Lemma alpha_ice_real w t : 0 <= w -> -90 < t ->
  alpha_ice (XF w) (XF t) = XF (if Rlt_dec 0 w then ice_extinction w t else 0).
Proof.
  intros Hw Ht. unfold alpha_ice, ice_extinction. cbn [xadd]. rewrite xpow_fin by lra. cbn [xmul xexp].
  assert (Pa : 0 < 532 / 100000 * Rpower (t + 90) (255 / 100)).
  { apply Rmult_lt_0_compat; [lra|]. unfold Rpower. apply exp_pos. }
  assert (Pb : 0 < 131 / 100 * exp (47 / 10000 * t)).
  { apply Rmult_lt_0_compat; [lra|apply exp_pos]. }
  rewrite (xdiv_fin w), (xdiv_fin 1) by lra.
  assert (Pc : 0 < 1 / (131 / 100 * exp (47 / 10000 * t))) by (apply Rdiv_lt_0_compat; lra).
  destruct (Rlt_dec 0 w) as [H|H].
  - rewrite xpow_fin; [reflexivity|]. apply Rdiv_lt_0_compat; assumption.
  - assert (w = 0) as -> by lra. unfold Rdiv at 1. rewrite Rmult_0_l.
    set (b := 1 / (131 / 100 * exp (47 / 10000 * t))) in *. clearbody b.
    unfold xpow. destruct (Rlt_dec 0 0); [lra|]. destruct (Req_EM_T b 0); [lra|].
    destruct (Rlt_dec 0 b); [reflexivity|lra].
Qed.

Lemma g3_val s n a : var3 s n a -> g3 s n = Ok a.
Proof. exact (g3_var s n a). Qed.

Section Emp.
Variable Gam : R -> R.
Lemma empirical_lidar_values e ins o c hs s s1 h Q P T :
  tables_ok e c -> classes_of e (o_hyds o) hs -> o_emp o = true -> ~ In "tot"%string hs ->
  calc_lidar_moments Gam e ins o c s = (Ok tt, s1) -> In h hs ->
  0 < r_d ins -> pressures e s P -> temperatures e s T -> real3 e s (qn c h) Q ->
  exists lr, assoc (lidar_ratio e) h = Some lr /\
  forall i t k, cell e i t k ->
    let w := water_content (r_d ins) (Q i t k) (P t k) (T t k) in
    (forall rho rn Re, In h ["cl"; "pl"]%string -> assoc (rho_hyd e) h = Some (RConst rho) ->
       assoc (re_fields e c) h = Some rn -> real2 e s rn Re -> 0 < rho -> 0 < Re t k -> -(27315/100) < T t k ->
       value s1 (out "alpha_p" h c) i t k = XF (liquid_extinction rho w (Re t k))) /\
    (~ In h ["cl"; "pl"]%string -> -90 < T t k -> 0 <= w ->
       value s1 (out "alpha_p" h c) i t k = XF (if Rlt_dec 0 w then ice_extinction w (T t k) else 0)) /\
    (forall x, lr <> 0 -> value s1 (out "alpha_p" h c) i t k = XF x ->
       value s1 (out "beta_p" h c) i t k = XF (x / lr)).
Proof.
  intros Tk Hc Ee NT E Hh Hr (pr' & Vp & HP) (tr' & Vt & HT) (qa & Vq & HQ).
  destruct (lidar_leaves Gam e ins o c hs s s1 Tk) as (pr & tr & zr & Hp & Ht & Hz & HL); auto.
  { unfold not_micro. rewrite Ee. reflexivity. }
  { intros; left; exact Ee. }
  red in Hp, Vp. rewrite Hp in Vp. injection Vp as <-.
  red in Ht, Vt. rewrite Ht in Vt. injection Vt as <-.
  destruct (HL h Hh) as (al & be & Ho & Va & Vb). unfold lopt in Ho. rewrite Ee in Ho.
  unfold opt_emp, optics_empirical in Ho. rewrite (g3_var _ _ _ Vq) in Ho. cbn [bind] in Ho.
  destruct (dict (re_fields e c) h) as [rn|] eqn:Er; [|discriminate Ho]. cbn [bind] in Ho.
  destruct (g2 s rn) as [re|] eqn:Eg; [|discriminate Ho]. cbn [bind] in Ho.
  match type of Ho with no_loc (bind ?X _) = _ => destruct X as [al'|] eqn:Eal; [|discriminate Ho] end.
  cbn [bind] in Ho. destruct (dict (lidar_ratio e) h) as [lr|] eqn:El; [|discriminate Ho].
  cbn [bind no_loc] in Ho. injection Ho as -> <-.
  exists lr. split. { unfold dict in El. destruct (assoc (lidar_ratio e) h); congruence. }
  intros i t k Hcell w.
  assert (Hpt : point e t k) by (destruct Hcell as (? & ? & ?); split; assumption).
  assert (Vai : value s1 (out "alpha_p" h c) i t k = fillna 0 (al i t k)) by (unfold value; rewrite Va; reflexivity).
  assert (Vbi : value s1 (out "beta_p" h c) i t k = fillna 0 (xdiv (al i t k) (XF lr))) by (unfold value; rewrite Vb; reflexivity).
  split; [|split].
  - intros rho rn' Re Hl Hrho Hrn (re' & Vre & HRe) P1 P2 P3.
    unfold dict in Er. rewrite Hrn in Er. injection Er as <-.
    apply g2_ok in Eg. red in Eg, Vre. rewrite Eg in Vre. injection Vre as <-.
    assert (Eb : (String.eqb h "cl" || String.eqb h "pl")%bool = true).
    { destruct Hl as [<-|[<-|[]]]; reflexivity. }
    rewrite Eb in Eal. unfold rho_num, dict in Eal. rewrite Hrho in Eal. cbn [bind] in Eal. injection Eal as <-.
    rewrite Vai, HQ, HP, HT, HRe, wc_cell_real, alpha_liq_real by assumption. reflexivity.
  - intros Hl P1 Pw.
    assert (Eb : (String.eqb h "cl" || String.eqb h "pl")%bool = false).
    { destruct (String.eqb_spec h "cl"); [subst; exfalso; apply Hl; simpl; tauto|].
      destruct (String.eqb_spec h "pl"); [subst; exfalso; apply Hl; simpl; tauto|]. reflexivity. }
    rewrite Eb in Eal. injection Eal as <-.
    rewrite Vai, HQ, HP, HT, wc_cell_real by (assumption || lra). fold w. rewrite alpha_ice_real by assumption. reflexivity.
  - intros x Hlr Hx. rewrite Vai in Hx. rewrite Vbi. destruct (al i t k); cbn [fillna isnan] in Hx; try discriminate Hx.
    + injection Hx as ->. rewrite xdiv_fin by exact Hlr. reflexivity.
    + injection Hx as <-. simpl. f_equal. field. exact Hlr.
Qed.
End Emp.
