(** The driver: later steps find what earlier ones produced. *)
From Verif Require Import Mom_Base Mom_Spec Mom_Facts Sched_Model Atm_Model Psd_Model Lidar_Model Lidar_Spec
  Radar_Model Class_Model Sim_Model Sim_Spec Sim_Kinds.
Local Open Scope R_scope.

Definition ensures {A} (m : L A) (x : string) (k : kind) : Prop :=
  forall s a s', m s = (Ok a, s') -> haskind s' x k.
Lemma ensures_assign n v : ensures (assign n v) n (kind_of v).
Proof. intros s a s' E. rewrite assign_eq in E. injection E as _ <-. destruct v; eexists; apply upd_same. Qed.
Lemma ensures_rd3 x : ensures (rd (fun s => g3 s x)) x K3.
Proof. intros s a s' E. apply rd_inv in E as [E ->]. exists a. apply g3_ok. exact E. Qed.
Lemma ensures_rd2 x : ensures (rd (fun s => g2 s x)) x K2.
Proof. intros s a s' E. apply rd_inv in E as [E ->]. exists a. apply g2_ok. exact E. Qed.
Lemma ensures_r {A B} (m : L A) (f : A -> L B) x k : (forall a, ensures (f a) x k) -> ensures (lbind m f) x k.
Proof. intros H s b s' E. apply bind_inv in E as (a & s1 & _ & E). exact (H a s1 b s' E). Qed.
Lemma keeps_kind {A} (m : L A) s s' r x k : keeps m -> m s = (r, s') -> kindof x = Some k -> haskind s x k -> haskind s' x k.
Proof. intros K E Kx H. specialize (K s x). rewrite Kx, E in K. exact (K H). Qed.
Lemma keeps_same {A} (m : L A) s s' r x : keeps m -> m s = (r, s') -> kindof x = None -> assoc (dvars s') x = assoc (dvars s) x.
Proof. intros K E Kx. specialize (K s x). rewrite Kx, E in K. exact K. Qed.
Lemma ensures_l {A B} (m : L A) (f : A -> L B) x k : ensures m x k -> kindof x = Some k -> (forall a, keeps (f a)) ->
  ensures (lbind m f) x k.
Proof.
  intros H Kx Kf s b s' E. apply bind_inv in E as (a & s1 & E1 & E2).
  exact (keeps_kind (f a) s1 s' (Ok b) x k (Kf a) E2 Kx (H s a s1 E1)).
Qed.
Lemma ensures_add_to n v : ensures (add_to n v) n K3.
Proof. apply ensures_r. intro. apply (ensures_assign n (V3 _)). Qed.
Lemma haskind_same s s' x k : assoc (dvars s') x = assoc (dvars s) x -> haskind s x k -> haskind s' x k.
Proof. intro E. destruct k; simpl; try tauto; intros [a Ha]; exists a; red in Ha |- *; rewrite E; exact Ha. Qed.

Section Sim.
Variable Gam : R -> R.
Variables (e : menv) (ins : inst).

(** *** Radar moments *)
Lemma radar_ensures o c : ensures (calc_radar_moments Gam e ins o c) (out "Ze" "tot" c) K3
  /\ ensures (calc_radar_moments Gam e ins o c) (out "Ze_att" "tot" c) K3
  /\ ensures (calc_radar_moments Gam e ins o c) (hyd_ext_name c) K3
  /\ ensures (calc_radar_moments Gam e ins o c) "atm_ext" K2.
Proof.
  assert (N : forall b x k, (b = false -> ensures (@lraise unit x) "atm_ext" k) -> True) by auto.
  unfold calc_radar_moments.
  repeat split; apply ensures_r; intro hs; destruct (negb _); try (intros ? ? ? Q; discriminate Q);
    apply ensures_r; intro q; destruct (negb q); try (intros ? ? ? Q; discriminate Q);
    do 7 (apply ensures_r; intro).
  - do 4 (apply ensures_r; intro). apply (ensures_assign _ (V3 _)).
  - do 3 (apply ensures_r; intro). apply ensures_l; [apply (ensures_assign _ (V3 _))|apply kindof_out|]. intro. kp.
  - apply ensures_r; intro. apply ensures_l; [apply ensures_rd3|apply kindof_hyd_ext|]. intro. kp.
  - do 2 (apply ensures_r; intro). apply ensures_l; [apply ensures_rd2|reflexivity|]. intro. kp.
Qed.
Lemma radar_reads o c s s' : calc_radar_moments Gam e ins o c s = (Ok tt, s') -> has2 s (z_name e).
Proof.
  unfold calc_radar_moments. intro E. apply bind_inv in E as (hs & s1 & E1 & E). apply rd_inv in E1 as [_ ->].
  destruct (negb _); [discriminate|]. apply bind_inv in E as (q & s1 & E1 & E). apply rd_inv in E1 as [_ ->].
  destruct (negb q); [discriminate|].
  do 2 (apply bind_inv in E as (? & s1 & E1 & E); apply rd_inv in E1 as [_ ->]).
  apply bind_inv in E as (a & s1 & E1 & E); apply rd_inv in E1 as [E1 ->]. exists a. apply g2_ok. exact E1.
Qed.

Definition raised_by {A} (m : L A) (s : dset) (x : exn) (s' : dset) : Prop := m s = (Raise x, s').

Lemma ze_min_ok ref s : has2 s (z_name e) -> exists s', calc_radar_Ze_min e ins ref s = (Ok tt, s') /\
  has2 s' "Ze_min" /\ forall y, y <> "Ze_min"%string -> assoc (dvars s') y = assoc (dvars s) y.
Proof.
  intros [z Hz]. unfold calc_radar_Ze_min. rewrite (bind_rd _ _ _ z) by (apply g2_var; exact Hz). rewrite assign_eq.
  eexists. split; [reflexivity|]. split; [eexists; apply upd_same|]. intros. apply upd_other; assumption.
Qed.
Lemma total_ok s : has3 s (out "Ze" "tot" false) -> has3 s (hyd_ext_name false) -> has2 s "atm_ext" -> has2 s "Ze_min" ->
  (p_conv e = true -> has3 s (out "Ze" "tot" true) /\ has3 s (hyd_ext_name true)) ->
  exists s', calc_total_reflectivity e s = (Ok tt, s') /\ has3 s' "sub_col_Ze_att_tot" /\
    forall y, ~ In y ["sub_col_Ze_tot"; "sub_col_Ze_att_tot"; "detect_mask"]%string -> assoc (dvars s') y = assoc (dvars s) y.
Proof.
  intros [zs Hzs] [hs Hhs] [ae Hae] [zm Hzm] HC. unfold calc_total_reflectivity.
  rewrite (bind_rd _ _ _ zs) by (apply g3_var; exact Hzs).
  assert (E1 : exists f g, (if p_conv e
             then run zc <- rd (fun s => g3 s (out "Ze" "tot" true));
                  lret (fun i t k => add_lin (lin (zs i t k)) (zc i t k))
             else lret (map3 lin zs)) s = (Ok f, s) /\
      forall s1, (forall y, y <> "sub_col_Ze_tot"%string -> assoc (dvars s1) y = assoc (dvars s) y) -> (if p_conv e
             then run hc <- rd (fun s => g3 s (hyd_ext_name true));
                  lret (fun i t k => xmul (f i t k) (fillna 1 (hc i t k)))
             else lret f) s1 = (Ok g, s1)).
  { destruct (p_conv e).
    - destruct (HC eq_refl) as [[zc Hzc] [hc Hhc]]. do 2 eexists.
      rewrite (bind_rd _ _ _ zc) by (apply g3_var; exact Hzc). split; [reflexivity|].
      intros s1 U. rewrite (bind_rd _ _ _ hc) by (apply g3_var; red; rewrite U by discriminate; exact Hhc). reflexivity.
    - do 2 eexists. split; [reflexivity|]. intros; reflexivity. }
  destruct E1 as (f & g & E1 & E2). rewrite (bind_ok _ _ _ _ _ E1). rewrite bind_assign.
  rewrite (bind_ok _ _ _ _ _ (E2 _ ltac:(intros y N; apply upd_other; exact N))).
  rewrite (bind_rd _ _ _ hs) by (apply g3_var; red; rewrite upd_other by discriminate; exact Hhs).
  rewrite (bind_rd _ _ _ ae) by (apply g2_var; red; rewrite upd_other by discriminate; exact Hae).
  rewrite !bind_assign.
  rewrite (bind_rd _ _ _ zm) by (apply g2_var; red; rewrite !upd_other by discriminate; exact Hzm).
  rewrite assign_eq. eexists. split; [reflexivity|]. split.
  - eexists. red. rewrite !upd_other by discriminate. apply upd_same.
  - intros y N. simpl in N. rewrite !upd_other by (intros ->; tauto). reflexivity.
Qed.

Lemma sounding_ok rng conv0 mask ze cloud s : has3 s ze -> has2 s "Ze_min" -> has2 s (z_name e) ->
  exists s', sounding_one e rng conv0 mask ze cloud s = (Ok tt, s') /\
    forall y, y <> mask -> assoc (dvars s') y = assoc (dvars s) y.
Proof.
  intros [z Hz] [zm Hm] [zz Hzz]. unfold sounding_one.
  rewrite (bind_rd _ _ _ z) by (apply g3_var; exact Hz).
  rewrite (bind_rd _ _ _ zm) by (apply g2_var; exact Hm).
  destruct rng as [r|].
  - rewrite (bind_rd _ _ _ zz) by (apply g2_var; exact Hzz). rewrite assign_eq. eexists. split; [reflexivity|].
    intros. apply upd_other; assumption.
  - rewrite bind_lret, assign_eq. eexists. split; [reflexivity|]. intros. apply upd_other; assumption.
Qed.
Lemma radar_classify_ok rng conv0 s : lower (i_class ins) = "radar"%string -> ~ is_mask (z_name e) ->
  hasb s (fn false "cl") -> (p_conv e = true -> hasb s (fn true "cl")) ->
  (forall c, (p_conv e = true) -> has3 s (out "Ze_att" "tot" c)) -> has3 s "sub_col_Ze_att_tot" ->
  has2 s "Ze_min" -> has2 s (z_name e) ->
  exists s', radar_classify_phase e ins rng conv0 s = (Ok tt, s').
Proof.
  intros Cl Nz [cl Hcl] HC HA HT HM HZ. unfold radar_classify_phase. rewrite Cl. cbn [String.eqb Ascii.eqb Bool.eqb negb].
  rewrite (bind_rd _ _ _ cl) by (apply gb_var; exact Hcl).
  destruct (p_conv e).
  - destruct (HC eq_refl) as [cc Hcc]. rewrite (bind_rd _ _ _ cc) by (apply gb_var; exact Hcc).
    destruct (sounding_ok rng conv0 ("strat_phase_mask_" ++ i_str ins ++ "_sounding")%string
      "sub_col_Ze_att_tot_strat" cl s (HA false eq_refl) HM HZ) as (s1 & E1 & U1).
    rewrite (bind_ok _ _ _ _ _ E1).
    assert (T1 : forall x k, ~ is_mask x -> haskind s x k -> haskind s1 x k).
    { intros x k N. apply haskind_same. apply U1. intros ->. apply N. eexists. left. reflexivity. }
    assert (M : forall x, In x ["sub_col_Ze_att_tot_conv"; "sub_col_Ze_att_tot"; "Ze_min"]%string -> ~ is_mask x).
    { intros x Hx (y & Q). simpl in Hx. simpl in Q. destruct Hx as [<-|[<-|[<-|[]]]]; intuition discriminate. }
    destruct (sounding_ok rng conv0 ("conv_phase_mask_" ++ i_str ins ++ "_sounding")%string
      "sub_col_Ze_att_tot_conv" cc s1) as (s2 & E2 & U2).
    { apply (T1 _ K3); [apply M; simpl; tauto|]. exact (HA true eq_refl). }
    { apply (T1 _ K2); [apply M; simpl; tauto|]. exact HM. }
    { apply (T1 _ K2 Nz). exact HZ. }
    rewrite (bind_ok _ _ _ _ _ E2).
    assert (T2 : forall x k, ~ is_mask x -> haskind s x k -> haskind s2 x k).
    { intros x k N H. eapply haskind_same; [|apply T1; [exact N|exact H]].
      apply U2. intros ->. apply N. eexists. right; left. reflexivity. }
    destruct (sounding_ok rng conv0 ("phase_mask_" ++ i_str ins ++ "_sounding_all_hyd")%string
      "sub_col_Ze_att_tot" (fun i t k => cl i t k || cc i t k) s2) as (s3 & E3 & _).
    { apply (T2 _ K3); [apply M; simpl; tauto|]. exact HT. }
    { apply (T2 _ K2); [apply M; simpl; tauto|]. exact HM. }
    { apply (T2 _ K2 Nz). exact HZ. }
    exists s3. exact E3.
  - destruct (sounding_ok rng conv0 ("phase_mask_" ++ i_str ins ++ "_sounding_all_hyd")%string
      "sub_col_Ze_att_tot" cl s HT HM HZ) as (s3 & E3 & _). exists s3. exact E3.
Qed.

Lemma fn_kind c h : kindof (fn c h) = None.
Proof. destruct c; reflexivity. Qed.

(** After the moments no step fails. *)
Lemma radar_steps a o s x s' :
  own_names e -> ~ is_mask (z_name e) -> m_reg o = false -> lower (i_class ins) = "radar"%string ->
  (m_classify o = true -> hasb s (fn false "cl") /\ (p_conv e = true -> hasb s (fn true "cl"))) ->
  simulate_radar Gam e ins a o s = (Raise x, s') ->
  calc_radar_moments Gam e ins (sim_ropts e a o false) false s = (Raise x, s') \/
  exists s1, calc_radar_moments Gam e ins (sim_ropts e a o false) false s = (Ok tt, s1) /\ p_conv e = true /\
    calc_radar_moments Gam e ins (sim_ropts e a o true) true s1 = (Raise x, s').
Proof.
  intros ON NZ RG CL FL E. unfold simulate_radar in E.
  rewrite (bind_rd _ _ _ 1000) in E by (unfold sim_ref; rewrite RG; reflexivity).
  destruct (calc_radar_moments Gam e ins (sim_ropts e a o false) false s) as [[[]|x1] s1] eqn:E1.
  2: { left. unfold lbind in E. rewrite E1 in E. injection E as -> ->. reflexivity. }
  right. exists s1. split; [reflexivity|]. rewrite (bind_ok _ _ _ _ _ E1) in E.
  assert (Kz : kindof (z_name e) = None) by (apply kindof_none, ON; simpl; tauto).
  pose proof (keeps_radar Gam e ins (sim_ropts e a o false) false) as Kp.
  pose proof (radar_reads _ _ _ _ E1) as Z0.
  assert (Z1 : has2 s1 (z_name e)).
  { eapply (haskind_same _ _ _ K2); [|exact Z0]. eapply keeps_same; eassumption. }
  assert (F1 : m_classify o = true -> hasb s1 (fn false "cl") /\ (p_conv e = true -> hasb s1 (fn true "cl"))).
  { intro M. destruct (FL M) as [A B]. split; [|intro P; specialize (B P)];
    eapply (haskind_same _ _ _ KB); try eassumption; eapply keeps_same; try eassumption; apply fn_kind. }
  destruct (radar_ensures (sim_ropts e a o false) false) as (G1 & G2 & G3 & G4).
  pose proof (G1 _ _ _ E1) as H1. pose proof (G2 _ _ _ E1) as H2. pose proof (G3 _ _ _ E1) as H3. pose proof (G4 _ _ _ E1) as H4.
  clear G1 G2 G3 G4.
  destruct ((if p_conv e then calc_radar_moments Gam e ins (sim_ropts e a o true) true else lret tt) s1) as [[[]|x2] s2] eqn:E2.
  2: { destruct (p_conv e); [|discriminate E2]. split; [reflexivity|].
       unfold lbind at 1 in E. rewrite E2 in E. injection E as -> ->. exact E2. }
  exfalso. rewrite (bind_ok _ _ _ _ _ E2) in E.
  assert (K2' : keeps (if p_conv e then calc_radar_moments Gam e ins (sim_ropts e a o true) true else lret tt)).
  { destruct (p_conv e); [apply keeps_radar|apply keeps_ret]. }
  assert (Z2 : has2 s2 (z_name e)).
  { eapply (haskind_same _ _ _ K2); [|exact Z1]. eapply keeps_same; eassumption. }
  assert (F2 : m_classify o = true -> hasb s2 (fn false "cl") /\ (p_conv e = true -> hasb s2 (fn true "cl"))).
  { intro M. destruct (F1 M) as [A B]. split; [|intro P; specialize (B P)];
    eapply (haskind_same _ _ _ KB); try eassumption; eapply keeps_same; try eassumption; apply fn_kind. }
  assert (Q1 := keeps_kind _ _ _ _ _ _ K2' E2 (kindof_out _ _ _) H1).
  assert (Q2 := keeps_kind _ _ _ _ _ _ K2' E2 (kindof_out _ _ _) H2).
  assert (Q3 := keeps_kind _ _ _ _ _ _ K2' E2 (kindof_hyd_ext _) H3).
  assert (Q4 := keeps_kind _ _ _ _ "atm_ext"%string K2 K2' E2 eq_refl H4).
  assert (QC : p_conv e = true -> has3 s2 (out "Ze" "tot" true) /\ has3 s2 (hyd_ext_name true) /\ has3 s2 (out "Ze_att" "tot" true)).
  { intro P. rewrite P in E2. destruct (radar_ensures (sim_ropts e a o true) true) as (G1 & G2 & G3 & _).
    split; [exact (G1 _ _ _ E2)|]. split; [exact (G3 _ _ _ E2)|exact (G2 _ _ _ E2)]. }
  destruct (ze_min_ok (XF 1000) s2 Z2) as (s3 & E3 & M3 & U3). rewrite (bind_ok _ _ _ _ _ E3) in E.
  assert (T3 : forall x k, x <> "Ze_min"%string -> haskind s2 x k -> haskind s3 x k).
  { intros y k N. apply haskind_same. apply U3. exact N. }
  assert (NZm : z_name e <> "Ze_min"%string).
  { intro Q. apply (ON (z_name e)); [simpl; tauto|]. left. rewrite Q. vm_compute. tauto. }
  destruct (total_ok s3) as (s4 & E4 & A4 & U4).
  { apply (T3 _ K3); [discriminate|exact Q1]. }
  { apply (T3 _ K3); [discriminate|exact Q3]. }
  { apply (T3 _ K2); [discriminate|exact Q4]. }
  { exact M3. }
  { intro P. destruct (QC P) as (A & B & _). split; [apply (T3 _ K3); [discriminate|exact A]|apply (T3 _ K3); [discriminate|exact B]]. }
  rewrite (bind_ok _ _ _ _ _ E4) in E. destruct (m_classify o); [|discriminate E].
  assert (T4 : forall x k, x <> "Ze_min"%string -> ~ In x ["sub_col_Ze_tot"; "sub_col_Ze_att_tot"; "detect_mask"]%string ->
            haskind s2 x k -> haskind s4 x k).
  { intros y k N N' H. eapply haskind_same; [apply U4; exact N'|]. apply T3; assumption. }
  assert (NN : forall f x, In x ["sub_col_Ze_tot"; "sub_col_Ze_att_tot"; "detect_mask"]%string -> ~ moment_name f -> f <> x).
  { intros f y Hy Nf ->. apply Nf. destruct Hy as [<-|[<-|[<-|[]]]].
    - right. eexists. reflexivity.
    - right. eexists. reflexivity.
    - left. vm_compute. tauto. }
  destruct (F2 eq_refl) as [B1 B2].
  destruct (radar_classify_ok (m_rng o) (m_conv0 o) s4 CL NZ) as (s5 & E5).
  - apply (T4 _ KB); [discriminate| |exact B1]. simpl. intuition discriminate.
  - intro P. apply (T4 _ KB); [discriminate| |exact (B2 P)]. simpl. intuition discriminate.
  - intros c P. apply (T4 _ K3).
    + destruct c; discriminate.
    + destruct c; simpl; intuition discriminate.
    + destruct c; [apply (QC P)|exact Q2].
  - exact A4.
  - eapply (haskind_same _ _ _ K2); [|exact M3]. apply U4. simpl. intuition discriminate.
  - apply (T4 _ K2); [exact NZm| |exact Z2]. intro Hin. apply (NN (z_name e) (z_name e) Hin); [|reflexivity].
    apply ON. simpl; tauto.
  - rewrite E5 in E. discriminate E.
Qed.
End Sim.
