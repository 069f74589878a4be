(** With the empirical method the whole simulation runs. *)
From Verif Require Import Mom_Base Mom_Spec Mom_Facts Sched_Model Atm_Model Psd_Model Lidar_Model Lidar_Spec
  Radar_Model Class_Model Sim_Model Sim_Spec Sim_Kinds Sim_Facts Sim_Lidar.
Local Open Scope R_scope.

Definition runs {A} (m : L A) (s : dset) : Prop := exists a s', m s = (Ok a, s').
Lemma runs_ret {A} (a : A) s : runs (lret a) s.
Proof. exists a, s. reflexivity. Qed.
Lemma runs_assign n v s : runs (assign n v) s.
Proof. exists tt. rewrite assign_eq. eauto. Qed.
Lemma runs_bind {A B} (m : L A) (f : A -> L B) s : runs m s -> (forall a s', m s = (Ok a, s') -> runs (f a) s') -> runs (lbind m f) s.
Proof.
  intros (a & s1 & E) H. destruct (H a s1 E) as (b & s2 & E2). exists b, s2. rewrite (bind_ok _ _ _ _ _ E). exact E2.
Qed.
Lemma runs_rd {A B} (r : dset -> res A) (f : A -> L B) s : (exists a, r s = Ok a) -> (forall a, r s = Ok a -> runs (f a) s) -> runs (lbind (rd r) f) s.
Proof. intros [a E] H. destruct (H a E) as (b & s' & E'). exists b, s'. rewrite (bind_rd _ _ _ a) by exact E. exact E'. Qed.

Section Run.
Variable Gam : R -> R.
Variables (e : menv) (ins : inst).

(** Properties kept by everything that [keeps]. *)
Definition stable (P : dset -> Prop) : Prop := forall A (m : L A) s r s', keeps m -> m s = (r, s') -> P s -> P s'.
Lemma stable_none x k : kindof x = None -> stable (fun s => haskind s x k).
Proof. intros N A m s r s' K E. apply haskind_same. eapply keeps_same; eassumption. Qed.
Lemma stable_some x k : kindof x = Some k -> stable (fun s => haskind s x k).
Proof. intros N A m s r s' K E. eapply keeps_kind; eassumption. Qed.
Lemma stable_and P Q : stable P -> stable Q -> stable (fun s => P s /\ Q s).
Proof. intros HP HQ A m s r s' K E [p q]. split; [eapply HP|eapply HQ]; eassumption. Qed.
Lemma stable_all {I} (P : I -> dset -> Prop) : (forall i, stable (P i)) -> stable (fun s => forall i, P i s).
Proof. intros H A m s r s' K E p i. eapply H; eauto. Qed.
Lemma stable_imp (Q : Prop) (P : dset -> Prop) : (Q -> stable P) -> stable (fun s => Q -> P s).
Proof. intros H A m s r s' K E p q. eapply (H q); eauto. Qed.

Lemma qn_kind c h : kindof (qn c h) = None.
Proof. destruct c; reflexivity. Qed.
Local Notation air := (air_fields e).
Local Notation water := mass_fields.
Lemma stable_air : own_names e -> stable air.
Proof.
  intro ON. repeat apply stable_and; apply (stable_none _ K2), kindof_none, ON; simpl; tauto.
Qed.
Lemma stable_water c hs : stable (water c hs).
Proof. intros A m s r s' K E W h I. apply (stable_none _ K3 (qn_kind c h) A m s r s' K E). apply W, I. Qed.

Lemma beta_m_runs lam sfc s : air s -> own_names e -> runs (calc_theory_beta_m e lam sfc) s.
Proof.
  intros (Hp & Ht & Hz & _) ON. unfold calc_theory_beta_m.
  apply runs_rd; [apply reads2, Hp|intros pr _]. apply runs_rd; [apply reads2, Ht|intros tr _].
  apply runs_rd; [apply reads2, Hz|intros zr _]. cbv zeta.
  repeat (apply runs_bind; [apply runs_assign|intros]). apply runs_assign.
Qed.
Lemma atm_runs s : air s -> own_names e -> runs (calc_radar_atm_attenuation e ins) s.
Proof.
  intros (Hp & Ht & Hz & Hq) ON. unfold calc_radar_atm_attenuation.
  repeat (apply runs_rd; [apply reads2; assumption|intros]). cbv zeta.
  repeat (apply runs_bind; [apply runs_assign|intros]). apply runs_assign.
Qed.

(** *** Radar, empirical *)
Lemma ze_loop_runs c p t hs w s : (forall h, In h hs -> has3 s (qn c h)) -> has3 s (out "Ze" "tot" c) ->
  exists w' s', ze_loop c (empirical_class ins c p t) hs w s = (Ok w', s') /\ (hs <> [] \/ w <> None -> w' <> None).
Proof.
  revert w s. induction hs as [|h hs IH]; intros w s W T.
  - exists w, s. split; [reflexivity|]. tauto.
  - simpl. destruct (reads3 _ _ (W h (or_introl eq_refl))) as [q Hq].
    unfold empirical_class at 1. unfold rd at 1. unfold lbind at 1. rewrite Hq. cbn [bind]. cbv zeta.
    rewrite bind_assign.
    set (s1 := upd _ _ _).
    assert (T1 : has3 s1 (out "Ze" "tot" c)) by (apply (haskind_put _ _ (V3 _) _ K3); [exact T|auto]).
    assert (W1 : forall g, In g hs -> has3 s1 (qn c g)).
    { intros g I. apply (haskind_put _ _ (V3 _) _ K3); [|auto]. apply W. right; exact I. }
    destruct T1 as [zt Hzt].
    assert (EA : exists s2, add_to (out "Ze" "tot" c) (fill0 (if is_cl h then map3 ze_cl (fun i tt k => wc_g ins (q i tt k) (p tt k) (t tt k))
        else if is_pl h then map3 ze_pl (fun i tt k => wc_g ins (q i tt k) (p tt k) (t tt k))
        else fun i tt k => ze_ice (freq ins) (wc_g ins (q i tt k) (p tt k) (t tt k)) (t tt k))) s1 = (Ok tt, s2) /\
        (forall x, has3 s1 x -> has3 s2 x) /\ has3 s2 (out "Ze" "tot" c)).
    { unfold add_to. rewrite (bind_rd _ _ _ zt) by (apply g3_var; exact Hzt). rewrite assign_eq. eexists. split; [reflexivity|].
      split; [|eexists; apply upd_same]. intros x H. apply (haskind_put _ _ (V3 _) _ K3); auto. }
    destruct EA as (s2 & EA & G & T2). rewrite (bind_ok _ _ _ _ _ EA).
    destruct (IH (Some (if is_cl h || is_pl h then lift2 xadd zeros3 (fun i tt k => wc_g ins (q i tt k) (p tt k) (t tt k)) else zeros3)) s2)
      as (w' & s' & E & N).
    { intros g I. apply G, W1, I. }
    { exact T2. }
    exists w', s'. split; [exact E|]. intros _. apply N. right. discriminate.
Qed.
Lemma attenuation_runs c z hyd atm sfc s : has3 s (qn c "cl") -> has2 s (t_name e) -> kindof (t_name e) = None ->
  runs (accumulate_attenuation e c z hyd atm sfc true) s.
Proof.
  intros Q T K. unfold accumulate_attenuation. cbv zeta. apply runs_rd; [apply reads3, Q|intros q Hq].
  apply runs_bind; [apply runs_ret|intros u s1 E1]. injection E1 as <- <-.
  apply runs_bind; [apply runs_assign|intros u' s2 E2]. apply runs_rd; [|intros; apply runs_assign].
  apply reads2. revert T. apply (haskind_same s s2 (t_name e) K2). eapply keeps_same; [|exact E2|exact K].
  apply keeps_assign. right. apply kindof_hyd_ext.
Qed.
Lemma ze_loop_made c p t hs w h : In h hs -> ensures (ze_loop c (empirical_class ins c p t) hs w) (out "Ze" h c) K3.
Proof.
  revert w. induction hs as [|g hs IH]; intros w I; [destruct I|]. simpl. apply ensures_r; intros [l ze].
  destruct I as [->|I].
  - apply ensures_l; [apply (ensures_assign _ (V3 _))|apply kindof_out|]. intro. kp. apply keeps_ze_loop.
  - apply ensures_r; intro. apply ensures_r; intro. apply IH, I.
Qed.
Lemma dbz_runs c hs s : (forall h, In h hs -> has3 s (out "Ze" h c)) -> runs (dbz_loop c hs) s.
Proof.
  revert s. induction hs as [|h hs IH]; intros s H; [apply runs_ret|]. simpl.
  apply runs_rd; [apply reads3, H; left; reflexivity|intros a _]. apply runs_bind; [apply runs_assign|intros u s1 E].
  apply IH. intros g I. rewrite assign_eq in E. injection E as _ <-. apply (haskind_put _ _ (V3 _) _ K3); [|auto]. apply H. right; exact I.
Qed.
Lemma radar_empirical_runs o c hs rho s :
  own_names e -> lower (i_class ins) = "radar"%string -> r_emp o = true ->
  set_hyd_types e (r_hyds o) = Ok hs -> hs <> [] -> assoc (rho_hyd e) "cl" = Some (RConst rho) ->
  air s -> water c hs s -> runs (calc_radar_moments Gam e ins o c) s.
Proof.
  intros ON CL EM Hs NE RH AI WA. unfold calc_radar_moments. apply runs_rd; [eauto|intros hs' E]. rewrite Hs in E. injection E as <-.
  rewrite CL. cbn [String.eqb Ascii.eqb Bool.eqb negb].
  apply runs_rd; [eauto|intros b E]. injection E as <-.
  assert (HQ : has s (qn c "cl") = true).
  { destruct (WA "cl"%string (or_introl eq_refl)) as [q Hq]. unfold has. red in Hq. rewrite Hq. reflexivity. }
  rewrite HQ. cbn [negb].
  pose proof AI as (Hp & Ht & Hz & Hv).
  apply runs_rd; [apply reads2, Hp|intros pr _]. apply runs_rd; [apply reads2, Ht|intros tr _].
  apply runs_rd; [apply reads2, Hz|intros zr _]. cbv zeta.
  apply runs_bind; [apply atm_runs; assumption|intros u s1 E1].
  assert (K1 : has2 s1 "kappa_att").
  { revert E1. assert (Q : ensures (calc_radar_atm_attenuation e ins) "kappa_att" K2); [|apply Q].
    unfold calc_radar_atm_attenuation. do 5 (apply ensures_r; intro). apply (ensures_assign _ (V2 _)). }
  assert (A1 := stable_air ON _ _ _ _ _ (keeps_atm e ins) E1 AI).
  assert (W1 := stable_water c hs _ _ _ _ _ (keeps_atm e ins) E1 WA).
  apply runs_rd; [apply reads2, K1|intros atm _]. rewrite EM.
  assert (TN : kindof (t_name e) = None) by (apply kindof_none, ON; simpl; tauto).
  apply runs_bind; [|intros u2 s2 E2].
  - unfold calc_radar_empirical, zero_Ze. apply runs_bind.
    + apply runs_rd; [apply reads3, W1; left; reflexivity|intros]. apply runs_assign.
    + intros u3 s3 E3.
      assert (K3' : keeps (run _ <- rd (fun s => g3 s (qn c "cl")); assign (out "Ze" "tot" c) (V3 zeros3))) by kp.
      assert (W3 := stable_water c hs _ _ _ _ _ K3' E3 W1). assert (A3 := stable_air ON _ _ _ _ _ K3' E3 A1).
      assert (T3 : has3 s3 (out "Ze" "tot" c)).
      { revert E3. assert (Q : ensures (run _ <- rd (fun s => g3 s (qn c "cl")); assign (out "Ze" "tot" c) (V3 zeros3)) (out "Ze" "tot" c) K3);
        [apply ensures_r; intro; apply (ensures_assign _ (V3 _))|apply Q]. }
      destruct (ze_loop_runs c (fun t k => p_pa e (pr t k)) (fun t k => t_cel e (tr t k)) hs None s3) as (w & s4 & E4 & N4).
      { intros h I. apply W3. right; exact I. }
      { exact T3. }
      apply runs_bind; [exists w, s4; exact E4|intros w' s4' E4']. rewrite E4 in E4'. injection E4' as <- <-.
      apply runs_rd; [exists rho; unfold rho_num, dict; rewrite RH; reflexivity|intros rh _].
      destruct w as [w|]; [|exfalso; apply N4; auto].
      assert (Kz : keeps (ze_loop c (empirical_class ins c (fun t k => p_pa e (pr t k)) (fun t k => t_cel e (tr t k))) hs None)) by apply keeps_ze_loop.
      apply attenuation_runs; [|apply (stable_air ON _ _ _ _ _ Kz E4 A3)|exact TN].
      apply (stable_water c hs _ _ _ _ _ Kz E4 W3). left; reflexivity.
  - assert (KE : keeps (calc_radar_empirical e ins c (fun t k => p_pa e (pr t k)) (fun t k => t_cel e (tr t k)) (fun t k => z_met e (zr t k)) atm (r_sfc o) hs))
      by apply keeps_remp.
    assert (M2 : (forall h, In h hs -> has3 s2 (out "Ze" h c)) /\ has3 s2 (out "Ze" "tot" c) /\ has3 s2 (hyd_ext_name c) /\ has2 s2 "atm_ext").
    { unfold calc_radar_empirical in E2. apply bind_inv in E2 as ([] & s3 & E3 & E2).
      apply bind_inv in E2 as (w & s4 & E4 & E2). apply bind_inv in E2 as (rh & s5 & E5 & E2). apply rd_inv in E5 as [_ ->].
      destruct w as [w|]; [|discriminate].
      assert (KA : keeps (accumulate_attenuation e c (fun t k => z_met e (zr t k)) (map3 (fun x => xmul x (XF (kappa_f ins rh))) w) atm (r_sfc o) true)) by apply keeps_attenuation.
      assert (T3 : has3 s3 (out "Ze" "tot" c)).
      { revert E3. unfold zero_Ze. assert (Q : ensures (run _ <- rd (fun s => g3 s (qn c "cl")); assign (out "Ze" "tot" c) (V3 zeros3)) (out "Ze" "tot" c) K3);
        [apply ensures_r; intro; apply (ensures_assign _ (V3 _))|apply Q]. }
      split; [|split; [|split]].
      - intros h I. eapply (keeps_kind _ _ _ _ (out "Ze" h c) K3 KA E2 (kindof_out _ _ _)).
        exact (ze_loop_made _ _ _ _ _ _ I _ _ _ E4).
      - eapply (keeps_kind _ _ _ _ _ K3 KA E2 (kindof_out _ _ _)).
        refine (keeps_kind _ _ _ _ _ K3 _ E4 (kindof_out _ _ _) T3). apply keeps_ze_loop.
      - revert E2. match goal with |- ?m _ = _ -> _ => assert (Q : ensures m (hyd_ext_name c) K3); [|apply Q] end.
        unfold accumulate_attenuation. cbv zeta. do 2 (apply ensures_r; intro).
        apply ensures_l; [apply (ensures_assign _ (V3 _))|apply kindof_hyd_ext|]. intro. kp.
      - revert E2. match goal with |- ?m _ = _ -> _ => assert (Q : ensures m "atm_ext" K2); [|apply Q] end.
        unfold accumulate_attenuation. cbv zeta. do 4 (apply ensures_r; intro). apply (ensures_assign _ (V2 _)). }
    destruct M2 as (MZ & MT & MH & MA).
    apply runs_bind; [apply dbz_runs, MZ|intros u4 s4 E4].
    assert (KD := keeps_dbz c hs).
    apply runs_rd; [apply reads3; exact (keeps_kind _ _ _ _ _ K3 KD E4 (kindof_out _ _ _) MT)|intros zt _].
    apply runs_rd; [apply reads3; exact (keeps_kind _ _ _ _ _ K3 KD E4 (kindof_hyd_ext _) MH)|intros he _].
    apply runs_rd; [apply reads2; exact (keeps_kind _ _ _ _ "atm_ext"%string K2 KD E4 eq_refl MA)|intros ae _]. cbv zeta.
    apply runs_bind; [apply runs_assign|intros]. apply runs_assign.
Qed.

(** *** Lidar, empirical *)
Local Notation drops := (radius_fields e).
Lemma stable_drops c hs : stable (drops c hs).
Proof.
  intros A m s r s' K E D h I. destruct (D h I) as (rn & A1 & A2 & A3). exists rn. split; [exact A1|]. split; [exact A2|].
  exact (stable_none rn K2 (kindof_none _ A2) A m s r s' K E A3).
Qed.
Local Notation optical := (optical_tables e).
Lemma optics_ok c p t h s : has3 s (qn c h) -> drops c [h] s -> optical [h] -> exists r, optics_empirical e ins c p t h tt s = Ok r.
Proof.
  intros Q D O. destruct (reads3 _ _ Q) as [q Hq]. destruct (D h (or_introl eq_refl)) as (rn & A1 & _ & A3).
  fold (re_fields e c) in A1. destruct (reads2 _ _ A3) as [re Hre]. destruct (O h (or_introl eq_refl)) as [[lr Hlr] HR].
  unfold optics_empirical. rewrite Hq. cbn [bind]. unfold dict at 1. rewrite A1. cbn [bind]. rewrite Hre. cbn [bind]. cbv zeta.
  destruct (String.eqb h "cl" || String.eqb h "pl") eqn:EH.
  - apply Bool.orb_true_iff in EH. rewrite !String.eqb_eq in EH. destruct (HR EH) as [r Hr].
    unfold rho_num, dict at 1. rewrite Hr. cbn [bind]. unfold dict. rewrite Hlr. cbn [bind]. eauto.
  - cbn [bind]. unfold dict. rewrite Hlr. cbn [bind]. eauto.
Qed.
Lemma add_runs n a s : has3 s n -> runs (add_to n a) s.
Proof. intro H. unfold add_to. apply runs_rd; [apply reads3, H|intros]. apply runs_assign. Qed.
Lemma finish_runs c z sfc h s : has3 s (qn c h) -> has3 s (out "alpha_p" h c) -> has3 s (out "beta_p" h c) ->
  (forall f, In f ["beta_p"; "alpha_p"; "OD"]%string -> has3 s (out f "tot" c)) -> runs (finish_class e c z sfc h) s.
Proof.
  intros Q A B T. unfold finish_class. apply runs_bind.
  { unfold accumulate_OD. apply runs_rd; [apply reads3, Q|intros]. apply runs_rd; [apply reads3, A|intros]. apply runs_assign. }
  intros u s1 E1. assert (K1 := keeps_OD e c z h sfc).
  assert (P1 : forall f g, has3 s (out f g c) -> has3 s1 (out f g c)).
  { intros f g. exact (keeps_kind _ _ _ _ _ K3 K1 E1 (kindof_out _ _ _)). }
  assert (O1 : has3 s1 (out "OD" h c)).
  { revert E1. assert (X : ensures (accumulate_OD e c z h sfc) (out "OD" h c) K3); [|apply X].
    unfold accumulate_OD. do 2 (apply ensures_r; intro). apply (ensures_assign _ (V3 _)). }
  apply runs_rd; [apply reads3, P1, B|intros b _].
  apply runs_bind; [apply add_runs, P1, T; simpl; tauto|intros u2 s2 E2].
  assert (P2 : forall f g, has3 s1 (out f g c) -> has3 s2 (out f g c)).
  { intros f g. refine (keeps_kind _ _ _ _ _ K3 _ E2 (kindof_out _ _ _)). kp. }
  apply runs_rd; [apply reads3, P2, P1, A|intros a _].
  apply runs_bind; [apply add_runs, P2, P1, T; simpl; tauto|intros u3 s3 E3].
  assert (P3 : forall f g, has3 s2 (out f g c) -> has3 s3 (out f g c)).
  { intros f g. refine (keeps_kind _ _ _ _ _ K3 _ E3 (kindof_out _ _ _)). kp. }
  apply runs_rd; [apply reads3, P3, P2, O1|intros o _]. apply add_runs, P3, P2, P1, T; simpl; tauto.
Qed.
Lemma class_loop_runs c p t z sfc hs s : (forall h, In h hs -> has3 s (qn c h)) -> drops c hs s -> optical hs ->
  (forall f, In f ["beta_p"; "alpha_p"; "OD"]%string -> has3 s (out f "tot" c)) ->
  runs (class_loop e c z sfc (fun _ => lret tt) (optics_empirical e ins c p t) hs tt) s.
Proof.
  revert s. induction hs as [|h hs IH]; intros s Q D O T; [apply runs_ret|]. simpl.
  apply runs_bind; [apply runs_ret|intros u s0 E0]. injection E0 as <- <-.
  apply runs_rd.
  { apply optics_ok; [apply Q; left; reflexivity| |]; intros g [<-|[]]; [apply D|apply O]; left; reflexivity. }
  intros [l' [al be]] _. destruct l'.
  assert (P1 : forall m : L unit, keeps m -> forall s s', m s = (Ok tt, s') ->
     ((forall h, In h hs -> has3 s (qn c h)) /\ drops c hs s /\ (forall f, In f ["beta_p"; "alpha_p"; "OD"]%string -> has3 s (out f "tot" c)) ->
     (forall h, In h hs -> has3 s' (qn c h)) /\ drops c hs s' /\ (forall f, In f ["beta_p"; "alpha_p"; "OD"]%string -> has3 s' (out f "tot" c))) /\
     (forall f, has3 s (out f h c) -> has3 s' (out f h c)) /\ (has3 s (qn c h) -> has3 s' (qn c h))).
  { intros m Km s1 s2 Em. split; [intros (X1 & X2 & X3); split; [|split]|split].
    - intros g I. apply (stable_none _ K3 (qn_kind c g) _ _ _ _ _ Km Em). apply X1, I.
    - exact (stable_drops c hs _ _ _ _ _ Km Em X2).
    - intros f I. apply (keeps_kind _ _ _ _ _ K3 Km Em (kindof_out _ _ _)). apply X3, I.
    - intros f. apply (keeps_kind _ _ _ _ _ K3 Km Em (kindof_out _ _ _)).
    - apply (stable_none _ K3 (qn_kind c h) _ _ _ _ _ Km Em). }
  assert (X0 : (forall h, In h hs -> has3 s (qn c h)) /\ drops c hs s /\ (forall f, In f ["beta_p"; "alpha_p"; "OD"]%string -> has3 s (out f "tot" c))).
  { split; [intros; apply Q; right; assumption|]. split; [intros g I; apply D; right; exact I|exact T]. }
  assert (Q0 : has3 s (qn c h)) by (apply Q; left; reflexivity).
  apply runs_bind; [apply runs_assign|intros [] s1 E1].
  destruct (P1 _ (keeps_assign (out "alpha_p" h c) (V3 (fill0 al)) (or_intror (kindof_out _ _ _))) _ _ E1) as (X1 & Y1 & Z1). specialize (X1 X0).
  assert (A1 := ensures_assign _ _ _ _ _ E1). cbn [kind_of] in A1.
  apply runs_bind; [apply runs_assign|intros [] s2 E2].
  destruct (P1 _ (keeps_assign (out "beta_p" h c) (V3 (fill0 be)) (or_intror (kindof_out _ _ _))) _ _ E2) as (X2 & Y2 & Z2). specialize (X2 X1).
  assert (B2 := ensures_assign _ _ _ _ _ E2). cbn [kind_of] in B2.
  apply runs_bind; [apply finish_runs; [auto|exact (Y2 _ A1)|exact B2|apply X2]|intros [] s3 E3].
  destruct (P1 _ (keeps_finish e c z sfc h) _ _ E3) as (X3 & _ & _). destruct (X3 X2) as (X4 & X5 & X6).
  apply IH; [exact X4|exact X5|intros g I; apply O; right; exact I|exact X6].
Qed.
Lemma lidar_empirical_runs o c hs s :
  own_names e -> lower (i_class ins) = "lidar"%string -> o_emp o = true ->
  set_hyd_types e (o_hyds o) = Ok hs -> optical hs ->
  air s -> water c hs s -> drops c hs s -> runs (calc_lidar_moments Gam e ins o c) s.
Proof.
  intros ON CL EM Hs OP AI WA DR. unfold calc_lidar_moments. apply runs_rd; [eauto|intros hs' E]. rewrite Hs in E. injection E as <-.
  rewrite CL. cbn [String.eqb Ascii.eqb Bool.eqb negb].
  apply runs_rd; [eauto|intros b E]. injection E as <-.
  assert (HQ : has s (qn c "cl") = true).
  { destruct (WA "cl"%string (or_introl eq_refl)) as [q Hq]. unfold has. red in Hq. rewrite Hq. reflexivity. }
  rewrite HQ. cbn [negb].
  pose proof AI as (Hp & Ht & Hz & Hv).
  apply runs_rd; [apply reads2, Hp|intros pr _]. apply runs_rd; [apply reads2, Ht|intros tr _].
  apply runs_rd; [apply reads2, Hz|intros zr _]. cbv zeta.
  apply runs_bind; [apply beta_m_runs; assumption|intros u s1 E1].
  assert (KM := keeps_beta_m e (wavelen ins) true).
  assert (B1 : has2 s1 "sigma_180_vol" /\ has2 s1 "tau").
  { split; [assert (Q : ensures (calc_theory_beta_m e (wavelen ins) true) "sigma_180_vol" K2); [|exact (Q _ _ _ E1)]
           |assert (Q : ensures (calc_theory_beta_m e (wavelen ins) true) "tau" K2); [|exact (Q _ _ _ E1)]];
    unfold calc_theory_beta_m; cbv zeta.
    - do 6 (apply ensures_r; intro). apply ensures_l; [apply (ensures_assign _ (V2 _))|reflexivity|]. intro. kp.
    - do 3 (apply ensures_r; intro). apply ensures_l; [apply (ensures_assign _ (V2 _))|reflexivity|]. intro. kp. }
  assert (W1 := stable_water c hs _ _ _ _ _ KM E1 WA). assert (D1 := stable_drops c hs _ _ _ _ _ KM E1 DR).
  apply runs_rd; [apply reads2, B1|intros bm _]. apply runs_rd; [apply reads2, B1|intros tau _]. rewrite EM.
  assert (Z2 : forall s2, zero_totals c s1 = (Ok tt, s2) -> forall f, In f ["beta_p"; "alpha_p"; "OD"]%string -> has3 s2 (out f "tot" c)).
  { intros s2 E2 f I. destruct I as [<-|[<-|[<-|[]]]].
    - assert (Q : ensures (zero_totals c) (out "beta_p" "tot" c) K3); [|exact (Q _ _ _ E2)].
      unfold zero_totals. apply ensures_r; intro. apply ensures_l; [apply (ensures_assign _ (V3 _))|apply kindof_out|]. intro; kp.
    - assert (Q : ensures (zero_totals c) (out "alpha_p" "tot" c) K3); [|exact (Q _ _ _ E2)].
      unfold zero_totals. do 2 (apply ensures_r; intro). apply ensures_l; [apply (ensures_assign _ (V3 _))|apply kindof_out|]. intro; kp.
    - assert (Q : ensures (zero_totals c) (out "OD" "tot" c) K3); [|exact (Q _ _ _ E2)].
      unfold zero_totals. do 3 (apply ensures_r; intro). apply (ensures_assign _ (V3 _)). }
  assert (KZ : keeps (zero_totals c)) by (unfold zero_totals; kp).
  apply runs_bind; [|intros [] s2 E2].
  - unfold calc_lidar_empirical. apply runs_bind.
    + unfold zero_totals. apply runs_rd; [apply reads3, W1; left; reflexivity|intros].
      repeat (apply runs_bind; [apply runs_assign|intros]). apply runs_assign.
    + intros [] s2 E2. apply class_loop_runs; [|exact (stable_drops c hs _ _ _ _ _ KZ E2 D1)|exact OP|exact (Z2 s2 E2)].
      intros h I. apply (stable_water c hs _ _ _ _ _ KZ E2 W1). right; exact I.
  - unfold calc_lidar_empirical in E2. apply bind_inv in E2 as ([] & s3 & E3 & E2). specialize (Z2 s3 E3).
    assert (P : forall f, In f ["beta_p"; "alpha_p"; "OD"]%string -> has3 s2 (out f "tot" c)).
    { intros f I. refine (keeps_kind _ _ _ _ _ K3 _ E2 (kindof_out _ _ _) (Z2 f I)). apply keeps_class_loop. }
    apply runs_rd; [apply reads3, P; simpl; tauto|intros]. apply runs_rd; [apply reads3, P; simpl; tauto|intros]. apply runs_assign.
Qed.
End Run.
