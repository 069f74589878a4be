(** The driver with a lidar: later steps find what earlier ones produced. *)
From Verif Require Import Mom_Base Mom_Spec Mom_Facts Sched_Model Atm_Model Psd_Model Lidar_Model Lidar_Spec
  Radar_Model Class_Model Sim_Model Sim_Spec Sim_Kinds Sim_Facts.
Local Open Scope R_scope.

Lemma ensures_l_none {A B} (m : L A) (f : A -> L B) x k : ensures m x k -> kindof x = None -> (forall a, keeps (f a)) ->
  ensures (lbind m f) x k.
Proof.
  intros H Kx Kf s b s' E. apply bind_inv in E as (a & s1 & E1 & E2).
  eapply haskind_same; [|exact (H s a s1 E1)]. eapply keeps_same; [apply Kf|exact E2|exact Kx].
Qed.
Lemma no_run {A} x y k : ensures (@lraise A x) y k.
Proof. intros s a s' E. discriminate E. Qed.

Section Sim.
Variable Gam : R -> R.
Variables (e : menv) (ins : inst).

Lemma ensures_finish c z sfc h : ensures (finish_class e c z sfc h) (out "OD" h c) K3
  /\ ensures (finish_class e c z sfc h) (out "beta_p" h c) K3
  /\ ensures (finish_class e c z sfc h) (out "alpha_p" "tot" c) K3.
Proof.
  unfold finish_class. repeat split.
  - apply ensures_l; [|apply kindof_out|intro; kp].
    unfold accumulate_OD. do 2 (apply ensures_r; intro). apply (ensures_assign _ (V3 _)).
  - apply ensures_r; intro. apply ensures_l; [apply ensures_rd3|apply kindof_out|intro; kp].
  - do 4 (apply ensures_r; intro). apply ensures_l; [apply ensures_add_to|apply kindof_out|intro; kp].
Qed.
Definition made (c : bool) (hs : list string) (x : string) : Prop :=
  (exists h, In h hs /\ (x = out "OD" h c \/ x = out "beta_p" h c)) \/ (hs <> [] /\ x = out "alpha_p" "tot" c).
Lemma made_head c h hs x : made c (h :: hs) x -> made c hs x \/ (x = out "OD" h c \/ x = out "beta_p" h c \/ x = out "alpha_p" "tot" c).
Proof.
  intros [(g & [->|I] & Q)|[_ Q]]; [tauto| |tauto]. left. left. eauto.
Qed.
Lemma made_kind c hs x : made c hs x -> kindof x = Some K3.
Proof. intros [(h & _ & [-> | ->])|[_ ->]]; apply kindof_out. Qed.
Lemma ensures_class_loop {loc} c z sfc (opt : string -> loc -> dset -> res (loc * (arr3 * arr3))) hs l x :
  made c hs x -> ensures (class_loop e c z sfc (fun _ => lret tt) opt hs l) x K3.
Proof.
  revert l. induction hs as [|h hs IH]; intros l M.
  - exfalso. destruct M as [(h & [] & _)|[N _]]. apply N. reflexivity.
  - simpl. do 2 (apply ensures_r; intro). destruct a0 as [l' [al be]]. do 2 (apply ensures_r; intro).
    destruct (made_head _ _ _ _ M) as [M'|M'].
    + apply ensures_r; intro. apply IH, M'.
    + apply ensures_l; [|exact (made_kind _ _ _ M)|intro; apply keeps_class_loop].
      destruct (ensures_finish c z sfc h) as (F1 & F2 & F3). destruct M' as [->|[->| ->]]; assumption.
Qed.
Lemma ensures_micro_loop z sfc mie sch kw lut hs l x :
  made false hs x -> ensures (micro_loop Gam e ins z sfc mie sch kw lut hs l) x K3.
Proof.
  revert l. induction hs as [|h hs IH]; intros l M.
  - exfalso. destruct M as [(h & [] & _)|[N _]]. apply N. reflexivity.
  - simpl. do 13 (apply ensures_r; intro).
    destruct (made_head _ _ _ _ M) as [M'|M'].
    + apply ensures_r; intro. apply IH, M'.
    + apply ensures_l; [|exact (made_kind _ _ _ M)|intro; apply keeps_micro_loop].
      destruct (ensures_finish false z sfc h) as (F1 & F2 & F3). destruct M' as [->|[->| ->]]; assumption.
Qed.
Lemma lidar_ensures o c hs x : set_hyd_types e (o_hyds o) = Ok hs ->
  made c hs x -> ensures (calc_lidar_moments Gam e ins o c) x K3.
Proof.
  intros HH M. unfold calc_lidar_moments. intros s a s' E. rewrite (bind_rd _ _ _ hs) in E by exact HH. revert s a s' E.
  change (ensures (fun s => (if negb (String.eqb (lower (i_class ins)) "lidar") then lraise ValueError
  else
    run q <- rd (fun s => Ok (has s (qn c "cl")));
    if negb q then lraise KeyError
    else
      run pr <- rd (fun s => g2 s (p_name e));
      run tr <- rd (fun s => g2 s (t_name e));
      run zr <- rd (fun s => g2 s (z_name e));
      let p : arr2 := fun t k => p_pa e (pr t k) in
      let tc : arr2 := fun t k => t_cel e (tr t k) in
      let z : arr2 := fun t k => z_met e (zr t k) in
      run _ <- calc_theory_beta_m e (wavelen ins) true;
      run bm <- rd (fun s => g2 s "sigma_180_vol");
      run tau <- rd (fun s => g2 s "tau");
      run _ <- (if o_emp o then calc_lidar_empirical e ins c p tc z (o_sfc o) hs
                else if o_rad o || c then calc_lidar_bulk e ins c p z (o_sfc o) hs (o_mie o)
                else calc_lidar_micro Gam e ins z (o_sfc o) hs (o_mie o) (o_sched o) (o_kw o));
      run b <- rd (fun s => g3 s (out "beta_p" "tot" c));
      run od <- rd (fun s => g3 s (out "OD" "tot" c));
      assign (out "beta_att" "tot" c)
        (V3 (fun i t k => att_cell (o_eta o) (bm t k) (b i t k) (tau t k) (od i t k)))) s) x K3).
  destruct (negb _); [apply no_run|].
  match goal with |- ensures (fun s => ?m s) _ _ => change (ensures m x K3) end.
  apply ensures_r; intro q; destruct (negb q); [apply no_run|].
  do 6 (apply ensures_r; intro). cbv zeta.
  apply ensures_l; [|exact (made_kind _ _ _ M)|intro; kp].
  destruct (o_emp o); [|destruct (o_rad o || c) eqn:RC].
  - unfold calc_lidar_empirical. apply ensures_r; intro. apply ensures_class_loop. exact M.
  - unfold calc_lidar_bulk. repeat (apply ensures_r; intro). apply ensures_class_loop. exact M.
  - apply Bool.orb_false_iff in RC as [_ ->].
    unfold calc_lidar_micro. do 2 (apply ensures_r; intro). apply ensures_micro_loop. exact M.
Qed.
End Sim.

Section Later.
Variable Gam : R -> R.
Variables (e : menv) (ins : inst).

Definition final_name (x : string) : Prop := moment_name x \/ is_mask x.
(** 3-D variables stay; only output names change. *)
Definition grown (s s' : dset) : Prop :=
  (forall x, has3 s x -> has3 s' x) /\ (forall x, ~ final_name x \/ x = "sigma_180_vol"%string \/ x = "tau"%string ->
     assoc (dvars s') x = assoc (dvars s) x).
Lemma grown_refl s : grown s s.
Proof. split; auto. Qed.
Lemma grown_trans s1 s2 s3 : grown s1 s2 -> grown s2 s3 -> grown s1 s3.
Proof. intros [A B] [C D]. split; [auto|]. intros x H. rewrite D, B; auto. Qed.
Definition writable (n : string) : Prop := final_name n /\ n <> "sigma_180_vol"%string /\ n <> "tau"%string.
Lemma grown_put s n a : writable n -> grown s (upd s n (V3 a)).
Proof.
  intros (F & N1 & N2). split.
  - intros x H. apply (haskind_put s n (V3 a) x K3 H). auto.
  - intros x H. apply upd_other. intros ->. tauto.
Qed.
Lemma writable_sub y : writable ("sub_col_" ++ y).
Proof. split; [left; right; eauto|]. split; discriminate. Qed.
Definition sure {A} (m : L A) (s : dset) : Prop := exists a s', m s = (Ok a, s') /\ grown s s'.
Lemma sure_ret {A} (a : A) s : sure (lret a) s.
Proof. exists a, s. split; [reflexivity|apply grown_refl]. Qed.
Lemma sure_put n a s : writable n -> sure (assign n (V3 a)) s.
Proof. intro W. exists tt. eexists. rewrite assign_eq. split; [reflexivity|]. apply grown_put. exact W. Qed.
Lemma sure_bind {A B} (m : L A) (f : A -> L B) s : sure m s -> (forall a s', grown s s' -> sure (f a) s') -> sure (lbind m f) s.
Proof.
  intros (a & s1 & E & G) H. destruct (H a s1 G) as (b & s2 & E2 & G2). exists b, s2.
  rewrite (bind_ok _ _ _ _ _ E). split; [exact E2|]. eapply grown_trans; eassumption.
Qed.
Lemma sure_rd {A B} (r : dset -> res A) (f : A -> L B) s : (exists a, r s = Ok a) -> (forall a, sure (f a) s) -> sure (lbind (rd r) f) s.
Proof. intros [a E] H. destruct (H a) as (b & s' & E' & G). exists b, s'. rewrite (bind_rd _ _ _ a) by exact E. auto. Qed.
Lemma sure_rdv {A B} (r : dset -> res A) (f : A -> L B) s a : r s = Ok a -> sure (f a) s -> sure (lbind (rd r) f) s.
Proof. intros E (b & s' & E' & G). exists b, s'. rewrite (bind_rd _ _ _ a) by exact E. auto. Qed.
Lemma reads3 s x : has3 s x -> exists a, g3 s x = Ok a.
Proof. intros [a H]. exists a. apply g3_var. exact H. Qed.
Lemma reads2 s x : has2 s x -> exists a, g2 s x = Ok a.
Proof. intros [a H]. exists a. apply g2_var. exact H. Qed.
Lemma grown2 s s' x : grown s s' -> ~ final_name x \/ x = "sigma_180_vol"%string \/ x = "tau"%string -> has2 s x -> has2 s' x.
Proof. intros [_ G] N. apply (haskind_same s s' x K2). auto. Qed.

Lemma total_of_ok f s : has3 s (out f "tot" false) -> (p_conv e = true -> has3 s (out f "tot" true)) ->
  exists a, total_of e f s = Ok a.
Proof.
  intros H HC. unfold total_of. destruct (reads3 _ _ H) as [a ->]. destruct (p_conv e); [|eexists; reflexivity].
  destruct (reads3 _ _ (HC eq_refl)) as [b ->]. eexists; reflexivity.
Qed.
Definition totals_of (s : dset) : Prop :=
  forall f, In f ["beta_p"; "alpha_p"; "OD"]%string -> has3 s (out f "tot" false) /\ (p_conv e = true -> has3 s (out f "tot" true)).
Lemma grown_totals s s' : grown s s' -> totals_of s -> totals_of s'.
Proof. intros [G _] T f I. destruct (T f I). auto. Qed.
Definition combined (s : dset) : Prop := has3 s "sub_col_beta_p_tot" /\ has3 s "sub_col_OD_tot".
Lemma ab_sure eta s : totals_of s -> has2 s "sigma_180_vol" -> has2 s "tau" ->
  exists s', calc_total_alpha_beta e eta s = (Ok tt, s') /\ grown s s' /\ combined s'.
Proof.
  intros T H1 H2.
  assert (S : sure (calc_total_alpha_beta e eta) s).
  { unfold calc_total_alpha_beta.
    apply sure_rd; [apply total_of_ok; apply T; simpl; tauto|]. intro b.
    apply sure_bind; [apply sure_put, (writable_sub "beta_p_tot")|]. intros _ s1 G1. pose proof (grown_totals _ _ G1 T) as T1.
    apply sure_rd; [apply total_of_ok; apply T1; simpl; tauto|]. intro a.
    apply sure_bind; [apply sure_put, (writable_sub "alpha_p_tot")|]. intros _ s2 G2. pose proof (grown_totals _ _ G2 T1) as T2.
    apply sure_rd; [apply total_of_ok; apply T2; simpl; tauto|]. intro o.
    apply sure_bind; [apply sure_put, (writable_sub "OD_tot")|]. intros _ s3 G3.
    pose proof (grown_trans _ _ _ (grown_trans _ _ _ G1 G2) G3) as G.
    apply sure_rd; [apply reads2; eapply grown2; eauto|]. intro bm.
    apply sure_rd; [apply reads2; eapply grown2; eauto|]. intro tau.
    apply sure_put, (writable_sub "beta_att_tot"). }
  destruct S as ([] & s' & E & G). exists s'. split; [exact E|]. split; [exact G|].
  assert (Q : ensures (calc_total_alpha_beta e eta) "sub_col_beta_p_tot" K3 /\ ensures (calc_total_alpha_beta e eta) "sub_col_OD_tot" K3).
  { unfold calc_total_alpha_beta. split.
    - apply ensures_r; intro. apply ensures_l; [apply (ensures_assign _ (V3 _))|reflexivity|]. intro. kp.
    - do 5 (apply ensures_r; intro). apply ensures_l; [apply (ensures_assign _ (V3 _))|reflexivity|]. intro. kp. }
  destruct Q as [Q1 Q2]. split; [exact (Q1 _ _ _ E)|exact (Q2 _ _ _ E)].
Qed.

Definition per_class (hs : list string) (s : dset) : Prop :=
  forall c h, (c = true -> p_conv e = true) -> In h hs -> has3 s (out "beta_p" h c) /\ has3 s (out "OD" h c).
Lemma grown_class hs s s' : grown s s' -> per_class hs s -> per_class hs s'.
Proof. intros [G _] T c h C I. destruct (T c h C I). auto. Qed.
Lemma ldr_sums_ok c hs num den s : (forall h, In h hs -> has3 s (out "beta_p" h c)) ->
  (forall h, In h hs -> exists w, dict (ldr_hyd e) h = Ok w) -> exists r, ldr_sums e c hs num den s = Ok r.
Proof.
  revert num den. induction hs as [|h hs IH]; intros num den B W; [eexists; reflexivity|].
  simpl. destruct (reads3 _ _ (B h (or_introl eq_refl))) as [b ->]. destruct (W h (or_introl eq_refl)) as [w ->].
  simpl. apply IH; intros; [apply B|apply W]; right; assumption.
Qed.
Lemma ldr_loop_sure hs : (forall h, In h hs -> exists w, dict (ldr_hyd e) h = Ok w) ->
  forall cls num den s, (forall c, In c cls -> c = true -> p_conv e = true) -> per_class hs s -> sure (ldr_loop e cls hs num den) s.
Proof.
  intros W. induction cls as [|c cls IH]; intros num den s C P; [apply sure_ret|].
  simpl. apply sure_rd.
  { apply ldr_sums_ok; [|exact W]. intros h I. apply P; [intro; apply (C c (or_introl eq_refl)); assumption|exact I]. }
  intros [n d]. apply sure_bind; [apply sure_put; destruct c; apply (writable_sub ("LDR_" ++ _))|].
  intros _ s1 G. apply IH; [intros; apply (C c0); [right|]; assumption|]. exact (grown_class _ _ _ G P).
Qed.
Lemma keeps_ldr_loop hs cls num den : keeps (ldr_loop e cls hs num den).
Proof. revert num den. induction cls as [|c cls IH]; intros; simpl; kp. apply IH. Qed.
Lemma ldr_loop_has hs cls num den c : In c cls -> ensures (ldr_loop e cls hs num den) ("sub_col_LDR_" ++ cs c) K3.
Proof.
  revert num den. induction cls as [|d cls IH]; intros num den I; [destruct I|].
  simpl. apply ensures_r; intros [n q]. destruct I as [->|I].
  - apply ensures_l; [apply (ensures_assign _ (V3 _))|destruct c; reflexivity|]. intro. apply keeps_ldr_loop.
  - apply ensures_r; intro. apply IH. exact I.
Qed.
Definition ldr_made (s : dset) : Prop :=
  has3 s "sub_col_LDR_tot" /\ has3 s "sub_col_LDR_strat" /\ (p_conv e = true -> has3 s "sub_col_LDR_conv").
Lemma ldr_sure ext sfc arg hso hs h0 rest s :
  set_hyd_types e hso = Ok hs -> hyds e = h0 :: rest -> In h0 hs ->
  (forall h, In h hs -> exists w, dict (ldr_hyd e) h = Ok w) -> per_class hs s -> has3 s "sub_col_OD_tot" ->
  exists s', calc_LDR_and_ext e ext sfc arg hso s = (Ok tt, s') /\ grown s s' /\ ldr_made s'.
Proof.
  intros Hs H0 I0 W P O.
  assert (S : sure (calc_LDR_and_ext e ext sfc arg hso) s).
  { unfold calc_LDR_and_ext. apply (sure_rdv _ _ _ hs Hs). apply (sure_rdv _ _ _ h0); [rewrite H0; reflexivity|].
    apply sure_rd; [apply reads3; apply P; [discriminate|exact I0]|]. intros _.
    apply sure_bind; [apply ldr_loop_sure; [exact W| |exact P]; destruct (p_conv e); simpl; intuition congruence|].
    intros [n d] s1 G1. apply sure_bind; [apply sure_put, (writable_sub "LDR_tot")|]. intros _ s2 G2.
    apply sure_rd; [apply reads3; apply G2, G1, O|]. intro od.
    apply sure_put. split; [left; left; vm_compute; tauto|]. split; discriminate. }
  destruct S as ([] & s' & E & G). exists s'. split; [exact E|]. split; [exact G|].
  unfold calc_LDR_and_ext in E. rewrite (bind_rd _ _ _ hs) in E by exact Hs.
  rewrite (bind_rd _ _ _ h0) in E by (rewrite H0; reflexivity).
  apply bind_inv in E as (b & s1 & E1 & E). apply rd_inv in E1 as [_ ->].
  apply bind_inv in E as ([n d] & s1 & E1 & E).
  assert (T : forall x, has3 s1 x -> has3 s' x).
  { rewrite bind_assign in E. apply bind_inv in E as (od & s2 & E2 & E). apply rd_inv in E2 as [_ ->].
    rewrite assign_eq in E. injection E as <-. intros x H.
    apply (haskind_put _ _ (V3 _) x K3); [|auto]. apply (haskind_put _ _ (V3 _) x K3); auto. }
  split; [|split].
  - rewrite bind_assign in E. apply bind_inv in E as (od & s2 & E2 & E). apply rd_inv in E2 as [_ ->].
    rewrite assign_eq in E. injection E as <-.
    apply (haskind_put _ _ (V3 _) _ K3); [|auto]. eexists. apply upd_same.
  - apply T. refine (ldr_loop_has hs _ _ _ false _ s _ _ E1). destruct (p_conv e); simpl; tauto.
  - intro PC. apply T. refine (ldr_loop_has hs _ _ _ true _ s _ _ E1). rewrite PC; simpl; tauto.
Qed.

(** *** Classification *)
Lemma writable_mask x : is_mask x -> writable x.
Proof.
  intro M. split; [right; exact M|]. destruct M as (y & I). simpl in I.
  split; intros ->; intuition discriminate.
Qed.
Lemma classify_sure ext ths conv0 remove mask ldr od beta s : is_mask mask ->
  has3 s "sub_col_LDR_tot" -> has3 s "sub_col_LDR_strat" -> has3 s ldr -> has3 s od -> has3 s beta ->
  legend_ok ths = true -> sure (classify_one ext ths conv0 remove mask ldr od beta) s.
Proof.
  intros M H1 H2 H3 H4 H5 LG. unfold classify_one. apply sure_rd; [apply reads3, H1|]. intros _.
  apply sure_bind.
  { destruct ths; [apply sure_ret|]. apply sure_rd; [apply reads3, H5|]. intro. apply sure_rd; [apply reads3, H3|]. intro.
    apply sure_ret. }
  intros bl s1 G1. rewrite LG. apply sure_bind; [apply sure_ret|]. intros _ s2 G2. cbv zeta.
  apply sure_bind.
  { destruct remove; [|apply sure_ret]. apply sure_rd; [apply reads3, G2, G1, H4|]. intro. apply sure_ret. }
  intros m s3 G3. apply sure_rd; [apply reads3, G3, G2, G1, H2|]. intros _. apply sure_put, writable_mask, M.
Qed.
Lemma legend_iff ths : legend_ok ths = true <-> forall th, In th ths -> (th_ind th <= length ths)%nat.
Proof.
  unfold legend_ok. rewrite forallb_forall. split; intros H th I; specialize (H th I); [apply Nat.leb_le|apply Nat.leb_le]; exact H.
Qed.
Lemma sure_eq {A} (m : L A) n s : m s = n s -> sure n s -> sure m s.
Proof. intros E (a & s' & E' & G). exists a, s'. rewrite E. auto. Qed.
Lemma phase_sure deflt conv0 s : lower (i_class ins) = "lidar"%string -> deflt <> [] ->
  (forall th, In th deflt -> (th_ind th <= length deflt)%nat) ->
  ldr_made s -> combined s -> totals_of s ->
  exists s', lidar_classify_phase e ins deflt None conv0 true s = (Ok tt, s') /\ grown s s'.
Proof.
  intros CL ND LG (L1 & L2 & L3) (B1 & B2) T. apply legend_iff in LG.
  assert (S : sure (lidar_classify_phase e ins deflt None conv0 true) s).
  { unfold lidar_classify_phase. rewrite CL. cbn [String.eqb Ascii.eqb Bool.eqb negb].
    eapply sure_eq.
    { replace (match deflt with [] => lraise ValueError | _ :: _ => lret deflt end) with (@lret (list thr) deflt)
        by (destruct deflt; [congruence|reflexivity]). apply bind_lret. }
    apply sure_bind.
    - destruct (p_conv e) eqn:PC; [|apply sure_ret].
      destruct (T "beta_p"%string) as [Tb1 Tb2]; [simpl; tauto|]. destruct (T "OD"%string) as [To1 To2]; [simpl; tauto|].
      apply sure_bind.
      + apply classify_sure; try assumption. exists (i_str ins). simpl. tauto.
      + intros _ s1 [G1 _]. apply classify_sure; try (apply G1); auto. exists (i_str ins). simpl. tauto.
    - intros _ s1 [G1 _]. apply classify_sure; try (apply G1); auto. exists (i_str ins ++ "_all_hyd")%string. simpl. tauto. }
  destruct S as ([] & s' & E & G). eauto.
Qed.
Lemma group_sure c hs l s : (c = true -> p_conv e = true) -> per_class hs s -> sure (cosp_group c hs l) s.
Proof.
  intros C P. induction l as [|h l IH]; [apply sure_ret|]. simpl. destruct (memb h hs) eqn:M; [|exact IH].
  assert (I : In h hs).
  { unfold memb in M. apply existsb_exists in M as (x & I & E). apply String.eqb_eq in E as ->. exact I. }
  destruct (P c h C I). apply sure_rd; [apply reads3; assumption|]. intro. apply sure_rd; [apply reads3; assumption|]. intro.
  apply sure_bind; [exact IH|]. intros. apply sure_ret.
Qed.
Lemma store_sure o mask suffix sig tau b cr od s : is_mask mask -> c_atb o = false ->
  has3 s "strat_q_subcolumns_cl" -> has2 s (t_name e) -> sure (cosp_store e o mask suffix sig tau b cr od) s.
Proof.
  intros M A H1 H2. unfold cosp_store. cbv zeta. apply sure_rd; [apply reads3, H1|]. intros _.
  apply sure_rd; [apply reads2, H2|]. intro. apply sure_bind; [apply sure_put, writable_mask, M|].
  intros. rewrite A. apply sure_ret.
Qed.
Lemma type_sure o hs sig tau c acc s : c_atb o = false -> (c = true -> p_conv e = true) -> per_class hs s ->
  has3 s "strat_q_subcolumns_cl" -> has2 s (t_name e) -> ~ final_name (t_name e) -> sure (cosp_type e o hs sig tau c acc) s.
Proof.
  intros A C P H1 H2 N. unfold cosp_type. apply sure_bind; [apply group_sure; assumption|]. intros l s1 G1.
  apply sure_bind; [apply group_sure; [exact C|exact (grown_class _ _ _ G1 P)]|]. intros ic s2 G2. cbv zeta.
  pose proof (grown_trans _ _ _ G1 G2) as G.
  apply sure_bind; [apply store_sure; [exists ""%string; destruct c; simpl; tauto|exact A|apply G, H1|]|].
  - eapply grown2; eauto.
  - intros _ s3 G3. destruct acc as [[? ?] ?]. apply sure_ret.
Qed.
Lemma cosp_sure o hs s : i_str ins = "HSRL"%string -> c_atb o = false -> set_hyd_types e (c_hyds o) = Ok hs -> per_class hs s ->
  has3 s "strat_q_subcolumns_cl" -> has2 s (t_name e) -> ~ final_name (t_name e) ->
  has2 s "sigma_180_vol" -> has2 s "tau" -> has3 s (out "beta_p" "tot" false) ->
  sure (lidar_emulate_cosp_phase e ins o) s.
Proof.
  intros HI A Hs P H1 H2 N H3 H4 H5. unfold lidar_emulate_cosp_phase. apply (sure_rdv _ _ _ hs Hs). rewrite HI.
  cbn [String.eqb Ascii.eqb Bool.eqb negb].
  apply sure_rd; [apply reads2, H3|]. intro sig. apply sure_rd; [apply reads2, H4|]. intro tau.
  apply sure_rd; [apply reads3, H5|]. intros _.
  apply sure_bind.
  - destruct (p_conv e) eqn:PC; [|apply sure_ret]. apply type_sure; auto.
  - intros a1 s1 G1. apply sure_bind.
    + apply type_sure; auto; [discriminate|exact (grown_class _ _ _ G1 P)|apply G1, H1|eapply grown2; eauto].
    + intros [[b cr] od] s2 G2. pose proof (grown_trans _ _ _ G1 G2) as G.
      apply store_sure; [exists "all_hyd"%string; simpl; tauto|exact A|apply G, H1|eapply grown2; eauto].
Qed.

(** What the moments leave. *)
Lemma lidar_reads o c s s' : calc_lidar_moments Gam e ins o c s = (Ok tt, s') ->
  has2 s (t_name e) /\ has2 s' "sigma_180_vol" /\ has2 s' "tau" /\
  has3 s' (out "beta_p" "tot" c) /\ has3 s' (out "OD" "tot" c) /\ (c = false -> has3 s (qn false "cl")).
Proof.
  intro E0. pose proof E0 as E. unfold calc_lidar_moments in E.
  apply bind_inv in E as (hs & s1 & E1 & E). apply rd_inv in E1 as [_ ->].
  destruct (negb _); [discriminate|]. apply bind_inv in E as (q & s1 & E1 & E). apply rd_inv in E1 as [_ ->].
  destruct (negb q); [discriminate|].
  apply bind_inv in E as (pr & s1 & E1 & E). apply rd_inv in E1 as [_ ->].
  apply bind_inv in E as (tr & s1 & E1 & E). apply rd_inv in E1 as [ET ->].
  apply bind_inv in E as (zr & s1 & E1 & E). apply rd_inv in E1 as [_ ->]. cbv zeta in E.
  apply bind_inv in E as ([] & s1 & EB & E). pose proof (keeps_beta_m e (wavelen ins) true) as KB.
  split; [exists tr; apply g2_ok; exact ET|].
  assert (Q1 : forall m : arr2 -> arr2 -> L unit, (forall b t, keeps (m b t)) -> 
     forall s', (run bm <- rd (fun s => g2 s "sigma_180_vol"); run tau <- rd (fun s => g2 s "tau"); m bm tau) s1 = (Ok tt, s') ->
     has2 s' "sigma_180_vol" /\ has2 s' "tau").
  { intros m Km s2 Em. split.
    - refine (ensures_l (rd (fun s => g2 s "sigma_180_vol")) _ "sigma_180_vol" K2 (ensures_rd2 _) eq_refl _ s1 tt s2 Em). intro. kp. apply Km.
    - refine (ensures_r (rd (fun s => g2 s "sigma_180_vol")) _ "tau" K2 _ s1 tt s2 Em). intro.
      apply ensures_l; [apply ensures_rd2|reflexivity|]. intro. apply Km. }
  assert (Q2 : has2 s' "sigma_180_vol" /\ has2 s' "tau").
  { eapply Q1; [|exact E]. intros b t. kp; first [apply keeps_lemp|apply keeps_lbulk|apply keeps_lmicro]. }
  clear Q1.
  destruct Q2 as [Q2 Q3]. split; [exact Q2|]. split; [exact Q3|].
  apply bind_inv in E as (bm & s2 & E1 & E). apply rd_inv in E1 as [_ ->].
  apply bind_inv in E as (ta & s2 & E1 & E). apply rd_inv in E1 as [_ ->].
  apply bind_inv in E as ([] & s2 & EM & E).
  apply bind_inv in E as (b & s3 & E1 & E). apply rd_inv in E1 as [Eb ->].
  apply bind_inv in E as (od & s3 & E1 & E). apply rd_inv in E1 as [Eo ->].
  rewrite assign_eq in E. injection E as <-.
  split; [apply (haskind_put _ _ (V3 _) _ K3); [exists b; apply g3_ok; exact Eb|auto]|].
  split; [apply (haskind_put _ _ (V3 _) _ K3); [exists od; apply g3_ok; exact Eo|auto]|].
  intros ->.
  assert (H1 : has3 s1 (qn false "cl")).
  { destruct (o_emp o); [|destruct (o_rad o || false)].
    - unfold calc_lidar_empirical in EM. apply bind_inv in EM as ([] & s3 & EM & _). unfold zero_totals in EM.
      apply bind_inv in EM as (a & s4 & EM & _). apply rd_inv in EM as [EM _]. exists a. apply g3_ok. exact EM.
    - unfold calc_lidar_bulk in EM. apply bind_inv in EM as (lu & s3 & EL & EM). apply rd_inv in EL as [_ ->].
      apply bind_inv in EM as ([] & s4 & EM & _). unfold zero_totals in EM.
      apply bind_inv in EM as (a & s5 & EM & _). apply rd_inv in EM as [EM _]. exists a. apply g3_ok. exact EM.
    - unfold calc_lidar_micro in EM. apply bind_inv in EM as (lu & s3 & EL & EM). apply rd_inv in EL as [_ ->].
      apply bind_inv in EM as (a & s4 & EM & _). apply rd_inv in EM as [EM _]. exists a. apply g3_ok. exact EM. }
  eapply (haskind_same _ _ _ K3); [|exact H1]. symmetry. eapply keeps_same; [exact KB|exact EB|reflexivity].
Qed.

Lemma lidar_steps a o hs h0 rest s s1 s2 :
  own_inputs e -> lower (i_class ins) = "lidar"%string ->
  set_hyd_types e (m_hyds o) = Ok hs -> hyds e = h0 :: rest -> In h0 hs ->
  (forall h, In h hs -> exists w, dict (ldr_hyd e) h = Ok w) ->
  (m_classify o = true -> i_str ins = "HSRL"%string /\ ia_thresh a <> [] /\
     (forall th, In th (ia_thresh a) -> (th_ind th <= length (ia_thresh a))%nat)) ->
  calc_lidar_moments Gam e ins (sim_lopts e a o false) false s = (Ok tt, s1) ->
  (if p_conv e then calc_lidar_moments Gam e ins (sim_lopts e a o true) true s1 = (Ok tt, s2) else s2 = s1) ->
  exists s', simulate_lidar Gam e ins a o s = (Ok tt, s').
Proof.
  intros [ON OM] CL Hs H0 I0 W CF E1 E2. unfold simulate_lidar. rewrite (bind_ok _ _ _ _ _ E1).
  assert (E2' : (if p_conv e then calc_lidar_moments Gam e ins (sim_lopts e a o true) true else lret tt) s1 = (Ok tt, s2)).
  { destruct (p_conv e); [exact E2|]. subst. reflexivity. }
  rewrite (bind_ok _ _ _ _ _ E2').
  assert (KP : keeps (if p_conv e then calc_lidar_moments Gam e ins (sim_lopts e a o true) true else lret tt)).
  { destruct (p_conv e); [apply keeps_lidar|apply keeps_ret]. }
  assert (NT : ~ final_name (t_name e)).
  { intros [F|F]; [apply (ON (t_name e)); simpl; tauto|apply (OM (t_name e)); simpl; tauto]. }
  assert (Kt : kindof (t_name e) = None).
  { apply kindof_none. intro F. apply NT. left. exact F. }
  assert (MD : forall x, made false hs x -> has3 s2 x).
  { intros x M. eapply (keeps_kind _ _ _ _ x K3 KP E2'); [exact (made_kind _ _ _ M)|].
    exact (lidar_ensures Gam e ins (sim_lopts e a o false) _ hs x Hs M _ _ _ E1). }
  assert (MC : p_conv e = true -> forall x, made true hs x -> has3 s2 x).
  { intros PC x M. rewrite PC in E2. exact (lidar_ensures Gam e ins (sim_lopts e a o true) true hs x Hs M _ _ _ E2). }
  destruct (lidar_reads _ _ _ _ E1) as (T0 & S1 & U1 & B1 & O1 & Q0).
  assert (NE : hs <> []) by (intros ->; destruct I0).
  assert (TT : totals_of s2).
  { intros f F. split.
    - destruct F as [<-|[<-|[<-|[]]]].
      + exact (keeps_kind _ _ _ _ _ K3 KP E2' (kindof_out _ _ _) B1).
      + apply MD. right. auto.
      + exact (keeps_kind _ _ _ _ _ K3 KP E2' (kindof_out _ _ _) O1).
    - intro PC. specialize (MC PC). rewrite PC in E2. destruct (lidar_reads _ _ _ _ E2) as (_ & _ & _ & B2 & O2 & _).
      destruct F as [<-|[<-|[<-|[]]]]; [exact B2| |exact O2]. apply MC. right. auto. }
  assert (PL : per_class hs s2).
  { intros [|] h C I.
    - specialize (MC (C eq_refl)). split; apply MC; left; exists h; auto.
    - split; apply MD; left; exists h; auto. }
  assert (S2 := keeps_kind _ _ _ _ "sigma_180_vol"%string K2 KP E2' eq_refl S1).
  assert (U2 := keeps_kind _ _ _ _ "tau"%string K2 KP E2' eq_refl U1).
  destruct (ab_sure (sim_eta a o) s2 TT S2 U2) as (s3 & E3 & G3 & CB). rewrite (bind_ok _ _ _ _ _ E3).
  destruct (ldr_sure (sim_ext ins o) (sim_sfc a o) None (m_hyds o) hs h0 rest s3 Hs H0 I0 W (grown_class _ _ _ G3 PL) (proj2 CB))
    as (s4 & E4 & G4 & LM). rewrite (bind_ok _ _ _ _ _ E4).
  destruct (m_classify o); [|eexists; reflexivity]. destruct (CF eq_refl) as (HI & ND & LG).
  destruct CB as [C1 C2].
  destruct (phase_sure (ia_thresh a) (m_conv0 o) s4 CL ND LG LM) as (s5 & E5 & G5).
  { split; apply G4; assumption. }
  { exact (grown_totals _ _ G4 (grown_totals _ _ G3 TT)). }
  rewrite (bind_ok _ _ _ _ _ E5).
  pose proof (grown_trans _ _ _ (grown_trans _ _ _ G3 G4) G5) as G.
  assert (T2 : has2 s2 (t_name e)).
  { eapply (haskind_same _ _ _ K2); [|exact T0].
    rewrite (keeps_same _ _ _ _ (t_name e) KP E2' Kt).
    exact (keeps_same _ _ _ _ (t_name e) (keeps_lidar Gam e ins _ _) E1 Kt). }
  assert (Q2 : has3 s2 (qn false "cl")).
  { eapply (haskind_same _ _ _ K3); [|exact (Q0 eq_refl)].
    rewrite (keeps_same _ _ _ _ (qn false "cl") KP E2' eq_refl).
    exact (keeps_same _ _ _ _ (qn false "cl") (keeps_lidar Gam e ins _ _) E1 eq_refl). }
  destruct (cosp_sure (sim_copts a o) hs s5 HI eq_refl Hs) as ([] & s6 & E6 & _).
  - exact (grown_class _ _ _ G PL).
  - apply G. exact Q2.
  - eapply grown2; [exact G|tauto|exact T2].
  - exact NT.
  - eapply grown2; [exact G|tauto|exact S2].
  - eapply grown2; [exact G|tauto|exact U2].
  - apply G. apply TT. simpl; tauto.
  - exists s6. exact E6.
Qed.
End Later.
