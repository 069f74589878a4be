(** Making the same simulation again (empirical and bulk methods). *)
From Verif Require Import Mom_Base Mom_Spec Mom_Facts Sched_Model Atm_Model Psd_Model Lidar_Model Lidar_Spec Lidar_Loop Lidar_Api
  Radar_Model Radar_Spec Radar_Loop Radar_Api Class_Model Sim_Model Sim_Spec Sim_Commute Sim_Frame Sim_Two.
Local Open Scope R_scope.

(** A computation whose result only depends on variables in [E] and the ones
    in [P], which afterwards determines the ones in [P'] too. *)
Section Stp.
Variable E : string -> Prop.
Definition known (P : list string) (x : string) : Prop := E x \/ In x P.
Definition stp {A} (P : list string) (m : L A) (P' : list string) : Prop := dep (known P) m (known P').
Lemma stp_ret {A} P (a : A) : stp P (lret a) P.
Proof. apply dep_ret. Qed.
Lemma stp_raise {A} P P' e : stp P (@lraise A e) P'.
Proof. apply dep_raise. Qed.
Lemma stp_g3 P n : known P n -> stp P (rd (fun s => g3 s n)) P.
Proof. intro K. apply dep_rd. intros s t A. exact (agree_g3 _ _ _ n A K). Qed.
Lemma stp_g2 P n : known P n -> stp P (rd (fun s => g2 s n)) P.
Proof. intro K. apply dep_rd. intros s t A. exact (agree_g2 _ _ _ n A K). Qed.
Lemma stp_gb P n : known P n -> stp P (rd (fun s => gb s n)) P.
Proof. intro K. apply dep_rd. intros s t A. exact (agree_gb _ _ _ n A K). Qed.
Lemma stp_rd {A} P (f : dset -> res A) : (forall s t, agree (known P) s t -> f s = f t) -> stp P (rd f) P.
Proof. intro F. apply dep_rd. exact F. Qed.
Lemma stp_assign P n v : stp P (assign n v) (n :: P).
Proof.
  eapply dep_weaken; [intros x Hx; exact Hx| |apply dep_assign]. intros x [H|[H|H]]; [left; left; exact H|right; symmetry; exact H|left; right; exact H].
Qed.
Lemma stp_bind {A B} P Q R (m : L A) (f : A -> L B) : stp P m Q -> (forall a, stp Q (f a) R) -> stp P (lbind m f) R.
Proof. intros M F. eapply dep_bind; [exact M|exact F]. Qed.
End Stp.
(** A computation that writes all of [W] and reads of [W] only what it wrote. *)
Lemma again_eq (m : L unit) W s s1 : (forall E : string -> Prop, (forall x, ~ In x W -> E x) -> exists P, stp E [] m P /\ forall x, In x W -> In x P) ->
  frame W m -> m s = (Ok tt, s1) -> exists s2, m s1 = (Ok tt, s2) /\ forall x, assoc (dvars s2) x = assoc (dvars s1) x.
Proof.
  intros S F H. set (E := fun x => assoc (dvars s) x = assoc (dvars s1) x).
  assert (HE : forall x, ~ In x W -> E x) by (intros x N; symmetry; exact (frame_run W m s _ s1 F H x N)).
  destruct (S E HE) as (P & D & I). assert (A : agree (known E []) s s1) by (intros x [K|[]]; exact K).
  specialize (D s s1 A). rewrite H in D. destruct (m s1) as [[[]|b] s2]; [|contradiction].
  exists s2. split; [reflexivity|]. destruct D as [_ D]. intro x. symmetry. apply D.
  destruct (in_dec string_dec x W) as [J|J]; [right; exact (I x J)|left; exact (HE x J)].
Qed.

Section Runs.
Variable Gam : R -> R.
Variables (e : menv) (ins : inst).
Hypothesis Sep : separate_inputs e.

Definition radar_all (hs : list string) (cl : bool) : list string :=
  (if cl then (if p_conv e then ["phase_mask_" ++ i_str ins ++ "_sounding_all_hyd"; "conv_phase_mask_" ++ i_str ins ++ "_sounding";
                                 "strat_phase_mask_" ++ i_str ins ++ "_sounding"]
               else ["phase_mask_" ++ i_str ins ++ "_sounding_all_hyd"]) else [])%string
  ++ ["detect_mask"; "sub_col_Ze_tot"; "sub_col_Ze_att_tot"; "sub_col_Ze_tot"; "Ze_min"]%string
  ++ (if p_conv e then radar_outs true hs ++ radar_outs false hs else radar_outs false hs).
Lemma radar_all_names hs cl x : In x (radar_all hs cl) -> result_name x.
Proof.
  intro I. apply (radar_is_result ins). unfold radar_all in I. rewrite !in_app_iff in I. destruct I as [I|[I|I]].
  - right. right. destruct cl; [|destruct I]. destruct (p_conv e); simpl in *; tauto.
  - simpl in I. destruct I as [<-|[<-|[<-|[<-|[<-|[]]]]]]; [left; simpl; tauto| | | |left; simpl; tauto]; right; left; eexists; reflexivity.
  - destruct (p_conv e); [apply in_app_iff in I as [I|I]|]; eapply radar_outs_names; exact I.
Qed.
Definition lidar_all (hs : list string) (cl : bool) : list string :=
  (if cl then (if p_conv e then ["COSP_phase_mask_all_hyd"; "strat_COSP_phase_mask"; "conv_COSP_phase_mask";
                                 "phase_mask_" ++ i_str ins ++ "_all_hyd"; "conv_phase_mask_" ++ i_str ins; "strat_phase_mask_" ++ i_str ins]
               else ["COSP_phase_mask_all_hyd"; "strat_COSP_phase_mask"; "phase_mask_" ++ i_str ins ++ "_all_hyd"]) else [])%string
  ++ ["ext_mask"; "sub_col_LDR_tot"; "sub_col_LDR_strat"]%string ++ (if p_conv e then ["sub_col_LDR_conv"%string] else [])
  ++ ["sub_col_beta_att_tot"; "sub_col_OD_tot"; "sub_col_alpha_p_tot"; "sub_col_beta_p_tot"]%string
  ++ (if p_conv e then lidar_outs true hs ++ lidar_outs false hs else lidar_outs false hs).
Lemma lidar_all_names hs cl x : In x (lidar_all hs cl) -> result_name x.
Proof.
  intro I. apply (lidar_is_result ins). unfold lidar_all in I. rewrite !in_app_iff in I. destruct I as [I|[I|[I|[I|I]]]].
  - right. right. destruct cl; [|destruct I]. destruct (p_conv e); simpl in *; tauto.
  - simpl in I. destruct I as [<-|[<-|[<-|[]]]]; [left; simpl; tauto|right; left; exists "LDR_"%string; eexists; split; [simpl; tauto|reflexivity]..].
  - destruct (p_conv e); [|destruct I]. destruct I as [<-|[]]. right. left. exists "LDR_"%string. eexists. split; [simpl; tauto|reflexivity].
  - right. left. simpl in I. destruct I as [<-|[<-|[<-|[<-|[]]]]]; [exists "beta_att_"%string|exists "OD_"%string|exists "alpha_p_"%string|exists "beta_p_"%string];
      eexists; (split; [simpl; tauto|reflexivity]).
  - destruct (p_conv e); [apply in_app_iff in I as [I|I]|]; eapply lidar_outs_names; exact I.
Qed.

Section Known.
Variable E : string -> Prop.
Hypothesis HE : forall x, ~ result_name x -> E x.
Lemma kn_inp P c x : inp e c x -> known E P x.
Proof. intro I. left. apply HE. exact (inp_not_result e c x Sep I). Qed.
Lemma stp_rmom o c hs P : classes_of e (r_hyds o) hs -> not_micro_r o c = true -> stp E P (calc_radar_moments Gam e ins o c) (radar_outs c hs ++ P).
Proof.
  intros C N. eapply dep_weaken; [intros x Hx; exact Hx| |apply (radar_reads Gam e ins o c hs (known E P)); [intros x I; exact (kn_inp P c x I)|exact C|exact N]].
  intros x [H|H]; [left; left; exact H|]. apply in_app_iff in H as [H|H]; [right; exact H|left; right; exact H].
Qed.
Lemma stp_lmom o c hs P : classes_of e (o_hyds o) hs -> not_micro o c = true -> stp E P (calc_lidar_moments Gam e ins o c) (lidar_outs c hs ++ P).
Proof.
  intros C N. eapply dep_weaken; [intros x Hx; exact Hx| |apply (lidar_reads Gam e ins o c hs (known E P)); [intros x I; exact (kn_inp P c x I)|exact C|exact N]].
  intros x [H|H]; [left; left; exact H|]. apply in_app_iff in H as [H|H]; [right; exact H|left; right; exact H].
Qed.
Lemma kn_tab P n : In n [p_name e; t_name e; z_name e; qv_name e] -> known E P n.
Proof. intro I. apply (kn_inp P false). left. unfold table_names. apply in_or_app. left. simpl in *. tauto. Qed.

(** Steps of the radar. *)
Ltac mem := match goal with
  | |- In _ (_ :: _) => first [left; reflexivity | right; mem]
  | |- In _ (_ ++ _) => apply in_or_app; first [left; mem | right; mem]
  | |- In _ (radar_outs _ _) => unfold radar_outs, kappas, ze_outs, att_outs; mem
  | |- In _ (lidar_outs _ _) => unfold lidar_outs, atm_fields, loop_outs, class_outs; mem
  end.
Ltac kn := first [right; mem | apply (kn_inp _ false); right; left; eexists; solve [left; reflexivity | right; reflexivity]
  | apply (kn_inp _ true); right; left; eexists; solve [left; reflexivity | right; reflexivity] | apply kn_tab; simpl; tauto].
Ltac stpe := match goal with
  | |- stp _ _ (lret _) _ => apply stp_ret
  | |- stp _ _ (lraise _) _ => apply stp_raise
  | |- stp _ _ (rd (fun s => g3 s _)) _ => apply stp_g3; kn
  | |- stp _ _ (rd (fun s => g2 s _)) _ => apply stp_g2; kn
  | |- stp _ _ (rd (fun s => gb s _)) _ => apply stp_gb; kn
  | |- stp _ _ (rd (fun _ => _)) _ => apply stp_rd; reflexivity
  | |- stp _ _ (assign _ _) _ => apply stp_assign
  | |- stp _ _ (lbind _ _) _ => eapply stp_bind; [|intro]
  | |- stp _ _ (let '(_, _) := ?x in _) _ => destruct x
  end.
Ltac st := repeat (cbv beta zeta; stpe).
Lemma stp_sound rng c0 mask ze cl P : known E P ze -> In "Ze_min"%string P -> stp E P (sounding_one e rng c0 mask ze cl) (mask :: P).
Proof.
  intros K M. unfold sounding_one. eapply stp_bind; [apply stp_g3; exact K|intro]. eapply stp_bind; [apply stp_g2; right; exact M|intro].
  eapply stp_bind; [destruct rng; [apply stp_g2; kn|apply stp_ret]|intro]. apply stp_assign.
Qed.
Lemma radar_stp a o hs : lower (i_class ins) = "radar"%string -> classes_of e (m_hyds o) hs -> m_emp o || m_rad o = true ->
  exists P, stp E [] (simulate_radar Gam e ins a o) P /\ forall x, In x (radar_all hs (m_classify o)) -> In x P.
Proof.
  intros CR C N.
  assert (MR : forall c P, stp E P (calc_radar_moments Gam e ins (sim_ropts e a o c) c) (radar_outs c hs ++ P)).
  { intros c P. apply stp_rmom; [exact C|]. unfold not_micro_r. cbn. rewrite N. reflexivity. }
  unfold simulate_radar, calc_total_reflectivity, radar_classify_phase, calc_radar_Ze_min, radar_all. rewrite CR. cbn [negb String.eqb Ascii.eqb Bool.eqb].
  destruct (p_conv e), (m_classify o); eexists; (split;
    [repeat (cbv beta zeta; first [apply MR | apply stp_sound; [kn|mem] | stpe])|intro x; rewrite ?in_app_iff; cbn [In app]; rewrite ?in_app_iff; cbn [In app]; tauto]).
Qed.

(** Steps of the lidar. *)
Lemma stp_total f P : (forall c, (p_conv e = true \/ c = false) -> known E P (out f "tot" c)) -> stp E P (rd (total_of e f)) P.
Proof.
  intro K. apply stp_rd. intros s t A. unfold total_of. rewrite (agree_g3 _ s t _ A (K false (or_intror eq_refl))).
  destruct (p_conv e); [|reflexivity]. rewrite (agree_g3 _ s t _ A (K true (or_introl eq_refl))). reflexivity.
Qed.
Lemma sums_agree c s t P : agree (known E P) s t -> forall hs, (forall h, In h hs -> known E P (out "beta_p" h c)) ->
  forall num den, ldr_sums e c hs num den s = ldr_sums e c hs num den t.
Proof.
  intros A hs. induction hs as [|h hs IH]; intros K n d; [reflexivity|]. cbn [ldr_sums].
  rewrite (agree_g3 _ s t _ A (K h (or_introl eq_refl))). destruct (g3 t _); [|reflexivity]. cbn. destruct (dict _ h); [|reflexivity].
  apply IH. intros h' I. apply K. right. exact I.
Qed.
Lemma kn_more P Q x : (forall y, In y P -> In y Q) -> known E P x -> known E Q x.
Proof. intros I [K|K]; [left; exact K|right; exact (I x K)]. Qed.
Lemma stp_loop_step c cls hs num den P Q : (forall h, In h hs -> known E P (out "beta_p" h c)) ->
  (forall n d, stp E (("sub_col_LDR_" ++ cs c)%string :: P) (ldr_loop e cls hs n d) Q) -> stp E P (ldr_loop e (c :: cls) hs num den) Q.
Proof.
  intros K H. cbn [ldr_loop]. eapply stp_bind; [apply stp_rd; intros s t A; exact (sums_agree c s t P A hs K _ _)|]. intros [n d].
  eapply stp_bind; [apply stp_assign|]. intros _. apply H.
Qed.
Lemma stp_group c hs g P : (forall f h, In f ["beta_p"; "OD"]%string -> In h hs -> known E P (out f h c)) -> stp E P (cosp_group c hs g) P.
Proof.
  intro K. induction g as [|h g IH]; cbn [cosp_group]; [apply stp_ret|].
  destruct (memb h hs) eqn:M; [|exact IH].
  assert (I : In h hs). { unfold memb in M. apply existsb_exists in M as (y & J & Q). apply String.eqb_eq in Q. subst. exact J. }
  eapply stp_bind; [apply stp_g3, K; [simpl; tauto|exact I]|intro].
  eapply stp_bind; [apply stp_g3, K; [simpl; tauto|exact I]|intro].
  eapply stp_bind; [exact IH|intro]. apply stp_ret.
Qed.
Lemma stp_store o mask sf sig tau b cr od P : c_atb o = false -> stp E P (cosp_store e o mask sf sig tau b cr od) (mask :: P).
Proof.
  intro A. unfold cosp_store. rewrite A. cbv zeta.
  eapply stp_bind; [apply stp_g3; apply (kn_inp _ false); right; left; exists "cl"%string; left; reflexivity|intro].
  eapply stp_bind; [apply stp_g2; kn|intro]. eapply stp_bind; [apply stp_assign|intro]. apply stp_ret.
Qed.
Lemma stp_ctype o hs sig tau c acc P : c_atb o = false -> (forall f h, In f ["beta_p"; "OD"]%string -> In h hs -> known E P (out f h c)) ->
  stp E P (cosp_type e o hs sig tau c acc) ((cs c ++ "_COSP_phase_mask")%string :: P).
Proof.
  intros A K. unfold cosp_type. cbv zeta. eapply stp_bind; [apply stp_group; exact K|intro]. eapply stp_bind; [apply stp_group; exact K|intro].
  eapply stp_bind; [apply stp_store; exact A|intro]. destruct acc as [[? ?] ?]. apply stp_ret.
Qed.
Lemma stp_class ext ths c0 rm mask l o b P : known E P "sub_col_LDR_tot" -> known E P "sub_col_LDR_strat" -> known E P l -> known E P o -> known E P b ->
  stp E P (classify_one ext ths c0 rm mask l o b) (mask :: P).
Proof.
  intros A B C D F. unfold classify_one.
  eapply stp_bind; [apply stp_g3; exact A|intro].
  eapply stp_bind; [destruct ths; [apply stp_ret|]; eapply stp_bind; [apply stp_g3; exact F|intro]; eapply stp_bind; [apply stp_g3; exact C|intro]; apply stp_ret|intro].
  eapply stp_bind; [destruct (legend_ok ths); [apply stp_ret|apply stp_raise]|intro]. cbv zeta.
  eapply stp_bind; [destruct rm; [eapply stp_bind; [apply stp_g3; exact D|intro]|]; apply stp_ret|intro].
  eapply stp_bind; [apply stp_g3; exact B|intro]. apply stp_assign.
Qed.
Lemma out_in_lidar f h c hs : In f ["beta_p"; "OD"; "alpha_p"]%string -> In h hs \/ h = "tot"%string -> In (out f h c) (lidar_outs c hs).
Proof.
  intros F H. unfold lidar_outs. apply in_or_app. right. apply in_or_app. left. unfold loop_outs. apply in_or_app.
  destruct H as [H| ->]; [right; apply in_flat_map; exists h; split; [exact H|]|left]; simpl in *; intuition (subst; auto).
Qed.

Lemma stp_hyds {A} arg hs (k : list string -> L A) P Q : classes_of e arg hs -> stp E P (k hs) Q -> stp E P (lbind (rd (fun _ => set_hyd_types e arg)) k) Q.
Proof.
  intros C H. assert (Hs : set_hyd_types e arg = Ok hs).
  { destruct arg as [l|]; simpl in *; [subst; reflexivity|]. destruct C as [-> N]. destruct hs; [congruence|reflexivity]. }
  rewrite Hs. exact H.
Qed.
Definition has_outs (P : list string) (hs : list string) : Prop :=
  forall c, (p_conv e = true \/ c = false) -> forall x, In x (lidar_outs c hs) -> In x P.
Lemma ho_known P hs f h c : has_outs P hs -> (p_conv e = true \/ c = false) -> In f ["beta_p"; "OD"; "alpha_p"]%string -> In h hs \/ h = "tot"%string -> known E P (out f h c).
Proof. intros H D F I. right. apply (H c D). apply out_in_lidar; assumption. Qed.
Lemma ho_more P hs n : has_outs P hs -> has_outs (n :: P) hs.
Proof. intros H c D x I. right. exact (H c D x I). Qed.
Lemma ho_in P hs n : has_outs P hs -> In n atm_fields -> In n P.
Proof. intros H I. apply (H false); [right; reflexivity|]. unfold lidar_outs. apply in_or_app. left. exact I. Qed.
Lemma stp_ab eta hs P : has_outs P hs -> stp E P (calc_total_alpha_beta e eta)
  ("sub_col_beta_att_tot" :: "sub_col_OD_tot" :: "sub_col_alpha_p_tot" :: "sub_col_beta_p_tot" :: P)%string.
Proof.
  intro H. unfold calc_total_alpha_beta.
  assert (T : forall f Q, has_outs Q hs -> In f ["beta_p"; "OD"; "alpha_p"]%string -> stp E Q (rd (total_of e f)) Q).
  { intros f Q HQ F. apply stp_total. intros c D. exact (ho_known Q hs f "tot" c HQ D F (or_intror eq_refl)). }
  eapply stp_bind; [apply T; [exact H|simpl; tauto]|intro]. eapply stp_bind; [apply stp_assign|intro].
  eapply stp_bind; [apply T; [apply ho_more; exact H|simpl; tauto]|intro]. eapply stp_bind; [apply stp_assign|intro].
  eapply stp_bind; [apply T; [do 2 apply ho_more; exact H|simpl; tauto]|intro]. eapply stp_bind; [apply stp_assign|intro].
  eapply stp_bind; [apply stp_g2; right; do 3 right; apply (ho_in P hs _ H); unfold atm_fields; simpl; tauto|intro].
  eapply stp_bind; [apply stp_g2; right; do 3 right; apply (ho_in P hs _ H); unfold atm_fields; simpl; tauto|intro].
  apply stp_assign.
Qed.
Lemma stp_ldr ext sfc l arg hs P : has_outs P hs -> classes_of e arg hs -> (forall h, known E P (out "beta_p" h false)) -> In "sub_col_OD_tot"%string P ->
  stp E P (calc_LDR_and_ext e ext sfc l arg)
    (["ext_mask"; "sub_col_LDR_tot"; "sub_col_LDR_strat"]%string ++ (if p_conv e then ["sub_col_LDR_conv"%string] else []) ++ P).
Proof.
  intros H C K0 OD. unfold calc_LDR_and_ext. eapply stp_hyds; [exact C|].
  eapply stp_bind; [apply stp_rd; reflexivity|intro h0]. eapply stp_bind; [apply stp_g3, K0|intros _].
  assert (KB : forall Q c, has_outs Q hs -> (p_conv e = true \/ c = false) -> forall h, In h hs -> known E Q (out "beta_p" h c)).
  { intros Q c HQ D h I. apply (ho_known Q hs); [exact HQ|exact D|simpl; tauto|left; exact I]. }
  destruct (p_conv e) eqn:PC.
  - eapply stp_bind; [apply stp_loop_step; [apply KB; [exact H|tauto]|intros n d];
      apply stp_loop_step; [apply KB; [apply ho_more; exact H|tauto]|intros n' d'; apply stp_ret]|intros [n d]].
    eapply stp_bind; [apply stp_assign|intro]. eapply stp_bind; [apply stp_g3; right; do 3 right; exact OD|intro]. apply stp_assign.
  - eapply stp_bind; [apply stp_loop_step; [apply KB; [exact H|tauto]|intros n d; apply stp_ret]|intros [n d]].
    eapply stp_bind; [apply stp_assign|intro]. eapply stp_bind; [apply stp_g3; right; do 2 right; exact OD|intro]. apply stp_assign.
Qed.
Lemma stp_lclass d c0 rm hs P : has_outs P hs -> lower (i_class ins) = "lidar"%string ->
  (forall x, In x ["sub_col_LDR_tot"; "sub_col_LDR_strat"; "sub_col_OD_tot"; "sub_col_beta_p_tot"]%string -> In x P) ->
  (p_conv e = true -> In "sub_col_LDR_conv"%string P) ->
  stp E P (lidar_classify_phase e ins d None c0 rm)
   (if p_conv e then ["phase_mask_" ++ i_str ins ++ "_all_hyd"; "conv_phase_mask_" ++ i_str ins; "strat_phase_mask_" ++ i_str ins]%string ++ P
    else ["phase_mask_" ++ i_str ins ++ "_all_hyd"]%string ++ P).
Proof.
  intros H CL I4 IC. unfold lidar_classify_phase. rewrite CL. cbn [negb String.eqb Ascii.eqb Bool.eqb].
  eapply stp_bind; [destruct d; [apply stp_raise|apply stp_ret]|intro ths].
  assert (B : forall Q x, (forall y, In y P -> In y Q) -> In x ["sub_col_LDR_tot"; "sub_col_LDR_strat"; "sub_col_OD_tot"; "sub_col_beta_p_tot"]%string -> known E Q x)
    by (intros Q x S I; right; exact (S x (I4 x I))).
  assert (O : forall Q c f, (forall y, In y P -> In y Q) -> (p_conv e = true \/ c = false) -> In f ["beta_p"; "OD"; "alpha_p"]%string -> known E Q (out f "tot" c)).
  { intros Q c f S D F. apply (ho_known Q hs); [intros c' D' x I; exact (S x (H c' D' x I))|exact D|exact F|right; reflexivity]. }
  destruct (p_conv e) eqn:PC.
  - eapply stp_bind; [eapply stp_bind; [apply stp_class|intro; apply stp_class]|intro; apply stp_class].
    all: try (apply B; [intros y Y; repeat (first [exact Y|right])|simpl; tauto]).
    + apply (O P false "OD"%string); simpl; tauto.
    + apply (O P false "beta_p"%string); simpl; tauto.
    + right. right. exact (IC eq_refl).
    + apply (O _ true "OD"%string); [intros y Y; right; exact Y|tauto|simpl; tauto].
    + apply (O _ true "beta_p"%string); [intros y Y; right; exact Y|tauto|simpl; tauto].
  - eapply stp_bind; [apply stp_ret|intro; apply stp_class].
    all: try (apply B; [intros y Y; exact Y|simpl; tauto]).
Qed.
Lemma stp_cosp o hs P : has_outs P hs -> classes_of e (c_hyds o) hs -> c_atb o = false ->
  stp E P (lidar_emulate_cosp_phase e ins o)
    (["COSP_phase_mask_all_hyd"; "strat_COSP_phase_mask"]%string ++ (if p_conv e then ["conv_COSP_phase_mask"]%string else []) ++ P).
Proof.
  intros H C A. unfold lidar_emulate_cosp_phase. eapply stp_hyds; [exact C|].
  destruct (negb (String.eqb (i_str ins) "HSRL")); [apply stp_raise|].
  eapply stp_bind; [apply stp_g2; right; apply (ho_in P hs _ H); unfold atm_fields; simpl; tauto|intro].
  eapply stp_bind; [apply stp_g2; right; apply (ho_in P hs _ H); unfold atm_fields; simpl; tauto|intro].
  eapply stp_bind; [apply stp_g3; apply (ho_known P hs "beta_p" "tot" false H); [right; reflexivity|simpl; tauto|right; reflexivity]|intro].
  assert (KB : forall Q c, has_outs Q hs -> (p_conv e = true \/ c = false) -> forall f h, In f ["beta_p"; "OD"]%string -> In h hs -> known E Q (out f h c)).
  { intros Q c HQ D f h F I. apply (ho_known Q hs); [exact HQ|exact D|simpl in *; tauto|left; exact I]. }
  destruct (p_conv e) eqn:PC.
  - eapply stp_bind; [apply stp_ctype; [exact A|apply KB; [exact H|tauto]]|intro].
    eapply stp_bind; [apply stp_ctype; [exact A|apply KB; [apply ho_more; exact H|tauto]]|intros [[? ?] ?]]. apply stp_store. exact A.
  - eapply stp_bind; [apply stp_ret|intro].
    eapply stp_bind; [apply stp_ctype; [exact A|apply KB; [exact H|tauto]]|intros [[? ?] ?]]. apply stp_store. exact A.
Qed.
Ltac sub := rewrite ?in_app_iff; cbn [In app]; rewrite ?in_app_iff; cbn [In app]; tauto.
Lemma lidar_stp a o hs : (forall x, ~ In x (lidar_all hs (m_classify o)) -> E x) ->
  lower (i_class ins) = "lidar"%string -> classes_of e (m_hyds o) hs -> m_emp o || m_rad o = true ->
  exists P, stp E [] (simulate_lidar Gam e ins a o) P /\ forall x, In x (lidar_all hs (m_classify o)) -> In x P.
Proof.
  intros HW CR C N.
  set (P1 := if p_conv e then lidar_outs true hs ++ lidar_outs false hs else lidar_outs false hs).
  assert (M : stp E [] (run _ <- calc_lidar_moments Gam e ins (sim_lopts e a o false) false;
     (if p_conv e then calc_lidar_moments Gam e ins (sim_lopts e a o true) true else lret tt)) P1).
  { assert (ML : forall c P, stp E P (calc_lidar_moments Gam e ins (sim_lopts e a o c) c) (lidar_outs c hs ++ P)).
    { intros c P. apply stp_lmom; [exact C|]. unfold not_micro. cbn. rewrite N. reflexivity. }
    unfold P1. eapply stp_bind; [apply ML|intros _]. rewrite app_nil_r.
    destruct (p_conv e); [apply ML|apply stp_ret]. }
  assert (H1 : has_outs P1 hs).
  { intros c D x I. unfold P1. destruct (p_conv e); [destruct c; apply in_or_app; tauto|]. destruct D as [D| ->]; [discriminate|exact I]. }
  set (P2 := ("sub_col_beta_att_tot" :: "sub_col_OD_tot" :: "sub_col_alpha_p_tot" :: "sub_col_beta_p_tot" :: P1)%string).
  assert (H2 : has_outs P2 hs) by (do 4 apply ho_more; exact H1).
  assert (K0 : forall h, known E P2 (out "beta_p" h false)).
  { intro h. destruct (in_dec string_dec (out "beta_p" h false) (lidar_all hs (m_classify o))) as [I|I]; [right|left; exact (HW _ I)].
    unfold lidar_all in I. rewrite !in_app_iff in I. destruct I as [I|[I|[I|[I|I]]]].
    - destruct (m_classify o); [|destruct I]. destruct (p_conv e); simpl in I; intuition discriminate.
    - simpl in I. intuition discriminate.
    - destruct (p_conv e); simpl in I; intuition discriminate.
    - unfold P2. cbn [In] in *. tauto.
    - unfold P2. do 4 right. exact I. }
  set (P3 := (["ext_mask"; "sub_col_LDR_tot"; "sub_col_LDR_strat"]%string ++ (if p_conv e then ["sub_col_LDR_conv"%string] else []) ++ P2)).
  assert (H3 : has_outs P3 hs). { intros c D x I. unfold P3. apply in_or_app. right. apply in_or_app. right. exact (H2 c D x I). }
  assert (HL : stp E P2 (calc_LDR_and_ext e (sim_ext ins o) (sim_sfc a o) None (m_hyds o)) P3).
  { apply (stp_ldr _ _ _ _ hs); [exact H2|exact C|exact K0|unfold P2; simpl; tauto]. }
  assert (T : stp E P1 (calc_total_alpha_beta e (sim_eta a o)) P2) by (apply (stp_ab _ hs); exact H1).
  assert (G : forall (k : L unit) P, stp E P3 k P -> stp E [] (run _ <- calc_lidar_moments Gam e ins (sim_lopts e a o false) false;
     run _ <- (if p_conv e then calc_lidar_moments Gam e ins (sim_lopts e a o true) true else lret tt);
     run _ <- calc_total_alpha_beta e (sim_eta a o); run _ <- calc_LDR_and_ext e (sim_ext ins o) (sim_sfc a o) None (m_hyds o); k) P).
  { intros k P Hk. assert (Z : stp E [] (run _ <- (run _ <- calc_lidar_moments Gam e ins (sim_lopts e a o false) false;
        (if p_conv e then calc_lidar_moments Gam e ins (sim_lopts e a o true) true else lret tt));
        run _ <- calc_total_alpha_beta e (sim_eta a o); run _ <- calc_LDR_and_ext e (sim_ext ins o) (sim_sfc a o) None (m_hyds o); k) P).
    { eapply stp_bind; [exact M|intros _]. eapply stp_bind; [exact T|intros _]. eapply stp_bind; [exact HL|intros _]. exact Hk. }
    intros s t Agr. specialize (Z s t Agr). unfold lbind in *.
    destruct (calc_lidar_moments Gam e ins (sim_lopts e a o false) false s) as [[?|?] ?], (calc_lidar_moments Gam e ins (sim_lopts e a o false) false t) as [[?|?] ?]; exact Z. }
  unfold simulate_lidar. destruct (m_classify o).
  - eexists. split; [apply G; eapply stp_bind; [apply (stp_lclass _ _ _ hs P3 H3 CR)|intros _; apply (stp_cosp _ hs)]|].
    + unfold P3, P2. intros x I. rewrite !in_app_iff. simpl in I. cbn [In]. tauto.
    + intro PC. unfold P3. rewrite PC. rewrite !in_app_iff. cbn [In]. tauto.
    + intros c D x I. apply (H3 c D) in I. destruct (p_conv e); apply in_or_app; right; exact I.
    + exact C.
    + reflexivity.
    + intro x. unfold lidar_all, P3, P2, P1. destruct (p_conv e); rewrite !in_app_iff; cbn [In]; rewrite ?in_app_iff; cbn [In]; rewrite ?in_app_iff; cbn [In]; tauto.
  - exists P3. split; [apply G; apply stp_ret|].
    intro x. unfold lidar_all, P3, P2, P1. destruct (p_conv e); rewrite !in_app_iff; cbn [In]; rewrite ?in_app_iff; cbn [In]; tauto.
Qed.
End Known.

(** *** Frames *)
Ltac fr W := match goal with
  | |- frame _ (lret _) => apply frame_ret
  | |- frame _ (lraise _) => apply frame_raise
  | |- frame _ (rd _) => apply frame_rd
  | |- frame _ (assign _ _) => apply frame_assign; W
  | |- frame _ (lbind _ _) => apply frame_bind; [|intro]
  | |- frame _ (if ?b then _ else _) => destruct b
  | |- frame _ (match ?x with _ => _ end) => destruct x
  end.
Lemma fr_rmom o c hs W : classes_of e (r_hyds o) hs -> not_micro_r o c = true -> (forall x, In x (radar_outs c hs) -> In x W) ->
  frame W (calc_radar_moments Gam e ins o c).
Proof.
  intros C N I. eapply frame_weaken; [exact I|]. apply (radar_dep Gam e ins o c hs); [|exact C|exact N].
  intros y J R. apply (Sep c y J). destruct R as [R|[z ->]]; [left; left; unfold radar_fields in R; simpl in *; tauto|left; right; eauto].
Qed.
Lemma fr_lmom o c hs W : classes_of e (o_hyds o) hs -> not_micro o c = true -> (forall x, In x (lidar_outs c hs) -> In x W) ->
  frame W (calc_lidar_moments Gam e ins o c).
Proof.
  intros C N I. eapply frame_weaken; [exact I|]. apply (moments_dep Gam e ins o c hs); [|exact C|exact N].
  intros y J R. apply (Sep c y J). destruct R as [R|[z ->]]; [left; left; unfold atm_fields in R; simpl in *; tauto|left; right; eauto].
Qed.
Lemma radar_frame a o hs : lower (i_class ins) = "radar"%string -> classes_of e (m_hyds o) hs -> m_emp o || m_rad o = true ->
  frame (radar_all hs (m_classify o)) (simulate_radar Gam e ins a o).
Proof.
  intros CR C N.
  unfold simulate_radar, calc_total_reflectivity, radar_classify_phase, calc_radar_Ze_min, sounding_one, radar_all. rewrite CR. cbn [negb String.eqb Ascii.eqb Bool.eqb].
  assert (NM : forall c, not_micro_r (sim_ropts e a o c) c = true) by (intro c; unfold not_micro_r; cbn; rewrite N; reflexivity).
  destruct (p_conv e), (m_classify o);
  repeat (cbv beta zeta; first [apply (fr_rmom _ _ hs); [exact C|apply NM|intro x; rewrite ?in_app_iff; cbn [In]; rewrite ?in_app_iff; tauto]
    | fr ltac:(rewrite ?in_app_iff; cbn [In app]; tauto)]).
Qed.
Lemma fr_loop W cls hs : (forall c, In c cls -> In ("sub_col_LDR_" ++ cs c)%string W) -> forall num den, frame W (ldr_loop e cls hs num den).
Proof.
  induction cls as [|c cls IH]; intros I num den; cbn [ldr_loop]; [apply frame_ret|].
  apply frame_bind; [apply frame_rd|]. intros [n d]. apply frame_bind; [apply frame_assign, I; left; reflexivity|]. intro. apply IH. intros c' J. apply I. right. exact J.
Qed.
Lemma fr_group W c hs g : frame W (cosp_group c hs g).
Proof. induction g; cbn [cosp_group]; repeat (cbv beta zeta; first [exact IHg | fr ltac:(fail)]). Qed.
Lemma fr_store W o mask sf sig tau b cr od : c_atb o = false -> In mask W -> frame W (cosp_store e o mask sf sig tau b cr od).
Proof. intros A M. unfold cosp_store. rewrite A. repeat (cbv beta zeta; fr ltac:(exact M)). Qed.
Lemma fr_ctype W o hs sig tau c acc : c_atb o = false -> In (cs c ++ "_COSP_phase_mask")%string W -> frame W (cosp_type e o hs sig tau c acc).
Proof. intros A M. unfold cosp_type. repeat (cbv beta zeta; first [apply fr_group | apply fr_store; [exact A|exact M] | fr ltac:(fail)]). Qed.
Lemma fr_class W ext ths c0 rm mask l o b : In mask W -> frame W (classify_one ext ths c0 rm mask l o b).
Proof. intro M. unfold classify_one. repeat (cbv beta zeta; fr ltac:(exact M)). Qed.
Lemma lidar_frame a o hs : lower (i_class ins) = "lidar"%string -> classes_of e (m_hyds o) hs -> m_emp o || m_rad o = true ->
  frame (lidar_all hs (m_classify o)) (simulate_lidar Gam e ins a o).
Proof.
  intros CR C N.
  unfold simulate_lidar, calc_total_alpha_beta, calc_LDR_and_ext, lidar_classify_phase, lidar_emulate_cosp_phase, lidar_all. rewrite CR. cbn [negb String.eqb Ascii.eqb Bool.eqb].
  assert (NM : forall c, not_micro (sim_lopts e a o c) c = true) by (intro c; unfold not_micro; cbn; rewrite N; reflexivity).
  destruct (p_conv e), (m_classify o);
  repeat (cbv beta zeta; first [apply (fr_lmom _ _ hs); [exact C|apply NM|intro x; rewrite ?in_app_iff; cbn [In]; rewrite ?in_app_iff; tauto]
    | apply fr_loop; let J := fresh in (intros c J; simpl in J; rewrite ?in_app_iff; cbn [In app]; intuition (subst; auto 20))
    | apply fr_ctype; [reflexivity|cbn; tauto] | apply fr_store; [reflexivity|cbn; tauto] | apply fr_class; cbn; tauto
    | fr ltac:(rewrite ?in_app_iff; cbn [In app]; tauto)]).
Qed.

(** *** The same simulation again *)
Lemma simulate_again a o s s1 : m_emp o || m_rad o = true ->
  simulate Gam e ins a o s = (Ok tt, s1) ->
  exists s2, simulate Gam e ins a o s1 = (Ok tt, s2) /\ forall x, assoc (dvars s2) x = assoc (dvars s1) x.
Proof.
  intros N H. unfold simulate in *. destruct (m_only o).
  { injection H as ->. exists s1. split; reflexivity. }
  destruct (String.eqb (lower (i_class ins)) "radar") eqn:CR.
  - apply String.eqb_eq in CR. destruct (asked e (m_hyds o)) as [[hs C]|[x X]].
    + apply (again_eq (simulate_radar Gam e ins a o) (radar_all hs (m_classify o)) s s1); [|apply radar_frame; assumption|exact H].
      intros E HE. apply radar_stp; try assumption. intros x Nx. apply HE. intro I. exact (Nx (radar_all_names hs _ x I)).
    + exfalso. unfold simulate_radar, calc_radar_moments in H. cbn [sim_ropts r_hyds] in H. rewrite X in H.
      unfold lbind, rd in H. destruct (sim_ref o); discriminate H.
  - destruct (String.eqb (lower (i_class ins)) "lidar") eqn:CL; [|discriminate].
    apply String.eqb_eq in CL. destruct (asked e (m_hyds o)) as [[hs C]|[x X]].
    + apply (again_eq (simulate_lidar Gam e ins a o) (lidar_all hs (m_classify o)) s s1); [|apply lidar_frame; assumption|exact H].
      intros E HE. apply lidar_stp; try assumption. intros x Nx. apply HE. intro I. exact (Nx (lidar_all_names hs _ x I)).
    + exfalso. unfold simulate_lidar, calc_lidar_moments in H. cbn [sim_lopts o_hyds] in H. rewrite X in H. discriminate H.
Qed.
End Runs.

(** *** Any schedule of a radar and a lidar *)
Definition eqv (s t : dset) : Prop := forall x, assoc (dvars s) x = assoc (dvars t) x.
Lemma eqv_sym s t : eqv s t -> eqv t s.
Proof. intros H x. symmetry. apply H. Qed.
Lemma eqv_trans s t u : eqv s t -> eqv t u -> eqv s u.
Proof. intros H K x. rewrite H. apply K. Qed.
Section Abs.
Variables m1 m2 : L unit.
Definition ok (m : L unit) (s : dset) : Prop := fst (m s) = Ok tt.
Definition congr (m : L unit) : Prop := forall s t, eqv s t -> ok m s -> ok m t /\ eqv (snd (m s)) (snd (m t)).
Definition again (m : L unit) : Prop := forall s, ok m s -> ok m (snd (m s)) /\ eqv (snd (m (snd (m s)))) (snd (m s)).
Hypotheses (c1 : congr m1) (c2 : congr m2) (a1 : again m1) (a2 : again m2).
Variable s : dset.
Hypotheses (o1 : ok m1 s) (o2 : ok m2 s) (o12 : ok m2 (snd (m1 s))) (o21 : ok m1 (snd (m2 s)))
  (com : eqv (snd (m2 (snd (m1 s)))) (snd (m1 (snd (m2 s))))).
Definition done (a b : bool) : dset :=
  if a then (if b then snd (m2 (snd (m1 s))) else snd (m1 s)) else if b then snd (m2 s) else s.
Lemma done1 a b : ok m1 (done a b) /\ eqv (snd (m1 (done a b))) (done true b).
Proof.
  destruct a, b; cbn [done].
  - destruct (a1 _ o21) as [A B]. destruct (c1 _ _ (eqv_sym _ _ com) A) as [C D]. split; [exact C|].
    eapply eqv_trans; [apply eqv_sym; exact D|]. eapply eqv_trans; [exact B|]. apply eqv_sym. exact com.
  - exact (a1 _ o1).
  - split; [exact o21|]. apply eqv_sym. exact com.
  - split; [exact o1|]. intro; reflexivity.
Qed.
Lemma done2 a b : ok m2 (done a b) /\ eqv (snd (m2 (done a b))) (done a true).
Proof.
  destruct a, b; cbn [done].
  - exact (a2 _ o12).
  - split; [exact o12|]. intro; reflexivity.
  - exact (a2 _ o2).
  - split; [exact o2|]. intro; reflexivity.
Qed.
Lemma step1 u a b : eqv u (done a b) -> ok m1 u /\ eqv (snd (m1 u)) (done true b).
Proof.
  intro H. destruct (done1 a b) as [A B]. destruct (c1 _ _ (eqv_sym _ _ H) A) as [C D]. split; [exact C|].
  eapply eqv_trans; [apply eqv_sym; exact D|exact B].
Qed.
Lemma step2 u a b : eqv u (done a b) -> ok m2 u /\ eqv (snd (m2 u)) (done a true).
Proof.
  intro H. destruct (done2 a b) as [A B]. destruct (c2 _ _ (eqv_sym _ _ H) A) as [C D]. split; [exact C|].
  eapply eqv_trans; [apply eqv_sym; exact D|exact B].
Qed.
End Abs.

Lemma sim_congr Gam e ins a o : separate_inputs e -> m_emp o || m_rad o = true -> congr (simulate Gam e ins a o).
Proof.
  intros Sep N s t A H.
  assert (K : exists P, stp (fun _ => True) [] (simulate Gam e ins a o) P).
  { unfold ok, simulate in *. destruct (m_only o); [exists []; apply stp_ret|].
    destruct (String.eqb (lower (i_class ins)) "radar") eqn:CR.
    - apply String.eqb_eq in CR. destruct (asked e (m_hyds o)) as [[hs C]|[x X]].
      + destruct (radar_stp Gam e ins Sep (fun _ => True) (fun _ _ => I) a o hs CR C N) as (P & K & _). exists P. exact K.
      + exfalso. unfold simulate_radar, calc_radar_moments in H. cbn [sim_ropts r_hyds] in H. rewrite X in H.
        unfold lbind, rd in H. destruct (sim_ref o); discriminate H.
    - destruct (String.eqb (lower (i_class ins)) "lidar") eqn:CL; [|discriminate].
      apply String.eqb_eq in CL. destruct (asked e (m_hyds o)) as [[hs C]|[x X]].
      + destruct (lidar_stp Gam e ins Sep (fun _ => True) (fun _ _ => I) a o hs (fun _ _ => I) CL C N) as (P & K & _). exists P. exact K.
      + exfalso. unfold simulate_lidar, calc_lidar_moments in H. cbn [sim_lopts o_hyds] in H. rewrite X in H. discriminate H. }
  destruct K as [P K]. assert (G : agree (known (fun _ => True) []) s t) by (intros x _; apply A). specialize (K s t G). unfold ok in *.
  destruct (simulate Gam e ins a o s) as [[[]|b] s']; [|discriminate H]. destruct (simulate Gam e ins a o t) as [[[]|b] t']; [|contradiction].
  split; [reflexivity|]. intro x. apply K. left. exact I.
Qed.
Lemma sim_again Gam e ins a o : separate_inputs e -> m_emp o || m_rad o = true -> again (simulate Gam e ins a o).
Proof.
  intros Sep N s H. unfold ok in H. destruct (simulate_again Gam e ins Sep a o s (snd (simulate Gam e ins a o s)) N) as (s2 & A & B).
  { rewrite (surjective_pairing (simulate Gam e ins a o s)) at 1. rewrite H. reflexivity. }
  unfold ok. rewrite A. split; [reflexivity|exact B].
Qed.
Section Sched.
Variable Gam : R -> R.
Variables (e : menv) (ir il : inst) (ar al : iattr) (o_r o_l : sopts).
Hypothesis Sep : separate_inputs e.
Hypothesis Own : i_str il <> (i_str ir ++ "_sounding")%string.
Hypothesis CR : lower (i_class ir) = "radar"%string.
Hypothesis CL : lower (i_class il) = "lidar"%string.
Hypothesis MR : m_emp o_r || m_rad o_r = true.
Hypothesis ML : m_emp o_l || m_rad o_l = true.
Let rc := (ir, ar, o_r).
Let lc := (il, al, o_l).
Variable s : dset.
Hypothesis OR : fst (simulate Gam e ir ar o_r s) = Ok tt.
Hypothesis OL : fst (simulate Gam e il al o_l s) = Ok tt.
Lemma schedule_state calls : (forall c, In c calls -> c = rc \/ c = lc) -> exists a b,
  eqv (simulate_all Gam e calls s) (done (simulate Gam e ir ar o_r) (simulate Gam e il al o_l) s a b) /\
  (In rc calls -> a = true) /\ (In lc calls -> b = true).
Proof.
  destruct (either_order Gam e ir il ar al o_r o_l Sep Own CR CL MR ML s OR OL) as (O12 & O21 & COM).
  induction calls as [|c calls IH] using rev_ind; intro K.
  - exists false, false. split; [intro; reflexivity|]. split; intros [].
  - destruct IH as (a & b & E & IA & IB). { intros c' I. apply K. apply in_or_app. left. exact I. }
    unfold simulate_all in *. rewrite fold_left_app. cbn [fold_left].
    assert (KC : c = rc \/ c = lc) by (apply K; apply in_or_app; right; left; reflexivity).
    pose proof (sim_congr Gam e ir ar o_r Sep MR) as C1. pose proof (sim_congr Gam e il al o_l Sep ML) as C2.
    pose proof (sim_again Gam e ir ar o_r Sep MR) as A1. pose proof (sim_again Gam e il al o_l Sep ML) as A2.
    destruct KC as [-> | ->]; cbn [fst snd rc lc].
    + exists true, b. destruct (step1 _ _ C1 A1 s OR O21 COM _ a b E) as [_ Q]. split; [exact Q|]. split; [reflexivity|].
      intro I. apply in_app_iff in I as [I|[I|[]]]; [exact (IB I)|]. exfalso. unfold rc, lc in I. injection I as I1 _ _. subst il. rewrite CL in CR. discriminate CR.
    + exists a, true. destruct (step2 _ _ C2 A2 s OL O12 _ a b E) as [_ Q]. split; [exact Q|]. split; [|reflexivity].
      intro I. apply in_app_iff in I as [I|[I|[]]]; [exact (IA I)|]. exfalso. unfold rc, lc in I. injection I as I1 _ _. subst ir. rewrite CL in CR. discriminate CR.
Qed.
Lemma any_schedule calls : (forall c, In c calls -> c = rc \/ c = lc) -> In rc calls -> In lc calls ->
  forall x, assoc (dvars (simulate_all Gam e calls s)) x = assoc (dvars (simulate_all Gam e [rc; lc] s)) x.
Proof.
  intros K IR IL. destruct (schedule_state calls K) as (a & b & E & A & B). rewrite (A IR), (B IL) in E. exact E.
Qed.
End Sched.
