(** What a simulation leaves alone, and the default list of classes. *)
From Verif Require Import Mom_Base Mom_Spec Mom_Facts Sched_Model Atm_Model Psd_Model Lidar_Model Lidar_Spec
  Radar_Model Class_Model Sim_Model Sim_Spec Sim_Kinds Sim_Facts Sim_Lidar.
Local Open Scope R_scope.

(** *** Default classes *)
Lemma hyd_default e h hs : hyds e = h :: hs -> set_hyd_types e None = set_hyd_types e (Some (hyds e)).
Proof. intro E. unfold set_hyd_types. rewrite E. reflexivity. Qed.
Lemma default_classes Gam e ins a o s : hyds e <> [] ->
  simulate Gam e ins a (asking o None) s = simulate Gam e ins a (asking o (Some (hyds e))) s.
Proof.
  intro N. assert (D : set_hyd_types e None = set_hyd_types e (Some (hyds e))).
  { destruct (hyds e) as [|h hs] eqn:E; [contradiction|]. rewrite <- E. exact (hyd_default e h hs E). }
  unfold simulate, simulate_radar, simulate_lidar, calc_radar_moments, calc_lidar_moments, calc_LDR_and_ext, lidar_emulate_cosp_phase.
  cbn [asking m_only m_hyds m_classify sim_ropts sim_lopts sim_copts r_hyds o_hyds c_hyds]. rewrite D. reflexivity.
Qed.
Lemma no_classes Gam e ins a o s : hyds e = [] -> m_only o = false -> m_reg o = false ->
  In (lower (i_class ins)) ["radar"; "lidar"]%string ->
  simulate Gam e ins a (asking o None) s = (Raise ValueError, s).
Proof.
  intros E O G C. unfold simulate. cbn [asking m_only]. rewrite O.
  assert (D : set_hyd_types e None = Raise ValueError) by (unfold set_hyd_types; rewrite E; reflexivity).
  destruct C as [<-|[<-|[]]]; cbn [String.eqb Ascii.eqb Bool.eqb].
  - unfold simulate_radar, sim_ref. cbn [asking m_reg]. rewrite G. unfold calc_radar_moments.
    cbn [asking sim_ropts r_hyds m_hyds]. rewrite D. reflexivity.
  - unfold simulate_lidar, calc_lidar_moments. cbn [asking sim_lopts o_hyds m_hyds]. rewrite D. reflexivity.
Qed.

(** *** Frame *)
Definition spares {A} (m : L A) : Prop := forall s x, ~ result_name x -> assoc (dvars (snd (m s))) x = assoc (dvars s) x.
Lemma sp_keeps {A} (m : L A) : keeps m -> spares m.
Proof. intros K s x N. specialize (K s x). rewrite kindof_none in K by (intro; apply N; left; assumption). exact K. Qed.
Lemma sp_ret {A} (a : A) : spares (lret a).
Proof. intros s x _. reflexivity. Qed.
Lemma sp_raise {A} e : spares (@lraise A e).
Proof. intros s x _. reflexivity. Qed.
Lemma sp_rd {A} (f : dset -> res A) : spares (rd f).
Proof. intros s x _. reflexivity. Qed.
Lemma sp_bind {A B} (m : L A) (f : A -> L B) : spares m -> (forall a, spares (f a)) -> spares (lbind m f).
Proof.
  intros M F s x N. unfold lbind. specialize (M s x N). destruct (m s) as [[a|e] s']; cbn [snd] in *; [|exact M].
  rewrite F by exact N. exact M.
Qed.
Lemma sp_assign n v : result_name n -> spares (assign n v).
Proof. intros R s x N. rewrite assign_eq. apply upd_other. intros ->. exact (N R). Qed.
Lemma mask_name p y : In p ["strat_phase_mask_"; "conv_phase_mask_"; "phase_mask_"; "strat_COSP_phase_mask"; "conv_COSP_phase_mask"; "COSP_phase_mask_"]%string ->
  result_name (p ++ y)%string.
Proof. intro I. right. exists y. simpl in *. intuition (subst; auto). Qed.
Lemma cosp_type_name c : result_name (cs c ++ "_COSP_phase_mask")%string.
Proof. right. exists ""%string. destruct c; simpl; tauto. Qed.
Ltac named := first [exact (cosp_type_name _) | apply (mask_name "strat_phase_mask_"); simpl; tauto | apply (mask_name "conv_phase_mask_"); simpl; tauto
  | apply (mask_name "phase_mask_"); simpl; tauto | apply (mask_name "COSP_phase_mask_" "all_hyd"); simpl; tauto | left; left; simpl; tauto | left; right; eexists; reflexivity].
Ltac sstep :=
  match goal with
  | |- spares (lret _) => apply sp_ret
  | |- spares (lraise _) => apply sp_raise
  | |- spares (rd _) => apply sp_rd
  | |- spares (assign _ _) => apply sp_assign; named
  | |- spares (lbind _ _) => apply sp_bind; [|intro]
  | |- spares (if ?b then _ else _) => destruct b
  | |- spares (match ?x with _ => _ end) => destruct x
  end.
Ltac sp := repeat (cbv beta zeta; sstep).

Section Frame.
Variable Gam : R -> R.
Variables (e : menv) (ins : inst).
Lemma sp_classify ext ths c0 rm mask l o b : result_name mask -> spares (classify_one ext ths c0 rm mask l o b).
Proof. intro M. unfold classify_one. repeat (cbv beta zeta; first [apply sp_assign; exact M | sstep]). Qed.
Lemma sp_lclass d a c0 rm : spares (lidar_classify_phase e ins d a c0 rm).
Proof. unfold lidar_classify_phase. repeat (cbv beta zeta; first [apply sp_classify; named | sstep]). Qed.
Lemma sp_sound rng c0 mask ze cl : result_name mask -> spares (sounding_one e rng c0 mask ze cl).
Proof. intro M. unfold sounding_one. repeat (cbv beta zeta; first [apply sp_assign; exact M | sstep]). Qed.
Lemma sp_rclass rng c0 : spares (radar_classify_phase e ins rng c0).
Proof. unfold radar_classify_phase. repeat (cbv beta zeta; first [apply sp_sound; named | sstep]). Qed.
Lemma sp_group c hs g : spares (cosp_group c hs g).
Proof. induction g; cbn [cosp_group]; repeat (cbv beta zeta; first [exact IHg | sstep]). Qed.
Lemma sp_store o mask sf sig tau b cr od : c_atb o = false -> result_name mask -> spares (cosp_store e o mask sf sig tau b cr od).
Proof. intros A M. unfold cosp_store. rewrite A. repeat (cbv beta zeta; first [apply sp_assign; exact M | sstep]). Qed.
Lemma sp_ctype o hs sig tau c acc : c_atb o = false -> spares (cosp_type e o hs sig tau c acc).
Proof. intro A. unfold cosp_type. repeat (cbv beta zeta; first [apply sp_group | apply sp_store; [exact A|named] | sstep]). Qed.
Lemma sp_cosp o : c_atb o = false -> spares (lidar_emulate_cosp_phase e ins o).
Proof. intro A. unfold lidar_emulate_cosp_phase. repeat (cbv beta zeta; first [apply sp_ctype; exact A | apply sp_store; [exact A|named] | sstep]). Qed.
Lemma sp_zemin r : spares (calc_radar_Ze_min e ins r).
Proof. unfold calc_radar_Ze_min. sp. Qed.
Lemma sp_total : spares (calc_total_reflectivity e).
Proof. unfold calc_total_reflectivity. sp. Qed.
Lemma sp_ab eta : spares (calc_total_alpha_beta e eta).
Proof. unfold calc_total_alpha_beta. sp. Qed.
Lemma sp_ldr ext sfc l h : spares (calc_LDR_and_ext e ext sfc l h).
Proof. unfold calc_LDR_and_ext. repeat (cbv beta zeta; first [apply sp_keeps, keeps_ldr_loop | sstep]). Qed.
Lemma sp_simulate a o : spares (simulate Gam e ins a o).
Proof.
  unfold simulate, simulate_radar, simulate_lidar.
  repeat (cbv beta zeta; first [apply sp_keeps, keeps_radar | apply sp_keeps, keeps_lidar | apply sp_zemin | apply sp_total | apply sp_ab | apply sp_ldr
    | apply sp_rclass | apply sp_lclass | apply sp_cosp; reflexivity | sstep]).
Qed.
End Frame.
Lemma all_spare Gam e calls : forall s x, ~ result_name x -> assoc (dvars (simulate_all Gam e calls s)) x = assoc (dvars s) x.
Proof.
  induction calls as [|[[ins a] o] calls IH]; intros s x N; [reflexivity|].
  unfold simulate_all in *. cbn [fold_left fst snd]. rewrite IH by exact N. apply sp_simulate. exact N.
Qed.
Lemma input_not_result c h k : In k ["_q_subcolumns_"; "_n_subcolumns_"; "_frac_subcolumns_"]%string ->
  ~ result_name ((if c : bool then "conv" else "strat") ++ k ++ h)%string.
Proof.
  intros K [[M|[y M]]|[y M]].
  - unfold moment_names in M. destruct c; simpl in K, M; intuition (subst; discriminate).
  - destruct c; discriminate.
  - destruct c; simpl in K, M; intuition (subst; discriminate).
Qed.
Lemma subcolumns_spared Gam e calls s c h k : In k ["_q_subcolumns_"; "_n_subcolumns_"; "_frac_subcolumns_"]%string ->
  let x := ((if c : bool then "conv" else "strat") ++ k ++ h)%string in
  assoc (dvars (simulate_all Gam e calls s)) x = assoc (dvars s) x.
Proof. intros K x. apply all_spare. apply input_not_result. exact K. Qed.
