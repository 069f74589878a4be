(** Options of the driver against the defaults of the instrument. *)
From Verif Require Import Mom_Base Mom_Spec Mom_Facts Sched_Model Atm_Model Psd_Model Lidar_Model Radar_Model Class_Model Sim_Model Sim_Spec.
Local Open Scope R_scope.

Lemma option_direction Gam e ins a o b mie ext eta s :
  simulate Gam e ins a (passing o (Some b) mie ext eta) s = simulate Gam e ins (looking a b) (passing o None mie ext eta) s.
Proof. reflexivity. Qed.
Lemma option_eta Gam e ins a o sfc mie ext x s :
  simulate Gam e ins a (passing o sfc mie ext (Some x)) s = simulate Gam e ins (scattering_eta a x) (passing o sfc mie ext None) s.
Proof. destruct sfc; reflexivity. Qed.
(** The three loops that carry the instrument along do not read its limit. *)
From Coq Require Import FunctionalExtensionality.
Lemma micro_limited Gam e ins x :
  micro_loop Gam e (limited ins x) = micro_loop Gam e ins.
Proof.
  apply functional_extensionality; intro z. apply functional_extensionality; intro sfc. apply functional_extensionality; intro mie. apply functional_extensionality; intro sch. apply functional_extensionality; intro kw.
  apply functional_extensionality; intro lut. apply functional_extensionality; intro hs.
  induction hs as [|h hs IH]; [reflexivity|]. apply functional_extensionality; intro l.
  cbn [micro_loop]. rewrite IH. destruct ins. reflexivity.
Qed.
Lemma classes_limited Gam e ins x :
  radar_classes Gam e (limited ins x) = radar_classes Gam e ins.
Proof.
  apply functional_extensionality; intro mie. apply functional_extensionality; intro width. apply functional_extensionality; intro sch. apply functional_extensionality; intro kw.
  apply functional_extensionality; intro lut. apply functional_extensionality; intro hs.
  induction hs as [|h hs IH]; [reflexivity|]. apply functional_extensionality; intro l.
  cbn [radar_classes]. rewrite IH. destruct ins. reflexivity.
Qed.
Lemma sigma_limited Gam e ins x :
  sigma_loop Gam e (limited ins x) = sigma_loop Gam e ins.
Proof.
  apply functional_extensionality; intro mie. apply functional_extensionality; intro sch. apply functional_extensionality; intro kw.
  apply functional_extensionality; intro lut. apply functional_extensionality; intro p3. apply functional_extensionality; intro corr.
  apply functional_extensionality; intro hs.
  induction hs as [|h hs IH]; [reflexivity|]. apply functional_extensionality; intro l.
  cbn [sigma_loop]. rewrite IH. destruct ins. reflexivity.
Qed.
Lemma lidar_limited Gam e ins x o c : calc_lidar_moments Gam e (limited ins x) o c = calc_lidar_moments Gam e ins o c.
Proof.
  unfold calc_lidar_moments, calc_lidar_micro. rewrite micro_limited. destruct ins. reflexivity.
Qed.
Lemma radar_limited Gam e ins x o c : calc_radar_moments Gam e (limited ins x) o c = calc_radar_moments Gam e ins o c.
Proof.
  unfold calc_radar_moments, calc_radar_micro. rewrite classes_limited, sigma_limited. destruct ins. reflexivity.
Qed.
Lemma option_ext Gam e ins a o sfc mie x eta s :
  m_classify o = false \/ lower (i_class ins) = "radar"%string ->
  simulate Gam e ins a (passing o sfc mie (Some x) eta) s = simulate Gam e (limited ins x) a (passing o sfc mie None eta) s.
Proof.
  intro C. unfold simulate. cbn [m_only passing]. destruct (m_only o); [reflexivity|].
  change (i_class (limited ins x)) with (i_class ins).
  destruct (String.eqb_spec (lower (i_class ins)) "radar") as [ER|NR].
  - unfold simulate_radar. rewrite !radar_limited. reflexivity.
  - destruct C as [C|C]; [|contradiction].
    destruct (String.eqb (lower (i_class ins)) "lidar"); [|reflexivity].
    unfold simulate_lidar. cbn [m_classify passing]. rewrite C, !lidar_limited. reflexivity.
Qed.
Lemma option_mie Gam e ins a o sfc ext eta b s :
  (b = false /\ (m_rad o = true \/ lower (mcphys e) = "p3"%string)) \/
  (b = true /\ m_rad o = false /\ lower (mcphys e) <> "p3"%string /\ p_conv e = false) ->
  simulate Gam e ins a (passing o sfc None ext eta) s = simulate Gam e ins a (passing o sfc (Some b) ext eta) s.
Proof.
  intro H.
  assert (M0 : sim_mie e (passing o sfc None ext eta) false = b).
  { unfold sim_mie. cbn [m_mie m_rad passing]. destruct H as [(-> & [->|E])|(-> & -> & N & _)]; [reflexivity|rewrite E; destruct (m_rad o); reflexivity|].
    destruct (String.eqb_spec (lower (mcphys e)) "p3"); [contradiction|reflexivity]. }
  assert (M1 : sim_mie e (passing o sfc None ext eta) true = b \/ p_conv e = false).
  { destruct H as [(-> & [E|E])|(_ & _ & _ & E)]; [left|left|right; exact E]; unfold sim_mie; cbn [m_mie m_rad passing]; rewrite E;
      [reflexivity|destruct (m_rad o); reflexivity]. }
  assert (R0 : sim_ropts e a (passing o sfc None ext eta) false = sim_ropts e a (passing o sfc (Some b) ext eta) false)
    by (unfold sim_ropts; rewrite M0; reflexivity).
  assert (L0 : sim_lopts e a (passing o sfc None ext eta) false = sim_lopts e a (passing o sfc (Some b) ext eta) false)
    by (unfold sim_lopts; rewrite M0; reflexivity).
  assert (R1 : sim_ropts e a (passing o sfc None ext eta) true = sim_ropts e a (passing o sfc (Some b) ext eta) true \/ p_conv e = false)
    by (destruct M1 as [M1|M1]; [left; unfold sim_ropts; rewrite M1; reflexivity|right; exact M1]).
  assert (L1 : sim_lopts e a (passing o sfc None ext eta) true = sim_lopts e a (passing o sfc (Some b) ext eta) true \/ p_conv e = false)
    by (destruct M1 as [M1|M1]; [left; unfold sim_lopts; rewrite M1; reflexivity|right; exact M1]).
  unfold simulate. cbn [m_only passing]. destruct (m_only o); [reflexivity|].
  destruct (String.eqb (lower (i_class ins)) "radar").
  - unfold simulate_radar. rewrite R0. destruct R1 as [->| ->]; reflexivity.
  - destruct (String.eqb (lower (i_class ins)) "lidar"); [|reflexivity].
    unfold simulate_lidar. rewrite L0. destruct L1 as [->| ->]; reflexivity.
Qed.
Lemma ice_by_type e a o sfc ext eta :
  m_rad o = false -> lower (mcphys e) <> "p3"%string ->
  (sim_lopts e a (passing o sfc None ext eta) false = sim_lopts e a (passing o sfc (Some true) ext eta) false /\
   sim_lopts e a (passing o sfc None ext eta) true = sim_lopts e a (passing o sfc (Some false) ext eta) true) /\
  (sim_ropts e a (passing o sfc None ext eta) false = sim_ropts e a (passing o sfc (Some true) ext eta) false /\
   sim_ropts e a (passing o sfc None ext eta) true = sim_ropts e a (passing o sfc (Some false) ext eta) true).
Proof.
  intros R N. unfold sim_lopts, sim_ropts, sim_mie. cbn [m_mie m_rad passing]. rewrite R.
  destruct (String.eqb_spec (lower (mcphys e)) "p3"); [contradiction|]. repeat split; reflexivity.
Qed.
