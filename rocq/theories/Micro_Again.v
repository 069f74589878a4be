(** A second microphysics lidar call raises the totals. *)
From Verif Require Import Mom_Base Mom_Spec Sched_Model Psd_Model Psd_Spec Psd_Witness Lidar_Model Lidar_Spec
  Lidar_Corol Lidar_Witness Radar_Model Radar_Spec Radar_Witness Micro_Spec Micro_Psd Micro_Rcell Micro_Lidar Micro_Radar Micro_Witness Xr_Facts.
Local Open Scope R_scope.

Lemma classes_sum (f : string -> xr) hs : (forall h, In h hs -> exists a, f h = XF a /\ 0 <= a) ->
  exists b, xsum (map (fun h => fillna 0 (f h)) hs) = XF b /\ 0 <= b /\ ((exists h a, In h hs /\ f h = XF a /\ 0 < a) -> 0 < b).
Proof.
  induction hs as [|h hs IH]; intros H.
  - exists 0. split; [reflexivity|]. split; [lra|]. intros (h & a & [] & _).
  - destruct (H h (or_introl eq_refl)) as (a & E & A). destruct IH as (b & S & B & P); [intros k K; apply H; right; exact K|].
    exists (a + b). cbn [map]. rewrite xsum_cons, S, E. split; [reflexivity|]. split; [lra|].
    intros (h' & a' & [<-|I] & E' & A').
    + rewrite E in E'. injection E' as <-. lra.
    + assert (0 < b) by (apply P; exists h', a'; auto). lra.
Qed.
Theorem micro_again_raises Gam e ins o hs s s1 :
  micro_tables_ok e -> o_emp o = false -> o_rad o = false -> classes_of e (o_hyds o) hs -> ~ In "tot"%string hs ->
  (forall h, In h hs -> gamma_class e h) -> totals_stored s ->
  calc_lidar_moments Gam e ins o false s = (Ok tt, s1) ->
  forall f i t k a, In f lidar_fields -> value s1 (out f "tot" false) i t k = XF a ->
  (forall h, In h hs -> exists b, value s1 (out f h false) i t k = XF b /\ 0 <= b) ->
  (exists h b, In h hs /\ value s1 (out f h false) i t k = XF b /\ 0 < b) ->
  exists s2 b, calc_lidar_moments Gam e ins o false s1 = (Ok tt, s2) /\ value s2 (out f "tot" false) i t k = XF b /\ a < b.
Proof.
  intros MT EM RA CL NT G TS E f i t k a F T N P.
  assert (NE : hs <> []) by (destruct P as (h & b & I & _); intros ->; destruct I).
  destruct (micro_repeat Gam e ins o hs s s1 MT EM RA CL NT G TS E NE) as (s2 & E2 & H).
  destruct (H f i t k F) as [_ V]. destruct (classes_sum (fun h => value s1 (out f h false) i t k) hs N) as (b & S & _ & B).
  exists s2, (a + b). split; [exact E2|]. rewrite V, T, S. split; [reflexivity|]. specialize (B P). lra.
Qed.
(** Rain and ice in the example. *)
Theorem m_again_lidar : exists s1 s2 a b,
  calc_lidar_moments w_gam w_mg2 (m_with w_ins) (m_lopts ["pl"; "ci"]%string) false m_ds = (Ok tt, s1) /\
  calc_lidar_moments w_gam w_mg2 (m_with w_ins) (m_lopts ["pl"; "ci"]%string) false s1 = (Ok tt, s2) /\
  value s1 (out "alpha_p" "tot" false) 0 0 1 = XF a /\ value s2 (out "alpha_p" "tot" false) 0 0 1 = XF b /\ 0 < a /\ b = 2 * a.
Proof.
  destruct (m_lidar_runs w_gam ["pl"; "ci"]%string (or_introl eq_refl)) as (s1 & E).
  assert (TS : totals_stored m_ds) by (intro H; discriminate H).
  assert (NT : ~ In "tot"%string ["pl"; "ci"]%string) by (simpl; intuition discriminate).
  assert (V : forall h, In h ["pl"; "ci"]%string -> exists a, value s1 (out "alpha_p" h false) 0 0 1 = XF a /\ 0 < a).
  { intros h I. destruct (micro_value w_gam w_mg2 (m_with w_ins) (m_lopts ["pl"; "ci"]%string) ["pl"; "ci"]%string m_ds s1
      (proj1 (m_tables _)) eq_refl eq_refl eq_refl NT (fun h _ => m_gamma h) TS E h (map XF m_D, map XF m_B, map XF m_A) m_D m_B m_A 0%nat 0%nat 1%nat (m_q h) (1/100) (m_r h))
      as (lam & n0 & C & A & _).
    - exact I.
    - apply m_ctable. simpl in I |- *. tauto.
    - exact m_ptable.
    - apply m_cell; lia.
    - apply m_holds, I.
    - apply m_known, I.
    - exists (population m_D m_A (gamma_psd n0 lam (class_shape w_mg2 w_kw h (1/100)))). split; [exact A|].
      apply population_pos; [reflexivity|apply m_pos|apply m_ptable| |].
      + intros b B. simpl in B. intuition (subst; lra).
      + destruct C as (L & N & _). intros d D. unfold gamma_psd. repeat apply Rmult_lt_0_compat; try assumption; try apply exp_pos. }
  pose proof (micro_totals_sum w_gam w_mg2 (m_with w_ins) (m_lopts ["pl"; "ci"]%string) ["pl"; "ci"]%string m_ds s1
      (proj1 (m_tables _)) eq_refl eq_refl eq_refl NT (fun h _ => m_gamma h) TS E) as [_ T].
  destruct (micro_repeat w_gam w_mg2 (m_with w_ins) (m_lopts ["pl"; "ci"]%string) ["pl"; "ci"]%string m_ds s1
      (proj1 (m_tables _)) eq_refl eq_refl eq_refl NT (fun h _ => m_gamma h) TS E ltac:(discriminate)) as (s2 & E2 & H).
  destruct (classes_sum (fun h => value s1 (out "alpha_p" h false) 0 0 1) ["pl"; "ci"]%string) as (b & S & _ & B).
  { intros h I. destruct (V h I) as (a & A & P). exists a. split; [exact A|lra]. }
  exists s1, s2, b, (2 * b). split; [exact E|]. split; [exact E2|].
  assert (F : In "alpha_p"%string lidar_fields) by (simpl; auto).
  assert (T1 : value s1 (out "alpha_p" "tot" false) 0 0 1 = XF b).
  { rewrite (T "alpha_p"%string 0%nat 0%nat 1%nat F), S. unfold total_before. cbn. f_equal. lra. }
  split; [exact T1|]. split.
  - destruct (H "alpha_p"%string 0%nat 0%nat 1%nat F) as [_ ->]. rewrite T1, S. cbn [xadd]. f_equal. lra.
  - split; [|reflexivity]. apply B. destruct (V "pl"%string (or_introl eq_refl)) as (a & A & P). exists "pl"%string, a. split; [left; reflexivity|auto].
Qed.
