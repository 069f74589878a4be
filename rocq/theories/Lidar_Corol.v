(** Corollaries in the form of the property statements, and the concrete
    computations of the witnesses. *)
From Verif Require Import Mom_Base Mom_Spec Mom_Facts Xr_Facts Sched_Model Psd_Model Lidar_Model Lidar_Spec
  Lidar_Od Lidar_Ldr Lidar_Loop Lidar_Api Lidar_Perm Lidar_Witness.
Local Open Scope R_scope.

Lemma od_monotone e c z h sfc s Z A :
  (forall t k, point e t k -> z t k = XF (Z t k)) ->
  (exists q, var3 s (qn c h) q) -> real3 e s (out "alpha_p" h c) A ->
  (forall t k, (t < ntm e)%nat -> (S k < nht e)%nat -> Z t k <= Z t (S k)) ->
  (forall i t k, cell e i t k -> 0 <= A i t k) ->
  exists s' od, accumulate_OD e c z h sfc s = (Ok tt, s') /\ real3 e s' (out "OD" h c) od /\
    (forall i t k, cell e i t k -> (if sfc then k = 0%nat else S k = nht e) -> od i t k = 0) /\
    (forall i t k k', cell e i t k -> cell e i t k' -> (if sfc then k <= k' else k' <= k)%nat ->
       0 <= od i t k <= od i t k').
Proof.
  intros Hz Hq HA Zm Am.
  destruct (accumulate_OD_real e c z h sfc s Z A Hz Hq HA) as (s' & E & _ & RO).
  exists s'. eexists. split; [exact E|]. split; [exact RO|]. split.
  - intros i t k (Hi & Ht & Hk) He. destruct sfc.
    + subst k. reflexivity.
    + unfold od_down. replace (nht e - 1 - k)%nat with O by lia. reflexivity.
  - intros i t k k' (Hi & Ht & Hk) (_ & _ & Hk') Hl. destruct sfc.
    + apply (od_up_mono (Z t) (A i t) (nht e) k k'); auto. intros j Hj. apply Am. repeat split; assumption.
    + apply (od_down_mono (Z t) (A i t) (nht e) k' k); auto. intros j Hj. apply Am. repeat split; assumption.
Qed.

Lemma ldr_weighted e ext sfc arg hso hs h0 hr b0 od B w s :
  classes_of e hso hs -> hyds e = h0 :: hr -> var3 s (out "beta_p" h0 false) b0 ->
  (forall c h, In c (cloud_types e) -> In h hs -> num3 e s (out "beta_p" h c) (B c h)) ->
  (forall h, In h hs -> assoc (ldr_hyd e) h = Some (w h)) ->
  var3 s "sub_col_OD_tot" od ->
  exists s', calc_LDR_and_ext e ext sfc arg hso s = (Ok tt, s')
    /\ (forall c, In c (cloud_types e) -> exists l, var3 s' (ldr_name c) l /\ forall i t k, cell e i t k ->
          l i t k = if Rlt_dec 0 (ldr_den [c] hs B i t k)
                    then XF (ldr_num [c] hs B w i t k / ldr_den [c] hs B i t k) else XNaN)
    /\ (exists l, var3 s' "sub_col_LDR_tot" l /\ forall i t k, cell e i t k ->
          l i t k = if Rlt_dec 0 (ldr_den (cloud_types e) hs B i t k)
                    then XF (ldr_num (cloud_types e) hs B w i t k / ldr_den (cloud_types e) hs B i t k)
                    else XNaN).
Proof.
  intros. edestruct LDR_and_ext_run as (s' & E & _ & H5 & H6 & _); eauto.
Qed.
Lemma ldr_arg_ignored e ext sfc a1 a2 hso s :
  calc_LDR_and_ext e ext sfc a1 hso s = calc_LDR_and_ext e ext sfc a2 hso s.
Proof. reflexivity. Qed.
Lemma ext_mask_exact e ext sfc arg hso hs h0 hr b0 od B w s :
  classes_of e hso hs -> hyds e = h0 :: hr -> var3 s (out "beta_p" h0 false) b0 ->
  (forall c h, In c (cloud_types e) -> In h hs -> num3 e s (out "beta_p" h c) (B c h)) ->
  (forall h, In h hs -> assoc (ldr_hyd e) h = Some (w h)) ->
  var3 s "sub_col_OD_tot" od ->
  exists s', calc_LDR_and_ext e ext sfc arg hso s = (Ok tt, s')
    /\ unchanged_except (map ldr_name (cloud_types e) ++ ["sub_col_LDR_tot"; "ext_mask"]%string) s s'
    /\ exists m, var3 s' "ext_mask" m /\ forall i t k, cell e i t k -> exists v,
          m i t k = XF v /\
          (exceeds (od i t k) ext -> v = 2) /\
          (~ exceeds (od i t k) ext ->
             (forall k', beyond sfc (nht e) k k' -> exceeds (od i t k') ext -> v = 1) /\
             ((forall k', beyond sfc (nht e) k k' -> ~ exceeds (od i t k') ext) -> v = 0)).
Proof.
  intros. edestruct LDR_and_ext_run as (s' & E & U & _ & _ & M); eauto.
Qed.

Section Call.
Variable Gam : R -> R.

Lemma value_upd_other s n v x i t k : x <> n -> value (upd s n v) x i t k = value s x i t k.
Proof. intro N. unfold value. rewrite upd_other by exact N. reflexivity. Qed.
Lemma value_var s n a i t k : var3 s n a -> value s n i t k = a i t k.
Proof. unfold var3, value. intros ->. reflexivity. Qed.
Lemma field_att f h h' c : In f ["alpha_p"; "beta_p"; "OD"]%string -> out f h c <> out "beta_att" h' c.
Proof. simpl. intros [<-|[<-|[<-|[]]]]; unfold out; simpl; intro H; discriminate H. Qed.

Lemma moments_totals e ins o c hs s s' :
  classes_of e (o_hyds o) hs -> o_emp o || o_rad o || c = true -> NoDup hs -> ~ In "tot"%string hs ->
  calc_lidar_moments Gam e ins o c s = (Ok tt, s') ->
  (forall f h, In f ["alpha_p"; "beta_p"; "OD"]%string -> In h hs -> exists a, var3 s' (out f h c) a) /\
  forall f i t k, In f ["alpha_p"; "beta_p"; "OD"]%string ->
    value s' (out f "tot" c) i t k = xsum (map (fun h => fillna 0 (value s' (out f h c) i t k)) hs).
Proof.
  intros Hc NM ND NT E.
  apply moments_inv with (hs := hs) in E; [|exact Hc].
  destruct E as (q & pr & tr & zr & s0 & bm & tau & sm & b & od & El & Hq & Hp & Ht & Hz & Ea & Hb & Htau & Em & Hbt & Hod & ->).
  destruct (method_totals Gam e ins o c _ _ _ hs s0 sm NM ND NT Em) as (at1 & bt1 & ot1 & V1 & V2 & V3 & VC & T).
  split.
  - intros f h Hf Hh. destruct (VC h Hh) as (a & b' & A1 & A2 & A3).
    unfold var3. rewrite upd_other by (apply field_att; exact Hf).
    simpl in Hf. destruct Hf as [<-|[<-|[<-|[]]]]; eauto.
  - intros f i t k Hf. rewrite value_upd_other by (apply field_att; exact Hf).
    rewrite (map_ext_in _ (fun h => fillna 0 (value sm (out f h c) i t k)))
      by (intros h _; rewrite value_upd_other by (apply field_att; exact Hf); reflexivity).
    simpl in Hf. destruct (T i t k) as (T1 & T2 & T3).
    destruct Hf as [<-|[<-|[<-|[]]]].
    + rewrite (value_var _ _ _ _ _ _ V1). exact T1.
    + rewrite (value_var _ _ _ _ _ _ V2). exact T2.
    + rewrite (value_var _ _ _ _ _ _ V3). exact T3.
Qed.

Lemma moments_repeat e ins o c hs s s1 n :
  tables_ok e c -> classes_of e (o_hyds o) hs -> o_emp o || o_rad o || c = true ->
  calc_lidar_moments Gam e ins o c s = (Ok tt, s1) ->
  let again s := snd (calc_lidar_moments Gam e ins o c s) in
  fst (calc_lidar_moments Gam e ins o c (Nat.iter n again s1)) = Ok tt /\
  forall x, assoc (dvars (Nat.iter n again s1)) x = assoc (dvars s1) x.
Proof.
  intros T Hc NM E again.
  assert (G : exists s', calc_lidar_moments Gam e ins o c s' = (Ok tt, Nat.iter n again s1) /\
              forall x, assoc (dvars (Nat.iter n again s1)) x = assoc (dvars s1) x).
  { induction n as [|n IH]; [exists s; auto|].
    destruct IH as (s' & E' & H).
    destruct (moments_rerun Gam e ins o c hs s' _ T Hc NM E') as (s2 & E2 & H2).
    assert (Q : Nat.iter (S n) again s1 = s2).
    { change (again (Nat.iter n again s1) = s2). unfold again at 1. rewrite E2. reflexivity. }
    rewrite Q. exists (Nat.iter n again s1). split; [exact E2|]. intro x. rewrite H2. apply H. }
  destruct G as (s' & E' & H). split; [|exact H].
  destruct (moments_rerun Gam e ins o c hs s' _ T Hc NM E') as (s2 & E2 & _). rewrite E2. reflexivity.
Qed.
End Call.

(** *** Witness computations *)
Lemma w_od sfc : exists s', accumulate_OD (w_env "CESM" w_lam) false w_z "cl" sfc w_res = (Ok tt, s') /\
  value s' "sub_col_OD_cl_strat" 0 0 1 = XF (1/10) /\
  value s' "sub_col_OD_cl_strat" 1 0 2 = XF (if sfc then 2/10 else 0).
Proof.
  destruct (accumulate_OD_real (w_env "CESM" w_lam) false w_z "cl" sfc w_res
    (fun _ k => 100 * INR (S k)) (fun _ _ _ => 1/1000)) as (s' & E & _ & (a & V & F)).
  - intros; reflexivity.
  - eexists. reflexivity.
  - eexists. split; reflexivity.
  - exists s'. split; [exact E|].
    change "sub_col_OD_cl_strat"%string with (out "OD" "cl" false).
    rewrite !(value_var _ _ _ _ _ _ V). rewrite !F by (unfold cell; simpl; lia).
    destruct sfc; split; f_equal; unfold od_up, od_down; simpl; lra.
Qed.

Lemma w_totals : exists s', calc_total_alpha_beta (w_env "CESM" w_lam) 1 w_res = (Ok tt, s') /\
  value s' "sub_col_beta_p_tot" 0 0 1 = XF (4/10000) /\
  value s' "sub_col_beta_att_tot" 0 0 0 = XF (401/1000000 * (9/10)).
Proof.
  set (e := w_env "CESM" w_lam).
  destruct (total_alpha_beta_run e 1 w_res (fun _ _ _ => 4/10000) (fun _ _ _ => 0)
    (fun _ _ _ => 2/1000) (fun _ _ _ => 0) (fun _ _ k => 3 * INR k) (fun _ _ _ => 0)
    (fun _ _ => 1/1000000) (fun _ _ => 9/10)) as (s' & E & _ & (b & Vb & Fb) & _ & _ & (a & Va & Fa)).
  - apply w_num3; reflexivity.
  - intros _. apply w_nan3; reflexivity.
  - apply w_num3; reflexivity.
  - intros _. apply w_nan3; reflexivity.
  - eexists. split; [reflexivity|]. intros; reflexivity.
  - intros _. apply w_nan3; reflexivity.
  - eexists. split; [reflexivity|]. intros; reflexivity.
  - eexists. split; [reflexivity|]. intros; reflexivity.
  - exists s'. split; [exact E|].
    rewrite (value_var _ _ _ _ _ _ Vb), (value_var _ _ _ _ _ _ Va).
    rewrite Fb, Fa by (unfold cell; simpl; lia). cbn [p_conv e w_env]. split; f_equal; [lra|].
    unfold attenuated. simpl INR. replace (-2 * 1 * (0 + 3 * 0)) with 0 by lra. rewrite exp_0. lra.
Qed.

Definition w_B (c : bool) (h : string) (i t k : nat) : R :=
  if c then 0 else if String.eqb h "cl" then 1/10000 else 3/10000.
Definition w_w (h : string) : R := if String.eqb h "cl" then 3/100 else 35/100.

Lemma w_ldr_any arg : exists s',
  calc_LDR_and_ext (w_env "CESM" w_lam) 4 true arg (Some ["cl"; "ci"]%string) w_res = (Ok tt, s') /\
  value s' "sub_col_LDR_tot" 0 0 0 = XF (27/100) /\
  value s' "ext_mask" 0 0 0 = XF 0 /\ value s' "ext_mask" 0 0 1 = XF 1 /\ value s' "ext_mask" 0 0 2 = XF 2.
Proof.
  set (e := w_env "CESM" w_lam).
  destruct (LDR_and_ext_run e 4 true arg (Some ["cl"; "ci"]%string) ["cl"; "ci"]%string "cl" ["ci"]%string
     (fun _ _ _ => XF (1/10000)) (fun _ _ k => XF (3 * INR k)) w_B w_w w_res)
    as (s' & E & _ & _ & (l & Vl & Fl) & (m & Vm & Fm)).
  - reflexivity.
  - reflexivity.
  - reflexivity.
  - intros c h Hc Hh. simpl in Hh. destruct Hh as [<-|[<-|[]]]; destruct c.
    + apply w_nan3; reflexivity.
    + apply (w_num3 e _ (1/10000)); reflexivity.
    + apply (w_num3 e _ 0); reflexivity.
    + apply (w_num3 e _ (3/10000)); reflexivity.
  - intros h Hh. simpl in Hh. destruct Hh as [<-|[<-|[]]]; reflexivity.
  - reflexivity.
  - exists s'. split; [exact E|].
    rewrite (value_var _ _ _ _ _ _ Vl), !(value_var _ _ _ _ _ _ Vm). split; [|split; [|split]].
    + rewrite Fl by (unfold cell; simpl; lia).
      unfold ldr_den, ldr_num, cloud_types, w_B, w_w; simpl.
      destruct (Rlt_dec _ _) as [P|P]; [f_equal; lra|exfalso; apply P; lra].
    + destruct (Fm 0%nat 0%nat 0%nat) as (v & -> & _ & H); [unfold cell; simpl; lia|]. f_equal.
      destruct H as [_ H]; [simpl; lra|]. apply H. intros k' [-> _]. simpl. lra.
    + destruct (Fm 0%nat 0%nat 1%nat) as (v & -> & _ & H); [unfold cell; simpl; lia|]. f_equal.
      destruct H as [H _]; [simpl; lra|]. apply (H 2%nat); [split; simpl; auto|simpl; lra].
    + destruct (Fm 0%nat 0%nat 2%nat) as (v & -> & H & _); [unfold cell; simpl; lia|]. f_equal.
      apply H. simpl. lra.
Qed.
Lemma w_ldr : exists s',
  calc_LDR_and_ext (w_env "CESM" w_lam) 4 true None (Some ["cl"; "ci"]%string) w_res = (Ok tt, s') /\
  value s' "sub_col_LDR_tot" 0 0 0 = XF (27/100) /\
  value s' "ext_mask" 0 0 0 = XF 0 /\ value s' "ext_mask" 0 0 1 = XF 1 /\ value s' "ext_mask" 0 0 2 = XF 2.
Proof. exact (w_ldr_any None). Qed.
Lemma w_ldr_refuted : exists e s s' r,
  calc_LDR_and_ext e 4 true (Some [("cl", 1/2); ("ci", 1/2)]%string) (Some ["cl"; "ci"]%string) s = (Ok tt, s') /\
  value s' "sub_col_LDR_tot" 0 0 0 = XF r /\ r < 1/2.
Proof.
  destruct (w_ldr_any (Some [("cl", 1/2); ("ci", 1/2)]%string)) as (s' & E & V & _).
  exists (w_env "CESM" w_lam), w_res, s', (27/100). split; [exact E|]. split; [exact V|lra].
Qed.

Lemma w_order_refuted Gam : exists e ins o s,
  tables_ok e false /\
  fst (calc_lidar_moments Gam e ins (with_hyds o ["cl"; "pl"]%string) false s) = Ok tt /\
  fst (calc_lidar_moments Gam e ins (with_hyds o ["pl"; "cl"]%string) false s) = Raise UnboundLocalError.
Proof.
  exists (w_env "CESM" w_lam), w_ins, (w_opts false), w_ds. split; [apply w_tables|].
  split; reflexivity.
Qed.
Lemma w_order Gam emp : let e := w_env "CESM" w_lam in
  tables_ok e false /\ (forall h, In h ["ci"; "cl"]%string -> self_contained e h) /\
  fst (calc_lidar_moments Gam e w_ins (with_hyds (w_opts emp) ["ci"; "cl"]%string) false w_ds) = Ok tt.
Proof.
  intro e. split; [apply w_tables|]. split.
  - intros h [<-|[<-|[]]].
    + right; left. simpl. tauto.
    + right; right. split; [simpl; tauto|]. exists w_lam, "lam_cl"%string. split; reflexivity.
  - destruct emp; reflexivity.
Qed.
