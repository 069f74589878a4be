(** The ice of the P3 scheme in the lidar microphysics method. *)
From Verif Require Import Mom_Base Mom_Spec Mom_Facts Xr_Facts Sched_Model Atm_Model Psd_Model Lidar_Model Lidar_Spec
  Lidar_Od Lidar_Loop Lidar_Api Lidar_Perm Lidar_Corol Mom_Writes Psd_Spec Radar_Model Micro_Spec Micro_Loop Micro_Char
  Micro_Call Micro_Psd Micro_Cell Micro_Any Micro_P3_Spec.
Local Open Scope R_scope.

Lemma holds2_g2 s x t k v a : holds2 s x t k v -> g2 s x = Ok a -> a t k = XF v.
Proof. intros (b & V & E) G. rewrite (g2_var _ _ _ V) in G. injection G as <-. exact E. Qed.
Lemma Forall2_len {A B} (P : A -> B -> Prop) l1 l2 : Forall2 P l1 l2 -> length l2 = length l1.
Proof. induction 1; simpl; congruence. Qed.
Lemma tabulated_map ins key fr rr D X :
  Forall2 (fun d x => p3_single ins key (XF fr) (XF rr) (XF d) = XF x) D X ->
  map (fun d => p3_single ins key (XF fr) (XF rr) d) (map XF D) = map XF X.
Proof. induction 1 as [|d x D X H _ IH]; [reflexivity|]. cbn [map]. rewrite H, IH. reflexivity. Qed.
Lemma population_zero D : forall X, population D X (fun _ => 0) = 0.
Proof.
  unfold population. induction D as [|d D IH]; intros [|x X]; try reflexivity; [destruct D; reflexivity|].
  destruct D as [|d1 D]; [cbn; destruct X; reflexivity|]. destruct X as [|x1 X]; [reflexivity|].
  change (trapezoid (d :: d1 :: D) (times (x :: x1 :: X) (fun _ => 0) (d :: d1 :: D)))
    with ((d1 - d) * (x * 0 + x1 * 0) / 2 + trapezoid (d1 :: D) (times (x1 :: X) (fun _ => 0) (d1 :: D))).
  rewrite (IH (x1 :: X)). lra.
Qed.

Section C.
Variables (Gam : R -> R) (e : menv) (ins : inst) (mie : bool) (sch : sched) (kw : psd_kw) (lut : string * bool).
Notation go := (gopt Gam e ins mie sch kw lut).

Lemma p3_fit s ft : mcphys e = "P3"%string -> psd_of Gam e kw "ci" s = Ok ft ->
  exists ni n1 ln l mn m, g2 s (p3_ni e) = Ok ni /\ g2 s (p3_n0 e) = Ok n1 /\ field_of (lam_field e) "ci" = Ok ln /\
    g2 s ln = Ok l /\ field_of (mu_field e) "ci" = Ok mn /\ g2 s mn = Ok m /\
    ft = Fit2 (fun t k => xmul (ni t k) (n1 t k)) l m.
Proof.
  intros P E. unfold psd_of, calc_and_set_psd_params in E. rewrite P in E.
  cbn [memb existsb String.eqb Ascii.eqb Bool.eqb orb lower] in E.
  change (memb (lower "P3") ["mg2"; "mg"; "morrison"; "nssl"]%string) with false in E.
  change (memb (lower "P3") ["p3"]%string) with true in E. cbv iota in E. unfold rd in E. cbn [fst] in E.
  idtac.
  repeat (apply res_bind_ok in E as (? & ? & E)). injection E as <-. do 6 eexists. repeat (split; [eassumption|]). reflexivity.
Qed.

Lemma p3_opt s al be i t k n0 lam mu D B A :
  mcphys e = "P3"%string -> micro_lut (rad_family e) = Ok lut -> go "ci" s = Ok (al, be) -> cell e i t k ->
  p3_distribution e s t k n0 lam mu -> p3_sections e ins mie s t k D B A ->
  (p3_present s i t k -> al i t k = XF (population D A (gamma_psd n0 lam mu)) /\
                         be i t k = XF (population D B (gamma_psd n0 lam mu))) /\
  (p3_absent s i t k -> al i t k = XF 0 /\ be i t k = XF 0).
Proof.
  intros P HL H (Hi & Ht & Hk) (n & n1 & L & ln & M & mn & Hn & Hn1 & -> & HLf & HLa & Hl & HMf & HMa & Hm) (tab & CT & HS).
  assert (PC : is_p3ci e "ci" = true) by (unfold is_p3ci; rewrite P; reflexivity).
  unfold gopt in H. apply res_bind_ok in H as (w & Hw & H).
  unfold kw_of in Hw. rewrite PC in Hw. apply res_bind_ok in Hw as (fr & Hfr & Hw). apply res_bind_ok in Hw as (rr & Hrr & Hw).
  injection Hw as <-.
  apply res_bind_ok in H as (ft & Hf & H). apply res_bind_ok in H as (fl & Hfl & H).
  apply res_bind_ok in H as (nb & Hnb & H). apply res_bind_ok in H as (tab' & Htab & H).
  apply res_bind_ok in H as (order & Ho & H). apply res_bind_ok in H as (cols0 & Hc & H).
  apply res_bind_ok in H as (cols & Hs & H). injection H as <- <-.
  rewrite (table_ok e ins mie "ci" lut tab' tab HL Htab CT) in *. clear Htab tab'.
  apply order_ok in Ho. subst order. apply stack_ok in Hs as (-> & Hlen & _).
  apply run_cols_nth in Hc as [_ Hc]. destruct (Hc t Ht) as (c & E1 & E2). cbn [Nat.add] in E1.
  destruct (p3_fit s ft P Hf) as (ni & n1' & ln' & l & mn' & m & G1 & G2 & G3 & G4 & G5 & G6 & ->).
  unfold field_of in G3, G5. rewrite HLf, HLa in G3. rewrite HMf, HMa in G5. injection G3 as <-. injection G5 as <-.
  pose proof (holds2_g2 _ _ _ _ _ _ Hn G1) as V1. pose proof (holds2_g2 _ _ _ _ _ _ Hn1 G2) as V2.
  pose proof (holds2_g2 _ _ _ _ _ _ Hl G4) as V3. pose proof (holds2_g2 _ _ _ _ _ _ Hm G6) as V4.
  destruct tab as [[diam beta] alpha]. unfold lidar_column in E1. rewrite PC in E1. injection E1 as <-.
  unfold of_cols. rewrite E2. cbn [fst snd kw_fr kw_rr].
  assert (K : diam = map XF D /\ increasing_from 0 D /\ length B = length D /\ length A = length D /\
     (if mie then beta else map (fun d => p3_single ins "beta_p" (fr t k) (rr t k) d) diam) = map XF B /\
     (if mie then alpha else map (fun d => p3_single ins "alpha_p" (fr t k) (rr t k) d) diam) = map XF A).
  { destruct mie.
    - destruct HS as (ET & LB & LA & Inc). injection ET as -> -> ->. auto 10.
    - destruct HS as (ET & Inc & (f1 & r1 & F1 & R1 & TB) & (f2 & r2 & F2 & R2 & TA)). cbn [fst] in ET. subst diam.
      split; [reflexivity|]. split; [exact Inc|]. split; [exact (Forall2_len _ _ _ TB)|]. split; [exact (Forall2_len _ _ _ TA)|].
      split.
      + rewrite (holds2_g2 _ _ _ _ _ _ F1 Hfr), (holds2_g2 _ _ _ _ _ _ R1 Hrr). apply tabulated_map, TB.
      + rewrite (holds2_g2 _ _ _ _ _ _ F2 Hfr), (holds2_g2 _ _ _ _ _ _ R2 Hrr). apply tabulated_map, TA. }
  destruct K as (-> & Inc & LB & LA & KB & KA). rewrite KB, KA, V1, V2, V3, V4. cbn [xmul].
  apply g3_ok in Hnb. apply gb_ok in Hfl. split.
  - intros (n2 & fl' & Vn & Nn & Vf & Fl). assert (fl' = fl) as -> by (unfold varb in *; congruence).
    assert (Z : all_zero_level e (weighted fl nb) t k = false).
    { eapply (fun G => present_level G e); [exact Gam|exact Hi|exact Fl|]. exists n2. split; [|exact Nn].
      unfold value in Vn. red in Hnb. rewrite Hnb in Vn. exact Vn. }
    rewrite Z, Fl, psd_curve_real by (intros d Hd; apply (inc_pos 0 D); [lra|exact Inc|exact Hd]).
    rewrite (population_real D A _ LA), (population_real D B _ LB). auto.
  - intros (fl' & Vf & Fl). assert (fl' = fl) as -> by (unfold varb in *; congruence).
    destruct (all_zero_level e (weighted fl nb) t k); [auto|]. rewrite Fl, !map_map.
    rewrite (population_real D A (fun _ => 0) LA), (population_real D B (fun _ => 0) LB), !population_zero. auto.
Qed.
End C.

Section Call.
Variables (Gam : R -> R) (e : menv) (ins : inst) (o : lopts) (hs : list string) (s s1 : dset).
Hypotheses (TO : micro_tables_ok e) (Ee : o_emp o = false) (Er : o_rad o = false)
  (Hc : classes_of e (o_hyds o) hs) (NT : ~ In "tot"%string hs) (HT : totals_stored s)
  (E : calc_lidar_moments Gam e ins o false s = (Ok tt, s1)).

Lemma p3_micro_lidar i t k n0 lam mu D B A :
  mcphys e = "P3"%string -> In "ci"%string hs -> cell e i t k ->
  p3_distribution e s t k n0 lam mu -> p3_sections e ins (o_mie o) s t k D B A ->
  (p3_present s i t k ->
     value s1 (out "alpha_p" "ci" false) i t k = XF (population D A (gamma_psd n0 lam mu)) /\
     value s1 (out "beta_p" "ci" false) i t k = XF (population D B (gamma_psd n0 lam mu))) /\
  (p3_absent s i t k ->
     value s1 (out "alpha_p" "ci" false) i t k = XF 0 /\ value s1 (out "beta_p" "ci" false) i t k = XF 0).
Proof.
  intros P Hh C HD HS.
  destruct (any_leaves Gam e ins o hs s s1 TO Ee Er Hc NT HT E) as (zr & lut & Hz & Hl & (L1 & _) & _).
  destruct (L1 _ Hh) as (al & be & Hm & V1 & V2 & _).
  destruct (p3_opt Gam e ins (o_mie o) (o_sched o) (o_kw o) lut s al be i t k n0 lam mu D B A P Hl Hm C HD HS) as [K1 K2].
  rewrite (value_var _ _ _ _ _ _ V1), (value_var _ _ _ _ _ _ V2). unfold fill0, map3.
  split; intro Q; [destruct (K1 Q) as [-> ->]|destruct (K2 Q) as [-> ->]]; auto.
Qed.

Lemma any_totals_sum :
  (forall f h, In f lidar_fields -> In h hs -> exists a, var3 s1 (out f h false) a) /\
  forall f i t k, In f lidar_fields ->
    value s1 (out f "tot" false) i t k
    = xadd (total_before s f i t k) (xsum (map (fun h => fillna 0 (value s1 (out f h false) i t k)) hs)).
Proof.
  destruct (any_leaves Gam e ins o hs s s1 TO Ee Er Hc NT HT E) as (zr & lut & Hz & Hl & (L1 & L2 & L3) & _).
  split; [|exact L3]. intros f h Hf Hh. destruct (L1 h Hh) as (al & be & Hm & V1 & V2 & V3).
  simpl in Hf. destruct Hf as [<-|[<-|[<-|[]]]]; eauto.
Qed.

(** The next call, whatever its options, does not succeed. *)
Lemma p3_again_fails o2 hs2 s2 : mcphys e = "P3"%string -> In "ci"%string hs ->
  o_emp o2 = false -> o_rad o2 = false -> classes_of e (o_hyds o2) hs2 -> ~ In "tot"%string hs2 -> In "ci"%string hs2 ->
  calc_lidar_moments Gam e ins o2 false s1 <> (Ok tt, s2).
Proof.
  intros P Hh Ee2 Er2 Hc2 NT2 Hh2 E2.
  assert (PX : forall l, In "ci"%string l -> existsb (is_p3ci e) l = true).
  { intros l I. apply existsb_exists. exists "ci"%string. split; [exact I|]. unfold is_p3ci. rewrite P. reflexivity. }
  destruct (any_leaves Gam e ins o hs s s1 TO Ee Er Hc NT HT E) as (zr & lut & Hz & Hl & (L1 & L2 & L3) & Ag & Sn & _).
  assert (HT1 : totals_stored s1) by (intros _; exact L2).
  destruct (any_leaves Gam e ins o2 hs2 s1 s2 TO Ee2 Er2 Hc2 NT2 HT1 E2) as (_ & _ & _ & _ & _ & _ & _ & Sf).
  specialize (Sf (PX hs2 Hh2)). rewrite Sn, (PX hs Hh), orb_true_r in Sf. discriminate Sf.
Qed.
End Call.
