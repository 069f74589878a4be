(** Curtains, single profiles, failures. *)
From Coq Require Import Reals Lra ZArith Lia.
From Verif Require Import Xr_Facts Disp_Stat Disp_Prof Disp_Crop Disp_Inst Xds_Proofs Xds_Stack Xds_Fields Load_Facts Curt_Model Curt_Spec Curt_Facts Curt_Time.
Local Open Scope string_scope.
Local Open Scope list_scope.

(** A display function draws columns at [c], levels at [y], values [f]. *)
Definition draws (F : opts -> res panel) (cols levels : nat) (c y : nat -> R) (f : nat -> nat -> xr) (named : opts -> Prop) : Prop :=
  exists gx gy a, (forall j, j < cols -> gx j = XF (c j)) /\ (forall k, k < levels -> gy k = XF (y k)) /\
    ash a = [levels; cols] /\ (forall j k, aat a [k; j] = f j k) /\
    (forall o, named o -> F o = draw cols levels gx gy a o) /\ forall o e, draw cols levels gx gy a o = Raise e -> F o = Raise e.

Section Draws.
Context (F : opts -> res panel) (cols levels : nat) (c y : nat -> R) (f : nat -> nat -> xr) (named : opts -> Prop)
  (D : draws F cols levels c y f named) (NM : forall o k h, named o -> named (with_mask o k h)).
Lemma d_plain o : named o -> limits o -> exists p, F (with_mask o None (HBool false)) = Ok p /\ shows p cols levels c y f /\ p_hatch p = None /\ coloured_as o p.
Proof. destruct D as (gx & gy & a & X & Y & S & A & E & _). intros N L. rewrite E by auto. apply (draw_plain _ _ _ _ c y a f o X Y S A L). Qed.
Lemma d_masked o K : named o -> limits o -> exists p, F (with_mask o (Some (mask_of cols levels K)) (HBool false)) = Ok p /\
  shows p cols levels c y (fun j k => if hides (K j k) then XNaN else f j k) /\ p_hatch p = None /\ coloured_as o p.
Proof. destruct D as (gx & gy & a & X & Y & S & A & E & _). intros N L. rewrite E by auto. apply (draw_masked _ _ _ _ c y a f o X Y S A L). Qed.
Lemma d_hatched o K h : named o -> limits o -> truthy h = true -> exists p, F (with_mask o (Some (mask_of cols levels K)) h) = Ok p /\
  shows p cols levels c y f /\ coloured_as o p /\ exists g, p_hatch p = Some g /\ forall j k, g k j = true <-> K j k <> XF 0.
Proof. destruct D as (gx & gy & a & X & Y & S & A & E & _). intros N L T. rewrite E by auto. apply (draw_hatched _ _ _ _ c y a f o X Y S A L K h T). Qed.
Lemma d_hatched_all o h : named o -> limits o -> truthy h = true -> exists p, F (with_mask o None h) = Ok p /\
  shows p cols levels c y f /\ exists g, p_hatch p = Some g /\ forall j k, g k j = true.
Proof. destruct D as (gx & gy & a & X & Y & S & A & E & _). intros N L T. rewrite E by auto. apply (draw_hatched_all _ _ _ _ c y a f o X Y S A L h T). Qed.
Lemma d_other_mask o k : named o -> ash k <> [cols; levels] -> F (with_mask o (Some k) (HBool false)) = F (with_mask o None (HBool false)).
Proof. destruct D as (gx & gy & a & X & Y & S & A & E & _). intros N NE. rewrite !E by auto. apply (draw_other_mask _ _ _ _ a o S k NE). Qed.
Lemma d_hatched_other o k h : limits o -> truthy h = true -> ash k <> [cols; levels] -> F (with_mask o (Some k) h) = Raise IndexError.
Proof.
  destruct D as (gx & gy & a & X & Y & S & A & _ & E). intros L T NE. apply E. apply (draw_hatched_other _ _ _ _ c y a o X Y S L k h T NE).
Qed.
Lemma d_no_limits o : o_log o = true -> o_lo o = None \/ o_hi o = None -> F o = Raise UnboundLocalError.
Proof. destruct D as (gx & gy & a & X & Y & S & A & _ & E). intros L H. apply E. apply draw_no_limits; assumption. Qed.
End Draws.

Lemma titled_mask n o k h : titled_for n o -> titled_for n (with_mask o k h).
Proof. exact (fun H => H). Qed.

Lemma draws_curtain d name z f c y times levels pressure zname :
  axes_of d c times levels -> curtain_of d name z f -> placed d pressure zname times levels y ->
  draws (subcolumn_timeseries d name z pressure zname) times levels c y f (titled_for times).
Proof.
  intros AX C P. pose proof C as (v0 & _ & N & _). destruct (source_ok d name z f c times levels AX C) as (x & v & S & LK & G & SH & V).
  destruct (source_times d c times levels AX N x LK) as (gx & TX & X). destruct (source_levels d c times levels AX N x pressure zname y LK P) as (gy & TY & Y).
  exists gx, gy, (flip_axes (values x v)). repeat (split; [assumption|]).
  assert (E : forall o, subcolumn_timeseries d name z pressure zname o = (do p <- draw times levels gx gy (flip_axes (values x v)) o; do _ <- title o times; Ok p)).
  { intro o. unfold subcolumn_timeseries. rewrite S. cbn [bind]. rewrite TX. cbn [bind]. rewrite TY. cbn [bind]. rewrite G. cbn [bind].
    destruct AX as [OWN _ T _ _]. rewrite <- OWN, T. reflexivity. }
  split.
  - intros o NM. rewrite E, (title_ok o times NM). destruct (draw times levels gx gy _ o); reflexivity.
  - intros o e R. rewrite E, R. reflexivity.
Qed.
Lemma draws_q d name z f c y times levels pressure zname :
  axes_of d c times levels -> curtain_of d name z f -> placed d pressure zname times levels y ->
  draws (q_timeseries d name z pressure zname) times levels c (fun k => y k / 1000)%R (fun t k => xmul (f t k) (XF 1000)) (titled_for times).
Proof.
  intros AX C P. pose proof C as (v0 & _ & N & _). destruct (source_ok d name z f c times levels AX C) as (x & v & S & LK & G & SH & V).
  destruct (source_times d c times levels AX N x LK) as (gx & TX & X). destruct (source_levels d c times levels AX N x pressure zname y LK P) as (gy & TY & Y).
  exists gx, (fun i => xdiv (gy i) (XF 1000)), (scaled 1000 (flip_axes (values x v))). split; [exact X|].
  split; [intros k K; cbv beta; rewrite Y, xdiv_fin by (assumption || lra); reflexivity|]. split; [exact SH|].
  split; [intros j k; cbn [scaled aat]; rewrite V; reflexivity|].
  assert (E : forall o, q_timeseries d name z pressure zname o =
    (do p <- draw times levels gx (fun i => xdiv (gy i) (XF 1000)) (scaled 1000 (flip_axes (values x v))) o; do _ <- title o times; Ok p)).
  { intro o. unfold q_timeseries. rewrite S. cbn [bind]. rewrite TX. cbn [bind]. rewrite TY. cbn [bind]. rewrite G. cbn [bind].
    destruct AX as [OWN _ T _ _]. rewrite <- OWN, T. reflexivity. }
  split.
  - intros o NM. rewrite E, (title_ok o times NM). destruct (draw times levels gx _ _ o); reflexivity.
  - intros o e R. rewrite E, R. reflexivity.
Qed.
Lemma draws_instrument x name hdim c f y : instrument_of x name hdim c f y ->
  draws (instrument_timeseries x name) (sz x "time") (sz x hdim) c y f (titled_for (sz x "time")).
Proof.
  intros [(cv & CA & CD & CV & _) (pre & yname & post & v & L & PRE & A & D & V) (w & WA & WD & WV) _].
  exists (fun i => vat cv [i]), (fun i => vat v [i]), (flip_axes (values x w)). split; [exact CV|]. split; [exact V|].
  split; [unfold flip_axes, values, shape; cbn [ash]; rewrite WD; reflexivity|]. split; [intros j k; exact (WV j k)|].
  assert (FO : first_of x ["range"; "altitude"; "height"] = Ok v) by (rewrite L; apply Disp_Inst.first_ok; [intros (p & I & Q); exact (PRE p I Q)|exact A]).
  assert (CT : assoc (all_vars x) "time" = Some cv) by (unfold all_vars; rewrite Xds_Round.assoc_app, CA; reflexivity).
  assert (E : forall o, instrument_timeseries x name o =
    (do p <- draw (sz x "time") (sz x hdim) (fun i => vat cv [i]) (fun i => vat v [i]) (flip_axes (values x w)) o; do _ <- title o (sz x "time"); Ok p)).
  { intro o. unfold instrument_timeseries. rewrite FO. cbn [bind]. rewrite (vector_ok x "time" cv "time" CT CD). cbn [bind]. rewrite D. cbn [bind].
    unfold getv. rewrite WA. reflexivity. }
  split.
  - intros o NM. rewrite E, (title_ok o _ NM). destruct (draw _ _ _ _ _ o); reflexivity.
  - intros o e R. rewrite E, R. reflexivity.
Qed.

(** One time. *)
Lemma pick_second d a b i v : NoDup [a; d; b] -> vdims v = [a; d; b] -> forall t k, vat (pick d i v) [t; k] = vat v [t; i; k].
Proof.
  intros N V t k. pose proof (at_pick d i v (fun e => if String.eqb e a then t else k)) as H. unfold at_ in H.
  rewrite (pick_dims d i v), V in H. inversion N as [|? ? N1 N2]; subst. inversion N2 as [|? ? N3 N4]; subst.
  assert (D1 : a <> d) by (intros ->; apply N1; left; reflexivity). assert (D2 : a <> b) by (intros ->; apply N1; right; left; reflexivity).
  assert (D3 : d <> b) by (intros ->; apply N3; left; reflexivity).
  cbn [filter map] in H. rewrite String.eqb_refl in H.
  destruct (String.eqb_spec a d); [congruence|]. destruct (String.eqb_spec b d); [congruence|]. cbn [negb filter map] in H.
  rewrite String.eqb_refl in H. destruct (String.eqb_spec b a); [congruence|]. exact H.
Qed.
Lemma pick_two d b i v : d <> b -> vdims v = [d; b] -> forall k, vat (pick d i v) [k] = vat v [i; k].
Proof.
  intros N V k. pose proof (at_pick d i v (fun e => k)) as H. unfold at_ in H. rewrite (pick_dims d i v), V in H.
  cbn [filter map] in H. rewrite String.eqb_refl in H. destruct (String.eqb_spec b d); [congruence|]. exact H.
Qed.
Lemma draws_profile d name f c times levels pressure zname t : axes_of d c times levels -> subcolumn_field d name f -> 0 < times ->
  exists i, i < times /\ (forall j, j < times -> (Rabs (t - c i) <= Rabs (t - c j))%R) /\
    forall y, placed_at d pressure zname i levels y ->
    draws (single_profile d name (XF t) pressure zname) (sz (d_ds d) "subcolumn") levels INR y (fun s k => f s i k) (fun _ => True).
Proof.
  intros AX (v & A & N & D & V) T0. pose proof AX as [OWN CL T LV [HI H1]].
  set (td := time_dim (d_model d)) in *. set (hd_ := height_dim (d_model d)) in *.
  assert (N12 : "subcolumn" <> td /\ "subcolumn" <> hd_ /\ td <> hd_).
  { inversion N as [|? ? N1 N2]; subst. inversion N2 as [|? ? N3 N4]; subst. repeat split; intro E.
    - apply N1. left. exact (eq_sym E). - apply N1. right. left. exact (eq_sym E). - apply N3. left. exact (eq_sym E). }
  destruct N12 as (N1 & N2 & N3).
  destruct (nearest_label_ok (d_ds d) td c t CL) as (i & E & I & J); [rewrite T; exact T0|]. rewrite T in I, J.
  exists i. split; [exact I|]. split; [exact J|]. intros y P.
  set (x := pick_ds td i (d_ds d)).
  assert (VY : exists g, vertical (d_model d) x pressure zname = Ok (levels, g) /\ forall k, k < levels -> g k = XF (y k)).
  { assert (HD : forall w, vdims w = [hd_] -> ~ In td (vdims w)) by (intros w -> [Q|[]]; congruence).
    assert (VH : exists g, vector x hd_ = Ok (levels, g)).
    { destruct (vector_dim x hd_) as [g G].
      - apply dims_pick; [exact N3|exact HI].
      - intros w W. unfold x in W. rewrite pick_assoc in W. destruct (assoc (all_vars (d_ds d)) hd_) as [u|] eqn:U; [|discriminate].
        injection W as <-. rewrite pick_other by (apply HD, (H1 u eq_refl)). exact (H1 u eq_refl).
      - unfold x in G at 2. cbn [pick_ds sz] in G. rewrite LV in G. exists g. exact G. }
    unfold vertical. fold hd_. unfold placed_at in P. fold td hd_ in P. destruct pressure.
    - destruct P as (w & W & WV). pose proof (H1 w W) as WD. rewrite (vector_ok x hd_ w hd_); [|unfold x; rewrite pick_assoc, W; cbn; rewrite pick_other by (apply HD, WD); reflexivity|exact WD].
      unfold x at 1. cbn [pick_ds sz]. rewrite LV. eexists. split; [reflexivity|exact WV].
    - destruct P as (w & W & [[WD WV]|[WD WV]]).
      + unfold getv, x at 1. rewrite pick_assoc, W. cbn [option_map bind]. rewrite pick_other by (apply HD, WD). rewrite WD. cbn [bind].
        destruct VH as [g ->]. cbn [bind]. unfold x. cbn [pick_ds sz]. rewrite LV, Nat.eqb_refl. cbn [orb]. eexists. split; [reflexivity|exact WV].
      + unfold getv, x at 1. rewrite pick_assoc, W. cbn [option_map bind].
        assert (PD : vdims (pick td i w) = [hd_]). { rewrite pick_dims, WD. cbn [filter]. rewrite String.eqb_refl. destruct (String.eqb_spec hd_ td); [congruence|reflexivity]. }
        rewrite PD. cbn [bind]. destruct VH as [g ->]. cbn [bind]. unfold x. cbn [pick_ds sz]. rewrite LV, Nat.eqb_refl. cbn [orb]. eexists. split; [reflexivity|].
        intros k K. cbv beta. rewrite (pick_two td hd_) by assumption. apply WV, K. }
  destruct VY as (gy & TY & Y). exists (fun j => XF (INR j)), gy, (flip_axes (values x (pick td i v))).
  assert (PD : vdims (pick td i v) = ["subcolumn"; hd_]).
  { rewrite pick_dims, D. cbn [filter]. rewrite String.eqb_refl. destruct (String.eqb_spec "subcolumn" td); [congruence|]. destruct (String.eqb_spec hd_ td); [congruence|reflexivity]. }
  split; [reflexivity|]. split; [exact Y|]. split.
  { unfold flip_axes, values, shape. cbn [ash]. rewrite PD. unfold x. cbn [map rev app pick_ds sz]. rewrite LV. reflexivity. }
  split. { intros j k. unfold flip_axes, values. cbn [aat rev app]. rewrite (pick_second td "subcolumn" hd_) by assumption. apply V. }
  assert (EQ : forall o, single_profile d name (XF t) pressure zname o = draw (sz (d_ds d) "subcolumn") levels (fun j => XF (INR j)) gy (flip_axes (values x (pick td i v))) o).
  { intro o. unfold single_profile. fold td. rewrite E. cbn [bind]. cbv zeta. fold x. rewrite TY. cbn [bind].
    unfold getv, x at 1. rewrite pick_assoc, A. cbn [option_map bind]. unfold subcolumn_count. rewrite <- OWN.
    assert (HS : has_dim (d_ds d) "subcolumn" = true).
    { apply has_dim_in, in_dims. exists name, v. split; [|rewrite D; left; reflexivity]. clear -A.
      induction (all_vars (d_ds d)) as [|[k w] l IH]; [discriminate|]. cbn in A. destruct (String.eqb_spec k name) as [->|]; [injection A as ->; left; reflexivity|right; auto]. }
    rewrite HS. reflexivity. }
  split; intros o; [intros _; apply EQ|intros e R; rewrite EQ; exact R].
Qed.
