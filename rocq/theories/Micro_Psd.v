(** Integrals over a size table in real arithmetic. *)
From Verif Require Import Mom_Base Mom_Spec Mom_Facts Xr_Facts Psd_Model Lidar_Model Psd_Spec Psd_Int Psd_Facts
  Radar_Model Micro_Spec.
Local Open Scope R_scope.

Lemma trapz_real D : forall F, length F = length D -> trapz (map XF D) (map XF F) = XF (trapezoid D F).
Proof.
  induction D as [|d0 D IH]; intros [|f0 F] H; try discriminate; [reflexivity|].
  destruct D as [|d1 D], F as [|f1 F]; try discriminate; [reflexivity|].
  change (trapz (map XF (d0 :: d1 :: D)) (map XF (f0 :: f1 :: F)))
    with (xadd (xdiv (xmul (xsub (XF d1) (XF d0)) (xadd (XF f0) (XF f1))) (XF 2)) (trapz (map XF (d1 :: D)) (map XF (f1 :: F)))).
  rewrite (IH (f1 :: F)) by (simpl in *; lia). unfold xsub. cbn [xopp xadd xmul].
  rewrite xdiv_fin by lra. cbn [xadd]. reflexivity.
Qed.
Lemma zmul_real X : forall n D, length X = length D -> zmul (map XF X) (map (fun d => XF (n d)) D) = map XF (times X n D).
Proof.
  induction X as [|x X IH]; intros n [|d D] H; try discriminate; [reflexivity|].
  cbn [map zmul times xmul]. rewrite IH by (simpl in *; lia). reflexivity.
Qed.
Lemma length_times X : forall n D, length X = length D -> length (times X n D) = length D.
Proof. induction X as [|x X IH]; intros n [|d D] H; simpl in *; try lia. rewrite IH; lia. Qed.
Lemma inc_pos x D : 0 <= x -> increasing_from x D -> forall d, In d D -> 0 < d.
Proof.
  revert x. induction D as [|d D IH]; intros x Hx H d' I; [destruct I|].
  destruct H as [H1 H2]. destruct I as [<-|I]; [lra|]. apply (IH d); [lra|exact H2|exact I].
Qed.
Lemma psd_curve_real n0 lam mu D : (forall d, In d D -> 0 < d) ->
  psd_curve (XF n0) (XF lam) (XF mu) (map XF D) = map (fun d => XF (gamma_psd n0 lam mu d)) D.
Proof.
  intro H. unfold psd_curve. rewrite map_map. apply map_ext_in. intros d Hd.
  rewrite xpow_fin by (apply H; exact Hd). cbn [xmul xopp xexp]. reflexivity.
Qed.
Lemma exp_curve_real n0 lam D :
  exp_curve (XF n0) (XF lam) (map XF D) = map (fun d => XF (n0 * exp (- lam * d))) D.
Proof. unfold exp_curve. rewrite map_map. reflexivity. Qed.
Lemma exp_is_gamma n0 lam d : 0 < d -> n0 * exp (- lam * d) = gamma_psd n0 lam 0 d.
Proof. intro H. unfold gamma_psd. rewrite Rpower_O by exact H. ring. Qed.

Lemma population_real D X n : length X = length D ->
  trapz (map XF D) (zmul (map XF X) (map (fun d => XF (n d)) D)) = XF (population D X n).
Proof. intro H. rewrite zmul_real by exact H. rewrite trapz_real; [reflexivity|]. apply length_times; exact H. Qed.

(** A population of particles with non-negative cross-sections. *)
Lemma trapezoid_nonneg D : forall x F, increasing_from x D -> (forall f, In f F -> 0 <= f) -> 0 <= trapezoid D F.
Proof.
  induction D as [|d0 D IH]; intros x F Hi HF; [simpl; lra|].
  destruct D as [|d1 D]; [simpl; destruct F; lra|]. destruct F as [|f0 [|f1 F]]; try (simpl; lra).
  change (trapezoid (d0 :: d1 :: D) (f0 :: f1 :: F))
    with ((d1 - d0) * (f0 + f1) / 2 + trapezoid (d1 :: D) (f1 :: F)).
  destruct Hi as [_ Hi]. assert (0 <= trapezoid (d1 :: D) (f1 :: F)).
  { apply (IH d0); [exact Hi|]. intros f Hf. apply HF. right. exact Hf. }
  destruct Hi as [Hd _].
  assert (0 <= f0) by (apply HF; simpl; tauto). assert (0 <= f1) by (apply HF; simpl; tauto).
  assert (0 <= (d1 - d0) * (f0 + f1)) by (apply Rmult_le_pos; lra). lra.
Qed.
Lemma in_times X : forall n D f, In f (times X n D) -> exists x d, In x X /\ In d D /\ f = x * n d.
Proof.
  induction X as [|x X IH]; intros n [|d D] f H; simpl in *; try tauto.
  destruct H as [<-|H]; [exists x, d; auto|]. destruct (IH n D f H) as (x' & d' & A & B & C). exists x', d'. auto.
Qed.
Lemma population_nonneg D X n : increasing_from 0 D -> (forall x, In x X -> 0 <= x) ->
  (forall d, 0 < d -> 0 <= n d) -> 0 <= population D X n.
Proof.
  intros Hi HX Hn. unfold population. apply (trapezoid_nonneg D 0); [exact Hi|].
  intros f Hf. apply in_times in Hf as (x & d & Hx & Hd & ->).
  apply Rmult_le_pos; [apply HX; exact Hx|]. apply Hn. apply (inc_pos 0 D); [lra|exact Hi|exact Hd].
Qed.

(** Missing values. *)
Lemma trapz_nan x : forall y, (forall v, In v y -> v = XNaN) -> trapz x y = XF 0 \/ trapz x y = XNaN.
Proof.
  induction x as [|x0 x IH]; intros y H; [left; reflexivity|].
  destruct x as [|x1 x]; [left; destruct y as [|? []]; reflexivity|].
  destruct y as [|y0 [|y1 y]]; try (left; reflexivity). right.
  change (trapz (x0 :: x1 :: x) (y0 :: y1 :: y))
    with (xadd (xdiv (xmul (xsub x1 x0) (xadd y0 y1)) (XF 2)) (trapz (x1 :: x) (y1 :: y))).
  rewrite (H y0) by (simpl; tauto). cbn [xadd]. destruct (xsub x1 x0); reflexivity.
Qed.
Lemma zmul_nan a : forall b, (forall v, In v b -> v = XNaN) -> forall v, In v (zmul a b) -> v = XNaN.
Proof.
  induction a as [|x a IH]; intros [|y b] H v Hv; simpl in Hv; try tauto.
  destruct Hv as [<-|Hv]; [rewrite (H y) by (simpl; tauto); destruct x; reflexivity|].
  apply (IH b); [|exact Hv]. intros w Hw. apply H. right. exact Hw.
Qed.
Lemma psd_curve_nan n0 mu ds v : In v (psd_curve n0 XNaN mu ds) -> v = XNaN.
Proof.
  unfold psd_curve. intro H. apply in_map_iff in H as (d & <- & _). cbn [xopp xmul xexp].
  destruct (xmul n0 (xpow d mu)); reflexivity.
Qed.
Lemma exp_curve_nan n0 ds v : In v (exp_curve n0 XNaN ds) -> v = XNaN.
Proof.
  unfold exp_curve. intro H. apply in_map_iff in H as (d & <- & _). cbn [xopp xmul xexp]. destruct n0; reflexivity.
Qed.
Lemma population_missing diam X n0 mu : fillna 0 (trapz diam (zmul X (psd_curve n0 XNaN mu diam))) = XF 0.
Proof.
  destruct (trapz_nan diam (zmul X (psd_curve n0 XNaN mu diam))) as [E|E]; rewrite ?E; try reflexivity.
  intros v Hv. eapply zmul_nan; [|exact Hv]. intros w Hw. eapply psd_curve_nan. exact Hw.
Qed.

(** The fitted parameters of a cell. *)
Lemma mu_cell_real e kw h n : 0 <= n -> mu_cell e kw h false (XF n) = XF (class_shape e kw h n).
Proof.
  intro Hn. unfold mu_cell, class_shape. destruct (String.eqb h "cl"); [|reflexivity]. cbn [andb negb].
  destruct (dispersion e kw); [|apply (f_equal XF); field].
  unfold mu_martin. cbn [xmul xadd].
  set (eta := 5714 / 10 ^ 7 * (n * / 10 ^ 6) + 2714 / 10000).
  assert (He : 0 < eta). { unfold eta. assert (0 <= n * / 10 ^ 6) by (apply Rmult_le_pos; lra). lra. }
  assert (He2 : 0 < eta * eta) by (apply Rmult_lt_0_compat; exact He).
  rewrite xdiv_fin by lra. unfold xsub. cbn [xopp xadd].
  assert (EM : 1 / (eta * eta) + - (1) = martin (n / 10 ^ 6)).
  { unfold martin. replace (5714 / 10000000 * (n / 10 ^ 6) + 2714 / 10000) with eta by (unfold eta; field).
    field. lra. }
  rewrite EM. set (m := martin (n / 10 ^ 6)).
  assert (E1 : (if xltb (XF m) (XF (k_lo kw)) then XF (k_lo kw) else XF m) = XF (Rmax (k_lo kw) m)).
  { destruct (xltb (XF m) (XF (k_lo kw))) eqn:C.
    - apply xltb_fin in C. rewrite Rmax_left by lra. reflexivity.
    - apply xltb_fin_f in C. rewrite Rmax_right by lra. reflexivity. }
  rewrite E1. destruct (xltb (XF (k_hi kw)) (XF (Rmax (k_lo kw) m))) eqn:C.
  - apply xltb_fin in C. rewrite Rmin_left by lra. reflexivity.
  - apply xltb_fin_f in C. rewrite Rmin_right by lra. reflexivity.
Qed.
