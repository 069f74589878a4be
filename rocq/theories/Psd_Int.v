(** Moments of gamma distributions. *)
From Coq Require Import Reals Lra.
From Coquelicot Require Import Coquelicot.
From Verif Require Import Psd_Spec.
Local Open Scope R_scope.

Lemma near_zero_scaled lam (P : R -> Prop) : 0 < lam ->
  at_right 0 P -> at_right 0 (fun a => P (lam * a)).
Proof.
  intros hl [eps h]. assert (he : 0 < eps / lam) by (apply Rdiv_lt_0_compat; [apply cond_pos|exact hl]).
  exists (mkposreal _ he). intros y hy h0. apply h.
  - unfold ball in *; simpl in *; unfold AbsRing_ball, abs, minus, plus, opp in *; simpl in *.
    replace (lam * y + - 0) with (lam * (y + - 0)) by ring. rewrite Rabs_mult, (Rabs_pos_eq lam) by lra.
    apply (Rmult_lt_compat_l lam) in hy; [|exact hl].
    replace (lam * (eps / lam)) with (pos eps) in hy by (field; lra). exact hy.
  - nra.
Qed.

Lemma near_infinity_scaled lam (P : R -> Prop) : 0 < lam ->
  Rbar_locally p_infty P -> Rbar_locally p_infty (fun a => P (lam * a)).
Proof.
  intros hl [M h]. exists (M / lam). intros x hx. apply h.
  apply (Rmult_lt_compat_l lam) in hx; [|exact hl].
  replace (lam * (M / lam)) with M in hx by (field; lra). exact hx.
Qed.

Lemma integral_scaled f lam v : 0 < lam ->
  integral_to_infinity f v -> integral_to_infinity (fun D => lam * f (lam * D)) v.
Proof.
  intros hl h P hP. specialize (h P hP).
  destruct h as [Q1 Q2 h1 h2 h]. unfold filtermapi.
  apply (Filter_prod _ _ _ (fun a => Q1 (lam * a)) (fun b => Q2 (lam * b))).
  - exact (near_zero_scaled lam Q1 hl h1).
  - exact (near_infinity_scaled lam Q2 hl h2).
  - intros a b ha hb. destruct (h _ _ ha hb) as (y & hy & hp). exists y. split; [|exact hp].
    simpl in *.
    apply (is_RInt_ext (fun D => scal lam (f (lam * D + 0)))).
    + intros x _. unfold scal; simpl; unfold mult; simpl. rewrite Rplus_0_r. reflexivity.
    + apply (is_RInt_comp_lin f lam 0 a b). rewrite 2!Rplus_0_r. exact hy.
Qed.

Lemma integral_ext f g v : (forall D, 0 < D -> f D = g D) ->
  integral_to_infinity f v -> integral_to_infinity g v.
Proof.
  intros h. apply is_RInt_gen_ext.
  apply (Filter_prod _ _ _ (fun a => 0 < a) (fun b => 0 < b)).
  - exists (mkposreal 1 Rlt_0_1). intros y _ hy. exact hy.
  - exists 0. intros x hx. exact hx.
  - intros a b ha hb x [hx _]. apply h. simpl in hx.
    apply Rlt_trans with (2 := hx). apply Rmin_glb_lt; assumption.
Qed.

Lemma integral_scal f v c :
  integral_to_infinity f v -> integral_to_infinity (fun D => c * f D) (c * v).
Proof. intros h. exact (is_RInt_gen_scal f c v h). Qed.

Lemma gamma_moment n0 lam mu k g : 0 < lam -> gamma_value (mu + k + 1) g ->
  integral_to_infinity (fun D => Rpower D k * gamma_psd n0 lam mu D)
    (n0 * g / Rpower lam (mu + k + 1)).
Proof.
  intros hl h. apply (integral_scaled _ lam) in h; [|exact hl].
  apply (integral_scal _ _ (n0 / Rpower lam (mu + k + 1))) in h.
  assert (hne : Rpower lam (mu + k + 1) <> 0) by (apply Rgt_not_eq, exp_pos).
  replace (n0 * g / Rpower lam (mu + k + 1)) with (n0 / Rpower lam (mu + k + 1) * g) by (field; exact hne).
  revert h. apply integral_ext. intros D hD. unfold gamma_psd.
  replace (mu + k + 1 - 1) with (mu + k) by ring.
  rewrite <- (Rpower_mult_distr lam D (mu + k)) by assumption.
  rewrite (Rpower_plus (mu + k) 1 lam), Rpower_1 by assumption.
  rewrite (Rpower_plus mu k D).
  replace (- (lam * D)) with (- lam * D) by ring.
  field. split; [lra|]. apply Rgt_not_eq, exp_pos.
Qed.

(** A non-negative function's integral is at least its integral over a part. *)
Lemma integral_at_least f v a b w : (forall D, 0 < D -> 0 <= f D) ->
  integral_to_infinity f v -> 0 < a -> a < b -> is_RInt f a b w -> w <= v.
Proof.
  intros hf h ha hab hw. apply Rnot_lt_le. intros hlt.
  assert (he : 0 < w - v) by lra.
  destruct (h (ball v (mkposreal _ he)) (locally_ball v (mkposreal _ he))) as [Q1 Q2 h1 h2 hh].
  assert (hl : exists x, 0 < x < a /\ Q1 x).
  { destruct h1 as [eps h1]. exists (Rmin (eps / 2) (a / 2)).
    pose proof (cond_pos eps). 
    assert (0 < Rmin (eps / 2) (a / 2)) by (apply Rmin_glb_lt; lra).
    pose proof (Rmin_l (eps / 2) (a / 2)). pose proof (Rmin_r (eps / 2) (a / 2)).
    split; [lra|]. apply h1; [|lra].
    unfold ball; simpl; unfold AbsRing_ball, abs, minus, plus, opp; simpl.
    rewrite Rabs_pos_eq; lra. }
  assert (hr : exists x, b < x /\ Q2 x).
  { destruct h2 as [M h2]. exists (Rmax M b + 1). pose proof (Rmax_l M b). pose proof (Rmax_r M b).
    split; [lra|]. apply h2. lra. }
  destruct hl as (x & hx & qx), hr as (y & hy & qy).
  destruct (hh x y qx qy) as (z & hz & hb). simpl in hz.
  assert (ex : ex_RInt f x y) by (exists z; exact hz).
  assert (e1 : ex_RInt f x a) by (apply (ex_RInt_Chasles_1 f x a y); [lra|exact ex]).
  assert (e2 : ex_RInt f a y) by (apply (ex_RInt_Chasles_2 f x a y); [lra|exact ex]).
  assert (e3 : ex_RInt f b y) by (apply (ex_RInt_Chasles_2 f a b y); [lra|exact e2]).
  destruct e1 as [z1 e1], e3 as [z3 e3].
  assert (p1 : 0 <= z1).
  { apply (is_RInt_ge_0 f x a z1); [lra|exact e1|]. intros t ht. apply hf. lra. }
  assert (p3 : 0 <= z3).
  { apply (is_RInt_ge_0 f b y z3); [lra|exact e3|]. intros t ht. apply hf. lra. }
  pose proof (is_RInt_Chasles f x a b _ _ e1 hw) as c1.
  pose proof (is_RInt_Chasles f x b y _ _ c1 e3) as c2.
  apply (@is_RInt_unique R_CompleteNormedModule) in c2. apply (@is_RInt_unique R_CompleteNormedModule) in hz.
  rewrite hz in c2.
  unfold plus in c2; simpl in c2.
  unfold ball in hb; simpl in hb; unfold AbsRing_ball, abs, minus, plus, opp in hb; simpl in hb.
  apply Rabs_def2 in hb. lra.
Qed.

Lemma gamma_value_pos x g : gamma_value x g -> 0 < g.
Proof.
  intros h. set (f := fun t => Rpower t (x - 1) * exp (- t)) in *.
  assert (hc : forall t, 1 <= t <= 2 -> continuous f t).
  { intros t ht. apply (@ex_derive_continuous R_AbsRing R_NormedModule). unfold f, Rpower.
    auto_derive. lra. }
  assert (ex : ex_RInt f 1 2).
  { apply (@ex_RInt_continuous R_CompleteNormedModule). intros t ht. apply hc.
    rewrite Rmin_left, Rmax_right in ht by lra. exact ht. }
  assert (hp : forall t, 0 < f t).
  { intros t. unfold f, Rpower. apply Rmult_lt_0_compat; apply exp_pos. }
  apply Rlt_le_trans with (RInt f 1 2).
  - apply RInt_gt_0; [lra|intros; apply hp|intros; apply hc; lra].
  - apply (integral_at_least f g 1 2); [intros; left; apply hp|exact h|lra|lra|].
    apply (@RInt_correct R_CompleteNormedModule). exact ex.
Qed.

(** Two values of the gamma function. *)
Lemma exp_beats_fourth t : 1 <= t -> t ^ 3 * exp (- t) <= 256 / t.
Proof.
  intros ht. pose proof (exp_ineq1_le (t / 4)) as h.
  assert (e : exp t = exp (t / 4) ^ 4).
  { replace t with (t / 4 + t / 4 + t / 4 + t / 4) at 1 by field. rewrite !exp_plus. ring. }
  assert (h4 : (t / 4) ^ 4 <= exp t).
  { rewrite e. apply pow_incr. split; lra. }
  rewrite exp_Ropp. pose proof (exp_pos t) as hp.
  apply (Rmult_le_reg_r (exp t * t)); [nra|].
  replace (t ^ 3 * / exp t * (exp t * t)) with (t ^ 4) by (field; lra).
  replace (256 / t * (exp t * t)) with (256 * exp t) by (field; lra).
  nra.
Qed.

Lemma vanishes (F : R -> R) C : 0 <= C -> (forall t, 1 <= t -> Rabs (F t) <= C / t) ->
  filterlim F (Rbar_locally p_infty) (locally 0).
Proof.
  intros hC h P [eps hP]. exists (Rmax 1 (C / eps)). intros x hx. apply hP.
  pose proof (cond_pos eps) as he.
  pose proof (Rmax_l 1 (C / eps)). pose proof (Rmax_r 1 (C / eps)).
  unfold ball; simpl; unfold AbsRing_ball, abs, minus, plus, opp; simpl.
  replace (F x + - 0) with (F x) by ring.
  apply Rle_lt_trans with (1 := h x ltac:(lra)).
  apply (Rmult_lt_reg_r x); [lra|]. replace (C / x * x) with C by (field; lra).
  apply (Rmult_lt_reg_r (/ eps)); [apply Rinv_0_lt_compat; exact he|].
  replace (eps * x * / eps) with x by (field; lra). unfold Rdiv in *. lra.
Qed.

Lemma integral_antiderivative (F f : R -> R) v :
  (forall t, is_derive F t (f t)) -> (forall t, continuous f t) ->
  continuous F 0 -> F 0 = - v -> filterlim F (Rbar_locally p_infty) (locally 0) ->
  integral_to_infinity f v.
Proof.
  intros hd hc h0 e0 hi.
  assert (hD : forall t, Derive F t = f t) by (intros t; apply is_derive_unique, hd).
  apply (integral_ext (Derive F)); [intros; apply hD|].
  replace v with (0 - (- v)) by ring.
  apply is_RInt_gen_Derive.
  - apply (Filter_prod _ _ _ (fun _ => True) (fun _ => True)); try apply filter_true.
    intros a b _ _ x _. exists (f x). apply hd.
  - apply (Filter_prod _ _ _ (fun _ => True) (fun _ => True)); try apply filter_true.
    intros a b _ _ x _. apply (continuous_ext f); [intros; symmetry; apply hD|apply hc].
  - rewrite <- e0. apply (filterlim_filter_le_1 (F := locally 0)); [|exact h0].
    intros P hP. unfold at_right, within. revert hP. apply filter_imp. intros x hx _. exact hx.
  - exact hi.
Qed.

Lemma gamma_one : gamma_value 1 1.
Proof.
  unfold gamma_value. apply (integral_ext (fun t => exp (- t))).
  { intros D hD. replace (1 - 1) with 0 by ring. rewrite Rpower_O by exact hD. ring. }
  apply (integral_antiderivative (fun t => - exp (- t))).
  - intros t. auto_derive; [exact I|]. ring.
  - intros t. apply (@ex_derive_continuous R_AbsRing R_NormedModule). auto_derive. exact I.
  - apply (@ex_derive_continuous R_AbsRing R_NormedModule). auto_derive. exact I.
  - rewrite Ropp_0, exp_0. reflexivity.
  - apply (vanishes _ 256); [lra|]. intros t ht. rewrite Rabs_Ropp, Rabs_pos_eq by (left; apply exp_pos).
    apply Rle_trans with (2 := exp_beats_fourth t ht).
    pose proof (exp_pos (- t)). assert (1 <= t ^ 3) by (apply pow_R1_Rle; exact ht). nra.
Qed.

Lemma gamma_four : gamma_value 4 6.
Proof.
  unfold gamma_value. apply (integral_ext (fun t => t ^ 3 * exp (- t))).
  { intros D hD. replace (4 - 1) with (INR 3) by (simpl; ring). rewrite Rpower_pow by exact hD. reflexivity. }
  apply (integral_antiderivative (fun t => - (t ^ 3 + 3 * t ^ 2 + 6 * t + 6) * exp (- t))).
  - intros t. auto_derive; [exact I|]. ring.
  - intros t. apply (@ex_derive_continuous R_AbsRing R_NormedModule). auto_derive. exact I.
  - apply (@ex_derive_continuous R_AbsRing R_NormedModule). auto_derive. exact I.
  - rewrite Ropp_0, exp_0. ring.
  - apply (vanishes _ (16 * 256)); [lra|]. intros t ht.
    pose proof (exp_pos (- t)) as hp.
    assert (h : 0 <= t ^ 3 + 3 * t ^ 2 + 6 * t + 6 <= 16 * t ^ 3).
    { assert (1 <= t ^ 2) by (apply pow_R1_Rle; exact ht). split; nra. }
    rewrite Ropp_mult_distr_l_reverse, Rabs_Ropp, Rabs_pos_eq by nra.
    pose proof (exp_beats_fourth t ht).
    replace (16 * 256 / t) with (16 * (256 / t)) by (field; lra). nra.
Qed.
