(** Concrete cases for the size-distribution properties. *)
From Verif Require Import Mom_Base Mom_Spec Mom_Facts Xr_Facts Psd_Model Psd_Spec Psd_Int Psd_Facts Lidar_Witness.
Local Open Scope R_scope.

(** A function with the right values where a distribution with mu = 0 needs
    them. *)
Definition w_gam (x : R) : R := if Req_EM_T x 1 then 1 else 6.
Definition w_kw : psd_kw := {| k_disp := None; k_lo := 2; k_hi := 15 |}.
Definition w_psd : dset := mkds
  [("strat_q_subcolumns_pl", c3 (1/10000)); ("strat_n_subcolumns_pl", c3 (1/100));
   ("strat_q_subcolumns_cl", c3 0); ("strat_n_subcolumns_cl", c3 500)]%string [].
Notation w_m := (w_env "CESM" w_lam).

Lemma w_fit Gam h : h = "pl"%string \/ h = "cl"%string ->
  exists s', calc_mu_lambda Gam w_m w_kw h false w_psd = (Ok tt, s').
Proof.
  intros H. assert (F : fst (calc_mu_lambda Gam w_m w_kw h false w_psd) = Ok tt) by (destruct H as [-> | ->]; reflexivity).
  exists (snd (calc_mu_lambda Gam w_m w_kw h false w_psd)). rewrite <- F. apply surjective_pairing.
Qed.

Lemma w_identities :
  exists s' lam n0, calc_mu_lambda w_gam w_m w_kw "pl" false w_psd = (Ok tt, s') /\
    density_at w_m w_psd "pl" 0 0 1000 /\
    value s' "mu" 0 0 0 = XF 0 /\ value s' "lambda" 0 0 0 = XF lam /\ value s' "N_0" 0 0 0 = XF n0 /\
    integral_to_infinity (gamma_psd n0 lam 0) 10000 /\
    integral_to_infinity (fun D => sphere_mass 1000 D * gamma_psd n0 lam 0 D) (1/10000).
Proof.
  destruct (w_fit w_gam "pl" (or_introl eq_refl)) as [s' H].
  assert (D : density_at w_m w_psd "pl" 0 0 1000) by (left; reflexivity).
  assert (M : value s' "mu" 0 0 0 = XF 0).
  { destruct (psd_mu _ _ _ _ _ _ _ H 0 0 0 (1/100))%nat as (_ & _ & M); [reflexivity|].
    apply M. left. discriminate. }
  destruct (psd_identities _ _ _ _ _ _ _ H 0 0 0 (1/10000) (1/100) 1000 0)%nat as (lam & n0 & A & B & _ & I1 & I2);
    try reflexivity; try assumption; try lra.
  - unfold w_gam. destruct (Req_EM_T (0 + 1) 1); [|lra]. replace (0 + 1) with 1 by ring. apply gamma_one.
  - unfold w_gam. destruct (Req_EM_T (0 + 4) 1); [lra|]. replace (0 + 4) with 4 by ring. apply gamma_four.
  - exists s', lam, n0. do 5 (split; [assumption|]). split; [|exact I2].
    replace 10000 with (1 / 100 * 10 ^ 6) by lra. exact I1.
Qed.

Lemma w_varies : varying_shape (k_disp w_kw) (model_name w_m).
Proof. right. split; [reflexivity|]. intros [E|[E|[]]]; discriminate E. Qed.
Lemma w_martin : forall Gam, exists s' mu,
  calc_mu_lambda Gam w_m w_kw "cl" false w_psd = (Ok tt, s') /\
  varying_shape (k_disp w_kw) (model_name w_m) /\ value w_psd (nn false "cl") 0 0 0 = XF 500 /\ 2 <= martin 500 <= 15 /\
  value s' "mu" 0 0 0 = XF mu /\ mu <> martin 500.
Proof.
  intros Gam. destruct (w_fit Gam "cl" (or_intror eq_refl)) as [s' H].
  destruct (psd_mu_constant _ _ _ _ _ H w_varies ltac:(simpl; lra) ltac:(simpl; lra) 0 0 0 500)%nat as (mu & E & B);
    [reflexivity|lra|].
  assert (hm : 2 <= martin 500 <= 3).
  { unfold martin. set (x := 5714 / 10000000 * 500 + 2714 / 10000).
    assert (hx : x = 5571/10000) by (unfold x; lra). rewrite hx. lra. }
  exists s', mu. do 3 (split; [assumption || exact w_varies || reflexivity|]). split; [lra|]. split; [exact E|lra].
Qed.
