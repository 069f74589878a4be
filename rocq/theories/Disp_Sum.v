(** Mean and spread, summarised. *)
From Coq Require Import Reals Lra Permutation.
From Verif Require Import Xr_Facts Disp_Spec Disp_Stat Disp_Level Disp_More.
Local Open Scope R_scope.
Local Open Scope list_scope.

Theorem mean_ok l : no_inf l ->
  (numbers l = [] -> calc_mean_and_sd false l = (XNaN, XNaN)) /\
  (numbers l <> [] -> exists m s, calc_mean_and_sd false l = (XF m, XF s) /\
     m * INR (length (numbers l)) = total (numbers l) /\
     0 <= s /\ s * s * INR (length (numbers l)) = total (map (fun u => (u - m) * (u - m)) (numbers l)) /\
     (s = 0 <-> forall u v, In u (numbers l) -> In v (numbers l) -> u = v) /\
     forall lo hi, (forall u, In u (numbers l) -> lo <= u <= hi) -> lo <= m <= hi).
Proof.
  intro N. rewrite (mean_arith l N). split; [intros ->; reflexivity|]. intro NE. destruct (numbers l) as [|u us] eqn:E; [congruence|].
  set (ns := u :: us) in *. assert (L : 0 < INR (length ns)) by apply len_pos.
  exists (average ns), (spread ns). split; [reflexivity|]. split; [unfold average; field; lra|]. split; [apply spread_nonneg|]. split; [|split].
  - unfold spread. rewrite sqrt_sqrt by apply msd_nonneg. unfold average at 1. rewrite map_length. field. lra.
  - apply spread_zero. discriminate.
  - intros lo hi H. apply average_between; [discriminate|exact H].
Qed.
Theorem order_free geom l l' : no_inf l -> Permutation l l' -> calc_mean_and_sd geom l = calc_mean_and_sd geom l'.
Proof.
  intros N P. assert (N' : no_inf l').
  { destruct N as [N1 N2]. split; intro I; [apply N1|apply N2]; apply (Permutation_in _ (Permutation_sym P)); exact I. }
  pose proof (numbers_perm _ _ P) as Q. destruct geom.
  - rewrite !mean_geom.
    assert (Q' : Permutation (positive (numbers l)) (positive (numbers l'))).
    { unfold positive. clear -Q. induction Q; cbn; [constructor| | |eapply perm_trans; eassumption].
      - destruct (Rlt_dec 0 x); [constructor|]; assumption.
      - destruct (Rlt_dec 0 x), (Rlt_dec 0 y); try constructor; apply Permutation_refl. }
    destruct (positive (numbers l)) as [|u us] eqn:E, (positive (numbers l')) as [|v vs] eqn:E'.
    + reflexivity.
    + apply Permutation_nil in Q'. discriminate.
    + apply Permutation_sym, Permutation_nil in Q'. discriminate.
    + pose proof (average_perm _ _ (Permutation_map ln Q')) as A. pose proof (spread_perm _ _ (Permutation_map ln Q')) as B. cbn [map] in *. rewrite A, B. reflexivity.
  - rewrite !mean_arith by assumption. destruct (numbers l) as [|u us] eqn:E, (numbers l') as [|v vs] eqn:E'.
    + reflexivity.
    + apply Permutation_nil in Q. discriminate.
    + apply Permutation_sym, Permutation_nil in Q. discriminate.
    + cbv beta iota zeta. rewrite (average_perm _ _ Q), (spread_perm _ _ Q). reflexivity.
Qed.
Theorem geom_ok l : let us := positive (numbers l) in
  (us = [] -> calc_mean_and_sd true l = (XNaN, XNaN)) /\
  (us <> [] -> exists m s, calc_mean_and_sd true l = (XF m, XF s) /\
     0 < m /\ m ^ length us = product us /\ m <= average us /\ 1 <= s /\
     (forall lo hi, 0 < lo -> (forall u, In u us -> lo <= u <= hi) -> lo <= m <= hi) /\
     (s = 1 <-> forall u v, In u us -> In v us -> u = v)).
Proof.
  cbn zeta. rewrite mean_geom. split; [intros ->; reflexivity|]. intro NE.
  assert (H : forall u, In u (positive (numbers l)) -> 0 < u) by (intros u I; apply positive_in in I; tauto).
  destruct (positive (numbers l)) as [|u us] eqn:E; [congruence|]. set (ns := u :: us) in *.
  exists (exp (average (map ln ns))), (exp (spread (map ln ns))). split; [reflexivity|]. split; [apply exp_pos|].
  split; [apply gmean_power; assumption|]. split; [apply am_gm; assumption|]. split; [|split].
  - rewrite <- exp_0. destruct (spread_nonneg (map ln ns)) as [S|S]; [left; apply exp_increasing, S|right; f_equal; exact S].
  - intros lo hi P B. apply gmean_between; assumption.
  - assert (Z : spread (map ln ns) = 0 <-> forall u v, In u (map ln ns) -> In v (map ln ns) -> u = v) by (apply spread_zero; discriminate). split.
    + intros S x y I J. assert (S0 : spread (map ln ns) = 0) by (apply exp_inv; rewrite exp_0; exact S).
      apply ln_inv; auto. apply (proj1 Z S0); apply in_map; assumption.
    + intro A. rewrite (proj2 Z); [apply exp_0|]. intros x y I J. apply in_map_iff in I as (x' & <- & I). apply in_map_iff in J as (y' & <- & J).
      rewrite (A x' y' I J). reflexivity.
Qed.
