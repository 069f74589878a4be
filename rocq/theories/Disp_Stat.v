(** Mean and standard deviation. *)
From Verif Require Import Xr_Facts Disp_Spec.
From Coq Require Import Permutation.
Local Open Scope R_scope.
Local Open Scope list_scope.

Lemma nonnan_fin l : no_inf l -> nonnan l = map XF (numbers l).
Proof.
  induction l as [|a l IH]; intros [P M]; [reflexivity|].
  assert (I : no_inf l) by (split; intro; [apply P|apply M]; right; assumption).
  unfold nonnan in *. cbn [filter numbers flat_map]. rewrite (IH I).
  destruct a as [r| | |]; cbn [isnan negb app map]; try reflexivity; exfalso; [apply P|apply M]; left; reflexivity.
Qed.
Lemma total_cons u us : total (u :: us) = u + total us.
Proof. reflexivity. Qed.
Lemma xsum_fin us : xsum (map XF us) = XF (total us).
Proof. induction us as [|u us IH]; [reflexivity|]. cbn [map]. rewrite xsum_cons, IH. reflexivity. Qed.
Lemma len_pos {A} (a : A) l : 0 < INR (length (a :: l)).
Proof. apply lt_0_INR. simpl. lia. Qed.
Lemma le_div a b c : 0 < c -> a * c <= b -> a <= b / c.
Proof. intros P H. apply (Rmult_le_reg_r c); [exact P|]. unfold Rdiv. rewrite Rmult_assoc, Rinv_l by lra. lra. Qed.
Lemma div_le a b c : 0 < c -> b <= a * c -> b / c <= a.
Proof. intros P H. apply (Rmult_le_reg_r c); [exact P|]. unfold Rdiv. rewrite Rmult_assoc, Rinv_l by lra. lra. Qed.
Lemma total_app a b : total (a ++ b) = total a + total b.
Proof. induction a; cbn [app]; rewrite ?total_cons; [change (total []) with 0; ring|]. rewrite IHa. ring. Qed.
Lemma total_perm a b : Permutation a b -> total a = total b.
Proof. induction 1; rewrite ?total_cons; lra. Qed.
Lemma total_nonneg us : (forall u, In u us -> 0 <= u) -> 0 <= total us.
Proof.
  induction us as [|u us IH]; intro H; [change (total []) with 0; lra|]. rewrite total_cons. assert (0 <= u) by (apply H; left; reflexivity).
  assert (0 <= total us) by (apply IH; intros; apply H; right; assumption). lra.
Qed.
Lemma total_zero us : (forall u, In u us -> 0 <= u) -> total us = 0 -> forall u, In u us -> u = 0.
Proof.
  induction us as [|u us IH]; intros H E x I; [destruct I|]. rewrite total_cons in E. destruct I as [->|I].
  - assert (0 <= total us) by (apply total_nonneg; intros; apply H; right; assumption).
    assert (0 <= x) by (apply H; left; reflexivity). lra.
  - assert (0 <= total us) by (apply total_nonneg; intros; apply H; right; assumption).
    assert (0 <= u) by (apply H; left; reflexivity).
    apply IH; [intros; apply H; right; assumption|lra|exact I].
Qed.
Lemma total_le f g (us : list R) : (forall u, In u us -> f u <= g u) -> total (map f us) <= total (map g us).
Proof.
  induction us as [|u us IH]; intro H; cbn [map]; [lra|]. rewrite !total_cons. assert (f u <= g u) by (apply H; left; reflexivity).
  assert (total (map f us) <= total (map g us)) by (apply IH; intros; apply H; right; assumption). lra.
Qed.
Lemma total_const c (us : list R) : total (map (fun _ => c) us) = INR (length us) * c.
Proof. induction us as [|u us IH]; [change (total (map (fun _ => c) [])) with 0; simpl; ring|]. cbn [map]. rewrite total_cons, IH. cbn [length]. rewrite S_INR. ring. Qed.

Lemma average_between us lo hi : us <> [] -> (forall u, In u us -> lo <= u <= hi) -> lo <= average us <= hi.
Proof.
  intros N H. destruct us as [|a us]; [tauto|]. set (l := a :: us) in *.
  assert (L : 0 < INR (length l)) by apply len_pos. unfold average.
  assert (A : total (map (fun _ => lo) l) <= total (map (fun u => u) l)) by (apply total_le; intros; apply H; assumption).
  assert (B : total (map (fun u => u) l) <= total (map (fun _ => hi) l)) by (apply total_le; intros; apply H; assumption).
  rewrite map_id, total_const in A. rewrite map_id, total_const in B.
  split; [apply le_div|apply div_le]; lra.
Qed.
Lemma average_perm a b : Permutation a b -> average a = average b.
Proof. intro P. unfold average. rewrite (total_perm _ _ P), (Permutation_length P). reflexivity. Qed.
Lemma spread_perm a b : Permutation a b -> spread a = spread b.
Proof. intro P. unfold spread. rewrite (average_perm _ _ P). f_equal. apply average_perm, Permutation_map, P. Qed.
Lemma numbers_perm a b : Permutation a b -> Permutation (numbers a) (numbers b).
Proof. intro P. unfold numbers. rewrite !flat_map_concat_map. induction P; simpl; [constructor| | |eapply perm_trans; eassumption].
  - apply Permutation_app_head, IHP.
  - rewrite !app_assoc. apply Permutation_app_tail, Permutation_app_comm.
Qed.
Lemma sq_nonneg us u : In u (map (fun r => (r - average us) * (r - average us)) us) -> 0 <= u.
Proof. intro I. apply in_map_iff in I as (r & <- & _). apply Rle_0_sqr. Qed.
Lemma msd_nonneg us : 0 <= average (map (fun r => (r - average us) * (r - average us)) us).
Proof.
  unfold average at 1. rewrite map_length. destruct us as [|a us]; [simpl; unfold Rdiv; rewrite Rmult_0_l; lra|].
  apply le_div; [apply len_pos|]. rewrite Rmult_0_l. apply total_nonneg, sq_nonneg.
Qed.
Lemma spread_nonneg us : 0 <= spread us.
Proof. apply sqrt_pos. Qed.
Lemma spread_zero us : us <> [] -> spread us = 0 <-> forall u v, In u us -> In v us -> u = v.
Proof.
  intro N. assert (L : 0 < INR (length us)) by (destruct us; [tauto|apply len_pos]). split.
  - intros E. apply sqrt_eq_0 in E; [|apply msd_nonneg]. unfold average at 1 in E. rewrite map_length in E.
    assert (T : total (map (fun r => (r - average us) * (r - average us)) us) = 0).
    { apply (Rmult_eq_reg_r (/ INR (length us))); [|apply Rinv_neq_0_compat; lra]. unfold Rdiv in E. rewrite E. ring. }
    assert (Z : forall u, In u us -> u = average us).
    { intros u I. assert (Q : (u - average us) * (u - average us) = 0).
      { apply (total_zero _ (sq_nonneg us) T). apply in_map_iff. exists u. auto. }
      apply Rmult_integral in Q. lra. }
    intros u v Iu Iv. rewrite (Z u Iu). symmetry. apply Z, Iv.
  - intro H. destruct us as [|a us]; [tauto|]. set (l := a :: us) in *.
    assert (A : average l = a).
    { assert (a <= average l <= a); [|lra]. apply average_between; [discriminate|]. intros u I.
      rewrite (H u a I (or_introl eq_refl)). lra. }
    unfold spread. rewrite A.
    assert (E : average (map (fun r => (r - a) * (r - a)) l) = 0).
    { unfold average. assert (T : total (map (fun r => (r - a) * (r - a)) l) = 0).
      { assert (M : map (fun r => (r - a) * (r - a)) l = map (fun _ => 0) l).
        { apply map_ext_in. intros r I. rewrite (H r a I (or_introl eq_refl)). ring. }
        rewrite M, total_const. ring. }
      rewrite T. unfold Rdiv. ring. }
    rewrite E. apply sqrt_0.
Qed.

(** What [calc_mean_and_sd] computes. *)
Lemma mean_arith l : no_inf l -> calc_mean_and_sd false l =
  match numbers l with [] => (XNaN, XNaN) | us => (XF (average us), XF (spread us)) end.
Proof.
  intro N. unfold calc_mean_and_sd, nanstd, nanmean. rewrite (nonnan_fin l N), xsum_fin, map_length, map_map.
  destruct (numbers l) as [|a us].
  - cbn. destruct (Req_EM_T 0 0); [|tauto]. unfold inf_of. destruct (Rlt_dec 0 0); [lra|]. reflexivity.
  - set (u := a :: us). assert (L : INR (length u) <> 0) by (pose proof (len_pos a us); unfold u; lra).
    rewrite xdiv_fin by exact L. f_equal. unfold spread.
    change (total u / INR (length u)) with (average u).
    assert (E : map (fun x => xmul (xsub (XF x) (XF (average u))) (xsub (XF x) (XF (average u)))) u
                = map XF (map (fun r => (r - average u) * (r - average u)) u)).
    { rewrite map_map. apply map_ext. intro r. reflexivity. }
    rewrite E, xsum_fin, xdiv_fin by exact L.
    replace (total (map (fun r => (r - average u) * (r - average u)) u) / INR (length u))
      with (average (map (fun r => (r - average u) * (r - average u)) u)) by (unfold average at 1; rewrite map_length; reflexivity).
    cbn [xsqrt]. destruct (Rlt_dec _ 0) as [C|_]; [|reflexivity]. pose proof (msd_nonneg u). lra.
Qed.
Lemma nanstd_logs l : no_inf l -> nanstd l = match numbers l with [] => XNaN | us => XF (spread us) end.
Proof. intro N. pose proof (mean_arith l N) as H. unfold calc_mean_and_sd in H. destruct (numbers l); injection H; auto. Qed.
Lemma mean_geom l : calc_mean_and_sd true l =
  match positive (numbers l) with
  | [] => (XNaN, XNaN)
  | us => (XF (exp (average (map ln us))), XF (exp (spread (map ln us))))
  end.
Proof.
  set (fin := fun a => (isfin a && xltb (XF 0) a)%bool). set (logs := map (fun a => xln (if fin a then a else XNaN)) l).
  change (calc_mean_and_sd true l) with
    (xexp (xmul (xdiv (XF 1) (XF (INR (length (filter fin l))))) (xsum (nonnan logs))), xexp (nanstd logs)).
  assert (NI : no_inf logs).
  { unfold logs, no_inf. split; intro I; apply in_map_iff in I as (a & E & _); unfold fin in E; destruct a as [r| | |]; cbn in E; try discriminate;
      unfold Rltb in E; destruct (Rlt_dec 0 r); cbn in E; try discriminate; destruct (Rlt_dec 0 r); discriminate || tauto. }
  assert (NL : numbers logs = map ln (positive (numbers l))).
  { unfold logs. clear NI. induction l as [|a l IH]; [reflexivity|]. cbn [map numbers flat_map]. unfold numbers in IH at 1. rewrite IH.
    unfold fin. destruct a as [r| | |]; cbn [isfin xltb andb xln app]; try reflexivity. unfold Rltb.
    cbn [numbers flat_map app]. cbn [positive filter]. destruct (Rlt_dec 0 r) as [P|P]; cbn [xln]; [|reflexivity].
    destruct (Rlt_dec 0 r); [reflexivity|tauto]. }
  assert (LE : length (filter fin l) = length (positive (numbers l))).
  { clear. induction l as [|a l IH]; [reflexivity|]. cbn [filter numbers flat_map]. unfold fin at 1.
    destruct a as [r| | |]; cbn [isfin xltb andb app]; try exact IH. unfold Rltb. cbn [positive filter]. destruct (Rlt_dec 0 r); cbn; rewrite IH; reflexivity. }
  rewrite LE, (nonnan_fin _ NI), xsum_fin, NL, (nanstd_logs _ NI), NL.
  destruct (positive (numbers l)) as [|a us].
  - cbn. destruct (Req_EM_T 0 0); [|tauto]. unfold inf_of. destruct (Rlt_dec 0 1); [|lra]. cbn. unfold inf_of.
    destruct (Rlt_dec 0 0); [lra|]. reflexivity.
  - set (u := a :: us). assert (L : INR (length u) <> 0) by (pose proof (len_pos a us); unfold u; lra).
    rewrite xdiv_fin by exact L. cbn [map u]. cbn [xmul xexp].
    f_equal. f_equal. f_equal. change (ln a :: map ln us) with (map ln u).
    unfold average. rewrite map_length. unfold Rdiv. ring.
Qed.

(** Geometric means. *)
Lemma positive_in us u : In u (positive us) <-> In u us /\ 0 < u.
Proof.
  unfold positive. rewrite filter_In. destruct (Rlt_dec 0 u); intuition; try discriminate.
Qed.
Lemma positive_id us : (forall u, In u us -> 0 < u) -> positive us = us.
Proof.
  induction us as [|u us IH]; intro H; [reflexivity|]. cbn [positive filter]. destruct (Rlt_dec 0 u) as [_|N].
  - f_equal. apply IH. intros v I. apply H. right. exact I.
  - elim N. apply H. left. reflexivity.
Qed.
Lemma gmean_power us : us <> [] -> (forall u, In u us -> 0 < u) -> exp (average (map ln us)) ^ length us = product us.
Proof.
  intros N H. assert (L : 0 < INR (length us)) by (destruct us; [tauto|apply len_pos]).
  rewrite <- Rpower_pow by apply exp_pos. unfold Rpower. rewrite ln_exp. unfold average. rewrite map_length.
  replace (INR (length us) * (total (map ln us) / INR (length us))) with (total (map ln us)) by (field; lra).
  clear N L. induction us as [|u us IH]; [apply exp_0|]. cbn [map]. rewrite total_cons. change (product (u :: us)) with (u * product us). rewrite exp_plus, exp_ln by (apply H; left; reflexivity).
  f_equal. apply IH. intros v I. apply H. right. exact I.
Qed.
Lemma gmean_between us lo hi : us <> [] -> 0 < lo -> (forall u, In u us -> lo <= u <= hi) -> lo <= exp (average (map ln us)) <= hi.
Proof.
  intros N P H.
  assert (Q : lo <= hi) by (destruct us as [|u us]; [tauto|]; specialize (H u (or_introl eq_refl)); lra).
  assert (B : ln lo <= average (map ln us) <= ln hi).
  { apply average_between; [destruct us; [tauto|discriminate]|]. intros u I. apply in_map_iff in I as (v & <- & I).
    specialize (H v I). split; [destruct (Req_dec lo v) as [->|]; [lra|left; apply ln_increasing; lra]|].
    destruct (Req_dec v hi) as [->|]; [lra|left; apply ln_increasing; lra]. }
  split.
  - rewrite <- (exp_ln lo P). destruct (proj1 B) as [C|C]; [left; apply exp_increasing; exact C|rewrite <- C; lra].
  - rewrite <- (exp_ln hi) at 1 by lra. destruct (proj2 B) as [C|C]; [left; apply exp_increasing; exact C|rewrite C; lra].
Qed.
Lemma ln_le_sub x : 0 < x -> ln x <= x - 1.
Proof.
  intro P. pose proof (exp_ineq1_le (ln x)) as H. rewrite exp_ln in H by exact P. lra.
Qed.
Lemma am_gm us : us <> [] -> (forall u, In u us -> 0 < u) -> exp (average (map ln us)) <= average us.
Proof.
  intros N H. assert (L : 0 < INR (length us)) by (destruct us; [tauto|apply len_pos]).
  assert (A : 0 < average us).
  { unfold average. apply Rdiv_lt_0_compat; [|exact L]. destruct us as [|u us]; [tauto|]. rewrite total_cons.
    assert (0 < u) by (apply H; left; reflexivity). assert (0 <= total us) by (apply total_nonneg; intros v I; left; apply H; right; exact I).
    lra. }
  apply Rle_trans with (exp (ln (average us))); [|rewrite exp_ln by exact A; lra].
  assert (B : average (map ln us) <= ln (average us)).
  { set (a := average us) in *.
    assert (C : total (map ln us) <= total (map (fun u => u / a - 1 + ln a) us)).
    { apply total_le. intros u I. specialize (H u I). assert (P : 0 < u / a) by (apply Rdiv_lt_0_compat; assumption).
      pose proof (ln_le_sub _ P) as Q. unfold Rdiv in Q at 1. rewrite ln_mult, ln_Rinv in Q by (try apply Rinv_0_lt_compat; assumption). lra. }
    assert (D : forall b, total (map (fun u => u / b - 1 + ln b) us) = total us / b + INR (length us) * (ln b - 1)).
    { clear. intro b. induction us as [|u us IH]; [cbn [map length]; change (total []) with 0; simpl; unfold Rdiv; ring|]. cbn [map]. rewrite !total_cons, IH.
      cbn [length]. rewrite S_INR. unfold Rdiv. ring. }
    rewrite D in C. assert (E : total us / a = INR (length us)).
    { assert (Z : total us <> 0) by (intro Z; unfold a, average in A; rewrite Z in A; unfold Rdiv in A; lra).
      unfold a, average. field. split; lra. }
    rewrite E in C. unfold average. rewrite map_length. apply div_le; [exact L|]. lra. }
  destruct B as [B|B]; [left; apply exp_increasing; exact B|rewrite B; lra].
Qed.
