(** One level of a mean profile. *)
From Verif Require Import Xr_Facts Disp_Spec Disp_Stat.
Local Open Scope R_scope.
Local Open Scope list_scope.

Definition lin (a : xr) : xr := xpow (XF 10) (xdiv a (XF 10)).
Lemma lin_fin z : lin (XF z) = XF (Rpower 10 (z / 10)).
Proof. unfold lin. rewrite xdiv_fin by lra. cbn. destruct (Rlt_dec 0 10); [reflexivity|lra]. Qed.
Lemma lin_nan : lin XNaN = XNaN.
Proof. unfold lin. cbn. destruct (Req_EM_T 10 1); [lra|reflexivity]. Qed.
Lemma numbers_lin l : no_inf l -> numbers (map lin l) = map (fun z => Rpower 10 (z / 10)) (numbers l) /\ no_inf (map lin l).
Proof.
  induction l as [|a l IH]; intros [P M]; [split; [reflexivity|split; intros []]|].
  destruct IH as [E [P' M']]; [split; intro I; [apply P|apply M]; right; exact I|].
  destruct a as [z| | |]; [| |exfalso; apply P; left; reflexivity|exfalso; apply M; left; reflexivity]; cbn [map]; rewrite ?lin_fin, ?lin_nan.
  - split; [cbn [numbers flat_map map app] in *; unfold numbers in E; rewrite E; reflexivity|].
    split; intros [I|I]; try discriminate; tauto.
  - split; [exact E|]. split; intros [I|I]; try discriminate; tauto.
Qed.
Lemma Rpower_pos' x y : 0 < Rpower x y.
Proof. apply exp_pos. Qed.
Lemma lin_pos fs u : In u (map (fun z => Rpower 10 (z / 10)) fs) -> 0 < u.
Proof. intro I. apply in_map_iff in I as (z & <- & _). apply Rpower_pos'. Qed.
Lemma average_pos us : us <> [] -> (forall u, In u us -> 0 < u) -> 0 < average us.
Proof. intros N H. eapply Rlt_le_trans; [|apply am_gm; assumption]. apply exp_pos. Qed.
Lemma eps_pos : 0 < eps.
Proof. unfold eps. apply Rinv_0_lt_compat, pow_lt. lra. Qed.
Lemma db_fin a : 0 < a -> xmul (XF 10) (xlog10 (XF a)) = XF (dB a).
Proof. intro P. cbn. destruct (Rlt_dec 0 a); [reflexivity|tauto]. Qed.
Lemma level_ze geom l : level true geom l =
  let '(m, s) := calc_mean_and_sd geom (map lin l) in
  let db a := xmul (XF 10) (xlog10 a) in (db m, if xltb s m then db (xsub m s) else db (XF eps), db (xadd m s)).
Proof. reflexivity. Qed.
Lemma drawn_ze geom us m s : 0 < m -> 0 <= s -> forall l,
  l = (xmul (XF 10) (xlog10 (XF m)), if xltb (XF s) (XF m) then xmul (XF 10) (xlog10 (xsub (XF m) (XF s))) else xmul (XF 10) (xlog10 (XF eps)),
       xmul (XF 10) (xlog10 (xadd (XF m) (XF s)))) ->
  us <> [] -> m = mean_of geom us -> s = sd_of geom us ->
  match us with
  | [] => fst (fst l) = XNaN
  | _ => fst (fst l) = XF (dB (mean_of geom us)) /\ snd l = XF (dB (mean_of geom us + sd_of geom us)) /\
         snd (fst l) = XF (if Rlt_dec (sd_of geom us) (mean_of geom us) then dB (mean_of geom us - sd_of geom us) else dB eps)
  end.
Proof.
  intros P Q l -> N -> ->. destruct us as [|a us]; [tauto|]. set (u := a :: us) in *. cbn [fst snd].
  rewrite (db_fin _ P). change (xadd (XF (mean_of geom u)) (XF (sd_of geom u))) with (XF (mean_of geom u + sd_of geom u)).
  rewrite db_fin by lra. split; [reflexivity|]. split; [reflexivity|].
  cbn [xltb]. unfold Rltb. destruct (Rlt_dec (sd_of geom u) (mean_of geom u)) as [L|L].
  - change (xsub (XF (mean_of geom u)) (XF (sd_of geom u))) with (XF (mean_of geom u - sd_of geom u)). apply db_fin. lra.
  - apply db_fin, eps_pos.
Qed.
Lemma level_drawn ze geom l : no_inf l -> drawn ze geom (numbers l) (level ze geom l).
Proof.
  intro N. unfold drawn, used. destruct ze.
  - rewrite level_ze. destruct (numbers_lin l N) as [E N']. rewrite <- E.
    assert (POS : forall u, In u (numbers (map lin l)) -> 0 < u) by (rewrite E; apply lin_pos).
    destruct geom.
    + rewrite mean_geom, (positive_id _ POS). destruct (numbers (map lin l)) as [|a us] eqn:EL; [reflexivity|].
      pose proof (drawn_ze true (a :: us) (exp (average (map ln (a :: us)))) (exp (spread (map ln (a :: us))))) as D.
      eapply D; [apply exp_pos|left; apply exp_pos|reflexivity|discriminate|reflexivity|reflexivity].
    + rewrite (mean_arith _ N'). destruct (numbers (map lin l)) as [|a us] eqn:EL; [reflexivity|].
      pose proof (drawn_ze false (a :: us) (average (a :: us)) (spread (a :: us))) as D.
      eapply D; [apply average_pos; [discriminate|exact POS]|apply spread_nonneg|reflexivity|discriminate|reflexivity|reflexivity].
  - unfold level. destruct geom.
    + rewrite mean_geom. destruct (positive (numbers l)) as [|a us]; [reflexivity|]. reflexivity.
    + rewrite (mean_arith _ N). destruct (numbers l) as [|a us]; reflexivity.
Qed.
