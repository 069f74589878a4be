(** The value of one cell computed by the lidar microphysics method. *)
From Verif Require Import Mom_Base Mom_Spec Mom_Facts Xr_Facts Sched_Model Psd_Model Lidar_Model Lidar_Spec
  Lidar_Od Lidar_Loop Lidar_Api Psd_Spec Psd_Int Psd_Facts Radar_Model Micro_Spec Micro_Loop Micro_Char Micro_Psd.
From Verif Require Strat_Refuted Gen_Spec.
Local Open Scope R_scope.

(** *** The order of the columns *)
Lemma chunk_hang fuel : forall t c j, (c < 1)%Z -> (j < t)%Z -> chunk_loop fuel t c j = Raise Hang.
Proof.
  induction fuel as [|fuel IH]; intros t c j Hc Hj; simpl; (destruct (Z.ltb_spec j t); [|lia]); [reflexivity|].
  rewrite IH by lia. reflexivity.
Qed.
Lemma order_ok sch T order : tt_order sch T = Ok order -> order = map Z.of_nat (seq 0 T).
Proof.
  intro H. destruct sch as [|[c|]].
  - assert (G := Strat_Refuted.columns_once Serial T I). congruence.
  - destruct (Z_lt_le_dec c 1) as [L|L].
    + destruct T as [|T]; [simpl in H; injection H as <-; reflexivity|].
      unfold tt_order in H. rewrite chunk_hang in H by lia. discriminate.
    + assert (G := Strat_Refuted.columns_once (Parallel (Some c)) T L). congruence.
  - assert (G := Strat_Refuted.columns_once (Parallel None) T I). congruence.
Qed.

Lemma run_cols_nth {A} (f : nat -> res A) : forall n a cols,
  run_cols f (map Z.of_nat (seq a n)) = Ok cols ->
  length cols = n /\ forall t, (t < n)%nat -> exists c, f (a + t)%nat = Ok c /\ nth_error cols t = Some c.
Proof.
  induction n as [|n IH]; intros a cols H; cbn [seq map run_cols] in H.
  - injection H as <-. split; [reflexivity|]. intros t Ht. lia.
  - apply res_bind_ok in H as (c & Hc & H). apply res_bind_ok in H as (r & Hr & H). injection H as <-.
    rewrite Nat2Z.id in Hc. destruct (IH (S a) r Hr) as [L G]. split; [simpl; lia|].
    intros [|t] Ht; [exists c; rewrite Nat.add_0_r; auto|].
    destruct (G t ltac:(lia)) as (c' & E1 & E2). exists c'. split; [|exact E2].
    replace (a + S t)%nat with (S a + t)%nat by lia. exact E1.
Qed.
Lemma stack_ok e {A} (cols0 cols : list A) : stack_cols e cols0 = Ok cols -> cols = cols0 /\ length cols = ntm e /\ (0 < ntm e)%nat.
Proof.
  unfold stack_cols. destruct (Nat.eqb_spec (length cols0) 0); [discriminate|].
  destruct (Nat.eqb_spec (length cols0) (ntm e)); [|discriminate]. intro H. injection H as <-. split; [reflexivity|lia].
Qed.

Section C.
Variables (Gam : R -> R) (e : menv) (ins : inst) (mie : bool) (sch : sched) (kw : psd_kw) (lut : string * bool).
Notation mo := (mopt Gam e ins mie sch kw lut).

Lemma gamma_fit3 h s ft : gamma_class e h -> psd_of Gam e kw h s = Ok ft -> fst (psd_fit3 Gam e kw h s) = Ok ft.
Proof.
  unfold psd_of, calc_and_set_psd_params. intros G E.
  destruct (memb h ["cl"; "pl"]%string) eqn:Em.
  - destruct (memb (lower (mcphys e)) _); [exact E|discriminate].
  - destruct G as [G|G].
    + exfalso. destruct G as [<-|[<-|[]]]; discriminate Em.
    + destruct (memb (lower (mcphys e)) ["mg2"; "mg"; "morrison"; "nssl"]%string); [exact E|].
      destruct (memb (lower (mcphys e)) ["p3"]%string) eqn:E3; [|discriminate].
      exfalso. apply G. unfold memb in E3. simpl in E3. rewrite orb_false_r in E3.
      apply String.eqb_eq in E3. congruence.
Qed.

Lemma mopt_cell h s al be i t k : gamma_class e h -> mo h s = Ok (al, be) -> (t < ntm e)%nat ->
  exists q n rh fl diam beta alpha,
    var3 s (qn false h) q /\ var3 s (nn false h) n /\ varb s (fn false h) fl /\
    bind (dict (rho_hyd e) h) (fun r => match r with
     | RConst x => Ok (fun _ _ => XF x) | RVar => do v <- dict (var_density e) h; g2 s v end) = Ok rh /\
    micro_table ins lut mie h = Ok (diam, beta, alpha) /\
    let c := psd_curve (n03 Gam e kw q n rh h i t k) (lam3 Gam e kw q n rh h i t k) (mu_cell e kw h false (n i t k)) diam in
    let v own := if all_zero_level e (weighted fl n) t k then XF 0 else trapz diam (zmul own c) in
    al i t k = v alpha /\ be i t k = v beta.
Proof.
  intros G H Ht. unfold mopt in H.
  apply res_bind_ok in H as (ft & Hf & H). apply res_bind_ok in H as (fl & Hfl & H).
  apply res_bind_ok in H as (n & Hn & H). apply res_bind_ok in H as (tab & Htab & H).
  apply res_bind_ok in H as (order & Ho & H). apply res_bind_ok in H as (cols0 & Hc & H).
  apply res_bind_ok in H as (cols & Hs & H). injection H as <- <-.
  apply (gamma_fit3 h s ft G) in Hf. apply fit3_inv in Hf as (q & n' & rh & Hq & Hn' & Hr & ->).
  apply g3_ok in Hn. assert (n' = n) as -> by (unfold var3 in *; congruence).
  destruct tab as [[diam beta] alpha].
  exists q, n, rh, fl, diam, beta, alpha. do 2 (split; [assumption|]). split; [apply gb_ok; exact Hfl|].
  do 2 (split; [assumption|]).
  apply order_ok in Ho. subst order. apply stack_ok in Hs as (-> & Hlen & _).
  apply run_cols_nth in Hc as [_ Hc]. destruct (Hc t Ht) as (c & E1 & E2). cbn [Nat.add] in E1.
  unfold lidar_column in E1. rewrite (gamma_not_p3 e h G) in E1. injection E1 as <-.
  unfold of_cols. rewrite E2. cbn [fst snd]. auto.
Qed.

Lemma density_rho h s rh t k r : 
  bind (dict (rho_hyd e) h) (fun r => match r with
     | RConst x => Ok (fun _ _ => XF x) | RVar => do v <- dict (var_density e) h; g2 s v end) = Ok rh ->
  density_at e s h t k r -> rh t k = XF r.
Proof.
  intros Er D. unfold dict in Er. destruct D as [D|[D (v & g & V & W & G)]]; rewrite D in Er.
  - cbn in Er. injection Er as <-. reflexivity.
  - cbn in Er. rewrite V in Er. cbn in Er. rewrite (g2_var _ _ _ W) in Er. injection Er as <-. exact G.
Qed.
Lemma present_level fl n t k i : (i < nsub e)%nat -> fl i t k = true -> (exists r, n i t k = XF r /\ r <> 0) ->
  all_zero_level e (weighted fl n) t k = false.
Proof.
  intros Hi Hf (r & Hr & Hne). unfold all_zero_level.
  destruct (forallb _ _) eqn:E; [|reflexivity]. exfalso.
  rewrite forallb_forall in E. specialize (E i). rewrite in_seq in E. specialize (E ltac:(lia)).
  unfold weighted in E. rewrite Hf, Hr in E. cbn [xmul] in E. unfold xeqb, Reqb in E.
  destruct (Req_EM_T (1 * r) 0); [lra|discriminate].
Qed.

(** A cell with condensate and particles. *)
Lemma mopt_value h s al be i t k q n r D B A :
  gamma_class e h -> mo h s = Ok (al, be) -> cell e i t k ->
  value s (qn false h) i t k = XF q -> value s (nn false h) i t k = XF n ->
  density_at e s h t k r -> 0 < q -> 0 < n -> 0 < r ->
  (forall tab, micro_table ins lut mie h = Ok tab -> particle_table tab D B A) ->
  let mu := class_shape e kw h n in
  gamma_value (mu + 1) (Gam (mu + 1)) -> gamma_value (mu + 4) (Gam (mu + 4)) ->
  exists lam n0, 0 < lam /\ integral_to_infinity (gamma_psd n0 lam mu) (n * 10 ^ 6) /\
    integral_to_infinity (fun d => sphere_mass r d * gamma_psd n0 lam mu d) q /\ 0 < n0 /\
    exists fl, varb s (fn false h) fl /\
      let ifp v := if all_zero_level e (weighted fl (fun i t k => value s (nn false h) i t k)) t k then XF 0 else XF v in
      al i t k = ifp (population D A (gamma_psd n0 lam mu)) /\
      be i t k = ifp (population D B (gamma_psd n0 lam mu)).
Proof.
  intros G H (Hi & Ht & Hk) Vq Vn Dn hq hn hr HT mu g1 g4.
  destruct (mopt_cell h s al be i t k G H Ht) as (qa & na & rh & fl & diam & beta & alpha & Eq & En & Ef & Er & Etab & Ea & Eb).
  destruct (fit_moments Gam r n q mu hr hn hq g1 g4) as (lam & n0 & L1 & L2 & L3 & L4 & L5).
  exists lam, n0. do 3 (split; [assumption|]). split.
  { pose proof (gamma_value_pos _ _ g1) as p1. rewrite (n0_fin Gam n lam mu L2 p1) in L3. injection L3 as <-.
    apply Rdiv_lt_0_compat; [|exact p1]. apply Rmult_lt_0_compat; [lra|]. unfold Rpower. apply exp_pos. }
  exists fl. split; [exact Ef|].
  unfold value in Vq, Vn. rewrite Eq in Vq. rewrite En in Vn.
  destruct (HT _ Etab) as (ET & LB & LA & Inc). injection ET as -> -> ->.
  assert (Pc : psd_curve (n03 Gam e kw qa na rh h i t k) (lam3 Gam e kw qa na rh h i t k) (mu_cell e kw h false (na i t k)) (map XF D)
     = map (fun d => XF (gamma_psd n0 lam mu d)) D).
  { unfold n03, lam3. rewrite Vq, Vn, (density_rho h s rh t k r Er Dn), mu_cell_real by lra.
    fold mu. rewrite L1, L3. apply psd_curve_real. intros d Hd. apply (inc_pos 0 D); [lra|exact Inc|exact Hd]. }
  assert (Ez : all_zero_level e (weighted fl (fun i t k => value s (nn false h) i t k)) t k = all_zero_level e (weighted fl na) t k).
  { unfold value. rewrite En. reflexivity. }
  cbv zeta in *. rewrite Ez, Ea, Eb, Pc. 
  rewrite (population_real D A _ LA), (population_real D B _ LB). auto.
Qed.

(** A cell without condensate. *)
Lemma mopt_empty h s al be i t k : gamma_class e h -> mo h s = Ok (al, be) -> (t < ntm e)%nat ->
  xltb (XF 0) (value s (qn false h) i t k) = false ->
  fillna 0 (al i t k) = XF 0 /\ fillna 0 (be i t k) = XF 0.
Proof.
  intros G H Ht Vq.
  destruct (mopt_cell h s al be i t k G H Ht) as (qa & na & rh & fl & diam & beta & alpha & Eq & En & Ef & Er & Etab & Ea & Eb).
  unfold value in Vq. rewrite Eq in Vq. cbv zeta in *. rewrite Ea, Eb.
  assert (El : lam3 Gam e kw qa na rh h i t k = XNaN) by (unfold lam3; apply lambda_nan; exact Vq).
  rewrite El. destruct (all_zero_level e _ t k); [auto|]. rewrite !population_missing. auto.
Qed.
End C.

Lemma table_ok e ins mie h lut tab tab' : micro_lut (rad_family e) = Ok lut -> micro_table ins lut mie h = Ok tab ->
  class_table e ins mie h tab' -> tab = tab'.
Proof.
  intros Hl Ht (st & Hs & ->). unfold micro_table, dict in Ht.
  destruct (memb h ice_classes).
  - destruct mie; cbn [andb negb].
    + rewrite Hs in Ht. injection Ht as <-. reflexivity.
    + assert (E : fst lut = ice_table_name (rad_family e) /\ snd lut = String.eqb (rad_family e) "ModelE").
      { unfold micro_lut, ice_table_name in *.
        destruct (String.eqb_spec (rad_family e) "CESM") as [E|]; [injection Hl as <-; rewrite ?E; auto|].
        destruct (String.eqb_spec (rad_family e) "ModelE") as [E|]; [injection Hl as <-; rewrite ?E; auto|].
        destruct (String.eqb_spec (rad_family e) "P3") as [E|]; [injection Hl as <-; rewrite ?E; auto|discriminate]. }
      destruct E as [E1 E2]. rewrite E1, Hs in Ht. cbn [bind] in Ht. rewrite E2 in Ht. injection Ht as <-. reflexivity.
  - rewrite Hs in Ht. injection Ht as <-. reflexivity.
Qed.
